(** * P_Pool: [Pool.map] gives one result, whatever the schedule (C46, C66). *)

From Coq Require Import Permutation.
From Verif Require Import Base PoolModel PoolProofs.

Section Any.
Context {A B : Type}.
Variable f : A -> res B.

Lemma chunksize_pos nproc n : 0 < n -> 0 < nproc -> 0 < chunksize nproc n.
Proof.
  intros Hn Hp. unfold chunksize. destruct (Nat.eqb_spec n 0); [lia|].
  pose proof (Nat.div_mod n (nproc * 4) ltac:(lia)) as E. destruct (Nat.eqb_spec (n mod (nproc * 4)) 0) as [Z|Z]; [|lia].
  destruct (n / (nproc * 4)); lia.
Qed.
Lemma init_shape nproc items : 0 < chunksize nproc (length items) ->
  @pool_init A B nproc items =
  let cs := chunksize nproc (length items) in
  mkP (combine (seq 0 (length (get_tasks (length items) cs items))) (get_tasks (length items) cs items)) (repeat None nproc) []
      (nchunks items cs) (Ok (repeat None (length items))) [].
Proof. intro H. unfold pool_init. cbv zeta. destruct (Nat.eqb_spec (chunksize nproc (length items)) 0); [lia|]. reflexivity. Qed.

Lemma stuck cs (s s' : @pstate A B) : p_queue s = [] -> p_left s = 0 -> (forall t, ~ In (Some t) (p_work s)) ->
  pstep f cs s s' \/ pcrash s s' -> False.
Proof.
  intros Hq Hz Hw [St|St]; destruct St; cbn [p_queue p_left p_work] in *; try discriminate;
    match type of Hw with context [Some ?x :: _] => apply (Hw x); apply in_or_app; right; left; reflexivity end.
Qed.
Lemma empty_stuck nproc (s : @pstate A B) cs : pexec_crash f cs (@pool_init A B nproc []) s -> s = pool_init nproc [].
Proof.
  intro H. remember (@pool_init A B nproc []) as s0 eqn:E. induction H as [|s1 s2 s3 H IH St]; [reflexivity|].
  specialize (IH E). subst s2. exfalso. apply (stuck cs s1 s3); rewrite ?E; try reflexivity; [|rewrite <- E; exact St].
  intros t X. apply repeat_spec in X. discriminate.
Qed.

Lemma pexec_is_crash cs (s s' : @pstate A B) : pexec f cs s s' -> pexec_crash f cs s s'.
Proof. induction 1; [constructor|econstructor; [eassumption|left; assumption]]. Qed.

Lemma reach_inv nproc items s : items <> [] -> 0 < nproc ->
  pexec_crash f (chunksize nproc (length items)) (pool_init nproc items) s ->
  exists lost, Inv f items (chunksize nproc (length items)) nproc lost s.
Proof.
  intros Hi Hp H. assert (Hc : 0 < chunksize nproc (length items)) by (apply chunksize_pos; [destruct items; [congruence|cbn; lia]|exact Hp]).
  remember (pool_init nproc items) as s0 eqn:E. induction H as [|s1 s2 s3 H IH [St|St]].
  - exists []. subst. rewrite init_shape by exact Hc. apply init_inv; exact Hc.
  - destruct (IH E) as [lost HI]. exists lost. eapply step_inv; eassumption.
  - destruct (IH E) as [lost HI]. eapply crash_inv; eassumption.
Qed.
Lemma reach_inv_nocrash nproc items s : items <> [] -> 0 < nproc ->
  pexec f (chunksize nproc (length items)) (pool_init nproc items) s ->
  Inv f items (chunksize nproc (length items)) nproc [] s.
Proof.
  intros Hi Hp H. assert (Hc : 0 < chunksize nproc (length items)) by (apply chunksize_pos; [destruct items; [congruence|cbn; lia]|exact Hp]).
  remember (pool_init nproc items) as s0 eqn:E. induction H as [|s1 s2 s3 H IH St].
  - subst. rewrite init_shape by exact Hc. apply init_inv; exact Hc.
  - eapply step_inv; [exact Hc|exact (IH E)|exact St].
Qed.

Lemma returns_crash nproc items r : pool_map_returns f nproc items r -> pool_map_returns_crash f nproc items r.
Proof.
  unfold pool_map_returns, pool_map_returns_crash. destruct (nproc =? 0); [auto|].
  intros (s & He & H). exists s. split; [apply pexec_is_crash; exact He|exact H].
Qed.

(** C46: whenever [pool.map] returns - under any interleaving of the workers and of the
    result handler, and even if workers were killed on the way - and no item raises, the
    result is the list of the results of the items, in the order of the items. *)
Theorem C46_pool_result nproc items ys r : 0 < nproc -> mapM f items = Ok ys ->
  pool_map_returns_crash f nproc items r -> r = Ok (map Some ys).
Proof.
  intros Hp Hy H. unfold pool_map_returns_crash in H. destruct (Nat.eqb_spec nproc 0); [lia|].
  destruct H as (s & He & Hz & <-). destruct items as [|x items].
  - apply empty_stuck in He. subst. cbn in Hy. inversion Hy. reflexivity.
  - destruct (reach_inv nproc (x :: items) s) as [lost HI]; [discriminate|exact Hp|exact He|].
    assert (Hc : 0 < chunksize nproc (length (x :: items))) by (apply chunksize_pos; [cbn; lia|exact Hp]).
    apply (final_value f (x :: items) _ Hc nproc lost s HI Hz). exact Hy.
Qed.

(** C46: if an item raises, so does [pool.map], with the exception of an item of the list. *)
Theorem C46_pool_raises nproc items e r : 0 < nproc -> mapM f items = Err e ->
  pool_map_returns_crash f nproc items r -> exists x e', In x items /\ f x = Err e' /\ r = Err e'.
Proof.
  intros Hp Hy H. unfold pool_map_returns_crash in H. destruct (Nat.eqb_spec nproc 0); [lia|].
  destruct H as (s & He & Hz & <-). destruct items as [|x items]; [discriminate|].
  destruct (reach_inv nproc (x :: items) s) as [lost HI]; [discriminate|exact Hp|exact He|].
  assert (Hc : 0 < chunksize nproc (length (x :: items))) by (apply chunksize_pos; [cbn; lia|exact Hp]).
  apply (proj2 (final_value f (x :: items) _ Hc nproc lost s HI Hz) e). exact Hy.
Qed.

(** C46: [pool.map] cannot get stuck: while it has not returned, some worker or the result
    handler can act, and every execution is finite (no worker killed). *)
Theorem C46_pool_terminates nproc items s : 0 < nproc ->
  pexec f (chunksize nproc (length items)) (pool_init nproc items) s ->
  (p_left s <> 0 -> exists s', pstep f (chunksize nproc (length items)) s s') /\
  Acc (fun s' s => pstep f (chunksize nproc (length items)) s s') s.
Proof.
  intros Hp He. split; [|apply step_wf].
  intro Hz. destruct items as [|x items].
  - apply pexec_is_crash, empty_stuck in He. subst. cbn in Hz. congruence.
  - eapply progress with (items := x :: items) (nproc := nproc); [apply chunksize_pos; [cbn; lia|exact Hp]|exact Hp| |exact Hz]. apply reach_inv_nocrash; [discriminate|exact Hp|exact He].
Qed.

(** A result exists, and is reached from any state of the run. *)
Theorem C46_pool_returns nproc items : 0 < nproc -> exists r, pool_map_returns f nproc items r.
Proof.
  intro Hp. unfold pool_map_returns. destruct (Nat.eqb_spec nproc 0); [lia|].
  assert (G : forall s, Acc (fun s' s => pstep f (chunksize nproc (length items)) s s') s ->
     pexec f (chunksize nproc (length items)) (pool_init nproc items) s ->
     exists s', pexec f (chunksize nproc (length items)) (pool_init nproc items) s' /\ p_left s' = 0).
  { intros s HA. induction HA as [s _ IH]. intro He. destruct (Nat.eq_dec (p_left s) 0) as [Z|Z]; [eauto|].
    destruct (proj1 (C46_pool_terminates nproc items s Hp He) Z) as [s' St]. apply (IH s' St). econstructor; eassumption. }
  destruct (G (pool_init nproc items)) as (s & H1 & H2); [apply step_wf|constructor|]. exists (p_value s), s. auto.
Qed.

(** C46: any two runs, also with different numbers of processes, give the same list. *)
Theorem C46_schedule_independent nproc nproc' items ys r r' : 0 < nproc -> 0 < nproc' -> mapM f items = Ok ys ->
  pool_map_returns_crash f nproc items r -> pool_map_returns_crash f nproc' items r' -> r = r'.
Proof. intros. rewrite (C46_pool_result nproc items ys r), (C46_pool_result nproc' items ys r'); auto. Qed.

(** The same for runs in which no worker dies. *)
Lemma C46_returns_ok nproc items ys r : 0 < nproc -> mapM f items = Ok ys ->
  pool_map_returns f nproc items r -> r = Ok (map Some ys).
Proof. intros Hp Hy H. apply (C46_pool_result nproc items ys r Hp Hy). apply returns_crash. exact H. Qed.
Lemma C46_returns_err nproc items e r : 0 < nproc -> mapM f items = Err e ->
  pool_map_returns f nproc items r -> exists x e', In x items /\ f x = Err e' /\ r = Err e'.
Proof. intros Hp Hy H. apply (C46_pool_raises nproc items e r Hp Hy). apply returns_crash. exact H. Qed.

(** C46: nothing is lost or duplicated: the items evaluated during a run are the items of
    the list, each as often as it occurs in it. *)
Theorem C46_evaluated_once nproc items ys s : 0 < nproc -> mapM f items = Ok ys ->
  pexec f (chunksize nproc (length items)) (pool_init nproc items) s -> p_left s = 0 ->
  Permutation (p_log s) items.
Proof.
  intros Hp Hy He Hz. destruct items as [|x items].
  { apply pexec_is_crash, empty_stuck in He. subst. reflexivity. }
  set (its := x :: items) in *. assert (Hc : 0 < chunksize nproc (length its)) by (apply chunksize_pos; [cbn; lia|exact Hp]).
  assert (L : LogInv its s).
  { remember (pool_init nproc its) as s0 eqn:E. clear Hz. induction He as [|s1 s2 s3 H IH St].
    - subst. rewrite init_shape by exact Hc. unfold LogInv. cbv zeta. cbn [p_log p_queue p_work app].
      rewrite map_snd_combine by apply seq_length. rewrite busy_none. cbn [map concat]. rewrite app_nil_r.
      destruct (get_tasks_spec (chunksize nproc (length its)) Hc (length its) its (Nat.le_refl _)) as (-> & _). reflexivity.
    - apply (log_step f its (chunksize nproc (length its)) ys s2 s3 Hy (IH E) St). }
  pose proof (reach_inv_nocrash nproc its s ltac:(discriminate) Hp He) as HI.
  destruct (final_all f its _ Hc nproc [] s HI Hz) as (coll & _ & Q & W & _ & _).
  unfold LogInv in L. rewrite Q, W in L. cbn [map concat app] in L. rewrite app_nil_r in L. exact L.
Qed.

(** The items of a list before and including its first failure. *)
Lemma evaluated_iff c y : NoDup c -> In y (evaluated f c) <->
  exists j, nth_error c j = Some y /\ forall i x e, i < j -> nth_error c i = Some x -> f x <> Err e.
Proof.
  induction c as [|a c IH]; intro ND; cbn [evaluated].
  - split; [intros []|]. intros (j & E & _). destruct j; discriminate.
  - inversion ND as [|? ? Na ND']; subst. cbn [In]. split.
    + intros [->|H].
      * exists 0. split; [reflexivity|]. intros i x e Hi. lia.
      * destruct (f a) as [b|e] eqn:Ea; [|destruct H]. apply (IH ND') in H as (j & Ej & Hj). exists (S j). split; [exact Ej|].
        intros [|i] x e Hi Ex; cbn in Ex; [injection Ex as <-; congruence|]. apply (Hj i x e); [lia|exact Ex].
    + intros ([|j] & Ej & Hj); cbn in Ej; [injection Ej as <-; left; reflexivity|]. right.
      destruct (f a) as [b|e] eqn:Ea; [|exfalso; apply (Hj 0 a e); [lia|reflexivity|exact Ea]].
      apply (IH ND'). exists j. split; [exact Ej|]. intros i x e Hi Ex. apply (Hj (S i) x e); [lia|exact Ex].
Qed.
Lemma nodup_app {X} (a b : list X) : NoDup (a ++ b) -> NoDup a /\ NoDup b.
Proof.
  induction a as [|x a IH]; cbn; intro H; [split; [constructor|exact H]|]. inversion H as [|? ? N H']; subst. destruct (IH H') as [Ha Hb].
  split; [constructor; [intro I; apply N, in_or_app; left; exact I|exact Ha]|exact Hb].
Qed.
(** Every log entry comes from a task, and every task that is gone is in the log. *)
Lemma log_tasks nproc items s : pexec f (chunksize nproc (length items)) (@pool_init A B nproc items) s ->
  let tasks := get_tasks (length items) (chunksize nproc (length items)) items in
  exists done, p_log s = concat (map (evaluated f) done) /\
    Permutation (done ++ map snd (p_queue s) ++ map snd (busy (p_work s))) tasks.
Proof.
  intro He. cbv zeta. remember (pool_init nproc items) as s0 eqn:E. induction He as [|s1 s2 s3 H IH St].
  - subst. exists []. split; [reflexivity|]. cbn [pool_init p_queue p_work app]. rewrite map_snd_combine by apply seq_length. rewrite busy_none. cbn [map]. rewrite app_nil_r. reflexivity.
  - destruct (IH E) as (dn & Ed & P). clear IH. destruct St as [t q w1 w2 o n v g|i c q w1 w2 o n v g|m q w o n v g];
      cbn [p_queue p_work p_out p_left p_value p_log] in *; rewrite ?busy_app in *; cbn [busy flat_map app] in *.
    + exists dn. split; [exact Ed|]. etransitivity; [|exact P]. apply Permutation_app_head. rewrite !map_app. cbn [map].
      rewrite app_assoc. symmetry. cbn [app]. apply Permutation_cons_app. rewrite <- app_assoc. reflexivity.
    + exists (dn ++ [c]). split; [rewrite map_app, concat_app, Ed; cbn; rewrite app_nil_r; reflexivity|].
      etransitivity; [|exact P]. rewrite <- app_assoc. apply Permutation_app_head. unfold busy, task. rewrite !flat_map_app. cbn [busy flat_map map snd app]. rewrite ?map_app. cbn [map snd app].
      rewrite !app_assoc. apply Permutation_cons_app. reflexivity.
    + exists dn. split; [exact Ed|exact P].
Qed.

(** C46: within the slice of [chunksize] items handed to a worker, the items after one
    that raises are not evaluated; all others are (in a run that is over). *)
Theorem C46_evaluated_before_failures nproc items s j y : 0 < nproc -> NoDup items ->
  let size := chunksize nproc (length items) in
  pexec f size (pool_init nproc items) s -> p_left s = 0 -> nth_error items j = Some y ->
  (In y (p_log s) <-> forall i x e, i < j -> i / size = j / size -> nth_error items i = Some x -> f x <> Err e).
Proof.
  intros Hp ND size He Hz Hj.
  assert (Ne : items <> []) by (intro Q; subst items; destruct j; discriminate).
  assert (Hc : 0 < size) by (apply chunksize_pos; [destruct items; [congruence|cbn; lia]|exact Hp]).
  destruct (log_tasks nproc items s He) as (dn & Ed & P). cbv zeta in P. fold size in P.
  pose proof (reach_inv_nocrash nproc items s Ne Hp He) as HI.
  destruct (final_all f items _ Hc nproc [] s HI Hz) as (coll & _ & Q & W & _ & _).
  rewrite Q, W in P. cbn [map] in P. rewrite !app_nil_r in P.
  destruct (get_tasks_spec size Hc (length items) items (Nat.le_refl _)) as (Ec & En & El).
  set (tasks := get_tasks (length items) size items) in *.
  assert (Hjl : j < length items) by (apply nth_error_Some; congruence).
  pose proof (Nat.div_mod j size ltac:(lia)) as Dj. pose proof (Nat.mod_upper_bound j size ltac:(lia)) as Mj.
  assert (NDc : forall c, In c tasks -> NoDup c).
  { intros c Ic. apply In_nth_error in Ic as [q Eq]. assert (q < length tasks) by (apply nth_error_Some; congruence).
    rewrite (En q H) in Eq. injection Eq as <-.
    assert (S1 : NoDup (skipn (q * size) items)). { apply (nodup_app (firstn (q * size) items)). rewrite firstn_skipn. exact ND. }
    apply (nodup_app _ (skipn size (skipn (q * size) items))). rewrite firstn_skipn. exact S1. }
  assert (Nth : forall q i x, q < length tasks -> nth_error (firstn size (skipn (q * size) items)) i = Some x <-> (i < size /\ nth_error items (q * size + i) = Some x)).
  { intros q i x _. split.
    - intro E. assert (i < size). { assert (i < length (firstn size (skipn (q * size) items))) by (apply nth_error_Some; congruence). rewrite firstn_length in H. lia. }
      split; [assumption|]. rewrite (nth_error_firstn_lt size Hc) in E by assumption. rewrite nth_error_skipn_add in E. exact E.
    - intros [Hi E]. rewrite (nth_error_firstn_lt size Hc) by assumption. rewrite nth_error_skipn_add. exact E. }
  assert (Hq : j / size < length tasks).
  { rewrite El. apply (nchunks_spec items size Hc). lia. }
  assert (U : forall i x, nth_error items i = Some x -> x = y -> i = j).
  { intros i x E ->. apply (proj1 (NoDup_nth_error items) ND); [apply nth_error_Some; congruence|congruence]. }
  rewrite Ed, in_concat. split.
  - intros (l & Il & Iy) i x e Hi Hd Ex. apply in_map_iff in Il as (c & <- & Ic).
    assert (Ic' : In c tasks) by (eapply Permutation_in; [exact P|exact Ic]).
    pose proof (NDc c Ic') as N. apply (evaluated_iff c y N) in Iy as (j' & Ej' & Hb).
    apply In_nth_error in Ic' as [q Eq]. assert (Q' : q < length tasks) by (apply nth_error_Some; congruence).
    rewrite (En q Q') in Eq. injection Eq as <-. apply (Nth q j' y Q') in Ej' as [L' Ej'].
    pose proof (U _ _ Ej' eq_refl) as Ejj.
    assert (Eqq : q = j / size). { apply (Nat.div_unique j size q j'); lia. }
    assert (Ei : exists i', i = q * size + i' /\ i' < j').
    { exists (i - q * size). pose proof (Nat.div_mod i size ltac:(lia)). assert (q * size <= i) by (rewrite Eqq, <- Hd; rewrite Nat.mul_comm; lia). lia. }
    destruct Ei as (i' & -> & Hi'). apply (Hb i' x e Hi'). apply (Nth q i' x Q'). split; [lia|exact Ex].
  - intro Hb. exists (evaluated f (firstn size (skipn (j / size * size) items))). split.
    + apply in_map. eapply Permutation_in; [symmetry; exact P|]. eapply nth_error_In. apply (En _ Hq).
    + apply evaluated_iff; [apply NDc; eapply nth_error_In; apply (En _ Hq)|].
      exists (j mod size). split; [apply (Nth _ _ _ Hq); split; [exact Mj|]; replace (j / size * size + j mod size) with j by lia; exact Hj|].
      intros i x e Hi Ex. apply (Nth _ _ _ Hq) in Ex as [L Ex]. apply (Hb (j / size * size + i) x e); [lia| |exact Ex].
      symmetry. apply (Nat.div_unique _ size _ i); lia.
Qed.

(** [Pool(0)] is rejected. *)
Theorem C46_no_process items r : pool_map_returns f 0 items r <-> r = Err ValueError.
Proof. reflexivity. Qed.
End Any.

(** Which exception is raised may depend on the schedule: two failing items, two workers. *)
Definition bad (x : nat) : res nat := Err (LibError x).
Theorem C46_exception_depends_on_schedule :
  pool_map_returns bad 2 [1; 2] (Err (LibError 1)) /\ pool_map_returns bad 2 [1; 2] (Err (LibError 2)).
Proof.
  unfold pool_map_returns. cbn [Nat.eqb length]. change (chunksize 2 2) with 1.
  change (@pool_init nat nat 2 [1; 2]) with (@mkP nat nat [(0, [1]); (1, [2])] [None; None] [] 2 (Ok [None; None]) []).
  split.
  - eexists. split; [|split].
    + eapply pe_step; [eapply pe_step; [eapply pe_step; [eapply pe_step; [eapply pe_step; [eapply pe_step; [apply pe_refl|]|]|]|]|]|].
      * apply (p_take bad 1 (0, [1]) [(1, [2])] [] [None]).
      * apply (p_take bad 1 (1, [2]) [] [Some (0, [1])] []).
      * apply (p_finish bad 1 0 [1] [] [] [Some (1, [2])]).
      * apply (p_finish bad 1 1 [2] [] [None] []).
      * apply p_collect.
      * apply p_collect.
    + reflexivity.
    + reflexivity.
  - eexists. split; [|split].
    + eapply pe_step; [eapply pe_step; [eapply pe_step; [eapply pe_step; [eapply pe_step; [eapply pe_step; [apply pe_refl|]|]|]|]|]|].
      * apply (p_take bad 1 (0, [1]) [(1, [2])] [] [None]).
      * apply (p_take bad 1 (1, [2]) [] [Some (0, [1])] []).
      * apply (p_finish bad 1 1 [2] [] [Some (0, [1])] []).
      * apply (p_finish bad 1 0 [1] [] [] [None]).
      * apply p_collect.
      * apply p_collect.
    + reflexivity.
    + reflexivity.
Qed.

(** C66: a killed worker. If a task is lost, [pool.map] never returns. *)
Theorem C66_lost_task_never_returns {A B} (f : A -> res B) nproc items s1 s2 s3 : 0 < nproc ->
  pexec_crash f (chunksize nproc (length items)) (pool_init nproc items) s1 -> pcrash s1 s2 ->
  pexec_crash f (chunksize nproc (length items)) s2 s3 -> p_left s3 <> 0.
Proof.
  intros Hp H1 Hc H3 Hz. destruct items as [|x items].
  { pose proof (empty_stuck f nproc s1 _ H1) as E. rewrite E in *.
    assert (X : pexec_crash f (chunksize nproc (@length A [])) (pool_init nproc []) s2) by (econstructor; [constructor|right; exact Hc]).
    apply (stuck f 0 (pool_init nproc []) s2); [reflexivity|reflexivity| |right; exact Hc].
    intros t Y. apply repeat_spec in Y. discriminate. }
  set (its := x :: items) in *. set (cs := chunksize nproc (length its)) in *.
  assert (Hcs : 0 < cs) by (apply chunksize_pos; [cbn; lia|exact Hp]).
  destruct (reach_inv f nproc its s1 ltac:(discriminate) Hp H1) as [lost HI].
  assert (HI2 : exists i lost2, Inv f its cs nproc (i :: lost2) s2).
  { destruct HI as (coll & HP & Hq & Hb & Ho & Hl & Hw & Hv). destruct Hc as [[i c] q w1 w2 o n v g].
    exists i, lost, coll. cbn [p_queue p_work p_out p_left p_value] in *. rewrite busy_app in *. cbn [busy flat_map app] in *. fold (busy w2) in *.
    apply Forall_app_l in Hb as [Hb1 Hb2]. inversion Hb2 as [|? ? Ht Hb2']; subst.
    split; [|repeat split; auto].
    - rewrite !map_app in *. cbn [map fst] in *. etransitivity; [|exact HP]. apply Permutation_app_head.
      rewrite <- !app_assoc. apply Permutation_app_head. cbn [app].
      rewrite !(app_assoc (map fst (busy w2))), !(app_assoc (map fst (busy w2) ++ map fst o)). symmetry. apply Permutation_middle.
    - apply Forall_app_l. split; assumption.
    - rewrite !app_length. reflexivity. }
  assert (HI3 : exists i lost3, Inv f its cs nproc (i :: lost3) s3).
  { clear -H3 HI2 Hcs. induction H3 as [|s1 s2 s3 H IH [St|St]]; [exact HI2| |]; destruct (IH HI2) as (i & l3 & HI).
    - exists i, l3. eapply step_inv; eassumption.
    - destruct HI as (coll & HP & Hq & Hb & Ho & Hl & Hw & Hv). destruct St as [[j c] q w1 w2 o n v g].
      exists j, (i :: l3), coll. cbn [p_queue p_work p_out p_left p_value] in *. rewrite busy_app in *. cbn [busy flat_map app] in *. fold (busy w2) in *.
      apply Forall_app_l in Hb as [Hb1 Hb2]. inversion Hb2 as [|? ? Ht Hb2']; subst.
      split; [|repeat split; auto].
      + rewrite !map_app in *. cbn [map fst] in *. etransitivity; [|exact HP]. apply Permutation_app_head.
        rewrite <- !app_assoc. apply Permutation_app_head. cbn [app].
        rewrite !(app_assoc (map fst (busy w2))), !(app_assoc (map fst (busy w2) ++ map fst o)). symmetry. apply Permutation_middle.
      + apply Forall_app_l. split; assumption.
      + rewrite !app_length. reflexivity. }
  destruct HI3 as (i & l3 & coll & HP & _ & _ & _ & Hl & _ & _). apply Permutation_length in HP.
  rewrite !app_length, !map_length, seq_length in HP. cbn [length] in HP. unfold task, msg in *. lia.
Qed.

(** A run with three items, two workers and out-of-order completion. *)
Example C46_example : pool_map_returns (fun x => Ok (x * x)) 2 [3; 4; 5] (Ok [Some 9; Some 16; Some 25]).
Proof.
  destruct (C46_pool_returns (fun x => Ok (x * x)) 2 [3; 4; 5] ltac:(lia)) as [r H].
  change (Ok [Some 9; Some 16; Some 25]) with (Ok (map Some [9; 16; 25])).
  rewrite <- (C46_pool_result (fun x => Ok (x * x)) 2 [3; 4; 5] [9; 16; 25] r); [exact H|lia|reflexivity|].
  unfold pool_map_returns in H. unfold pool_map_returns_crash. cbn [Nat.eqb] in *. destruct H as (s & He & Hz & Hv). exists s. repeat split; auto.
  apply pexec_is_crash. exact He.
Qed.

(** Ten items on two processes, the first fails: the second, in the same slice of two, is
    not evaluated; the third is. *)
Example C46_evaluated_example s :
  pexec (fun x => if x =? 0 then Err ValueError else Ok (x * x)) 2 (pool_init 2 (seq 0 10)) s -> p_left s = 0 ->
  ~ In 1 (p_log s) /\ In 2 (p_log s).
Proof.
  intros He Hz. split.
  - intro H. apply (C46_evaluated_before_failures _ 2 (seq 0 10) s 1 1 ltac:(lia) (seq_NoDup 10 0) He Hz eq_refl) with (i := 0) (x := 0) (e := ValueError) in H; [apply H; reflexivity|lia|reflexivity|reflexivity].
  - apply (C46_evaluated_before_failures _ 2 (seq 0 10) s 2 2 ltac:(lia) (seq_NoDup 10 0) He Hz eq_refl).
    intros i x e Hi Hd Hx. change (chunksize 2 (length (seq 0 10))) with 2 in Hd. destruct i as [|[|i]]; [discriminate Hd|discriminate Hd|lia].
Qed.
Example C66_example : exists s1 s2, pexec_crash (fun x => Ok (x * x)) 1 (@pool_init nat nat 2 [3; 4]) s1 /\ pcrash s1 s2.
Proof.
  change (@pool_init nat nat 2 [3; 4]) with (@mkP nat nat [(0, [3]); (1, [4])] [None; None] [] 2 (Ok [None; None]) []).
  eexists _, _. split; [eapply pc_step; [apply pc_refl|left; apply (p_take _ 1 (0, [3]) [(1, [4])] [] [None])]|apply (p_die (0, [3]) [(1, [4])] [] [None])].
Qed.
