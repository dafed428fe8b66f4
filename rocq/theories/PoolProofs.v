(** * PoolProofs: invariants of the pool transition system. *)

From Coq Require Import Permutation.
From Verif Require Import Base PoolModel.

Section P.
Context {A B : Type}.
Variable f : A -> res B.
Variable items : list A.
Variable cs : nat.
Hypothesis Hcs : 0 < cs.

Definition nchunks : nat := length items / cs + (if length items mod cs =? 0 then 0 else 1).
Definition chunk (i : nat) : list A := firstn cs (skipn (i * cs) items).

Lemma nchunks_spec i : i < nchunks <-> i * cs < length items.
Proof.
  unfold nchunks. pose proof (Nat.div_mod (length items) cs ltac:(lia)) as E.
  pose proof (Nat.mod_upper_bound (length items) cs ltac:(lia)) as M.
  destruct (Nat.eqb_spec (length items mod cs) 0) as [Z|Z].
  - rewrite Z in E. rewrite Nat.add_0_r in *. split; intro H; [nia|].
    destruct (Nat.lt_ge_cases i (length items / cs)) as [|G]; [assumption|nia].
  - split; intro H; [nia|]. destruct (Nat.lt_ge_cases i (length items / cs + 1)) as [|G]; [assumption|nia].
Qed.

Definition task_ok (t : task) : Prop := fst t < nchunks /\ snd t = chunk (fst t).
Definition msg_ok (m : msg) : Prop := fst m < nchunks /\ snd m = mapM f (chunk (fst m)).
Definition busy (w : list (option (@task A))) : list (@task A) :=
  flat_map (fun o => match o with Some t => [t] | None => [] end) w.

Definition value_inv (coll : list nat) (v : res (list (option B))) : Prop :=
  match v with
  | Ok l => length l = length items /\ (forall i, In i coll -> exists ys, mapM f (chunk i) = Ok ys) /\
            forall k x, nth_error items k = Some x -> In (k / cs) coll ->
              exists y, f x = Ok y /\ nth_error l k = Some (Some y)
  | Err e => exists i, In i coll /\ mapM f (chunk i) = Err e
  end.

Definition Inv (nproc : nat) (lost : list nat) (s : @pstate A B) : Prop :=
  exists coll,
    Permutation (map fst (p_queue s) ++ map fst (busy (p_work s)) ++ map fst (p_out s) ++ coll ++ lost) (seq 0 nchunks) /\
    Forall task_ok (p_queue s) /\ Forall task_ok (busy (p_work s)) /\ Forall msg_ok (p_out s) /\
    p_left s + length coll = nchunks /\ length (p_work s) = nproc /\ value_inv coll (p_value s).

Lemma busy_app w1 w2 : busy (w1 ++ w2) = busy w1 ++ busy w2.
Proof. apply flat_map_app. Qed.
Lemma busy_none n : busy (repeat None n) = [].
Proof. induction n; cbn; auto. Qed.

Lemma chunk_nth i k x : i * cs <= k < (i + 1) * cs -> nth_error items k = Some x -> nth_error (chunk i) (k - i * cs) = Some x.
Proof.
  intros H E. unfold chunk. 
  assert (G : forall n (l : list A) j, j < n -> nth_error (firstn n l) j = nth_error l j).
  { induction n as [|n IH]; intros [|a l] [|j] Hj; cbn; try lia; try reflexivity. apply IH; lia. }
  assert (S : forall n (l : list A) j, nth_error (skipn n l) j = nth_error l (n + j)).
  { induction n as [|n IH]; intros l j; [reflexivity|]. destruct l as [|a l]; cbn [skipn Nat.add nth_error]; [destruct j; reflexivity|apply IH]. }
  rewrite G, S by nia. replace (i * cs + (k - i * cs)) with k by nia. exact E.
Qed.
Lemma chunk_length i : i < nchunks -> length (chunk i) = Nat.min cs (length items - i * cs).
Proof. intro H. unfold chunk. rewrite firstn_length, skipn_length. reflexivity. Qed.

Lemma nth_error_firstn_lt {X} n (l : list X) j : j < n -> nth_error (firstn n l) j = nth_error l j.
Proof. revert l j. induction n as [|n IH]; intros [|a l] [|j] Hj; cbn; try lia; try reflexivity. apply IH; lia. Qed.
Lemma nth_error_skipn_add {X} n (l : list X) j : nth_error (skipn n l) j = nth_error l (n + j).
Proof. revert l j. induction n as [|n IH]; intros l j; [reflexivity|]. destruct l as [|a l]; cbn [skipn Nat.add nth_error]; [destruct j; reflexivity|apply IH]. Qed.

Lemma set_result_inv coll v m : msg_ok m -> value_inv coll v -> value_inv (fst m :: coll) (set_result cs v m).
Proof.
  intros [Hi Hm] Hv. destruct m as [i r]. cbn [fst snd] in *. unfold set_result. cbn [fst snd].
  destruct r as [ys|e], v as [l|e']; cbn [value_inv] in *.
  - destruct Hv as (HL & HO & HV). symmetry in Hm. pose proof (proj1 (mapM_Ok _ _ _) Hm) as F2.
    assert (Ly : length ys = length (chunk i)) by (symmetry; clear -F2; induction F2; cbn; congruence).
    rewrite (chunk_length i Hi) in Ly. pose proof (proj1 (nchunks_spec i) Hi) as Hlt.
    assert (La : length (firstn (i * cs) l) = i * cs) by (rewrite firstn_length; lia).
    split; [|split].
    + unfold slice_assign. rewrite !app_length, map_length, La, skipn_length. nia.
    + intros j [<-|Hj]; [eauto|apply HO; exact Hj].
    + intros k x Hk Hin. assert (Hkn : k < length items) by (apply nth_error_Some; congruence).
      destruct (Nat.eq_dec (k / cs) i) as [E|E].
      * assert (Hr : i * cs <= k < (i + 1) * cs).
        { pose proof (Nat.div_mod k cs ltac:(lia)). pose proof (Nat.mod_upper_bound k cs ltac:(lia)). rewrite E in *. nia. }
        pose proof (chunk_nth i k x Hr Hk) as Hc.
        assert (exists y, nth_error ys (k - i * cs) = Some y /\ f x = Ok y) as (y & Hy & Hf).
        { clear -F2 Hc. revert Hc. generalize (k - i * cs). induction F2 as [|a y c ys H F IH]; intros [|j] Hc; cbn in *; try discriminate.
          - inversion Hc; subst. eauto.
          - apply IH; exact Hc. }
        exists y. split; [exact Hf|]. unfold slice_assign.
        rewrite nth_error_app2 by (rewrite La; lia). rewrite La.
        rewrite nth_error_app1 by (rewrite map_length; apply nth_error_Some; congruence).
        apply (map_nth_error Some). exact Hy.
      * destruct Hin as [Hin|Hin]; [congruence|].
        destruct (HV k x Hk Hin) as (y & Hy & Hn). exists y. split; [exact Hy|]. rewrite <- Hn. unfold slice_assign.
        destruct (Nat.lt_ge_cases k (i * cs)) as [G|G].
        -- rewrite nth_error_app1 by (rewrite La; exact G). apply nth_error_firstn_lt; exact G.
        -- assert (Hge : (i + 1) * cs <= k).
           { pose proof (Nat.div_mod k cs ltac:(lia)). pose proof (Nat.mod_upper_bound k cs ltac:(lia)).
             destruct (Nat.lt_ge_cases k ((i + 1) * cs)); [|assumption]. exfalso. apply E. symmetry. apply (Nat.div_unique k cs i (k - i * cs)); nia. }
           rewrite nth_error_app2 by lia. rewrite La, nth_error_app2 by (rewrite map_length, Ly; nia).
           rewrite map_length, Ly, nth_error_skipn_add. f_equal. nia.
  - destruct Hv as (j & Hj & E). exists j. split; [right; exact Hj|exact E].
  - exists i. split; [left; reflexivity|symmetry; exact Hm].
  - destruct Hv as (j & Hj & E). exists j. split; [right; exact Hj|exact E].
Qed.

Lemma Forall_app_l {X} (P : X -> Prop) l1 l2 : Forall P (l1 ++ l2) <-> Forall P l1 /\ Forall P l2.
Proof. apply Forall_app. Qed.

Ltac perm := repeat rewrite map_app; cbn [map fst];
  match goal with H : Permutation _ ?r |- Permutation _ ?r => etransitivity; [|exact H] end.

Lemma step_inv nproc lost s s' : Inv nproc lost s -> pstep f cs s s' -> Inv nproc lost s'.
Proof.
  intros (coll & HP & Hq & Hb & Ho & Hl & Hw & Hv) St. destruct St as [t q w1 w2 o n v g|i c q w1 w2 o n v g|m q w o n v g];
    cbn [p_queue p_work p_out p_left p_value p_log] in *.
  - exists coll. cbn [p_queue p_work p_out p_left p_value]. rewrite busy_app in *. cbn [busy flat_map app] in *. fold (busy w2) in *.
    inversion Hq as [|? ? Ht Hq']; subst. apply Forall_app_l in Hb as [Hb1 Hb2].
    split; [|repeat split; auto].
    + rewrite !map_app in *. cbn [map] in *. etransitivity; [|exact HP]. rewrite <- !app_assoc. cbn [app].
      rewrite !(app_assoc (map fst q)). symmetry. apply Permutation_middle.
    + apply Forall_app_l. split; [exact Hb1|constructor; assumption].
    + rewrite !app_length. reflexivity.
  - exists coll. cbn [p_queue p_work p_out p_left p_value]. rewrite busy_app in *. cbn [busy flat_map app] in *. fold (busy w2) in *.
    apply Forall_app_l in Hb as [Hb1 Hb2]. inversion Hb2 as [|? ? Ht Hb2']; subst.
    split; [|repeat split; auto].
    + rewrite !map_app in *. cbn [map fst] in *. etransitivity; [|exact HP]. apply Permutation_app_head.
      rewrite <- !app_assoc. apply Permutation_app_head. cbn [app].
      rewrite !(app_assoc (map fst (busy w2))). symmetry. apply Permutation_middle.
    + apply Forall_app_l. split; assumption.
    + apply Forall_app_l. split; [exact Ho|]. constructor; [|constructor]. destruct Ht as [H1 H2]. split; [exact H1|]. cbn [fst snd] in *. rewrite H2. reflexivity.
    + rewrite !app_length. reflexivity.
  - exists (fst m :: coll). cbn [p_queue p_work p_out p_left p_value].
    inversion Ho as [|? ? Hm Ho']; subst.
    split; [|repeat split; auto].
    + cbn [map] in HP. etransitivity; [|exact HP]. apply Permutation_app_head. apply Permutation_app_head.
      cbn [app]. symmetry. apply Permutation_middle.
    + cbn [length]. lia.
    + apply set_result_inv; assumption.
Qed.

Lemma crash_inv nproc lost s s' : Inv nproc lost s -> pcrash s s' -> exists lost', Inv nproc lost' s'.
Proof.
  intros (coll & HP & Hq & Hb & Ho & Hl & Hw & Hv) St. destruct St as [[i c] q w1 w2 o n v g];
    cbn [p_queue p_work p_out p_left p_value p_log] in *.
  exists (i :: lost), coll. cbn [p_queue p_work p_out p_left p_value]. rewrite busy_app in *. cbn [busy flat_map app] in *. fold (busy w2) in *.
  apply Forall_app_l in Hb as [Hb1 Hb2]. inversion Hb2 as [|? ? Ht Hb2']; subst.
  split; [|repeat split; auto].
  - rewrite !map_app in *. cbn [map fst] in *. etransitivity; [|exact HP]. apply Permutation_app_head.
    rewrite <- !app_assoc. apply Permutation_app_head. cbn [app].
    rewrite !(app_assoc (map fst (busy w2))), !(app_assoc (map fst (busy w2) ++ map fst o)). symmetry. apply Permutation_middle.
  - apply Forall_app_l. split; assumption.
  - rewrite !app_length. reflexivity.
Qed.

(** ** The initial state *)
Lemma get_tasks_spec fuel (l : list A) : length l <= fuel ->
  concat (get_tasks fuel cs l) = l /\
  (forall i, i < length (get_tasks fuel cs l) -> nth_error (get_tasks fuel cs l) i = Some (firstn cs (skipn (i * cs) l))) /\
  length (get_tasks fuel cs l) = length l / cs + (if length l mod cs =? 0 then 0 else 1).
Proof.
  revert l. induction fuel as [|fuel IH]; intros l H; cbn [get_tasks].
  - destruct l; [|cbn in H; lia]. cbn [length]. rewrite Nat.div_0_l, Nat.mod_0_l by lia. repeat split. intros i Hi; cbn in Hi; lia.
  - destruct l as [|a l0] eqn:El.
    + rewrite firstn_nil. cbn [length]. rewrite Nat.div_0_l, Nat.mod_0_l by lia. repeat split. intros i Hi; cbn in Hi; lia.
    + rewrite <- El in *. assert (Hne : 0 < length l) by (rewrite El; cbn; lia).
      destruct (firstn cs l) as [|b c] eqn:Ef.
      { assert (length (firstn cs l) = 0) by (rewrite Ef; reflexivity). rewrite firstn_length in *. lia. }
      rewrite <- Ef. destruct (IH (skipn cs l)) as (E1 & E2 & E3); [rewrite skipn_length; lia|].
      split; [|split].
      * cbn [concat]. rewrite E1. apply firstn_skipn.
      * intros [|i] Hi; [reflexivity|]. cbn [nth_error length] in *. rewrite E2 by lia.
        f_equal. f_equal. clear. cbn [Nat.mul].
        assert (S : forall n m (x : list A), skipn n (skipn m x) = skipn (m + n) x).
        { intros n m. induction m as [|m IHm]; intros x; [reflexivity|]. destruct x; cbn [skipn Nat.add]; [apply skipn_nil|apply IHm]. }
        rewrite S. reflexivity.
      * cbn [length]. rewrite E3, skipn_length.
        destruct (Nat.lt_ge_cases (length l) cs) as [G|G].
        -- replace (length l - cs) with 0 by lia. rewrite Nat.div_0_l, Nat.mod_0_l by lia. rewrite Nat.div_small, Nat.mod_small by lia.
           destruct (Nat.eqb_spec (length l) 0); cbn; lia.
        -- replace (length l) with ((length l - cs) + 1 * cs) at 3 4 by lia. rewrite Nat.div_add, Nat.mod_add by lia. lia.
Qed.

Lemma map_fst_combine {X Y} (l1 : list X) (l2 : list Y) : length l1 = length l2 -> map fst (combine l1 l2) = l1.
Proof. clear Hcs. revert l2. induction l1 as [|x l1 IH]; intros [|y l2] H; cbn in *; try lia; [reflexivity|]. f_equal. apply IH; lia. Qed.
Lemma map_snd_combine {X Y} (l1 : list X) (l2 : list Y) : length l1 = length l2 -> map snd (combine l1 l2) = l2.
Proof. clear Hcs. revert l2. induction l1 as [|x l1 IH]; intros [|y l2] H; cbn in *; try lia; [reflexivity|]. f_equal. apply IH; lia. Qed.

Lemma init_inv nproc : 
  Inv nproc [] (mkP (combine (seq 0 (length (get_tasks (length items) cs items))) (get_tasks (length items) cs items)) (repeat None nproc) []
      nchunks (Ok (repeat None (length items))) []).
Proof.
  destruct (get_tasks_spec (length items) items (Nat.le_refl _)) as (E1 & E2 & E3). fold nchunks in E3.
  set (T := get_tasks (length items) cs items) in *.
  exists []. cbn [p_queue p_work p_out p_left p_value].
  rewrite busy_none. cbn [map app]. rewrite app_nil_r, map_fst_combine by apply seq_length. rewrite E3.
  split; [reflexivity|]. split; [|repeat split; auto using repeat_length; try contradiction].
  - apply Forall_forall. intros [i c] Hin. split.
    + apply in_combine_l in Hin. apply in_seq in Hin. cbn [fst]. lia.
    + cbn [fst snd]. apply In_nth_error in Hin as [j Hj].
      assert (Hjl : j < length T).
      { assert (j < length (combine (seq 0 nchunks) T)) by (apply nth_error_Some; intro X; pose proof (eq_trans (eq_sym Hj) X); discriminate). rewrite combine_length in *. lia. }
      assert (G : forall (l1 : list nat) (l2 : list (list A)) j, nth_error (combine l1 l2) j = Some (i, c) -> nth_error l1 j = Some i /\ nth_error l2 j = Some c).
      { induction l1 as [|x l1 IH]; intros [|y l2] [|j'] H; cbn in *; try discriminate; [inversion H; auto|apply IH; exact H]. }
      destruct (G _ _ _ Hj) as [G1 G2]. rewrite E2 in G2 by exact Hjl. inversion G2.
      rewrite (nth_error_nth' _ 0) in G1 by (rewrite seq_length; lia). rewrite seq_nth in G1 by lia. inversion G1. reflexivity.
Qed.

(** ** Final states *)
Lemma final_all nproc lost s : Inv nproc lost s -> p_left s = 0 ->
  exists coll, Permutation coll (seq 0 nchunks) /\ p_queue s = [] /\ busy (p_work s) = [] /\ p_out s = [] /\ value_inv coll (p_value s).
Proof.
  intros (coll & HP & Hq & Hb & Ho & Hl & Hw & Hv) Hz.
  pose proof (Permutation_length HP) as L. rewrite !app_length, !map_length, seq_length in L.
  assert (length (p_queue s) = 0 /\ length (busy (p_work s)) = 0 /\ length (p_out s) = 0 /\ length lost = 0) as (L1 & L2 & L3 & L4) by (unfold task, msg in *; lia).
  apply length_zero_iff_nil in L1, L2, L3, L4. rewrite L1, L2, L3, L4 in *. cbn [map app] in HP. rewrite app_nil_r in HP.
  exists coll. repeat split; auto.
Qed.

Lemma Forall2_map_ext {X Y} (g : X -> res Y) l (ys : list Y) : Forall2 (fun x y => g x = Ok y) l ys -> forall zs : list (option Y),
  length zs = length l -> (forall k x, nth_error l k = Some x -> exists y, g x = Ok y /\ nth_error zs k = Some (Some y)) -> zs = map Some ys.
Proof.
  induction 1 as [|x y l ys H F IH]; intros zs HL Hz.
  - destruct zs; [reflexivity|discriminate].
  - destruct zs as [|z zs]; [discriminate|]. cbn [map]. f_equal.
    + destruct (Hz 0 x eq_refl) as (y' & E1 & E2). cbn in E2. congruence.
    + apply IH; [cbn in HL; lia|]. intros k x' Hk. apply (Hz (S k) x' Hk).
Qed.

Lemma final_value nproc lost s : Inv nproc lost s -> p_left s = 0 ->
  (forall ys, mapM f items = Ok ys -> p_value s = Ok (map Some ys)) /\
  (forall e, mapM f items = Err e -> exists x e', In x items /\ f x = Err e' /\ p_value s = Err e').
Proof.
  intros HI Hz. destruct (final_all _ _ _ HI Hz) as (coll & HP & _ & _ & _ & Hv).
  assert (Hin : forall k x, nth_error items k = Some x -> In (k / cs) coll).
  { intros k x Hk. apply (Permutation_in _ (Permutation_sym HP)). apply in_seq.
    assert (k < length items) by (apply nth_error_Some; congruence).
    assert (k / cs < nchunks); [|lia]. apply nchunks_spec. pose proof (Nat.div_mod k cs ltac:(lia)). nia. }
  assert (ME : forall l e, mapM f l = Err e -> exists x, In x l /\ f x = Err e).
  { induction l as [|x l IH]; intros e H; cbn [mapM] in H; [discriminate|].
    destruct (f x) as [y|e'] eqn:E; cbn [bind] in H.
    - destruct (mapM f l) as [ys|e'']; cbn [bind] in H; [discriminate|]. inversion H; subst.
      destruct (IH e eq_refl) as (x' & H1 & H2). exists x'. split; [right; exact H1|exact H2].
    - inversion H; subst. exists x. split; [left; reflexivity|exact E]. }
  assert (CI : forall i x, In x (chunk i) -> In x items).
  { intros i x H. unfold chunk in H. assert (H2 : In x (skipn (i * cs) items)) by (rewrite <- (firstn_skipn cs); apply in_or_app; left; exact H).
    rewrite <- (firstn_skipn (i * cs) items). apply in_or_app; right; exact H2. }
  split.
  - intros ys Hy. apply mapM_Ok in Hy. destruct (p_value s) as [l|e]; cbn [value_inv] in Hv.
    + destruct Hv as (HL & _ & HV). f_equal. apply (Forall2_map_ext f items ys Hy l HL).
      intros k x Hk. apply (HV k x Hk). apply (Hin k x Hk).
    + destruct Hv as (i & _ & E). destruct (ME _ _ E) as (x & Hx & Ex). apply CI in Hx. exfalso.
      clear -Hy Hx Ex. induction Hy as [|a y l ys H F IH]; [contradiction|]. destruct Hx as [->|Hx]; [congruence|apply IH; exact Hx].
  - intros e He. destruct (p_value s) as [l|e']; cbn [value_inv] in Hv.
    + destruct Hv as (_ & _ & HV). destruct (ME _ _ He) as (x & Hx & Ex). exfalso.
      apply In_nth_error in Hx as [k Hk]. destruct (HV k x Hk (Hin k x Hk)) as (y & Hy & _). congruence.
    + destruct Hv as (i & _ & E). destruct (ME _ _ E) as (x & Hx & Ex). exists x, e'. repeat split; auto. eapply CI; exact Hx.
Qed.

(** ** Progress and termination *)
Lemma busy_in w t : In t (busy w) -> exists w1 w2, w = w1 ++ Some t :: w2.
Proof.
  induction w as [|o w IH]; cbn; [contradiction|]. destruct o as [t'|]; cbn.
  - intros [->|H]; [exists [], w; reflexivity|]. destruct (IH H) as (w1 & w2 & ->). exists (Some t' :: w1), w2. reflexivity.
  - intro H. destruct (IH H) as (w1 & w2 & ->). exists (None :: w1), w2. reflexivity.
Qed.
Lemma busy_nil w : busy w = [] -> w <> [] -> exists w2, w = None :: w2.
Proof. destruct w as [|[t|] w]; cbn; intros H1 H2; [congruence|discriminate|eauto]. Qed.

Lemma progress nproc s : 0 < nproc -> Inv nproc [] s -> p_left s <> 0 -> exists s', pstep f cs s s'.
Proof.
  intros Hn (coll & HP & Hq & Hb & Ho & Hl & Hw & Hv) Hz. destruct s as [q w o n v g]; cbn [p_queue p_work p_out p_left p_value] in *.
  destruct o as [|m o].
  - destruct (busy w) as [|[i c] b] eqn:Eb.
    + destruct q as [|t q].
      * cbn [map app] in HP. rewrite app_nil_r in HP. apply Permutation_length in HP. rewrite seq_length in HP. lia.
      * destruct (busy_nil w Eb) as (w2 & ->); [destruct w; [cbn in Hw; lia|discriminate]|].
        eexists. apply (p_take f cs t q [] w2).
    + destruct (busy_in w (i, c)) as (w1 & w2 & ->); [rewrite Eb; left; reflexivity|]. eexists. apply p_finish.
  - destruct n as [|n]; [lia|]. eexists. apply p_collect.
Qed.

Definition weight (s : @pstate A B) : nat := 3 * length (p_queue s) + 2 * length (busy (p_work s)) + length (p_out s).
Lemma weight_dec s s' : pstep f cs s s' -> weight s' < weight s.
Proof.
  clear Hcs. intro St. destruct St; unfold weight; cbn [p_queue p_work p_out length]; rewrite ?busy_app; cbn [busy flat_map app];
    rewrite ?app_length; cbn [length]; lia.
Qed.
Lemma step_wf s : Acc (fun s' s => pstep f cs s s') s.
Proof.
  clear Hcs. remember (weight s) as k eqn:E. revert s E. induction k as [k IH] using lt_wf_ind. intros s E. constructor. intros s' St.
  apply (IH (weight s')); [subst k; apply weight_dec; exact St|reflexivity].
Qed.

(** ** What is evaluated *)
Lemma evaluated_ok c ys : mapM f c = Ok ys -> evaluated f c = c.
Proof.
  revert ys. induction c as [|x c IH]; intros ys H; cbn [evaluated mapM] in *; [reflexivity|].
  apply bind_Ok_inv in H as (y & Hy & H). apply bind_Ok_inv in H as (ys' & Hys & _). rewrite Hy, (IH ys' Hys). reflexivity.
Qed.
Definition LogInv (s : @pstate A B) : Prop :=
  Permutation (p_log s ++ concat (map snd (p_queue s)) ++ concat (map snd (busy (p_work s)))) items.
Lemma mapM_sub ys c : mapM f items = Ok ys -> incl c items -> exists zs, mapM f c = Ok zs.
Proof.
  intros H. apply mapM_Ok in H. induction c as [|x c IH]; intro Hc; [exists []; reflexivity|].
  destruct IH as [zs Hz]; [intros a Ha; apply Hc; right; exact Ha|].
  assert (Hx : In x items) by (apply Hc; left; reflexivity).
  assert (exists y, f x = Ok y) as [y Hy].
  { clear -H Hx. induction H as [|a y l ys E F IH]; [contradiction|]. destruct Hx as [->|Hx]; [eauto|apply IH; exact Hx]. }
  exists (y :: zs). cbn [mapM]. rewrite Hy; cbn [bind]. rewrite Hz. reflexivity.
Qed.
Lemma log_step ys s s' : mapM f items = Ok ys -> LogInv s -> pstep f cs s s' -> LogInv s'.
Proof.
  intros Hy H St. unfold LogInv in *. destruct St as [t q w1 w2 o n v g|i c q w1 w2 o n v g|m q w o n v g];
    cbn [p_queue p_work p_out p_left p_value p_log] in *; rewrite ?busy_app in *; cbn [busy flat_map app] in *.
  - rewrite !map_app, !concat_app in *. cbn [map concat] in *. etransitivity; [|exact H]. apply Permutation_app_head.
    rewrite <- app_assoc. rewrite (Permutation_app_comm (snd t) (_ ++ _)), <- !app_assoc. apply Permutation_app_head. apply Permutation_app_head.
    apply Permutation_app_comm.
  - assert (Hc : evaluated f c = c).
    { destruct (mapM_sub ys c Hy) as [zs Hz]; [|apply (evaluated_ok c zs Hz)].
      intros a Ha. apply (Permutation_in _ H). apply in_or_app; right. apply in_or_app; right.
      rewrite map_app, concat_app. apply in_or_app; right. cbn. apply in_or_app; left; exact Ha. }
    rewrite Hc. rewrite !map_app, !concat_app in *. cbn [map concat snd] in *. etransitivity; [|exact H].
    rewrite <- app_assoc. apply Permutation_app_head. rewrite (Permutation_app_comm c). rewrite <- !app_assoc.
    apply Permutation_app_head. apply Permutation_app_head. apply Permutation_app_comm.
  - exact H.
Qed.
End P.
