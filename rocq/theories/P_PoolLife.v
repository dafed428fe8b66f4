(** * P_PoolLife: what the parallel functions leave behind (C139). *)

From Verif Require Import Base PoolModel PoolProofs P_Pool PoolLifeModel.

(** ** Specification *)
(** Worker processes alive, and pools still open. *)
Fixpoint alive (s : pools) : nat := match s with [] => 0 | p :: s' => pl_workers p + alive s' end.
Definition open_pools (s : pools) : nat := length (filter (fun p => match pl_life p with Run => true | _ => false end) s).
(** C139 in full: whatever happens in the tasks, a call leaves no worker process and no open pool behind. *)
Definition tidy {X} (c : pcall X) : Prop := forall s, alive (fst (pcall_run c s)) = alive s /\ open_pools (fst (pcall_run c s)) = open_pools s.

(** ** Lemmas *)
Lemma nth_new (s : pools) p : nth_error (s ++ [p]) (length s) = Some p.
Proof. rewrite nth_error_app2, Nat.sub_diag by lia. reflexivity. Qed.
Lemma upd_new (s : pools) p q : upd (s ++ [p]) (length s) q = s ++ [q].
Proof. induction s as [|x s IH]; [reflexivity|]. cbn. rewrite IH. reflexivity. Qed.
Lemma alive_app s t : alive (s ++ t) = alive s + alive t.
Proof. induction s as [|x s IH]; cbn; [reflexivity|]. rewrite IH. lia. Qed.
Lemma open_app s t : open_pools (s ++ t) = open_pools s + open_pools t.
Proof. unfold open_pools. rewrite filter_app, app_length. reflexivity. Qed.

(** ** C139 *)
(** What each call does: the outcome is the outcome of the tasks (the statements after them never raise). *)
Theorem C139_with_pool {X} nproc (r : res X) s :
  with_map nproc r s = if nproc =? 0 then (s, Err ValueError) else (s ++ [mkPool Terminate 0], r).
Proof.
  unfold with_map, sbind, with_pool, new_pool. destruct (nproc =? 0); [reflexivity|].
  unfold map_in. rewrite nth_new. unfold terminate_pool. rewrite upd_new. destruct r as [x|e]; [|reflexivity]. cbn [fst snd].
  unfold close_pool. rewrite nth_new. unfold join_pool. rewrite nth_new. rewrite upd_new. reflexivity.
Qed.
Theorem C139_eqtimes {X} nproc (r : res X) s :
  eqtimes_pool nproc r s =
    if nproc =? 0 then (s, Err ValueError)
    else match r with Ok _ => (s ++ [mkPool Close 0], r) | Err _ => (s ++ [mkPool Run nproc], r) end.
Proof.
  unfold eqtimes_pool, sbind, new_pool. destruct (nproc =? 0); [reflexivity|].
  unfold map_in. rewrite nth_new. destruct r as [x|e]; [|reflexivity].
  unfold close_pool. rewrite nth_new, upd_new. unfold join_pool. rewrite nth_new, upd_new. reflexivity.
Qed.

(** run_waveformfitting and ExtractEq_Multiproc always leave nothing behind. *)
Theorem C139_with_tidy {X} nproc (r : res X) : tidy (WithPool nproc r).
Proof.
  intro s. cbn [pcall_run]. rewrite C139_with_pool. destruct (nproc =? 0); [split; reflexivity|].
  cbn [fst]. rewrite alive_app, open_app. cbn. split; apply Nat.add_0_r.
Qed.
(** Get_Eqtimes_multiproc does so exactly when its tasks do not raise (or it makes no pool at all). *)
Theorem C139_eqtimes_iff {X} nproc (r : res X) : tidy (EqTimes nproc r) <-> nproc = 0 \/ exists x, r = Ok x.
Proof.
  unfold tidy. cbn [pcall_run]. split.
  - intro H. destruct (H []) as [H1 _]. rewrite C139_eqtimes in H1. destruct (Nat.eqb_spec nproc 0) as [Z|Z]; [auto|].
    destruct r as [x|e]; [eauto|]. cbn in H1. lia.
  - intros H s. rewrite C139_eqtimes. destruct (Nat.eqb_spec nproc 0) as [Z|Z]; [split; reflexivity|].
    destruct H as [H|[x ->]]; [contradiction|]. cbn [fst]. rewrite alive_app, open_app. cbn. split; apply Nat.add_0_r.
Qed.
(** In terms of the events: with any schedule of the workers, the pool is left open exactly when Eq_times raises for
    some event of the catalogue. *)
Theorem C139_events {A B} (f : A -> res B) nproc items r : 0 < nproc -> pool_map_returns f nproc items r ->
  (tidy (EqTimes nproc r) <-> forall x, In x items -> exists y, f x = Ok y).
Proof.
  intros Hp H. rewrite C139_eqtimes_iff. destruct (mapM f items) as [ys|e] eqn:M.
  - rewrite (C46_returns_ok f nproc items ys r Hp M H). split; [|intros _; right; eauto].
    intros _ x Hx. apply mapM_Ok in M. clear -M Hx. induction M as [|a b l l' Hab M IH]; [destruct Hx|].
    destruct Hx as [->|Hx]; [eauto|auto].
  - destruct (C46_returns_err f nproc items e r Hp M H) as (x & e' & Ix & Ex & ->). split.
    + intros [Z|[y Y]]; [lia|discriminate].
    + intro G. destruct (G x Ix) as [y Hy]. congruence.
Qed.

(** C139 is false of Get_Eqtimes_multiproc: one event for which Eq_times raises leaves four workers. *)
Theorem C139_refuted : ~ (forall nproc (r : res nat), tidy (EqTimes nproc r)).
Proof. intro H. destruct (proj1 (C139_eqtimes_iff 4 (Err IndexError)) (H 4 (Err IndexError))) as [E|[x E]]; discriminate. Qed.

(** A whole session: the workers left are those of the failed calls of Get_Eqtimes_multiproc. *)
Definition left_by {X} (c : pcall X) : nat := match c with EqTimes n (Err _) => n | _ => 0 end.
Theorem C139_session {X} (cs : list (pcall X)) s : alive (psession cs s) = alive s + list_sum (map left_by cs).
Proof.
  revert s. induction cs as [|c cs IH]; intro s; [cbn; lia|]. cbn [psession map list_sum fold_right]. rewrite IH. 
  assert (E : alive (fst (pcall_run c s)) = alive s + left_by c); [|rewrite E; unfold list_sum; lia].
  destruct c as [n r|n r]; cbn [pcall_run left_by].
  - rewrite C139_eqtimes. destruct (Nat.eqb_spec n 0) as [->|Z]; [destruct r; cbn; lia|].
    destruct r; cbn [fst]; rewrite alive_app; cbn; lia.
  - rewrite C139_with_pool. destruct (n =? 0); cbn [fst]; [lia|]. rewrite alive_app. cbn. lia.
Qed.

(** Two catalogues: [bad] of P_Pool raises for every event; four calls. *)
Theorem C139_example : alive (psession [EqTimes 2 (Err (LibError 1)); WithPool 8 (Err KeyError); EqTimes 3 (Ok 5); EqTimes 4 (Err (LibError 2))] []) = 6 /\
  pool_map_returns bad 2 [1; 2] (Err (LibError 1)) /\ ~ tidy (EqTimes 2 (@Err (list (option nat)) (LibError 1))).
Proof.
  split; [rewrite C139_session; reflexivity|]. destruct C46_exception_depends_on_schedule as [H _]. split; [exact H|].
  intro T. apply (C139_events bad 2 [1; 2] _ ltac:(lia) H) with (x := 1) in T as [y Hy]; [discriminate|left; reflexivity].
Qed.
