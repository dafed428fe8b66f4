(** * P_Wave2: serial against parallel (C45), goodness of fit (C47), plotting (C48, C49). *)

From Coq Require Import Reals Lra Permutation.
From Verif Require Import Base Num NumPy Spec HkModel PlotModel PoolModel PoolProofs P_Pool WaveModel WaveProofs P_Wave.

(** The criteria of a table row, without GoF. *)
Definition strip {N : Num} (r : @srow N) : @sol N := mkSol (sr_corr r) (sr_rmse r) (sr_pg r) (sr_H r) (sr_K r).

Lemma strip_rank {N : Num} (a b c : N) A W : rank a b c A = Ok W -> map strip W = A.
Proof.
  unfold rank. intro H. apply bind_Ok_inv in H as (mc & _ & H). apply bind_Ok_inv in H as (mr & _ & H). apply bind_Ok_inv in H as (mp & _ & H).
  inversion H. rewrite map_map. rewrite <- (map_id A) at 2. apply map_ext. intros []. reflexivity.
Qed.
Lemma wf_inv {N : Num} stackR synO pgO rf po HS VpS VpC rp Ks Hs ga a b c (wf : @wfit N) :
  WaveformFitting stackR synO pgO rf po HS VpS VpC rp Ks Hs ga a b c = Ok wf ->
  exists P T, WaveformPara stackR rf po HS VpS VpC rp Ks Hs ga = Ok [P] /\ wp_KMoho P = Ks /\ wp_HMoho P = Hs /\
    mapM (fun kh => eval_node synO pgO P (snd kh) (fst kh)) (list_prod Ks Hs) = Ok T /\
    rank a b c T = Ok (wf_sols wf) /\ best_rows (wf_sols wf) = Ok (wf_printed wf) /\
    wf_stream wf = rf /\ wf_HMoho wf = Hs /\ wf_KMoho wf = Ks.
Proof.
  rewrite WaveformFitting_eq. intro H. apply bind_Ok_inv in H as (Ps & HP & H). apply bind_Ok_inv in H as (P & H0 & H).
  apply bind_Ok_inv in H as (T & HT & H). apply bind_Ok_inv in H as (W & HW & H). apply bind_Ok_inv in H as (bm & Hb & H). inversion H; subst wf. cbn [wf_sols wf_printed wf_stream wf_HMoho wf_KMoho].
  destruct (WaveformPara_inv _ _ _ _ _ _ _ _ _ _ _ HP) as (tr0 & rf' & st0 & SR & t0 & ts & s & e & E1 & E2 & E3 & E4 & E5). rewrite E5 in H0, HP. cbn in H0. inversion H0; subst P.
  eexists. exists T. repeat split; try eassumption; reflexivity.
Qed.

(** ** C45 *)
(** C45: both versions evaluate the same multiset of solutions (any arithmetic, any
    number of processes, any schedule); the serial one orders it by Vp/Vs and then depth,
    the parallel one by depth and then Vp/Vs. *)
Theorem C45_same_solutions {N : Num} stackR synO pgO rf po HS VpS VpC rp Ks Hs ga a b c (wf : @wfit N) Ps nproc r :
  WaveformFitting stackR synO pgO rf po HS VpS VpC rp Ks Hs ga a b c = Ok wf ->
  WaveformPara stackR rf po HS VpS VpC rp Ks Hs ga = Ok Ps -> 0 < nproc ->
  run_waveformfitting synO pgO nproc Hs Ps (Ok r) ->
  exists res, r = map Some res /\ Permutation (concat res) (map strip (wf_sols wf)) /\
    map (fun s => (so_K s, so_H s)) (map strip (wf_sols wf)) = list_prod Ks Hs /\
    map (fun s => (so_H s, so_K s)) (concat res) = list_prod Hs Ks.
Proof.
  intros HW HP Hn Hr. apply wf_inv in HW as (P & T & HP' & EK & EH & HT & HR & Hb & _). rewrite HP' in HP. inversion HP; subst Ps.
  apply run_spec in Hr as (res & Er & ->); [|exact Hn]. rewrite EK in Er.
  exists res. split; [reflexivity|]. rewrite (strip_rank _ _ _ _ _ HR).
  pose proof (multi_table _ _ _ _ Er) as Em. split; [|split].
  - assert (HT' : mapM (fun hk => eval_node synO pgO P (fst hk) (snd hk)) (map (fun p => (snd p, fst p)) (list_prod Ks Hs)) = Ok T).
    { rewrite mapM_map. exact HT. }
    destruct (mapM_perm _ _ _ _ (prod_swap Ks Hs) HT') as (T' & E' & PT). assert (T' = concat res) by congruence. subst T'. symmetry. exact PT.
  - apply mapM_Ok in HT. clear -HT. induction HT as [|[k h] s l T Hsv F IH]; cbn [map]; [reflexivity|]. apply eval_node_HK in Hsv as [E1 E2]. cbn [fst snd] in *. rewrite E1, E2, IH. reflexivity.
  - apply mapM_Ok in Em. clear -Em. induction Em as [|[h k] s l T Hsv F IH]; cbn [map]; [reflexivity|]. apply eval_node_HK in Hsv as [E1 E2]. cbn [fst snd] in *. rewrite E1, E2, IH. reflexivity.
Qed.

Lemma first_largest_value {A} (f : A -> R) t t' x x' : Permutation t t' -> first_largest f t x -> first_largest f t' x' -> f x = f x'.
Proof.
  intros P (i & Hi & Ha & _) (j & Hj & Hb & _). apply nth_error_In in Hi, Hj.
  pose proof (Ha x' (Permutation_in _ (Permutation_sym P) Hj)). pose proof (Hb x (Permutation_in _ P Hi)). lra.
Qed.
Lemma first_largest_unique {A} (f : A -> R) t t' x x' : Permutation t t' -> first_largest f t x -> first_largest f t' x' ->
  (forall y, In y t -> f y = f x -> y = x) -> x = x'.
Proof.
  intros P H1 H2 U. pose proof (first_largest_value f t t' x x' P H1 H2) as E. symmetry. apply U; [|symmetry; exact E].
  destruct H2 as (j & Hj & _). apply (Permutation_in _ (Permutation_sym P)). eapply nth_error_In. exact Hj.
Qed.

(** C45: the parallel version reports for every criterion the same best value as the
    serial one, and the same model whenever only one grid point attains it; it succeeds
    whenever the serial one does. *)
Theorem C45_best_models stackR synO pgO draw rf po HS VpS VpC rp Ks Hs ga (a b c : R) (wf : @wfit RN) sp fmt :
  WaveformFitting stackR synO pgO rf po HS VpS VpC rp Ks Hs ga a b c = Ok wf ->
  exists Ps res bm, WaveformPara stackR rf po HS VpS VpC rp Ks Hs ga = Ok Ps /\
    (forall nproc, 0 < nproc -> forall r, run_waveformfitting synO pgO nproc Hs Ps r <-> r = Ok (map Some res)) /\
    pb_printed (plotbestmodel stackR synO draw res Ps (Some a) (Some b) (Some c) sp fmt) = Some bm /\
    let same (f : srow -> R) (x y : srow) := f x = f y /\ ((forall r, In r (wf_sols wf) -> f r = f x -> r = x) -> x = y) in
    same sr_corr (b_corr (wf_printed wf)) (b_corr bm) /\ same sr_rmse (b_rmse (wf_printed wf)) (b_rmse bm) /\
    same sr_pg (b_pg (wf_printed wf)) (b_pg bm) /\ same sr_gof (b_gof (wf_printed wf)) (b_gof bm).
Proof.
  intro HW. apply wf_inv in HW as (P & T & HP' & EK & EH & HT & HR & Hb & _).
  assert (HT' : mapM (fun hk => eval_node synO pgO P (fst hk) (snd hk)) (map (fun p => (snd p, fst p)) (list_prod Ks Hs)) = Ok T).
  { rewrite mapM_map. exact HT. }
  destruct (mapM_perm _ _ _ _ (prod_swap Ks Hs) HT') as (T' & E' & PT).
  destruct (multi_table_conv _ _ _ _ E') as (res & Er & Ec).
  exists [P], res. apply rank_spec in HR as (mc & mr & mp & M1 & M2 & M3 & EW).
  assert (HR' : @rank RN a b c T' = Ok (map (with_gof a b c mc mr mp) T')).
  { apply rank_spec. exists mc, mr, mp. repeat split; try (eapply is_max_perm; eassumption); eapply is_max_perm; eassumption. }
  assert (Hne : map (with_gof a b c mc mr mp) T' <> []).
  { intro E. apply map_eq_nil in E. rewrite E in PT. apply Permutation_sym, Permutation_nil in PT. subst T. destruct M1 as ((x & [] & _) & _). }
  destruct (best_rows_ok _ Hne) as [bm Hbm]. exists bm. split; [exact HP'|]. split; [|split].
  - intros nproc Hn r. apply run_conv; [exact Hn|]. rewrite EK. exact Er.
  - unfold plotbestmodel. cbn [getitem nth_error bind dflt]. rewrite EH, EK, Ec.
    assert (L : length T' = length Hs * length Ks) by (rewrite <- (mapM_length _ _ _ E'), prod_length; reflexivity).
    rewrite <- L, fill_exact. cbn [bind]. rewrite HR'. cbn [bind]. rewrite Hbm. cbn [bind].
    destruct (figures _ _) as [fs r]. reflexivity.
  - cbv zeta. apply best_rows_spec in Hb as (B1 & B2 & B3 & B4), Hbm as (D1 & D2 & D3 & D4). rewrite EW in *.
    assert (PW : Permutation (map (with_gof a b c mc mr mp) T) (map (with_gof a b c mc mr mp) T')) by (apply Permutation_map; exact PT).
    repeat split.
    + eapply first_largest_value; eassumption.
    + eapply first_largest_unique; eassumption.
    + pose proof (first_largest_value _ _ _ _ _ PW B2 D2) as Q. change (F RN) with R in *. lra.
    + intro U. eapply (first_largest_unique (fun x => (- sr_rmse x)%R)); [exact PW|exact B2|exact D2|]. intros y Hy Ey. apply U; [exact Hy|]. change (F RN) with R in *. lra.
    + eapply first_largest_value; eassumption.
    + eapply first_largest_unique; eassumption.
    + eapply first_largest_value; eassumption.
    + eapply first_largest_unique; eassumption.
Qed.

(** ** C47 *)
Section GoF.
Context (stackR : stream RN -> res (list (trace RN)))
        (synO : list RN -> list RN -> list RN -> list RN -> RN -> RN -> nat -> RN -> RN -> res (list RN))
        (pgO : list RN -> list RN -> RN -> res RN).
Variables (rf : stream RN) (po HS VpS VpC rp : R) (Ks Hs : list RN) (ga a b c : R) (wf : @wfit RN).
Hypothesis Run : WaveformFitting stackR synO pgO rf po HS VpS VpC rp Ks Hs ga a b c = Ok wf.

Lemma sols_shape : exists T mc mr mp, is_max so_corr T mc /\ is_max so_rmse T mr /\ is_max so_pg T mp /\
  wf_sols wf = map (with_gof a b c mc mr mp) T /\ Forall (fun s => (0 <= so_rmse s)%R) T.
Proof.
  destruct (wf_inv _ _ _ _ _ _ _ _ _ _ _ _ _ _ _ _ Run) as (P & T & _ & _ & _ & HT & HR & _).
  apply rank_spec in HR as (mc & mr & mp & M1 & M2 & M3 & EW). exists T, mc, mr, mp. repeat split; try apply M1; try apply M2; try apply M3; try exact EW.
  apply mapM_Ok in HT. clear -HT. induction HT as [|kh s l T Hsv F IH]; constructor; [|exact IH].
  unfold eval_node in Hsv. apply bind_Ok_inv in Hsv as (rf & _ & H). apply bind_Ok_inv in H as (c & _ & H).
  apply bind_Ok_inv in H as (r & Hr & H). apply bind_Ok_inv in H as (p & _ & H). inversion H. cbn [so_rmse].
  unfold rmse in Hr. destruct (_ && _); [|discriminate]. inversion Hr. apply sqrt_pos.
Qed.

(** Some row has a positive correlation (RMSE, PG): otherwise the normalisation divides
    by a number that is not positive. *)
Definition normalisable : Prop :=
  (exists r, In r (wf_sols wf) /\ 0 < sr_corr r)%R /\ (exists r, In r (wf_sols wf) /\ 0 < sr_rmse r)%R /\ (exists r, In r (wf_sols wf) /\ 0 < sr_pg r)%R.
Lemma maxima_pos T mc mr mp : normalisable -> is_max so_corr T mc -> is_max so_rmse T mr -> is_max so_pg T mp ->
  wf_sols wf = map (with_gof a b c mc mr mp) T -> (0 < mc /\ 0 < mr /\ 0 < mp)%R.
Proof.
  intros ((r1 & I1 & P1) & (r2 & I2 & P2) & (r3 & I3 & P3)) [_ M1] [_ M2] [_ M3] E. rewrite E in I1, I2, I3.
  apply in_map_iff in I1 as (s1 & <- & I1). apply in_map_iff in I2 as (s2 & <- & I2). apply in_map_iff in I3 as (s3 & <- & I3).
  specialize (M1 s1 I1). specialize (M2 s2 I2). specialize (M3 s3 I3). cbn [with_gof sr_corr sr_rmse sr_pg] in *. change (F RN) with R in *. lra.
Qed.

(** C47: with non-negative weights, a row at least as good in all three criteria has at
    least as high a GoF. *)
Theorem C47_monotone r r' : normalisable -> (0 <= a)%R -> (0 <= b)%R -> (0 <= c)%R ->
  In r (wf_sols wf) -> In r' (wf_sols wf) ->
  (sr_corr r' <= sr_corr r)%R -> (sr_rmse r <= sr_rmse r')%R -> (sr_pg r' <= sr_pg r)%R -> (sr_gof r' <= sr_gof r)%R.
Proof.
  intros Hn Ha Hb Hc Hr Hr' H1 H2 H3. destruct sols_shape as (T & mc & mr & mp & M1 & M2 & M3 & E & _).
  destruct (maxima_pos T mc mr mp Hn M1 M2 M3 E) as (Q1 & Q2 & Q3). rewrite E in Hr, Hr'.
  apply in_map_iff in Hr as (s & <- & _). apply in_map_iff in Hr' as (s' & <- & _). cbn [with_gof sr_corr sr_rmse sr_pg sr_gof] in *. unfold gof_of.
  change (F RN) with R in *. set (x := so_corr s) in *. set (x' := so_corr s') in *. set (y := so_rmse s) in *. set (y' := so_rmse s') in *. set (z := so_pg s) in *. set (z' := so_pg s') in *.
  assert (E1 : (x' / mc <= x / mc)%R) by (apply Rmult_le_compat_r; [apply Rlt_le, Rinv_0_lt_compat; exact Q1|exact H1]).
  assert (E2 : (y / mr <= y' / mr)%R) by (apply Rmult_le_compat_r; [apply Rlt_le, Rinv_0_lt_compat; exact Q2|exact H2]).
  assert (E3 : (z' / mp <= z / mp)%R) by (apply Rmult_le_compat_r; [apply Rlt_le, Rinv_0_lt_compat; exact Q3|exact H3]).
  apply Rplus_le_compat; [apply Rplus_le_compat|]; apply Rmult_le_compat_l; lra.
Qed.

(** C47: with non-negative weights that sum to 1, GoF is at most 1. *)
Theorem C47_at_most_one r : normalisable -> (0 <= a)%R -> (0 <= b)%R -> (0 <= c)%R -> (a + b + c = 1)%R ->
  In r (wf_sols wf) -> (sr_gof r <= 1)%R.
Proof.
  intros Hn Ha Hb Hc Hsum Hr. destruct sols_shape as (T & mc & mr & mp & M1 & M2 & M3 & E & HF).
  destruct (maxima_pos T mc mr mp Hn M1 M2 M3 E) as (Q1 & Q2 & Q3). rewrite E in Hr.
  apply in_map_iff in Hr as (s & <- & Is). cbn [with_gof sr_gof]. unfold gof_of.
  destruct M1 as [_ M1], M3 as [_ M3]. specialize (M1 s Is). specialize (M3 s Is). rewrite Forall_forall in HF. specialize (HF s Is).
  change (F RN) with R in *. set (x := so_corr s) in *. set (y := so_rmse s) in *. set (z := so_pg s) in *.
  assert (E1 : (x / mc <= 1)%R) by (apply (Rmult_le_reg_r mc); [exact Q1|]; unfold Rdiv; rewrite Rmult_assoc, Rinv_l, Rmult_1_r, Rmult_1_l by lra; exact M1).
  assert (E2 : (0 <= y / mr)%R) by (apply Rmult_le_pos; [exact HF|apply Rlt_le, Rinv_0_lt_compat; exact Q2]).
  assert (E3 : (z / mp <= 1)%R) by (apply (Rmult_le_reg_r mp); [exact Q3|]; unfold Rdiv; rewrite Rmult_assoc, Rinv_l, Rmult_1_r, Rmult_1_l by lra; exact M3).
  assert (A1 : (a * (x / mc) <= a * 1)%R) by (apply Rmult_le_compat_l; lra).
  assert (A2 : (b * (1 - y / mr) <= b * 1)%R) by (apply Rmult_le_compat_l; lra).
  assert (A3 : (c * (z / mp) <= c * 1)%R) by (apply Rmult_le_compat_l; lra). lra.
Qed.

(** C47: all the weight on the correlation reports the best-correlation model, provided
    some model correlates positively. *)
Theorem C47_correlation_only : a = 1%R -> b = 0%R -> c = 0%R -> (exists r, In r (wf_sols wf) /\ 0 < sr_corr r)%R ->
  b_gof (wf_printed wf) = b_corr (wf_printed wf).
Proof.
  intros Ea Eb Ec (r & Hr & Hpos).
  destruct (wf_inv _ _ _ _ _ _ _ _ _ _ _ _ _ _ _ _ Run) as (_ & _ & _ & _ & _ & _ & _ & Hb & _).
  apply best_rows_spec in Hb as ((i & Hi & A1 & A2) & _ & _ & (j & Hj & D1 & D2)).
  destruct sols_shape as (T & mc & mr & mp & M1 & _ & _ & E & _).
  assert (Q : (0 < mc)%R).
  { rewrite E in Hr. apply in_map_iff in Hr as (s & <- & Is). destruct M1 as [_ M1]. specialize (M1 s Is). cbn [with_gof sr_corr] in Hpos. change (F RN) with R in *. lra. }
  assert (G : forall x, In x (wf_sols wf) -> (sr_gof x = sr_corr x / mc)%R).
  { intros x Hx. rewrite E in Hx. apply in_map_iff in Hx as (s & <- & _). cbn [with_gof sr_gof sr_corr]. unfold gof_of. rewrite Ea, Eb, Ec. change (F RN) with R in *. lra. }
  assert (Ii := nth_error_In _ _ Hi). assert (Ij := nth_error_In _ _ Hj).
  assert (Qi : (0 < / mc)%R) by (apply Rinv_0_lt_compat; exact Q).
  destruct (Nat.lt_trichotomy i j) as [L|[L|L]].
  - exfalso. specialize (D2 i _ L Hi). specialize (A1 _ Ij). rewrite (G _ Ii), (G _ Ij) in D2. apply Rmult_lt_reg_r in D2; [|exact Qi]. change (F RN) with R in *. lra.
  - subst j. congruence.
  - exfalso. specialize (A2 j _ L Hj). specialize (D1 _ Ii). rewrite (G _ Ii), (G _ Ij) in D1. apply Rmult_le_reg_r in D1; [|exact Qi]. change (F RN) with R in *. lra.
Qed.
End GoF.
