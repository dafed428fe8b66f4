(** * P_Reverb9: on long records ResonanceFilt finds and removes the reverberation (C149)

    C140 is refuted for a fixed record: the removed trend and the end of the record spoil the lag and the
    strength.  Both vanish as the record gets longer: for a pulse shorter than the lag whose train has an
    autocorrelation that falls down to the lag and then rises, the reported lag is exactly the reverberation
    lag from some length on, the strength tends to the true one and the filtered record to the pulse. *)

From Coq Require Import Reals Lra.
From Verif Require Import Base Num NumPy Spec HkModel HkReal Cplx DFT DFT2 SpecSignal ReverbModel ReverbProofs ReverbProofs2 P_Reverb P_Reverb2 P_Reverb3 P_Reverb5 P_Reverb6 P_Hk6 P_Noise DrawSpec P_Reverb7 P_Reverb8.
Local Open Scope R_scope.

(** A pulse shorter than the lag and its train have together at most 1/(1-rho) times the
    absolute sum of the pulse. *)
Lemma train_sum L rho S data P : 0 <= rho < 1 -> 0 <= P -> reverberates L rho S data ->
  (L <= length data)%nat ->
  (forall j, (j < L)%nat -> Rabs (rnth S j) <= P) -> (forall j, (L <= j < length data)%nat -> rnth S j = 0) ->
  rsum (length data) (fun i => Rabs (rnth data i)) <= INR L * P / (1 - rho).
Proof.
  intros (R0 & R1) P0 (_ & HR) HL HP HS. set (n := length data) in *.
  set (f := fun i => Rabs (rnth data i)). set (M := rsum n f).
  assert (Z : n = (L + (n - L))%nat) by lia.
  assert (A : rsum L f <= INR L * P).
  { rewrite <- rsum_const. apply rsum_le. intros j Hj. unfold f. rewrite HR by lia.
    replace (L <=? j)%nat with false by (symmetry; apply Nat.leb_gt; lia). rewrite Rminus_0_r. apply HP; exact Hj. }
  assert (B : rsum (n - L) (fun j => f (L + j)%nat) = rho * rsum (n - L) f).
  { rewrite <- rsum_scale. apply rsum_ext. intros j Hj. unfold f. rewrite HR by lia.
    replace (L <=? L + j)%nat with true by (symmetry; apply Nat.leb_le; lia). rewrite HS by lia.
    replace (L + j - L)%nat with j by lia.
    rewrite Rminus_0_l, Rabs_Ropp, Rabs_mult, (Rabs_right rho) by lra. reflexivity. }
  assert (C : rsum (n - L) f <= M).
  { unfold M. replace n with ((n - L) + L)%nat by lia. rewrite rsum_split. replace (n - L + L - L)%nat with (n - L)%nat by lia.
    assert (0 <= rsum L (fun j => f (n - L + j)%nat)) by (apply rsum_nonneg; intros; apply Rabs_pos). lra. }
  assert (D : M = rsum L f + rho * rsum (n - L) f).
  { unfold M. rewrite Z at 1. rewrite rsum_split, B. reflexivity. }
  assert (E : rho * rsum (n - L) f <= rho * M) by (apply Rmult_le_compat_l; assumption).
  apply (Rmult_le_reg_r (1 - rho)); [lra|].
  replace (INR L * P / (1 - rho) * (1 - rho)) with (INR L * P) by (field; lra). lra.
Qed.

(** Removing the line takes little energy from a short pulse in a long record. *)
Lemma residual_energy data D M : ls_residual data D -> (2 <= length data)%nat ->
  rsum (length data) (fun i => Rabs (rnth data i)) <= M ->
  rsum (length data) (fun j => rnth data j * rnth data j) - 49 * (M * M) / INR (length data) <= acorr D 0.
Proof.
  intros HD Hn HM. set (n := length data) in *.
  destruct (residual_line data D HD) as (a & b & Hab). fold n in Hab.
  assert (N0 : 0 < INR n) by (apply lt_0_INR; lia).
  set (q := 7 * M / INR n).
  assert (M0 : 0 <= M) by (eapply Rle_trans; [|exact HM]; apply rsum_nonneg; intros; apply Rabs_pos).
  assert (LB : forall j, (j < n)%nat -> Rabs (a + b * INR j) <= q).
  { intros j Hj. eapply Rle_trans; [apply (line_bound data D a b j HD Hn Hab)|].
    - fold n. pose proof (lt_INR _ _ Hj). pose proof (pos_INR j). lra.
    - fold n. unfold q, Rdiv. apply Rmult_le_compat_r; [left; apply Rinv_0_lt_compat; exact N0|].
      apply Rmult_le_compat_l; [lra|exact HM]. }
  destruct HD as (LD & _ & S0 & S1). fold n in LD, S0, S1.
  assert (O : rsum n (fun j => (a + b * INR j) * rnth D j) = 0).
  { rewrite (rsum_ext n _ (fun j => a * rnth D j + b * (INR j * rnth D j))) by (intros; ring).
    rewrite rsum_add, !rsum_scale, S0, S1. ring. }
  assert (E : rsum n (fun j => rnth data j * rnth data j)
              = acorr D 0 + rsum n (fun j => (a + b * INR j) * (a + b * INR j))).
  { unfold acorr. rewrite LD, Nat.sub_0_r.
    rewrite (rsum_ext n _ (fun j => rnth D (j + 0) * rnth D j
        + ((a + b * INR j) * (a + b * INR j) + 2 * ((a + b * INR j) * rnth D j)))).
    - rewrite rsum_add, rsum_add, rsum_scale, O. ring.
    - intros j Hj. rewrite Nat.add_0_r, (Hab j Hj). ring. }
  assert (B : rsum n (fun j => (a + b * INR j) * (a + b * INR j)) <= INR n * (q * q)).
  { rewrite <- rsum_const. apply rsum_le. intros j Hj. pose proof (LB j Hj) as X.
    rewrite <- (Rabs_right ((a + b * INR j) * (a + b * INR j))) by (apply Rle_ge, Rle_0_sqr).
    rewrite Rabs_mult. apply Rmult_le_compat; try apply Rabs_pos; exact X. }
  assert (Q : INR n * (q * q) = 49 * (M * M) / INR n) by (unfold q; field; lra).
  rewrite Q in B. lra.
Qed.

Lemma inv_small c d : 0 <= c -> 0 < d -> exists N, forall n, (N <= n)%nat -> c / INR n <= d.
Proof.
  intros Hc Hd. assert (X : 0 < d / (c + 1)) by (apply Rdiv_lt_0_compat; lra).
  destruct (archimed_cor1 _ X) as (N & HN & PN). exists N. intros n Hn.
  assert (P1 : 0 < INR N) by (apply lt_0_INR; exact PN).
  assert (I : / INR n <= / INR N) by (apply Rinv_le_contravar; [exact P1|apply le_INR; exact Hn]).
  assert (I0 : 0 < / INR n) by (apply Rinv_0_lt_compat; apply lt_0_INR; lia).
  unfold Rdiv. apply Rle_trans with ((c + 1) * / INR n).
  - apply Rmult_le_compat_r; lra.
  - apply Rle_trans with ((c + 1) * (d / (c + 1))).
    + apply Rmult_le_compat_l; lra.
    + right. field. lra.
Qed.

Lemma straight_energy data D : straight data -> ls_residual data D -> acorr D 0 = 0.
Proof.
  intros (a & b & H) HD.
  assert (Z : ls_residual data (repeat 0 (length data))).
  { assert (N : forall j, rnth (repeat 0 (length data)) j = 0).
    { intros j. unfold rnth. apply nth_repeat. }
    split; [apply repeat_length|]. split; [|split].
    - exists a, b. intros j Hj. rewrite N, (H j Hj). ring.
    - rewrite (rsum_ext _ _ (fun _ => 0)) by (intros; apply N). apply rsum_0.
    - rewrite (rsum_ext _ _ (fun _ => 0)) by (intros; rewrite N; ring). apply rsum_0. }
  rewrite (ls_residual_unique data D _ HD Z). unfold acorr.
  rewrite (rsum_ext _ _ (fun _ => 0)); [apply rsum_0|].
  intros j _. unfold rnth. rewrite nth_repeat. ring.
Qed.

(** The longer the record, the closer the strength: for every lag, every strength below 1, every bound on the
    amplitude of the pulse and every energy of the record, and every tolerance there is a length beyond which the strength
    that ResonanceFilt reports is that of the reverberation within the tolerance - provided the reported lag
    is the reverberation lag. *)
Theorem C149_strength L rho P e eps :
  (1 <= L)%nat -> 0 <= rho < 1 -> 0 <= P -> 0 < e -> 0 < eps ->
  exists N, forall data delta time o S,
    run_of data delta time o -> (N <= length data)%nat -> reverberates L rho S data -> fl_tlag o = INR L * delta ->
    (forall j, (j < L)%nat -> Rabs (rnth S j) <= P) -> (forall j, (L <= j < length data)%nat -> rnth S j = 0) ->
    e <= rsum (length data) (fun j => rnth data j * rnth data j) ->
    Rabs (fl_r o - rho) <= eps.
Proof.
  intros HL (R0 & R1) P0 He Heps.
  assert (L0 : 1 <= INR L) by (change 1 with (INR 1); apply le_INR; exact HL).
  set (M := INR L * P / (1 - rho)).
  assert (M0 : 0 <= M).
  { unfold M, Rdiv. apply Rmult_le_pos; [apply Rmult_le_pos; lra|]. left. apply Rinv_0_lt_compat. lra. }
  set (g := eps * e / (6 * INR L)).
  assert (G0 : 0 < g) by (unfold g; apply Rdiv_lt_0_compat; [apply Rmult_lt_0_compat; assumption|lra]).
  set (d := sqrt g). assert (D0 : 0 < d) by (apply sqrt_lt_R0; exact G0).
  assert (DD : d * d = g) by (apply sqrt_sqrt; lra).
  destruct (pow_lt_1_zero rho ltac:(rewrite Rabs_right; lra) (d / (2 * (P + 1)))
              ltac:(apply Rdiv_lt_0_compat; lra)) as (m0 & Hm0).
  destruct (inv_small (7 * M) (d / 2) ltac:(lra) ltac:(lra)) as (N1 & HN1).
  destruct (inv_small (49 * (M * M)) (e / 2)) as (N2 & HN2); [apply Rmult_le_pos; [lra|apply Rmult_le_pos; exact M0]|lra|].
  exists (Nat.max N1 (Nat.max N2 ((m0 + 2) * L + 2)))%nat.
  intros data delta time o S H Hlen HR Et HP HS HE. set (n := length data) in *.
  assert (HA : (N1 <= n)%nat) by lia. assert (HB : (N2 <= n)%nat) by lia.
  assert (HC : ((m0 + 2) * L + 2 <= n)%nat) by lia.
  assert (HnL : (L <= n)%nat) by nia.
  pose proof (train_sum L rho S data P (conj R0 R1) P0 HR HnL HP HS) as TS. fold n M in TS.
  assert (EN : forall D, ls_residual data D -> e / 2 <= acorr D 0).
  { intros D HD. pose proof (residual_energy data D M HD ltac:(fold n; lia) TS) as X. fold n in X.
    pose proof (HN2 n HB) as Y.
    lra. }
  assert (NS : ~ straight data).
  { intros K. pose proof (EN _ (detrend_ls data)) as X. rewrite (straight_energy data _ K (detrend_ls data)) in X. lra. }
  destruct (C140_strength_bound data delta time o S L rho P (m0 + 1) H NS HR ltac:(lra) Et HP HS ltac:(fold n; nia) ltac:(lia))
    as (D & HD & _ & B).
  fold n in B. pose proof (EN D HD) as E. clear EN.
  set (q := 7 * rsum n (fun i => Rabs (rnth data i)) / INR n) in *.
  assert (N0 : 0 < INR n) by (apply lt_0_INR; lia).
  assert (Q : 0 <= q <= d / 2).
  { split.
    - unfold q, Rdiv. apply Rmult_le_pos; [|left; apply Rinv_0_lt_compat; exact N0].
      apply Rmult_le_pos; [lra|]. apply rsum_nonneg; intros; apply Rabs_pos.
    - eapply Rle_trans; [|exact (HN1 n HA)]. unfold q, Rdiv.
      apply Rmult_le_compat_r; [left; apply Rinv_0_lt_compat; exact N0|]. lra. }
  assert (T : 0 <= P * rho ^ (m0 + 1) <= d / 2).
  { pose proof (Hm0 (m0 + 1)%nat ltac:(lia)) as X. rewrite Rabs_right in X by (apply Rle_ge, pow_le; exact R0).
    pose proof (pow_le rho (m0 + 1) R0) as Y. split; [apply Rmult_le_pos; assumption|].
    apply Rle_trans with ((P + 1) * (d / (2 * (P + 1)))).
    - apply Rmult_le_compat; lra.
    - right. field. lra. }
  set (t := P * rho ^ (m0 + 1)) in *. set (x := Rabs (fl_r o - rho)) in *.
  assert (X0 : 0 <= x) by apply Rabs_pos.
  assert (SQ : (t + q) ^ 2 <= g).
  { rewrite <- DD. replace ((t + q) ^ 2) with ((t + q) * (t + q)) by ring. apply Rmult_le_compat; lra. }
  assert (RHS : 3 * INR L * (t + q) ^ 2 <= eps * (e / 2)).
  { apply Rle_trans with (3 * INR L * g); [apply Rmult_le_compat_l; lra|]. right. unfold g. field. lra. }
  assert (LHS : x * (e / 2) <= x * acorr D 0) by (apply Rmult_le_compat_l; assumption).
  apply (Rmult_le_reg_r (e / 2)); lra.
Qed.

(** ** The autocorrelation of a long record hardly notices that a line was removed *)
Lemma acorr_long data D M k : ls_residual data D -> (2 <= length data)%nat ->
  rsum (length data) (fun i => Rabs (rnth data i)) <= M ->
  Rabs (acorr D k - acorr data k) <= 63 * (M * M) / INR (length data).
Proof.
  intros HD Hn HM. set (n := length data) in *.
  destruct (residual_line data D HD) as (a & b & Hab). fold n in Hab.
  assert (N0 : 0 < INR n) by (apply lt_0_INR; lia).
  set (q := 7 * M / INR n).
  assert (M0 : 0 <= M) by (eapply Rle_trans; [|exact HM]; apply rsum_nonneg; intros; apply Rabs_pos).
  assert (LB : forall j, (j < n)%nat -> Rabs (a + b * INR j) <= q).
  { intros j Hj. eapply Rle_trans; [apply (line_bound data D a b j HD Hn Hab)|].
    - fold n. pose proof (lt_INR _ _ Hj). pose proof (pos_INR j). lra.
    - fold n. unfold q, Rdiv. apply Rmult_le_compat_r; [left; apply Rinv_0_lt_compat; exact N0|].
      apply Rmult_le_compat_l; [lra|exact HM]. }
  assert (Q0 : 0 <= q) by (eapply Rle_trans; [apply Rabs_pos|apply (LB 0%nat); lia]).
  assert (LD : length D = n) by apply HD.
  set (f := fun j => Rabs (rnth data j)).
  assert (F1 : rsum (n - k) f <= M).
  { eapply Rle_trans; [|exact HM]. fold f. destruct (Nat.le_gt_cases k n) as [Hk|Hk].
    - replace n with ((n - k) + k)%nat at 2 by lia. rewrite rsum_split.
      assert (0 <= rsum k (fun j => f (n - k + j)%nat)) by (apply rsum_nonneg; intros; apply Rabs_pos). lra.
    - replace (n - k)%nat with 0%nat by lia. simpl. apply rsum_nonneg; intros; apply Rabs_pos. }
  assert (F2 : rsum (n - k) (fun j => f (j + k)%nat) <= M).
  { eapply Rle_trans; [|exact HM]. fold f. destruct (Nat.le_gt_cases k n) as [Hk|Hk].
    - replace n with (k + (n - k))%nat at 2 by lia. rewrite rsum_split.
      assert (0 <= rsum k f) by (apply rsum_nonneg; intros; apply Rabs_pos).
      rewrite (rsum_ext (n - k) (fun j => f (j + k)%nat) (fun j => f (k + j)%nat)) by (intros; f_equal; lia). lra.
    - replace (n - k)%nat with 0%nat by lia. simpl. apply rsum_nonneg; intros; apply Rabs_pos. }
  unfold acorr. rewrite LD. fold n.
  replace (rsum (n - k) (fun j => rnth D (j + k) * rnth D j) - rsum (n - k) (fun j => rnth data (j + k) * rnth data j))
    with (rsum (n - k) (fun j => rnth D (j + k) * rnth D j + -1 * (rnth data (j + k) * rnth data j)))
    by (rewrite rsum_add, rsum_scale; ring).
  eapply Rle_trans; [apply rsum_abs|].
  apply Rle_trans with (rsum (n - k) (fun j => q * f (j + k)%nat + (q * f j + q * q))).
  - apply rsum_le. intros j Hj. rewrite (Hab (j + k)%nat) by lia. rewrite (Hab j) by lia.
    pose proof (LB (j + k)%nat ltac:(lia)) as X. pose proof (LB j ltac:(lia)) as Y.
    set (x := a + b * INR (j + k)) in *. set (y := a + b * INR j) in *.
    replace ((rnth data (j + k) - x) * (rnth data j - y) + -1 * (rnth data (j + k) * rnth data j))
      with (- (y * rnth data (j + k)) + (- (x * rnth data j) + x * y)) by ring.
    eapply Rle_trans; [apply Rabs_triang|]. apply Rplus_le_compat.
    { rewrite Rabs_Ropp, Rabs_mult. apply Rmult_le_compat_r; [apply Rabs_pos|exact Y]. }
    eapply Rle_trans; [apply Rabs_triang|]. apply Rplus_le_compat.
    { rewrite Rabs_Ropp, Rabs_mult. apply Rmult_le_compat_r; [apply Rabs_pos|exact X]. }
    rewrite Rabs_mult. apply Rmult_le_compat; try apply Rabs_pos; assumption.
  - rewrite rsum_add, rsum_add, !rsum_scale, rsum_const.
    pose proof (Rmult_le_compat_l q _ _ Q0 F1) as G1. pose proof (Rmult_le_compat_l q _ _ Q0 F2) as G2.
    assert (G3 : INR (n - k) * (q * q) <= INR n * (q * q)).
    { apply Rmult_le_compat_r; [apply Rmult_le_pos; exact Q0|]. apply le_INR. lia. }
    assert (E : q * M + (q * M + INR n * (q * q)) = 63 * (M * M) / INR n) by (unfold q; field; lra).
    lra.
Qed.

(** The autocorrelation of the record itself falls by at least [c] at every step down to lag [L], then rises. *)
Definition autocorrelation_falls (c : R) (L : nat) (x : list R) : Prop :=
  (forall k, (k < L)%nat -> acorr x (Datatypes.S k) + c <= acorr x k) /\ acorr x L + c <= acorr x (Datatypes.S L).

Theorem C149_lag L M c : (1 <= L)%nat -> 0 < c -> exists N, forall data delta time o,
  run_of data delta time o -> (N <= length data)%nat ->
  rsum (length data) (fun i => Rabs (rnth data i)) <= M -> autocorrelation_falls c L data ->
  ~ straight data /\ fl_tlag o = INR L * delta.
Proof.
  intros HL Hc. destruct (inv_small (63 * (M * M)) (c / 3)) as (N1 & HN1).
  - apply Rmult_le_pos; [lra|]. apply Rle_0_sqr.
  - lra.
  - exists (Nat.max N1 (L + 2)). intros data delta time o H Hn HM (Dec & Ris).
    refine (lag_of_fall data delta time o L H _). split; [exact HL|]. split; [lia|].
    intros D HD.
    assert (NE : forall k, Rabs (acorr D k - acorr data k) <= c / 3).
    { intros k. eapply Rle_trans; [apply (acorr_long data D M k HD ltac:(lia) HM)|]. apply HN1. lia. }
    split.
    + intros k Hk. pose proof (Dec k Hk). pose proof (NE k) as A. pose proof (NE (Datatypes.S k)) as B.
      apply Rabs_def2b in A. apply Rabs_def2b in B. lra.
    + pose proof (NE L) as A. pose proof (NE (Datatypes.S L)) as B.
      apply Rabs_def2b in A. apply Rabs_def2b in B. lra.
Qed.

Lemma energy_of_fall c L data : (1 <= L)%nat -> autocorrelation_falls c L data ->
  c / 2 <= rsum (length data) (fun j => rnth data j * rnth data j).
Proof.
  intros HL (Dec & _). specialize (Dec 0%nat ltac:(lia)). set (n := length data) in *.
  assert (E0 : acorr data 0 = rsum n (fun j => rnth data j * rnth data j)).
  { unfold acorr. fold n. rewrite Nat.sub_0_r. apply rsum_ext. intros j _. rewrite Nat.add_0_r. reflexivity. }
  assert (E1 : - acorr data 0 <= acorr data 1).
  { destruct (Nat.eq_dec n 0) as [Z|Z].
    - assert (A : forall k, acorr data k = 0) by (intros k; unfold acorr; fold n; rewrite Z; reflexivity).
      rewrite !A. lra.
    - set (h := fun j => rnth data j * rnth data j).
      assert (X : 0 <= rsum (n - 1) (fun j => (rnth data (j + 1) + rnth data j) * (rnth data (j + 1) + rnth data j)))
        by (apply rsum_nonneg; intros; apply Rle_0_sqr).
      rewrite (rsum_ext _ _ (fun j => 2 * (rnth data (j + 1) * rnth data j) + (h (j + 1)%nat + h j))) in X
        by (intros; unfold h; ring).
      rewrite rsum_add, rsum_scale, rsum_add in X. fold n in X.
      assert (B1 : rsum (n - 1) h <= rsum n h).
      { replace n with ((n - 1) + 1)%nat at 2 by lia. rewrite rsum_split.
        assert (0 <= rsum 1 (fun j => h (n - 1 + j)%nat)) by (apply rsum_nonneg; intros; apply Rle_0_sqr). lra. }
      assert (B2 : rsum (n - 1) (fun j => h (j + 1)%nat) <= rsum n h).
      { replace n with (1 + (n - 1))%nat at 2 by lia. rewrite rsum_split.
        assert (0 <= rsum 1 h) by (apply rsum_nonneg; intros; apply Rle_0_sqr).
        rewrite (rsum_ext (n - 1) (fun j => h (j + 1)%nat) (fun j => h (1 + j)%nat)) by (intros; f_equal; lia). lra. }
      rewrite E0. fold h. unfold acorr at 1. fold n. lra. }
  rewrite <- E0. lra.
Qed.

(** A pulse shorter than the lag, with reverberations of any strength below 1: on every record that is long
    enough, ResonanceFilt (either version) reports exactly the reverberation lag, the strength within the
    tolerance, and a filtered record that is the pulse within the tolerance at every sample. *)
Theorem C149_removed L rho P c eps :
  (1 <= L)%nat -> 0 <= rho < 1 -> 0 <= P -> 0 < c -> 0 < eps ->
  exists N, forall data delta time o S,
    run_of data delta time o -> (N <= length data)%nat -> reverberates L rho S data ->
    (forall j, (j < L)%nat -> Rabs (rnth S j) <= P) -> (forall j, (L <= j < length data)%nat -> rnth S j = 0) ->
    autocorrelation_falls c L data ->
    fl_tlag o = INR L * delta /\ Rabs (fl_r o - rho) <= eps /\ near eps S (fl_filtered o).
Proof.
  intros HL HR0 P0 Hc Heps. pose proof HR0 as (R0 & R1).
  set (M := INR L * P / (1 - rho)).
  assert (M0 : 0 <= M).
  { unfold M, Rdiv. apply Rmult_le_pos; [apply Rmult_le_pos; [apply pos_INR|lra]|]. left. apply Rinv_0_lt_compat. lra. }
  destruct (C149_lag L M c HL Hc) as (N1 & HN1).
  set (e1 := Rmin eps (eps / (3 * (P + 1)))).
  assert (E1 : 0 < e1).
  { unfold e1. apply Rmin_glb_lt; [exact Heps|]. apply Rdiv_lt_0_compat; lra. }
  destruct (C149_strength L rho P (c / 2) e1 HL HR0 P0 ltac:(lra) E1) as (N2 & HN2).
  destruct (inv_small (21 * M) (eps / 3) ltac:(lra) ltac:(lra)) as (N3 & HN3).
  destruct (pow_lt_1_zero rho ltac:(rewrite Rabs_right; lra) (eps / (3 * (P + 1)))
              ltac:(apply Rdiv_lt_0_compat; lra)) as (m0 & Hm0).
  exists (Nat.max N1 (Nat.max N2 (Nat.max N3 ((m0 + 2) * L)))).
  intros data delta time o S H Hn HR HP HS HA. set (n := length data) in *.
  assert (HC : ((m0 + 2) * L <= n)%nat) by lia.
  assert (HnL : (2 * L <= n)%nat) by nia.
  pose proof (train_sum L rho S data P HR0 P0 HR ltac:(fold n; lia) HP HS) as TS. fold n M in TS.
  destruct (HN1 data delta time o H ltac:(fold n; lia) TS HA) as (NS & Et).
  pose proof (HN2 data delta time o S H ltac:(fold n; lia) HR Et HP HS (energy_of_fall c L data HL HA)) as Es.
  split; [exact Et|]. split; [eapply Rle_trans; [exact Es|apply Rmin_l]|].
  assert (Small : forall j, (j < n)%nat -> Rabs (rnth data j) <= P * rho ^ (j / L)).
  { intros j Hj. pose proof (Nat.div_mod_eq j L) as DM. pose proof (Nat.mod_upper_bound j L ltac:(lia)) as MB.
    pose proof (train_decay L rho S data P HL R0 HR HP HS (j / L) (j mod L) MB) as X.
    replace (j / L * L + j mod L)%nat with j in X by lia. exact (X Hj). }
  assert (Pow1 : forall q, rho ^ q <= 1).
  { intros q. rewrite <- (pow1 q). apply pow_incr. lra. }
  assert (BA : forall j, (j < n)%nat -> Rabs (rnth data j) <= P).
  { intros j Hj. eapply Rle_trans; [exact (Small j Hj)|].
    pose proof (Rmult_le_compat_l _ _ _ P0 (Pow1 (j / L)%nat)). lra. }
  assert (BT : forall j, (n - L <= j < n)%nat -> Rabs (rnth data j) <= P * rho ^ m0).
  { intros j Hj. eapply Rle_trans; [exact (Small j (proj2 Hj))|]. apply Rmult_le_compat_l; [exact P0|].
    assert (m0 <= j / L)%nat by (apply Nat.div_le_lower_bound; nia).
    replace (j / L)%nat with (m0 + (j / L - m0))%nat by lia. rewrite pow_add.
    pose proof (Rmult_le_compat_l _ _ _ (pow_le rho m0 R0) (Pow1 (j / L - m0)%nat)). lra. }
  destruct (C141_filtered data delta time o S L rho P (P * rho ^ m0) H NS HR Et HnL BA BT) as (NL & NR).
  split; [exact NL|]. intros i x y Hx Hy. eapply Rle_trans; [exact (NR i x y Hx Hy)|]. clear NR NL.
  fold n.
  assert (Third : P * (eps / (3 * (P + 1))) <= eps / 3).
  { apply Rle_trans with ((P + 1) * (eps / (3 * (P + 1)))).
    - apply Rmult_le_compat_r; [|lra]. left. apply Rdiv_lt_0_compat; lra.
    - right. field. lra. }
  assert (A1 : Rabs (fl_r o - rho) * P <= eps / 3).
  { eapply Rle_trans; [|exact Third]. rewrite Rmult_comm. apply Rmult_le_compat_l; [exact P0|].
    eapply Rle_trans; [exact Es|apply Rmin_r]. }
  assert (A2 : 21 * rsum n (fun i => Rabs (rnth data i)) / INR n <= eps / 3).
  { eapply Rle_trans; [|apply (HN3 n); lia]. unfold Rdiv.
    apply Rmult_le_compat_r; [left; apply Rinv_0_lt_compat; apply lt_0_INR; lia|]. lra. }
  assert (A3 : P * rho ^ m0 <= eps / 3).
  { eapply Rle_trans; [|exact Third]. apply Rmult_le_compat_l; [exact P0|].
    pose proof (Hm0 m0 ltac:(lia)) as X. rewrite Rabs_right in X by (apply Rle_ge, pow_le; exact R0). lra. }
  lra.
Qed.

(** ** A concrete family: a spike at the start and its reverberations, one sample apart, each half as strong *)
Definition echoes (n : nat) : list R := map (fun j => (- (1 / 2)) ^ j) (seq 0 n).
Definition spike (n : nat) : list R := map (fun j => if (j =? 0)%nat then 1 else 0) (seq 0 n).

Lemma echoes_len n : length (echoes n) = n.
Proof. unfold echoes. rewrite map_length, seq_length. reflexivity. Qed.
Lemma rnth_seq f n j : (j < n)%nat -> rnth (map f (seq 0 n)) j = f j.
Proof.
  intros Hj. unfold rnth. apply nth_error_nth. rewrite nth_error_map_seq by exact Hj. reflexivity.
Qed.
Lemma echoes_nth n j : (j < n)%nat -> rnth (echoes n) j = (- (1 / 2)) ^ j.
Proof. intros Hj. unfold echoes. exact (rnth_seq _ n j Hj). Qed.

Lemma echoes_reverberate n : reverberates 1 (1 / 2) (spike n) (echoes n).
Proof.
  split; [unfold spike; rewrite echoes_len, map_length, seq_length; reflexivity|].
  rewrite echoes_len. intros j Hj. rewrite echoes_nth by exact Hj. unfold spike. rewrite rnth_seq by exact Hj.
  destruct j as [|j]; [simpl; lra|]. change (1 <=? Datatypes.S j)%nat with true. change (Datatypes.S j =? 0)%nat with false. cbv iota.
  replace (Datatypes.S j - 1)%nat with j by lia. rewrite echoes_nth by lia. cbn [pow]. lra.
Qed.

Lemma echoes_acorr n k : acorr (echoes n) k = (- (1 / 2)) ^ k * rsum (n - k) (fun j => (1 / 4) ^ j).
Proof.
  unfold acorr. rewrite echoes_len, <- rsum_scale. apply rsum_ext. intros j Hj.
  rewrite !echoes_nth by lia. rewrite pow_add.
  replace ((- (1 / 2)) ^ j * (- (1 / 2)) ^ k * (- (1 / 2)) ^ j) with ((- (1 / 2)) ^ k * ((- (1 / 2)) ^ j * (- (1 / 2)) ^ j)) by ring.
  rewrite <- Rpow_mult_distr. replace (- (1 / 2) * - (1 / 2)) with (1 / 4) by lra. reflexivity.
Qed.

Lemma echoes_fall n : (4 <= n)%nat -> autocorrelation_falls (1 / 2) 1 (echoes n).
Proof.
  intros Hn.
  assert (G : forall m, (1 <= m)%nat -> 1 <= rsum m (fun j => (1 / 4) ^ j)).
  { intros m Hm. replace m with (1 + (m - 1))%nat by lia. rewrite rsum_split.
    assert (0 <= rsum (m - 1) (fun j => (1 / 4) ^ (1 + j))) by (apply rsum_nonneg; intros; apply pow_le; lra).
    assert (rsum 1 (fun j => (1 / 4) ^ j) = 1) by (cbn; ring). lra. }
  assert (A : forall k, acorr (echoes n) k = (- (1 / 2)) ^ k * rsum (n - k) (fun j => (1 / 4) ^ j)) by (intros; apply echoes_acorr).
  pose proof (G (n - 0)%nat ltac:(lia)). pose proof (G (n - 1)%nat ltac:(lia)). pose proof (G (n - 2)%nat ltac:(lia)).
  split.
  - intros k Hk. replace k with 0%nat by lia. rewrite !A. cbn [pow]. lra.
  - rewrite !A. cbn [pow]. lra.
Qed.

Theorem C149_example : forall eps, 0 < eps -> exists N, forall n, (N <= n)%nat -> exists o,
  ResonanceFiltSynth (echoes n) (map INR (seq 0 n)) = Ok o /\
  fl_tlag o = 1 /\ Rabs (fl_r o - 1 / 2) <= eps /\ near eps (spike n) (fl_filtered o).
Proof.
  intros eps Heps.
  destruct (C149_removed 1 (1 / 2) 1 (1 / 2) eps) as (N & HN); try lra; [lia|].
  exists (Nat.max N 4). intros n Hn.
  destruct (unit_run (echoes n)) as (o & E & Ru); [rewrite echoes_len; lia|]. rewrite echoes_len in E, Ru.
  exists o. split; [exact E|].
  destruct (HN (echoes n) 1 (map INR (seq 0 n)) o (spike n) Ru) as (A & B & C).
  - rewrite echoes_len. lia.
  - apply echoes_reverberate.
  - intros j Hj. unfold spike. rewrite rnth_seq by lia. destruct (j =? 0)%nat; rewrite Rabs_right; lra.
  - rewrite echoes_len. intros j Hj. unfold spike. rewrite rnth_seq by lia.
    replace (j =? 0)%nat with false by (symmetry; apply Nat.eqb_neq; lia). reflexivity.
  - apply echoes_fall. lia.
  - simpl INR in A. split; [lra|]. split; assumption.
Qed.
