(** * P_WlNoise: noise amplification of the water-level deconvolution (C137). *)

From Coq Require Import Reals Lra.
From Verif Require Import Base Num NumPy Cplx Mat4 SpecElastic SpecSignal DFT DFT2 ReverbModel DeconModel DeconProofs DeconProofs2 DeconProofs3 DeconProofs4 DeconProofs5 SpecConv LeastSquares DeconConv P_Decon P_Decon2 P_Units2 P_Shift.
Local Open Scope R_scope.

(** ** Specification *)
(** Energy of a record and of the difference of two. *)
Definition energy_of (x : list R) : R := ssq (length x) (rnth x).
Definition dist2 (x y : list R) : R := ssq (length x) (fun j => rnth y j - rnth x j).
(** The amplitude unit of the receiver functions: the sampling interval, or the height of the Gaussian
    pulse if they are normalised. *)
Definition rf_unit (normalize : bool) (dt : R) (n : nat) (gaussian : R) : R :=
  if normalize then rnth (gauss_pulse dt n gaussian) 0 else dt.

(** ** Lemmas *)
Lemma gauss_gain_le1 dt n a k : gauss_gain dt n a k <= 1.
Proof.
  unfold gauss_gain. rewrite <- exp_0. set (z := _ / (2 * a)). pose proof (pow2_ge_0 z).
  destruct (Req_dec (z ^ 2) 0) as [->|]; [rewrite Ropp_0; lra|left; apply exp_increasing; lra].
Qed.

(** Energy of the real part of an inverse transform. *)
Lemma synth_energy n F : (0 < n)%nat -> ssq n (synth n F) <= / INR n * rsum n (fun k => Cnorm2 (F k)).
Proof.
  intro Hn. assert (HnR : 0 < INR n) by (apply lt_0_INR; exact Hn).
  set (r := map (synth n F) (seq 0 n)).
  assert (Er : forall j, (j < n)%nat -> rnth r j = synth n F j) by (intros j Hj; unfold r; apply (rnth_map_seq (synth n F)); exact Hj).
  assert (S : ssq n (synth n F) = ssq n (rnth r)) by (unfold ssq; apply rsum_ext; intros j Hj; rewrite Er by exact Hj; reflexivity).
  assert (X : ssq n (synth n F) = / INR n * rsum n (fun k => Re (F k * Cconj (dft n r k))%C)).
  { unfold ssq. rewrite (rsum_ext n _ (fun j => / INR n * rsum n (fun k => Re (F k * (RtoC (rnth r j) * W n (Z.of_nat j * Z.of_nat k)))%C))).
    - rewrite rsum_scale. f_equal. rewrite rsum_swap. apply rsum_ext. intros k Hk. unfold dft. rewrite csum_conj, <- csum_scale, Re_csum.
      apply rsum_ext. intros j Hj. f_equal. rewrite Cconj_mul, Cconj_RtoC, Cconj_W, Z.opp_involutive. reflexivity.
    - intros j Hj. rewrite <- Er at 1 by exact Hj. unfold synth.
      replace (rnth r j * (/ INR n * rsum n (fun k => Re (F k * W n (Z.of_nat j * Z.of_nat k))%C)))
        with (/ INR n * (rnth r j * rsum n (fun k => Re (F k * W n (Z.of_nat j * Z.of_nat k))%C))) by ring.
      f_equal. rewrite <- rsum_scale. apply rsum_ext. intros k Hk. rewrite <- Re_scale. f_equal. ring. }
  assert (Y : ssq n (synth n F) <= / INR n * rsum n (fun k => (Cnorm2 (F k) + Cnorm2 (dft n r k)) / 2)).
  { rewrite X. apply Rmult_le_compat_l; [left; apply Rinv_0_lt_compat; exact HnR|]. apply rsum_le. intros k Hk.
    generalize (F k) (dft n r k). intros [a b] [c d].
    pose proof (Rle_0_sqr (a - c)) as P1. pose proof (Rle_0_sqr (b - d)) as P2. unfold Rsqr in P1, P2.
    cbv [Cnorm2 Cconj Cmul Re Im]. cbn [fst snd]. lra. }
  rewrite (rsum_ext n _ (fun k => / 2 * Cnorm2 (F k) + / 2 * Cnorm2 (dft n r k))) in Y by (intros; field).
  rewrite rsum_add, !rsum_scale in Y. pose proof (parseval n r Hn) as P. rewrite <- S in P.
  rewrite Rmult_plus_distr_l in Y.
  assert (/ INR n * (/ 2 * rsum n (fun k => Cnorm2 (dft n r k))) = / 2 * ssq n (synth n F)) by (rewrite P; ring). lra.
Qed.

Lemma ssq_mono n m f : (n <= m)%nat -> ssq n f <= ssq m f.
Proof.
  intro H. unfold ssq. replace m with (n + (m - n))%nat by lia. rewrite rsum_split.
  assert (0 <= rsum (m - n) (fun j => f (n + j)%nat * f (n + j)%nat)) by (apply rsum_nonneg; intros; apply Rle_0_sqr). lra.
Qed.
Lemma ssq_tail n m f : (m <= n)%nat -> (forall j, (m <= j)%nat -> f j = 0) -> ssq n f = ssq m f.
Proof.
  intros H Z. unfold ssq. replace n with (m + (n - m))%nat by lia. rewrite rsum_split.
  rewrite (rsum_ext (n - m) _ (fun _ => 0)); [rewrite rsum_0; ring|]. intros j Hj. rewrite Z by lia. ring.
Qed.
Lemma ssq_over x n : (length x <= n)%nat -> ssq n (rnth x) = ssq (length x) (rnth x).
Proof.
  intro H. unfold ssq. replace n with (length x + (n - length x))%nat by lia. rewrite rsum_split.
  rewrite (rsum_ext (n - length x) _ (fun _ => 0)); [rewrite rsum_0; ring|]. intros j Hj. rewrite rnth_over' by lia. ring.
Qed.
Lemma dft_diff n u u' k : dft n (map (fun j => rnth u' j - rnth u j) (seq 0 n)) k = (dft n u' k - dft n u k)%C.
Proof.
  unfold dft. rewrite (csum_ext n _ (fun j => RtoC (rnth u' j) * W n (- (Z.of_nat j * Z.of_nat k)) + RtoC (- 1) * (RtoC (rnth u j) * W n (- (Z.of_nat j * Z.of_nat k))))%C).
  - rewrite csum_add, csum_scale. creal; ring.
  - intros j Hj. rewrite (rnth_map_seq (fun j => rnth u' j - rnth u j)) by exact Hj. creal; ring.
Qed.

(** The largest source power is at least the source energy. *)
Lemma power_energy n win M : (0 < n)%nat -> (length win <= n)%nat -> max_power n (dft n win) M -> energy_of win <= M.
Proof.
  intros Hn HL [U _]. unfold energy_of. rewrite <- (ssq_over win n HL), parseval by exact Hn.
  assert (HnR : 0 < INR n) by (apply lt_0_INR; exact Hn).
  apply (Rmult_le_reg_l (INR n)); [exact HnR|]. rewrite <- Rmult_assoc, Rinv_r, Rmult_1_l by lra. rewrite <- rsum_const. apply rsum_le. exact U.
Qed.

(** ** C137 *)
(** Changing the radial record by some noise changes the receiver function by at most the noise, divided by
    the square root of the water level and the size of the source record. *)
Theorem C137_waterlevel u u' win dt preonset wlevel gaussian normalize rf rms rf' rms' :
  deconv_waterlevel u win dt preonset wlevel gaussian normalize = Ok (rf, rms) ->
  deconv_waterlevel u' win dt preonset wlevel gaussian normalize = Ok (rf', rms') -> 0 <= wlevel ->
  rf_unit normalize dt (circle win) gaussian ^ 2 * wlevel * energy_of win * dist2 rf rf' <= dist2 u u'.
Proof.
  intros H H' Hw. apply deconv_waterlevel_inv in H as (M & D & Q).
  assert (L' : length u' = length win) by (apply deconv_waterlevel_inv in H' as (M' & D' & Q'); apply (wr_len _ _ _ _ _ _ _ _ _ _ _ _ Q')).
  destruct (wl_other _ u' _ _ _ _ _ _ _ _ _ _ _ Q L') as (rf0 & rms0 & D' & E & Q' & ED). rewrite E in H'. injection H' as -> ->.
  pose proof (wr_len _ _ _ _ _ _ _ _ _ _ _ _ Q) as L. pose proof (wr_le _ _ _ _ _ _ _ _ _ _ _ _ Q) as Hle.
  assert (EC : circle win = (2 ^ Nat.log2_up (length u))%nat) by (unfold circle; rewrite L; reflexivity). rewrite EC. clear EC.
  set (n := (2 ^ Nat.log2_up (length u))%nat) in *.
  assert (Hn : (0 < n)%nat) by (destruct (wr_n2 _ _ _ _ _ _ _ _ _ _ _ _ Q) as (m & Hm & Em); lia).
  assert (HnR : 0 < INR n) by (apply lt_0_INR; exact Hn).
  pose proof (wr_dt _ _ _ _ _ _ _ _ _ _ _ _ Q) as Hdt.
  pose proof (wr_M _ _ _ _ _ _ _ _ _ _ _ _ Q) as HM. assert (EM : energy_of win <= M) by (apply (power_energy n); [exact Hn|lia|exact HM]).
  assert (E0 : 0 <= energy_of win) by (apply rsum_nonneg; intros; apply Rle_0_sqr).
  set (c := (if normalize then INR n * dt / rsum n (gauss_gain dt n gaussian) else 1)) in *.
  pose proof (rsum_gain_pos dt n gaussian Hn) as GP.
  assert (HU : rf_unit normalize dt n gaussian * c = dt).
  { unfold rf_unit, c. destruct normalize; [|ring].
    assert (P0 : rnth (gauss_pulse dt n gaussian) 0 = / INR n * rsum n (gauss_gain dt n gaussian)).
    { unfold gauss_pulse. rewrite rnth_map_seq by exact Hn. f_equal. apply rsum_ext. intros k _.
      change (INR 0) with 0. replace (2 * PI * 0 * INR k / INR n) with 0 by (unfold Rdiv; ring). rewrite cos_0. ring. }
    rewrite P0. field. split; lra. }
  set (v := map (fun j => rnth u' j - rnth u j) (seq 0 n)).
  set (Fq := fun k => (RtoC (gauss_gain dt n gaussian k / dt) * dft n v k * Cconj (dft n win k) * RtoC (/ D k) * cis (- (omega dt n k * preonset)))%C).
  assert (Erf : forall j, (j < length u)%nat -> rnth rf' j - rnth rf j = c * synth n Fq j).
  { intros j Hj. pose proof (wr_rf _ _ _ _ _ _ _ _ _ _ _ _ Q j Hj) as A. pose proof (wr_rf _ _ _ _ _ _ _ _ _ _ _ _ Q' j ltac:(lia)) as B.
    fold c in A, B. rewrite A, B.
    match goal with |- c * synth n ?F j - c * synth n ?G j = _ => rewrite (synth_add n Fq F G 1 (-1) j); [ring|] end.
    intros k Hk. unfold Fq, v. rewrite dft_diff, ED by exact Hk. generalize (dft n u' k) (dft n u k). intros. creal; ring. }
  assert (S1 : dist2 rf rf' <= c * c * (/ INR n * rsum n (fun k => Cnorm2 (Fq k)))).
  { unfold dist2. rewrite (wr_lrf _ _ _ _ _ _ _ _ _ _ _ _ Q).
    rewrite (ssq_ext (length u) _ (fun j => c * synth n Fq j)) by exact Erf.
    replace (ssq (length u) (fun j => c * synth n Fq j)) with (c * c * ssq (length u) (synth n Fq))
      by (unfold ssq; rewrite <- rsum_scale; apply rsum_ext; intros; ring).
    apply Rmult_le_compat_l; [apply Rle_0_sqr|]. eapply Rle_trans; [apply (ssq_mono _ n); exact Hle|apply synth_energy; exact Hn]. }
  assert (S2 : dist2 u u' = / INR n * rsum n (fun k => Cnorm2 (dft n v k))).
  { rewrite <- parseval by exact Hn. unfold dist2. rewrite <- (ssq_ext n (fun j => rnth u' j - rnth u j) (rnth v))
      by (intros j Hj; unfold v; symmetry; apply (rnth_map_seq (fun j => rnth u' j - rnth u j)); exact Hj).
    symmetry. apply ssq_tail; [exact Hle|]. intros j Hj. rewrite !rnth_over' by lia. ring. }
  assert (S3 : dt * dt * (wlevel * M) * rsum n (fun k => Cnorm2 (Fq k)) <= rsum n (fun k => Cnorm2 (dft n v k))).
  { rewrite <- rsum_scale. apply rsum_le. intros k Hk. unfold Fq. rewrite !Cnorm2_mul.
    assert (C1' : forall t, Cnorm2 (cis t) = 1) by (intro t; pose proof (sin2_cos2 t) as P; unfold Rsqr in P; cbv [Cnorm2 cis Re Im fst snd]; lra).
    assert (CR : forall t, Cnorm2 (RtoC t) = t * t) by (intro t; cunf; ring).
    assert (CC : forall z, Cnorm2 (Cconj z) = Cnorm2 z) by (intros [a b]; cunf; ring).
    rewrite C1', !CR, CC. pose proof (wr_D _ _ _ _ _ _ _ _ _ _ _ _ Q k Hk) as ED'. pose proof (wr_D0 _ _ _ _ _ _ _ _ _ _ _ _ Q k Hk) as ND.
    pose proof (gauss_gain_pos dt n gaussian k) as G0. pose proof (gauss_gain_le1 dt n gaussian k) as G1.
    set (g := gauss_gain dt n gaussian k) in *. set (p := Cnorm2 (dft n win k)) in *. set (q := Cnorm2 (dft n v k)).
    assert (Hp : 0 <= p) by apply Cnorm2_pos. assert (Hq : 0 <= q) by apply Cnorm2_pos.
    assert (D1 : p <= D k) by (rewrite ED'; apply Rmax_l). assert (D2 : wlevel * M <= D k) by (rewrite ED'; apply Rmax_r).
    assert (HM0 : 0 <= M) by lra. assert (HwM : 0 <= wlevel * M) by (apply Rmult_le_pos; assumption).
    assert (DP : 0 < D k) by lra. set (d := D k) in *.
    replace (dt * dt * (wlevel * M) * (g / dt * (g / dt) * q * p * (/ d * / d) * 1))
      with (q * ((g * g) * ((wlevel * M) / d * (p / d)))) by (field; auto).
    rewrite <- (Rmult_1_r q) at 2. apply Rmult_le_compat_l; [exact Hq|].
    assert (T1 : 0 <= wlevel * M / d <= 1).
    { split; [apply Rmult_le_pos; [exact HwM|left; apply Rinv_0_lt_compat; exact DP]|].
      apply (Rmult_le_reg_r d); [exact DP|]. unfold Rdiv. rewrite Rmult_assoc, Rinv_l, !Rmult_1_r, Rmult_1_l by lra. exact D2. }
    assert (T2 : 0 <= p / d <= 1).
    { split; [apply Rmult_le_pos; [exact Hp|left; apply Rinv_0_lt_compat; exact DP]|].
      apply (Rmult_le_reg_r d); [exact DP|]. unfold Rdiv. rewrite Rmult_assoc, Rinv_l, !Rmult_1_r, Rmult_1_l by lra. exact D1. }
    generalize (wlevel * M / d) (p / d) T1 T2. intros x y X Y. assert (0 <= g * g <= 1) by nra. assert (0 <= x * y <= 1) by nra. nra. }
  rewrite S2. set (U := rf_unit normalize dt n gaussian) in *.
  assert (W0 : 0 <= U ^ 2 * wlevel * energy_of win) by (apply Rmult_le_pos; [apply Rmult_le_pos; [apply pow2_ge_0|exact Hw]|exact E0]).
  eapply Rle_trans; [apply Rmult_le_compat_l; [exact W0|exact S1]|].
  assert (P0 : 0 <= rsum n (fun k => Cnorm2 (Fq k))) by (apply rsum_nonneg; intros; apply Cnorm2_pos).
  replace (U ^ 2 * wlevel * energy_of win * (c * c * (/ INR n * rsum n (fun k => Cnorm2 (Fq k)))))
    with (/ INR n * ((U * c) * (U * c) * (wlevel * energy_of win) * rsum n (fun k => Cnorm2 (Fq k)))) by ring.
  rewrite HU. apply Rmult_le_compat_l; [left; apply Rinv_0_lt_compat; exact HnR|]. eapply Rle_trans; [|exact S3].
  apply Rmult_le_compat_r; [exact P0|]. apply Rmult_le_compat_l; [apply Rle_0_sqr|]. apply Rmult_le_compat_l; assumption.
Qed.

(** In particular the receiver function itself is bounded by the radial record. *)
Theorem C137_bounded u win dt preonset wlevel gaussian normalize rf rms :
  deconv_waterlevel u win dt preonset wlevel gaussian normalize = Ok (rf, rms) -> 0 <= wlevel ->
  rf_unit normalize dt (circle win) gaussian ^ 2 * wlevel * energy_of win * energy_of rf <= energy_of u.
Proof.
  intros H Hw. pose proof H as H0. apply deconv_waterlevel_inv in H0 as (M & D & Q).
  pose proof (wr_len _ _ _ _ _ _ _ _ _ _ _ _ Q) as L. pose proof (wr_lrf _ _ _ _ _ _ _ _ _ _ _ _ Q) as Lr.
  set (z := repeat 0 (length u)). assert (Lz : length z = length u) by apply repeat_length.
  assert (Hz : forall j, rnth z j = 0).
  { intro j. unfold z, rnth. generalize (length u). intro m. revert j. induction m as [|m IH]; intros [|j]; simpl; auto. }
  destruct (C112_linear u u z win dt preonset wlevel gaussian normalize rf rms rf rms 0 0 H H) as (rf0 & rms0 & E0 & L0 & V0); [lia|intros j _; rewrite Hz; ring|].
  pose proof (C137_waterlevel z u win dt preonset wlevel gaussian normalize rf0 rms0 rf rms E0 H Hw) as B.
  unfold dist2 in B. rewrite L0, Lz in B. unfold energy_of at 2 3. rewrite Lr.
  rewrite (ssq_ext (length u) (rnth rf) (fun j => rnth rf j - rnth rf0 j)) by (intros j Hj; rewrite V0 by lia; ring).
  rewrite (ssq_ext (length u) (rnth u) (fun j => rnth u j - rnth z j)) by (intros j Hj; rewrite Hz; ring). exact B.
Qed.

Theorem C137_example : exists rf rms rf' rms',
  deconv_waterlevel [1; 2; 0; 1] [2; 1; 0; 0] (1 / 10) 0 (5 / 100) 2 false = Ok (rf, rms) /\
  deconv_waterlevel [1; 2; 0; 11 / 10] [2; 1; 0; 0] (1 / 10) 0 (5 / 100) 2 false = Ok (rf', rms') /\
  dist2 rf rf' <= 4.
Proof.
  destruct (C41_returns [1; 2; 0; 1] [2; 1; 0; 0] (1 / 10) 0 (5 / 100) 2 false) as (rf & rms & E); [reflexivity|cbn; lia|lra|lra|apply not_all_zero_head; lra|left; lra|].
  destruct (C41_returns [1; 2; 0; 11 / 10] [2; 1; 0; 0] (1 / 10) 0 (5 / 100) 2 false) as (rf' & rms' & E'); [reflexivity|cbn; lia|lra|lra|apply not_all_zero_head; lra|left; lra|].
  exists rf, rms, rf', rms'. split; [exact E|]. split; [exact E'|].
  pose proof (C137_waterlevel _ _ _ _ _ _ _ _ _ _ _ _ E E' ltac:(lra)) as B. unfold rf_unit in B. cbv [energy_of dist2 ssq rsum length rnth nth] in B |- *.
  lra.
Qed.
