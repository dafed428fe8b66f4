(** * P_DeconHkNoise: C146, from a noisy seismogram to the crust. *)

From Coq Require Import Reals Lra Lia.
From Verif Require Import Base Num NumPy Spec HkModel HkProofs HkReal HkFacts HkFacts2 HkFacts4 P_Hk DrawSpec P_Hk2 P_Hk3 P_Hk4 P_Hk5 P_Hk6 P_HkEx P_Hk7 P_Noise.
From Verif Require Import P_Float3.
From Verif Require Import Cplx DFT DFT2 SpecSignal SpecConv LeastSquares ReverbModel P_Reverb7 DeconModel DeconProofs
  DeconProofs2 DeconProofs3 DeconProofs4 DeconProofs5 DeconConv P_Decon P_Decon2 P_Conv P_Shift P_WlNoise P_DeconHk.
Local Open Scope R_scope.

(** ** Lemmas *)
Lemma ssq_term n f j : (j < n)%nat -> f j * f j <= ssq n f.
Proof.
  intro Hj. unfold ssq. replace n with (j + (1 + (n - S j)))%nat by lia. rewrite !rsum_split. cbn [rsum].
  assert (0 <= rsum j (fun i => f i * f i)) by (apply rsum_nonneg; intros; apply Rle_0_sqr).
  assert (0 <= rsum (n - S j) (fun i => f (j + (1 + i))%nat * f (j + (1 + i))%nat)) by (apply rsum_nonneg; intros; apply Rle_0_sqr).
  rewrite !Nat.add_0_r. lra.
Qed.
Lemma dist2_sample x y j : (j < length x)%nat -> Rabs (rnth y j - rnth x j) <= sqrt (dist2 x y).
Proof.
  intro Hj. rewrite <- sqrt_Rsqr_abs. apply sqrt_le_1_alt. unfold dist2, Rsqr. exact (ssq_term _ (fun j => rnth y j - rnth x j) j Hj).
Qed.
Lemma rsum_term n f j : (forall i, (i < n)%nat -> 0 <= f i) -> (j < n)%nat -> f j <= rsum n f.
Proof.
  intros Hf. induction n as [|n IH]; [lia|]. intro Hj. cbn [rsum]. pose proof (Hf n ltac:(lia)).
  assert (0 <= rsum n f) by (apply rsum_nonneg; intros; apply Hf; lia).
  destruct (Nat.eq_dec j n) as [-> |]; [lra|]. pose proof (IH ltac:(intros; apply Hf; lia) ltac:(lia)). lra.
Qed.

(** A source that the program divided by is not silent. *)
Lemma wl_energy u win dt preonset wlevel gaussian normalize rf rms :
  deconv_waterlevel u win dt preonset wlevel gaussian normalize = Ok (rf, rms) -> 0 < energy_of win.
Proof.
  intro E. apply deconv_waterlevel_inv in E as (M & D & Q).
  pose proof (wr_len _ _ _ _ _ _ _ _ _ _ _ _ Q) as L. pose proof (wr_le _ _ _ _ _ _ _ _ _ _ _ _ Q) as Hle.
  set (n := (2 ^ Nat.log2_up (length u))%nat) in *.
  destruct (wr_n2 _ _ _ _ _ _ _ _ _ _ _ _ Q) as (m & Hm & Em).
  assert (Hn : (0 < n)%nat) by lia. assert (HnR : 0 < INR n) by (apply lt_0_INR; exact Hn).
  assert (E0 : 0 <= energy_of win) by (apply rsum_nonneg; intros; apply Rle_0_sqr).
  destruct (Req_dec (energy_of win) 0) as [Z|]; [|lra]. exfalso.
  assert (SZ : ssq n (rnth win) = 0) by (rewrite ssq_over by lia; exact Z).
  rewrite parseval in SZ by exact Hn.
  assert (S0 : rsum n (fun k => Cnorm2 (dft n win k)) = 0).
  { apply Rmult_integral in SZ as [SZ|SZ]; [|exact SZ]. pose proof (Rinv_0_lt_compat _ HnR). lra. }
  assert (P0 : forall k, (k < n)%nat -> Cnorm2 (dft n win k) = 0).
  { intros k Hk. apply Rle_antisym; [|apply Cnorm2_pos]. rewrite <- S0. apply (rsum_term n (fun k => Cnorm2 (dft n win k))); [intros; apply Cnorm2_pos|exact Hk]. }
  apply (wr_D0 _ _ _ _ _ _ _ _ _ _ _ _ Q 0%nat Hn). rewrite (wr_D _ _ _ _ _ _ _ _ _ _ _ _ Q 0%nat Hn), (P0 0%nat Hn).
  destruct (wr_M _ _ _ _ _ _ _ _ _ _ _ _ Q) as [_ (k & Hk & Ek)]. rewrite <- Ek, (P0 k Hk), Rmult_0_r. apply Rmax_left. lra.
Qed.
Lemma scale_unit normalize dt n gaussian : 0 < dt -> (0 < n)%nat -> rf_scale normalize dt n gaussian * rf_unit normalize dt n gaussian = dt.
Proof.
  intros Hd Hn. pose proof (rf_scale_pos normalize dt n gaussian Hd Hn) as P. unfold rf_scale, rf_unit in *. destruct normalize; [|ring].
  field. intro Z. rewrite Z in P. unfold Rdiv in P. rewrite Rinv_0, Rmult_0_r in P. lra.
Qed.

(** ** C146 *)

(** [uin] is the radial record without noise: the source convolved with the arrivals of the crust. The recorded
    one differs from it by noise of energy at most [noise]. The margin is twice what the water level takes away
    plus what it lets the noise do. *)
Theorem C146_noisy uin uin' win dt preonset wlevel gaussian normalize rf' rms' r s M noise
    draw (p : R) pk (H K : list R) (Vp w1 w2 w3 : R) layer q (H0 K0 : R) :
  deconv_waterlevel uin' win dt preonset wlevel gaussian normalize = Ok (rf', rms') -> 0 < dt -> 0 < wlevel ->
  length uin' = length uin -> dist2 uin uin' <= noise ->
  let n := (2 ^ Nat.log2_up (length uin))%nat in
  preonset = dt * IZR s -> convolved dt n uin win r -> max_power n (dft n win) M ->
  let loss := / INR n * rsum n (fun k => taken n wlevel M win k * gauss_gain dt n gaussian k * sqrt (Cnorm2 (dft n r k))) in
  let shaken := sqrt (noise / (wlevel * energy_of win)) / dt in
  identifies (2 * (loss + shaken)) (ideal dt n gaussian r s (length uin)) dt (length uin) preonset Vp p H K H0 K0 ->
  0 < w1 -> 0 < w2 -> 0 < w3 ->
  @hkSynth RN draw rf' (@uniform_axis RN dt (length uin) preonset) p pk H K (Some Vp) (Some w1) (Some w2) (Some w3) layer = Ok q ->
  exists v, nth_error (hs_stk q) (hs_best q) = Some (@mkRow RN H0 K0 v).
Proof.
  intros E' Hdt Hwl Hlen Hno n Hp HC HM loss shaken ID P1 P2 P3 EQ.
  pose proof (wl_energy _ _ _ _ _ _ _ _ _ E') as HE.
  pose proof E' as E1. apply deconv_waterlevel_inv in E1 as (M1 & D1 & Q1).
  pose proof (wr_len _ _ _ _ _ _ _ _ _ _ _ _ Q1) as L1'. pose proof (wr_lrf _ _ _ _ _ _ _ _ _ _ _ _ Q1) as Lrf'.
  destruct (wl_other _ uin _ _ _ _ _ _ _ _ _ _ _ Q1 ltac:(lia)) as (rf & rms & D & E & Q & _).
  destruct (water_near _ _ _ _ _ _ _ _ _ r s M E Hdt Hp HC HM) as (L1 & Hn & L & N). fold n in Hn, N.
  pose proof (C137_waterlevel _ _ _ _ _ _ _ _ _ _ _ _ E E' ltac:(lra)) as B.
  assert (EC : circle win = n) by (unfold circle, n; f_equal; f_equal; lia). rewrite EC in B.
  pose proof (rf_scale_pos normalize dt n gaussian Hdt Hn) as Hc. pose proof (scale_unit normalize dt n gaussian Hdt Hn) as HU.
  set (c := rf_scale normalize dt n gaussian) in *. set (U := rf_unit normalize dt n gaussian) in *.
  assert (SB : sqrt (dist2 rf rf') <= c * shaken).
  { set (d := dist2 rf rf') in *. assert (D0 : 0 <= d) by (apply rsum_nonneg; intros; apply Rle_0_sqr).
    assert (WE : 0 < wlevel * energy_of win) by (apply Rmult_lt_0_compat; assumption).
    assert (B2 : dt * dt * (wlevel * energy_of win) * d <= c * c * noise).
    { rewrite <- HU. replace (c * U * (c * U) * (wlevel * energy_of win) * d) with (c * c * (U ^ 2 * wlevel * energy_of win * d)) by ring.
      apply Rmult_le_compat_l; [apply Rle_0_sqr|]. lra. }
    assert (B3 : d <= Rsqr (c / dt) * (noise / (wlevel * energy_of win))).
    { apply (Rmult_le_reg_l (dt * dt * (wlevel * energy_of win))); [apply Rmult_lt_0_compat; [apply Rmult_lt_0_compat; exact Hdt|exact WE]|].
      eapply Rle_trans; [exact B2|]. apply Req_le. unfold Rsqr. field. split; lra. }
    eapply Rle_trans; [apply sqrt_le_1_alt; exact B3|]. rewrite sqrt_mult_alt by apply Rle_0_sqr.
    rewrite sqrt_Rsqr by (apply Rlt_le, Rdiv_lt_0_compat; assumption). unfold shaken. apply Req_le. field. lra. }
  assert (Lg : length (ideal dt n gaussian r s (length uin)) = length uin) by (unfold ideal; rewrite map_length, seq_length; reflexivity).
  apply (near_recovers draw (ideal dt n gaussian r s (length uin)) rf' c (loss + shaken) dt (length uin) preonset p pk H K Vp w1 w2 w3 layer q H0 K0);
    try assumption; try (rewrite Lg; lia).
  rewrite Lg. intros j Hj. unfold ideal. rewrite rnth_map_seq by exact Hj.
  specialize (N j Hj). change (loss_of dt n gaussian wlevel M win r) with loss in N.
  pose proof (dist2_sample rf rf' j ltac:(lia)) as N'.
  replace (rnth rf' j - c * rf_of dt n gaussian r s j) with ((rnth rf' j - rnth rf j) + (rnth rf j - c * rf_of dt n gaussian r s j)) by ring.
  eapply Rle_trans; [apply Rabs_triang|]. rewrite Rmult_plus_distr_l. lra.
Qed.

(** ** A concrete case: noise of a twentieth of the unit on two samples *)
Definition dx_noisy : list R := [2; 2; 1 / 2; 1 / 2; - (1 / 4); - (1 / 4); 0; 0; 1 / 20; 0; 0; 0; - (1 / 20); 0; 0; 0].

Lemma dx_power k : Cnorm2 (dft 16 dx_win k) = 5 + 4 * cos (2 * PI * IZR (- (Z.of_nat 1 * Z.of_nat k)) / INR 16).
Proof.
  assert (E : dft 16 dx_win k = (2 + cos (2 * PI * IZR (- (Z.of_nat 1 * Z.of_nat k)) / INR 16), sin (2 * PI * IZR (- (Z.of_nat 1 * Z.of_nat k)) / INR 16))).
  { unfold dft. cbn [csum]. unfold rnth, dx_win. cbn [nth]. unfold W at 1. change (Z.of_nat 0 * Z.of_nat k)%Z with 0%Z. rewrite Z.opp_0.
    replace (2 * PI * 0 / INR 16) with 0 by (unfold Rdiv; ring). unfold W at 1.
    set (t := 2 * PI * IZR (- (Z.of_nat 1 * Z.of_nat k)) / INR 16). unfold cis at 1 2. rewrite cos_0, sin_0.
    repeat match goal with |- context [W 16 ?z] => generalize (W 16 z); intros [? ?] end.
    cunf. f_equal; ring. }
  rewrite E. set (t := 2 * PI * IZR (- (Z.of_nat 1 * Z.of_nat k)) / INR 16). pose proof (sin2_cos2 t) as P. unfold Rsqr in P. cunf. lra.
Qed.
Lemma dx_max_power : max_power 16 (dft 16 dx_win) 9.
Proof.
  split.
  - intros k _. rewrite dx_power. pose proof (COS_bound (2 * PI * IZR (- (Z.of_nat 1 * Z.of_nat k)) / INR 16)) as [_ B]. lra.
  - exists 0%nat. split; [lia|]. rewrite dx_power. change (Z.of_nat 1 * Z.of_nat 0)%Z with 0%Z. rewrite Z.opp_0.
    replace (2 * PI * 0 / INR 16) with 0 by (unfold Rdiv; ring). rewrite cos_0. lra.
Qed.
Lemma dx_taken k : taken 16 (1 / 9) 9 dx_win k = 0.
Proof.
  unfold taken. apply Rmax_left. rewrite dx_power. pose proof (COS_bound (2 * PI * IZR (- (Z.of_nat 1 * Z.of_nat k)) / INR 16)) as [B _].
  replace (1 / 9 * 9) with 1 by field. lra.
Qed.
Theorem C146_example : exists rf rms q v, deconv_waterlevel dx_noisy dx_win 1 2 (1 / 9) 100 true = Ok (rf, rms) /\
  dist2 dx_uin dx_noisy = 1 / 200 /\ convolved 1 16 dx_uin dx_win dx_r /\
  @hkSynth RN (@pyplot RN) rf (@uniform_axis RN 1 16 2) 0 NpF [1; 2] [2; 3] (Some 1) (Some 1) (Some 1) (Some 1) None = Ok q /\
  nth_error (hs_stk q) (hs_best q) = Some (@mkRow RN 1 2 v).
Proof.
  destruct dx_not_zero as [Zw Zu].
  assert (T2 : (2 <= length dx_noisy)%nat) by (cbn; lia). assert (NZ : (1 <> 0 /\ 100 <> 0)%R) by lra.
  destruct (C41_returns dx_noisy dx_win 1 2 (1 / 9) 100 true eq_refl T2 (proj1 NZ) (proj2 NZ) Zw (or_intror (fun k _ => dft_21_16 k))) as (rf & rms & E).
  pose proof E as E'. apply deconv_waterlevel_inv in E'. destruct E' as (M & D & R). pose proof (wr_lrf _ _ _ _ _ _ _ _ _ _ _ _ R) as L.
  destruct (dx_searched rf L) as [q EQ]. exists rf, rms, q.
  assert (DN : dist2 dx_uin dx_noisy = 1 / 200) by (unfold dist2, ssq; cbn [length dx_uin rsum]; unfold rnth, dx_uin, dx_noisy; cbn [nth]; lra).
  assert (EN : energy_of dx_win = 5) by (unfold energy_of, ssq; cbn [length dx_win rsum]; unfold rnth, dx_win; cbn [nth]; lra).
  assert (ID : identifies (2 * (/ INR 16 * rsum 16 (fun k => taken 16 (1 / 9) 9 dx_win k * gauss_gain 1 16 100 k * sqrt (Cnorm2 (dft 16 dx_r k)))
      + sqrt (1 / 200 / (1 / 9 * energy_of dx_win)) / 1)) (ideal 1 16 100 dx_r 2 16) 1 16 2 1 0 [1; 2] [2; 3] 1 2).
  { apply dx_identifies. rewrite (rsum_nil 16) by (intros k _; rewrite dx_taken; ring). rewrite EN.
    assert (sqrt (1 / 200 / (1 / 9 * 5)) <= 1 / 10). { rewrite <- (sqrt_Rsqr (1 / 10)) by lra. apply sqrt_le_1_alt. unfold Rsqr. lra. }
    lra. }
  destruct (C146_noisy dx_uin dx_noisy dx_win 1 2 (1 / 9) 100 true rf rms dx_r 2 9 (1 / 200) (@pyplot RN) 0 NpF [1; 2] [2; 3] 1 1 1 1 None q 1 2
    E Rlt_0_1 ltac:(lra) eq_refl (Req_le _ _ DN) ltac:(lra) dx_convolved dx_max_power ID Rlt_0_1 Rlt_0_1 Rlt_0_1 EQ) as [v Ev].
  exists v. split; [exact E|]. split; [exact DN|]. split; [exact dx_convolved|]. split; [exact EQ|exact Ev].
Qed.
