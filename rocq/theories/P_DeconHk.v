(** * P_DeconHk: C143, from the seismogram to the crust: deconvolution followed by hkSynth.

    The numerator is the source convolved with the arrivals of a crust (C102); the receiver function the
    program computes from it is handed to hkSynth. *)

From Coq Require Import Reals Lra Lia.
From Verif Require Import Base Num NumPy Spec HkModel HkProofs HkReal HkFacts HkFacts2 HkFacts4 P_Hk DrawSpec P_Hk2 P_Hk3 P_Hk4 P_Hk5 P_Hk6 P_HkEx P_Hk7 P_Noise.
From Verif Require Import P_Float3.
From Verif Require Import Cplx DFT DFT2 SpecSignal SpecConv LeastSquares ReverbModel P_Reverb7 DeconModel DeconProofs
  DeconProofs2 DeconProofs3 DeconProofs4 DeconProofs5 DeconConv P_Decon P_Decon2 P_Conv.
Local Open Scope R_scope.

(** ** Vocabulary *)

(** The record [data], [l] samples every [dt] from time [-pre]: at the three delays of the crust (H0,K0) it
    is larger (the third phase: smaller) by more than [m] than at those of any other model of the grid,
    all the delays are in the record, and every other model has at least one delay read elsewhere. *)
Definition identifies (m : R) (data : list R) (dt : R) (l : nat) (pre Vp p : R) (H K : list R) (H0 K0 : R) : Prop :=
  In H0 H /\ In K0 K /\ precritical Vp p /\
  clear_phases_by m data (@uniform_axis RN dt l pre) (t_Ps Vp p) (t_PpPs Vp p) (t_PsPs Vp p) H K H0 K0 /\
  (forall h k, In h H -> In k K -> covered dt l pre (t_Ps Vp p h k) /\ covered dt l pre (t_PpPs Vp p h k) /\ covered dt l pre (t_PsPs Vp p h k)) /\
  (forall h k, In h H -> In k K -> (h, k) <> (H0, K0) -> resolved dt Vp p H0 K0 h k).

(** The receiver function of the arrivals [r], on [m] samples, delayed by [s] samples. *)
Definition ideal (dt : R) (n : nat) (gaussian : R) (r : list R) (s : Z) (m : nat) : list R := map (rf_of dt n gaussian r s) (seq 0 m).

(** ** Lemmas *)
Lemma Re_le_sqrt z : Rabs (Re z) <= sqrt (Cnorm2 z).
Proof.
  rewrite <- sqrt_Rsqr_abs. apply sqrt_le_1_alt. destruct z as [x y]. cbv [Cnorm2 Re Rsqr]. cbn [fst snd]. pose proof (Rle_0_sqr y) as Q. unfold Rsqr in Q. lra.
Qed.
Lemma rsum_abs' n f : Rabs (rsum n f) <= rsum n (fun i => Rabs (f i)).
Proof.
  induction n as [|n IH]; [simpl; rewrite Rabs_R0; lra|]. cbn [rsum]. eapply Rle_trans; [apply Rabs_triang|]. lra.
Qed.
Lemma synth_abs n F j : (0 < n)%nat -> Rabs (synth n F j) <= / INR n * rsum n (fun k => sqrt (Cnorm2 (F k))).
Proof.
  intro Hn. assert (HnR : 0 < INR n) by (apply lt_0_INR; exact Hn). unfold synth.
  rewrite Rabs_mult, (Rabs_right (/ INR n)) by (apply Rle_ge, Rlt_le, Rinv_0_lt_compat; exact HnR).
  apply Rmult_le_compat_l; [apply Rlt_le, Rinv_0_lt_compat; exact HnR|].
  eapply Rle_trans; [apply rsum_abs'|]. apply rsum_le. intros k _. eapply Rle_trans; [apply Re_le_sqrt|].
  rewrite Cnorm2_mul, W_norm, Rmult_1_r. lra.
Qed.

Lemma rsum_diff n f g : rsum n f - rsum n g = rsum n (fun i => f i - g i).
Proof. induction n as [|n IH]; cbn [rsum]; [ring|]. rewrite <- IH. ring. Qed.
Lemma rsum_nil n f : (forall j, (j < n)%nat -> f j = 0) -> rsum n f = 0.
Proof. induction n as [|n IH]; intro H; cbn [rsum]; [reflexivity|]. rewrite IH, H by (intros; try apply H; lia). ring. Qed.
Lemma Cnorm2_real x : Cnorm2 (RtoC x) = x * x.
Proof. cbv [Cnorm2 RtoC]. cbn [fst snd]. ring. Qed.
Lemma nth_error_rnth (x : list R) i a : nth_error x i = Some a -> a = rnth x i /\ (i < length x)%nat.
Proof. intro E. split; [symmetry; apply nth_error_nth; exact E|apply nth_error_Some; congruence]. Qed.

Lemma near_intro e (x y : list R) : length x = length y -> (forall j, (j < length x)%nat -> Rabs (rnth y j - rnth x j) <= e) -> near e x y.
Proof.
  intros L N. split; [exact L|]. intros i a b Ea Eb. apply nth_error_rnth in Ea, Eb. destruct Ea as [-> Ha], Eb as [-> _]. apply N. exact Ha.
Qed.

Lemma stands_scale c m s x axis T H K H0 K0 : 0 < c -> stands_out_by m s x axis T H K H0 K0 ->
  stands_out_by (c * m) s (map (Rmult c) x) axis T H K H0 K0.
Proof.
  intros Hc HS h k i i0 a a0 Ih Ik M M0 E E0 Ne. rewrite nth_error_map in E, E0.
  destruct (nth_error x i) as [b|] eqn:X; [|discriminate E]. destruct (nth_error x i0) as [b0|] eqn:X0; [|discriminate E0].
  cbn in E, E0. injection E as <-. injection E0 as <-.
  pose proof (HS h k i i0 b b0 Ih Ik M M0 X X0 Ne) as Q. apply (Rmult_lt_compat_l c _ _ Hc) in Q. lra.
Qed.

(** The general step: a record within [e], up to a positive factor, of one that identifies the crust. *)
Lemma near_recovers draw (g y : list R) c e dt l pre (p : R) pk (H K : list R) (Vp w1 w2 w3 : R) layer q (H0 K0 : R) :
  0 < dt -> (1 <= l)%nat -> 0 < c -> length y = length g -> (forall j, (j < length g)%nat -> Rabs (rnth y j - c * rnth g j) <= c * e) ->
  identifies (2 * e) g dt l pre Vp p H K H0 K0 -> 0 < w1 -> 0 < w2 -> 0 < w3 ->
  @hkSynth RN draw y (@uniform_axis RN dt l pre) p pk H K (Some Vp) (Some w1) (Some w2) (Some w3) layer = Ok q ->
  exists v, nth_error (hs_stk q) (hs_best q) = Some (@mkRow RN H0 K0 v).
Proof.
  intros Hd Hl Hc L N (I1 & I2 & HP & (S1 & S2 & S3) & HC & HR) P1 P2 P3 E.
  assert (Nr : near (c * e) (map (Rmult c) g) y).
  { apply near_intro; [rewrite map_length; lia|]. rewrite map_length. intros j Hj. rewrite rnth_map' by exact Hj. apply N. exact Hj. }
  assert (G : forall s T, s * s = 1 -> stands_out_by (2 * e) s g (@uniform_axis RN dt l pre) T H K H0 K0 -> stands_out s y (@uniform_axis RN dt l pre) T H K H0 K0).
  { intros s T Hs HS. apply (near_stands (c * e) s (map (Rmult c) g)); [exact Hs|exact Nr|].
    replace (2 * (c * e)) with (c * (2 * e)) by ring. apply stands_scale; assumption. }
  eapply (C123_hkSynth dt l pre Hd Hl draw y p pk H K Vp w1 w2 w3 layer q H0 K0 E); try assumption.
  split; [apply G; [lra|exact S1]|]. split; [apply G; [lra|exact S2]|apply G; [lra|exact S3]].
Qed.

(** ** C143 *)

(** Water-level deconvolution, no frequency of the source below the level: what identifies the crust in the
    ideal receiver function finds it in the computed one. *)
Theorem C143_water_exact uin win dt preonset wlevel gaussian normalize rf rms r s
    draw (p : R) pk (H K : list R) (Vp w1 w2 w3 : R) layer q (H0 K0 : R) :
  deconv_waterlevel uin win dt preonset wlevel gaussian normalize = Ok (rf, rms) -> 0 < dt ->
  let n := (2 ^ Nat.log2_up (length uin))%nat in
  preonset = dt * IZR s -> convolved dt n uin win r ->
  (forall k l, (k < n)%nat -> (l < n)%nat -> wlevel * Cnorm2 (dft n win l) <= Cnorm2 (dft n win k)) ->
  identifies 0 (ideal dt n gaussian r s (length uin)) dt (length uin) preonset Vp p H K H0 K0 ->
  0 < w1 -> 0 < w2 -> 0 < w3 ->
  @hkSynth RN draw rf (@uniform_axis RN dt (length uin) preonset) p pk H K (Some Vp) (Some w1) (Some w2) (Some w3) layer = Ok q ->
  exists v, nth_error (hs_stk q) (hs_best q) = Some (@mkRow RN H0 K0 v).
Proof.
  intros E Hdt n Hp HC HW ID P1 P2 P3 EQ.
  pose proof (C102_water_exact _ _ _ _ _ _ _ _ _ r s E Hp HC HW) as HR. fold n in HR.
  apply deconv_waterlevel_inv in E. destruct E as (M & D & R).
  pose proof (wr_lrf _ _ _ _ _ _ _ _ _ _ _ _ R) as L. destruct (wr_n2 _ _ _ _ _ _ _ _ _ _ _ _ R) as (m & Hm & En).
  assert (Hn : (0 < n)%nat) by (unfold n; lia).
  assert (L1 : (1 <= length uin)%nat). { destruct (Nat.eq_dec (length uin) 0) as [Z|]; [|lia]. unfold n in *. rewrite Z in En. cbn in En. lia. }
  set (c := if normalize then dt / rnth (gauss_pulse dt n gaussian) 0 else 1) in *.
  assert (Hc : 0 < c).
  { unfold c. destruct normalize; [|lra]. apply Rdiv_lt_0_compat; [exact Hdt|]. unfold gauss_pulse. rewrite rnth_map_seq by exact Hn.
    rewrite (rsum_ext n _ (gauss_gain dt n gaussian)).
    - apply Rmult_lt_0_compat; [apply Rinv_0_lt_compat, lt_0_INR; exact Hn|apply rsum_gain_pos; exact Hn].
    - intros k _. change (INR 0) with 0. replace (2 * PI * 0 * INR k / INR n) with 0 by (unfold Rdiv; ring). rewrite cos_0. ring. }
  assert (Lg : length (ideal dt n gaussian r s (length uin)) = length uin) by (unfold ideal; rewrite map_length, seq_length; reflexivity).
  apply (near_recovers draw (ideal dt n gaussian r s (length uin)) rf c 0 dt (length uin) preonset p pk H K Vp w1 w2 w3 layer q H0 K0); try assumption; try (rewrite Lg; exact L).
  - rewrite Lg. intros j Hj. unfold ideal. rewrite rnth_map_seq, HR by exact Hj. replace (c * rf_of dt n gaussian r s j - c * rf_of dt n gaussian r s j) with 0 by ring.
    rewrite Rabs_R0. lra.
  - replace (2 * 0) with 0 by ring. exact ID.
Qed.

(** In general, with a margin of twice what the water level takes away: at a frequency where the source power
    P is below the level, the fraction 1 - P/(wlevel * max power) of the arrivals' spectrum. *)
Definition taken (n : nat) (wlevel M : R) (win : list R) (k : nat) : R := Rmax 0 (1 - Cnorm2 (dft n win k) / (wlevel * M)).
(** The computed receiver function against the ideal one (the factor is the height of the Gaussian pulse when
    the program divides by it). *)
Definition rf_scale (normalize : bool) (dt : R) (n : nat) (gaussian : R) : R := if normalize then dt / rnth (gauss_pulse dt n gaussian) 0 else 1.
Lemma rf_scale_pos normalize dt n gaussian : 0 < dt -> (0 < n)%nat -> 0 < rf_scale normalize dt n gaussian.
Proof.
  intros Hdt Hn. unfold rf_scale. destruct normalize; [|lra]. apply Rdiv_lt_0_compat; [exact Hdt|]. unfold gauss_pulse. rewrite rnth_map_seq by exact Hn.
  rewrite (rsum_ext n _ (gauss_gain dt n gaussian)).
  - apply Rmult_lt_0_compat; [apply Rinv_0_lt_compat, lt_0_INR; exact Hn|apply rsum_gain_pos; exact Hn].
  - intros k _. change (INR 0) with 0. replace (2 * PI * 0 * INR k / INR n) with 0 by (unfold Rdiv; ring). rewrite cos_0. ring.
Qed.
Definition loss_of (dt : R) (n : nat) (gaussian wlevel M : R) (win r : list R) : R :=
  / INR n * rsum n (fun k => taken n wlevel M win k * gauss_gain dt n gaussian k * sqrt (Cnorm2 (dft n r k))).
Lemma water_near uin win dt preonset wlevel gaussian normalize rf rms r s M :
  deconv_waterlevel uin win dt preonset wlevel gaussian normalize = Ok (rf, rms) -> 0 < dt ->
  let n := (2 ^ Nat.log2_up (length uin))%nat in
  preonset = dt * IZR s -> convolved dt n uin win r -> max_power n (dft n win) M ->
  let c := rf_scale normalize dt n gaussian in
  (1 <= length uin)%nat /\ (0 < n)%nat /\ length rf = length uin /\
  forall j, (j < length uin)%nat -> Rabs (rnth rf j - c * rf_of dt n gaussian r s j) <= c * loss_of dt n gaussian wlevel M win r.
Proof.
  intros E Hdt n Hp HC HM c.
  destruct (C102_water _ _ _ _ _ _ _ _ _ r s E Hp HC) as (M' & att & HM' & HA & HR). fold n in HM', HA, HR.
  assert (M' = M) as ->.
  { destruct HM as [U (k & Hk & Ek)], HM' as [U' (k' & Hk' & Ek')]. apply Rle_antisym; [rewrite <- Ek'; apply U; exact Hk'|rewrite <- Ek; apply U'; exact Hk]. }
  apply deconv_waterlevel_inv in E. destruct E as (M0 & D & R).
  pose proof (wr_lrf _ _ _ _ _ _ _ _ _ _ _ _ R) as L. destruct (wr_n2 _ _ _ _ _ _ _ _ _ _ _ _ R) as (m & Hm & En).
  assert (Hn : (0 < n)%nat) by (unfold n; lia). assert (HnR : 0 < INR n) by (apply lt_0_INR; exact Hn).
  assert (L1 : (1 <= length uin)%nat). { destruct (Nat.eq_dec (length uin) 0) as [Z|]; [|lia]. unfold n in *. rewrite Z in En. cbn in En. lia. }
  assert (Hc : 0 < c) by (apply rf_scale_pos; assumption).
  fold (rf_scale normalize dt n gaussian) in HR. fold c in HR.
  split; [exact L1|]. split; [exact Hn|]. split; [exact L|].
  intros j Hj. rewrite HR, rf_of_synth by assumption.
  set (G := fun k => (RtoC (gauss_gain dt n gaussian k) * dft n r k * W n (- (s * Z.of_nat k)))%C).
  assert (Eq : c * synth n (fun k => (RtoC (att k) * (RtoC (gauss_gain dt n gaussian k) * dft n r k * W n (- (s * Z.of_nat k))))%C) j - c * synth n G j
    = c * synth n (fun k => (RtoC (att k - 1) * G k)%C) j).
  { rewrite <- Rmult_minus_distr_l. f_equal. unfold synth. rewrite <- Rmult_minus_distr_l. f_equal. rewrite rsum_diff. apply rsum_ext. intros k _. unfold G.
    set (z := (RtoC (gauss_gain dt n gaussian k) * dft n r k * W n (- (s * Z.of_nat k)))%C). destruct z as [zr zi]. destruct (W n (Z.of_nat j * Z.of_nat k)) as [wr wi].
    cunf. ring. }
  rewrite Eq, Rabs_mult, (Rabs_right c) by lra. apply Rmult_le_compat_l; [lra|].
  eapply Rle_trans; [apply synth_abs; exact Hn|]. unfold loss_of. apply Rmult_le_compat_l; [apply Rlt_le, Rinv_0_lt_compat; exact HnR|].
  apply rsum_le. intros k Hk. unfold G. rewrite !Cnorm2_mul, W_norm, !Cnorm2_real, Rmult_1_r.
  destruct (HA k Hk) as ((A0 & A1) & A2 & A3). pose proof (gauss_gain_pos dt n gaussian k) as Gp.
  pose proof (Cnorm2_pos (dft n win k)) as Pw. pose proof (Cnorm2_pos (dft n r k)) as Pr.
  set (g := gauss_gain dt n gaussian k) in *. set (Q := Cnorm2 (dft n r k)) in *.
  replace ((att k - 1) * (att k - 1) * (g * g * Q)) with (Rsqr ((1 - att k) * g) * Q) by (unfold Rsqr; ring).
  rewrite sqrt_mult by (try apply Rle_0_sqr; exact Pr). rewrite sqrt_Rsqr by (apply Rmult_le_pos; lra).
  apply Rmult_le_compat_r; [apply sqrt_pos|]. apply Rmult_le_compat_r; [lra|]. unfold taken.
  destruct (Rle_or_lt (wlevel * M) (Cnorm2 (dft n win k))) as [X|X].
  - rewrite (A2 X). pose proof (Rmax_l 0 (1 - Cnorm2 (dft n win k) / (wlevel * M))). lra.
  - rewrite (A3 X). apply Rmax_r.
Qed.

Theorem C143_water uin win dt preonset wlevel gaussian normalize rf rms r s M
    draw (p : R) pk (H K : list R) (Vp w1 w2 w3 : R) layer q (H0 K0 : R) :
  deconv_waterlevel uin win dt preonset wlevel gaussian normalize = Ok (rf, rms) -> 0 < dt ->
  let n := (2 ^ Nat.log2_up (length uin))%nat in
  preonset = dt * IZR s -> convolved dt n uin win r -> max_power n (dft n win) M ->
  let loss := / INR n * rsum n (fun k => taken n wlevel M win k * gauss_gain dt n gaussian k * sqrt (Cnorm2 (dft n r k))) in
  identifies (2 * loss) (ideal dt n gaussian r s (length uin)) dt (length uin) preonset Vp p H K H0 K0 ->
  0 < w1 -> 0 < w2 -> 0 < w3 ->
  @hkSynth RN draw rf (@uniform_axis RN dt (length uin) preonset) p pk H K (Some Vp) (Some w1) (Some w2) (Some w3) layer = Ok q ->
  exists v, nth_error (hs_stk q) (hs_best q) = Some (@mkRow RN H0 K0 v).
Proof.
  intros E Hdt n Hp HC HM loss ID P1 P2 P3 EQ.
  destruct (water_near _ _ _ _ _ _ _ _ _ r s M E Hdt Hp HC HM) as (L1 & Hn & L & N). fold n in Hn, N.
  assert (Lg : length (ideal dt n gaussian r s (length uin)) = length uin) by (unfold ideal; rewrite map_length, seq_length; reflexivity).
  apply (near_recovers draw (ideal dt n gaussian r s (length uin)) rf (rf_scale normalize dt n gaussian) loss dt (length uin) preonset p pk H K Vp w1 w2 w3 layer q H0 K0);
    try assumption; try (rewrite Lg; exact L).
  - apply rf_scale_pos; assumption.
  - rewrite Lg. intros j Hj. unfold ideal. rewrite rnth_map_seq by exact Hj. apply N. exact Hj.
Qed.

(** Iterative deconvolution, with a margin of twice the misfit guaranteed by C102. *)
Theorem C143_iterative uin win dt preonset gaussian itmax minderr phase rf rms it mu m0 r
    draw (p : R) pk (H K : list R) (Vp w1 w2 w3 : R) layer q (H0 K0 : R) :
  deconv_iterative uin win dt None preonset gaussian itmax minderr phase = Ok (rf, rms, it) -> (0 < it)%nat -> 0 < dt ->
  let n := (2 ^ Nat.log2_up (length uin))%nat in
  let lim := (if String.eqb phase "P" then n / 2 - 1 else n)%nat in
  let u := gfilt dt n gaussian uin in let w := gfilt dt n gaussian win in
  spikes_below n lim r -> convolved dt n uin win r ->
  0 < mu -> (forall k, (k < n)%nat -> mu <= Cnorm2 (dft n w k)) ->
  0 < m0 -> (forall k, (k < n)%nat -> m0 <= Cnorm2 (dft n win k)) ->
  let rate := mu / (INR lim * ssq n (rnth w)) in
  let size := ssq n (rnth u) / (dt * dt * m0) in
  let margin := 2 * sqrt (if (it <? itmax)%nat then minderr / (100 * rate) * size else (1 - rate) ^ it * size) in
  identifies margin (ideal dt n gaussian r (Rtrunc (preonset / dt)) (length uin)) dt (length uin) preonset Vp p H K H0 K0 ->
  0 < w1 -> 0 < w2 -> 0 < w3 ->
  @hkSynth RN draw rf (@uniform_axis RN dt (length uin) preonset) p pk H K (Some Vp) (Some w1) (Some w2) (Some w3) layer = Ok q ->
  exists v, nth_error (hs_stk q) (hs_best q) = Some (@mkRow RN H0 K0 v).
Proof.
  intros E Hit Hdt n lim u w Hr HC Hmu HB Hm0 HB0 rate size margin ID P1 P2 P3 EQ.
  destruct (C102_iterative _ _ _ _ _ _ _ _ _ _ _ mu m0 r E Hit Hr HC Hmu HB Hm0 HB0) as (_ & _ & E1 & E2).
  fold n in E1, E2. fold lim in E1, E2. fold u w in E1, E2. fold rate in E1, E2. fold size in E1, E2.
  destruct (C37_spikes _ _ _ _ _ _ _ _ _ _ _ E) as (Hmx & L & _).
  set (err := ssq (length uin) (fun j => rnth rf j - rf_of dt n gaussian r (Rtrunc (preonset / dt)) j)) in *.
  assert (EB : err <= (if (it <? itmax)%nat then minderr / (100 * rate) * size else (1 - rate) ^ it * size)).
  { destruct (Nat.ltb_spec it itmax) as [X|X]; [apply E2; exact X|exact E1]. }
  set (B := (if (it <? itmax)%nat then minderr / (100 * rate) * size else (1 - rate) ^ it * size)) in *.
  assert (L1 : (1 <= length uin)%nat).
  { destruct (Nat.eq_dec (length uin) 0) as [Z|]; [|lia]. exfalso.
    apply deconv_iterative_inv in E; [|reflexivity]. destruct E as (n0 & Ps & R).
    pose proof (run_pu _ _ _ _ _ _ _ _ _ _ _ _ _ R Hit) as Hpu.
    assert (AZ : uin = []) by (destruct uin; [reflexivity|discriminate Z]). rewrite AZ in Hpu.
    assert (Z0 : ssq n0 (rnth (gfilt dt n0 gaussian [])) = 0).
    { unfold ssq. apply rsum_nil. intros j Hj. rewrite gfilt_nth by exact Hj. unfold cconv. rewrite (rsum_nil n0); [ring|].
      intros i Hi. rewrite zpad_nth by exact Hi. unfold rnth at 1. destruct i; cbn; ring. }
    lra. }
  assert (B0 : 0 <= B). { eapply Rle_trans; [|exact EB]. unfold err. apply ssq_nonneg. }
  assert (Lg : length (ideal dt n gaussian r (Rtrunc (preonset / dt)) (length uin)) = length uin) by (unfold ideal; rewrite map_length, seq_length; reflexivity).
  apply (near_recovers draw (ideal dt n gaussian r (Rtrunc (preonset / dt)) (length uin)) rf 1 (sqrt B) dt (length uin) preonset p pk H K Vp w1 w2 w3 layer q H0 K0); try assumption; try lra; try (rewrite Lg; exact L).
  rewrite Lg. intros j Hj. unfold ideal. rewrite rnth_map_seq, !Rmult_1_l by exact Hj.
  set (f := fun j => rnth rf j - rf_of dt n gaussian r (Rtrunc (preonset / dt)) j) in *.
  change (Rabs (f j) <= sqrt B). rewrite <- sqrt_Rsqr_abs. apply sqrt_le_1_alt. eapply Rle_trans; [|exact EB].
  unfold err, ssq, Rsqr. replace (length uin) with (j + S (length uin - S j))%nat by lia. rewrite rsum_split.
  assert (0 <= rsum j (fun i => f i * f i)) by (apply rsum_nonneg; intros; apply Rle_0_sqr).
  replace (S (length uin - S j)) with (1 + (length uin - S j))%nat by lia. rewrite rsum_split. cbn [rsum].
  assert (0 <= rsum (length uin - S j) (fun i => f (j + (1 + i))%nat * f (j + (1 + i))%nat)) by (apply rsum_nonneg; intros; apply Rle_0_sqr).
  rewrite !Nat.add_0_r. lra.
Qed.

(** Enough iterations find every crust that the ideal receiver function identifies by a positive margin,
    whatever the pre-onset, the grid, the velocity and the slowness. *)
Theorem C143_limit uin win dt gaussian phase r :
  length uin = length win -> 0 < dt -> ~ all_zero uin ->
  let n := (2 ^ Nat.log2_up (length uin))%nat in
  let lim := (if String.eqb phase "P" then n / 2 - 1 else n)%nat in
  (forall k, (k < n)%nat -> dft n win k <> C0) ->
  spikes_below n lim r -> convolved dt n uin win r ->
  forall m, 0 < m -> exists N, forall itmax preonset minderr rf rms it draw (p : R) pk (H K : list R) (Vp w1 w2 w3 : R) layer q (H0 K0 : R),
    (N <= itmax)%nat -> minderr <= 0 ->
    deconv_iterative uin win dt None preonset gaussian itmax minderr phase = Ok (rf, rms, it) ->
    identifies m (ideal dt n gaussian r (Rtrunc (preonset / dt)) (length uin)) dt (length uin) preonset Vp p H K H0 K0 ->
    0 < w1 -> 0 < w2 -> 0 < w3 ->
    @hkSynth RN draw rf (@uniform_axis RN dt (length uin) preonset) p pk H K (Some Vp) (Some w1) (Some w2) (Some w3) layer = Ok q ->
    exists v, nth_error (hs_stk q) (hs_best q) = Some (@mkRow RN H0 K0 v).
Proof.
  intros EL Hdt Hu n lim Hsp Hr HC m Hm.
  destruct (C102_limit uin win dt gaussian phase r EL ltac:(lra) Hu Hsp Hr HC (m / 2) ltac:(lra)) as [N HN].
  exists N. intros itmax preonset minderr rf rms it draw p pk H K Vp w1 w2 w3 layer q H0 K0 HI Hmin E ID P1 P2 P3 EQ.
  specialize (HN itmax preonset minderr rf rms it HI Hmin E). fold n in HN.
  destruct (C37_spikes _ _ _ _ _ _ _ _ _ _ _ E) as (_ & L & _).
  assert (L1 : (1 <= length uin)%nat) by (destruct uin; [exfalso; apply Hu; intro j; destruct j; reflexivity|cbn; lia]).
  assert (Lg : length (ideal dt n gaussian r (Rtrunc (preonset / dt)) (length uin)) = length uin) by (unfold ideal; rewrite map_length, seq_length; reflexivity).
  apply (near_recovers draw (ideal dt n gaussian r (Rtrunc (preonset / dt)) (length uin)) rf 1 (m / 2) dt (length uin) preonset p pk H K Vp w1 w2 w3 layer q H0 K0); try assumption; try lra; try (rewrite Lg; exact L).
  - rewrite Lg. intros j Hj. unfold ideal. rewrite rnth_map_seq, !Rmult_1_l by exact Hj. apply HN. exact Hj.
  - replace (2 * (m / 2)) with m by field. exact ID.
Qed.

(** ** How sharp the ideal receiver function is *)
Lemma gain_near_1 dt n a k : 0 < dt -> 0 < a -> (k < n)%nat -> 0 <= 1 - gauss_gain dt n a k <= (PI / (2 * a * dt)) ^ 2.
Proof.
  intros Hd Ha Hk. unfold gauss_gain. cbv zeta. set (w := 2 * PI * (INR (Nat.min k (n - k)) / (INR n * dt))).
  assert (HnR : 0 < INR n) by (apply lt_0_INR; lia). pose proof PI_RGT_0 as HP.
  assert (Hm : 2 * INR (Nat.min k (n - k)) <= INR n). { rewrite <- (mult_INR 2). apply le_INR. lia. }
  assert (Hm0 : 0 <= INR (Nat.min k (n - k))) by apply pos_INR.
  assert (W0 : 0 <= w <= PI / dt).
  { unfold w. assert (Q : 0 <= INR (Nat.min k (n - k)) / INR n <= 1 / 2).
    { split; [apply Rmult_le_pos; [exact Hm0|apply Rlt_le, Rinv_0_lt_compat; exact HnR]|].
      apply Rmult_le_reg_r with (INR n); [exact HnR|]. unfold Rdiv. rewrite Rmult_assoc, Rinv_l by lra. lra. }
    replace (2 * PI * (INR (Nat.min k (n - k)) / (INR n * dt))) with (PI / dt * (2 * (INR (Nat.min k (n - k)) / INR n))) by (field; lra).
    assert (0 < PI / dt) by (apply Rdiv_lt_0_compat; lra). split; [apply Rmult_le_pos; lra|].
    rewrite <- (Rmult_1_r (PI / dt)) at 2. apply Rmult_le_compat_l; lra. }
  set (z := w / (2 * a)). assert (Z : 0 <= z <= PI / (2 * a * dt)).
  { unfold z. assert (0 < / (2 * a)) by (apply Rinv_0_lt_compat; lra). split; [apply Rmult_le_pos; lra|].
    replace (PI / (2 * a * dt)) with (PI / dt * / (2 * a)) by (field; lra). unfold Rdiv at 1. apply Rmult_le_compat_r; lra. }
  assert (Z2 : z ^ 2 <= (PI / (2 * a * dt)) ^ 2) by (apply pow_incr; exact Z).
  assert (Zp : 0 <= z ^ 2) by apply pow2_ge_0.
  pose proof (exp_ineq1_le (- z ^ 2)) as X. split; [|lra].
  assert (exp (- z ^ 2) <= 1). { rewrite <- exp_0. destruct (Req_dec (z ^ 2) 0) as [-> |]; [rewrite Ropp_0; lra|left; apply exp_increasing; lra]. }
  lra.
Qed.

Lemma Cmul_comm' (a b : C) : (a * b)%C = (b * a)%C. Proof. ring. Qed.
Lemma Cmul_assoc' (a b c : C) : (a * (b * c))%C = (a * b * c)%C. Proof. ring. Qed.
Lemma Cnorm_triang a b : sqrt (Cnorm2 (a + b)%C) <= sqrt (Cnorm2 a) + sqrt (Cnorm2 b).
Proof.
  pose proof (sqrt_pos (Cnorm2 a)) as Pa. pose proof (sqrt_pos (Cnorm2 b)) as Pb.
  pose proof (sqrt_sqrt (Cnorm2 a) (Cnorm2_pos a)) as Ea. pose proof (sqrt_sqrt (Cnorm2 b) (Cnorm2_pos b)) as Eb.
  set (x := sqrt (Cnorm2 a)) in *. set (y := sqrt (Cnorm2 b)) in *.
  rewrite <- (sqrt_Rsqr (x + y)) by lra. apply sqrt_le_1_alt. unfold Rsqr.
  destruct a as [a1 a2]. destruct b as [b1 b2]. cunf.
  assert (Q : a1 * b1 + a2 * b2 <= x * y).
  { apply Rsqr_incr_0_var; [|apply Rmult_le_pos; assumption]. unfold Rsqr.
    replace (x * y * (x * y)) with ((x * x) * (y * y)) by ring. rewrite Ea, Eb.
    pose proof (Rle_0_sqr (a1 * b2 - a2 * b1)) as Z. unfold Rsqr in Z. lra. }
  lra.
Qed.
Lemma csum_norm n f : sqrt (Cnorm2 (csum n f)) <= rsum n (fun i => sqrt (Cnorm2 (f i))).
Proof.
  induction n as [|n IH]; cbn [csum rsum].
  - cunf. replace (0 * 0 + 0 * 0) with 0 by ring. rewrite sqrt_0. lra.
  - eapply Rle_trans; [apply Cnorm_triang|]. lra.
Qed.
Lemma synth_delayed n r (s : Z) j : (0 < n)%nat -> synth n (fun k => (dft n r k * W n (- (s * Z.of_nat k)))%C) j = rnth r (circ n j s).
Proof.
  intro Hn. assert (HnR : INR n <> 0) by (apply not_0_INR; lia). unfold synth. rewrite <- Re_csum.
  rewrite (csum_ext n _ (fun k => csum n (fun i => RtoC (rnth r i) * W n ((Z.of_nat j - Z.of_nat i - s) * Z.of_nat k))%C)).
  2:{ intros k Hk. unfold dft. rewrite <- Cmul_assoc', Cmul_comm', <- csum_scale. apply csum_ext. intros i Hi.
      replace ((Z.of_nat j - Z.of_nat i - s) * Z.of_nat k)%Z with (- (Z.of_nat i * Z.of_nat k) + (- (s * Z.of_nat k) + Z.of_nat j * Z.of_nat k))%Z by ring.
      rewrite !W_add. ring. }
  rewrite csum_swap.
  rewrite (csum_ext n _ (fun i => RtoC (INR n) * (RtoC (rnth r i) * (if ((Z.of_nat j - Z.of_nat i - s) mod Z.of_nat n =? 0)%Z then C1 else C0)))%C).
  2:{ intros i Hi. rewrite csum_scale, W_orth by exact Hn. destruct (_ =? _)%Z; ring. }
  rewrite csum_scale, (csum_shift_pick n j s (fun m => RtoC (rnth r m)) Hn). cunf. field. exact HnR.
Qed.

Lemma dft_bound n x k : (0 < n)%nat -> sqrt (Cnorm2 (dft n x k)) <= rsum n (fun i => Rabs (rnth x i)).
Proof.
  intros _. eapply Rle_trans; [unfold dft; apply csum_norm|]. apply rsum_le. intros i _.
  rewrite Cnorm2_mul, W_norm, Cnorm2_real, Rmult_1_r. change (rnth x i * rnth x i) with (Rsqr (rnth x i)). rewrite sqrt_Rsqr_abs. lra.
Qed.

(** The ideal receiver function shows the arrivals themselves, up to the square of (pi / (2 a dt)) times
    the sum of their sizes. *)
Lemma rf_of_sharp dt n a r s j : 0 < dt -> 0 < a -> (0 < n)%nat ->
  Rabs (rf_of dt n a r s j - rnth r (circ n j s)) <= (PI / (2 * a * dt)) ^ 2 * rsum n (fun i => Rabs (rnth r i)).
Proof.
  intros Hd Ha Hn. assert (HnR : 0 < INR n) by (apply lt_0_INR; exact Hn).
  rewrite rf_of_synth, <- (synth_delayed n r s j) by exact Hn.
  assert (Eq : synth n (fun k => (RtoC (gauss_gain dt n a k) * dft n r k * W n (- (s * Z.of_nat k)))%C) j - synth n (fun k => (dft n r k * W n (- (s * Z.of_nat k)))%C) j
    = synth n (fun k => (RtoC (gauss_gain dt n a k - 1) * (dft n r k * W n (- (s * Z.of_nat k))))%C) j).
  { unfold synth. rewrite <- Rmult_minus_distr_l. f_equal. rewrite rsum_diff. apply rsum_ext. intros k _.
    destruct (dft n r k) as [zr zi]. destruct (W n (- (s * Z.of_nat k))) as [ur ui]. destruct (W n (Z.of_nat j * Z.of_nat k)) as [wr wi]. cunf. ring. }
  rewrite Eq. eapply Rle_trans; [apply synth_abs; exact Hn|]. set (B := (PI / (2 * a * dt)) ^ 2 * rsum n (fun i => Rabs (rnth r i))).
  assert (HB : forall k, (k < n)%nat -> sqrt (Cnorm2 (RtoC (gauss_gain dt n a k - 1) * (dft n r k * W n (- (s * Z.of_nat k))))%C) <= B).
  { intros k Hk. rewrite !Cnorm2_mul, W_norm, Cnorm2_real, Rmult_1_r. pose proof (gain_near_1 dt n a k Hd Ha Hk) as G.
    set (g := gauss_gain dt n a k) in *. replace ((g - 1) * (g - 1) * Cnorm2 (dft n r k)) with (Rsqr (1 - g) * Cnorm2 (dft n r k)) by (unfold Rsqr; ring).
    rewrite sqrt_mult by (try apply Rle_0_sqr; apply Cnorm2_pos). rewrite sqrt_Rsqr by lra. unfold B.
    apply Rmult_le_compat; [lra|apply sqrt_pos|apply G|apply dft_bound; exact Hn]. }
  apply Rle_trans with (/ INR n * rsum n (fun _ => B)).
  - apply Rmult_le_compat_l; [apply Rlt_le, Rinv_0_lt_compat; exact HnR|apply rsum_le; exact HB].
  - assert (E : rsum n (fun _ => B) = INR n * B). { clearbody B. clear. induction n as [|n IH]; [simpl; ring|]. cbn [rsum]. rewrite IH, S_INR. ring. }
    rewrite E, <- Rmult_assoc, Rinv_l, Rmult_1_l by lra. apply Rle_refl.
Qed.

(** ** A concrete case *)
Definition dx_win : list R := [2; 1; 0; 0; 0; 0; 0; 0; 0; 0; 0; 0; 0; 0; 0; 0].
Definition dx_uin : list R := [2; 2; 1 / 2; 1 / 2; - (1 / 4); - (1 / 4); 0; 0; 0; 0; 0; 0; 0; 0; 0; 0].
Definition dx_r : list R := [1; 1 / 2; 0; 1 / 4; - (1 / 4); 0; 0; 0; 0; 0; 0; 0; 0; 0; 0; 0].
Definition dx_seen : list R := [0; 0; 1; 1 / 2; 0; 1 / 4; - (1 / 4); 0; 0; 0; 0; 0; 0; 0; 0; 0].

Lemma dft_21_16 k : dft 16 dx_win k <> C0.
Proof.
  intros E. apply (f_equal Re) in E. unfold dft in E. rewrite Re_csum in E. cbn [rsum] in E.
  unfold rnth, dx_win in E. cbn [nth] in E. rewrite !Re_scale in E. unfold W, cis, Re in E. cbn [fst] in E.
  change (Z.of_nat 0 * Z.of_nat k)%Z with 0%Z in E. rewrite Z.opp_0 in E.
  replace (2 * PI * 0 / INR 16) with 0 in E by (unfold Rdiv; ring). rewrite cos_0 in E.
  pose proof (COS_bound (2 * PI * IZR (- (Z.of_nat 1 * Z.of_nat k)) / INR 16)) as [B _]. change (fst C0) with 0 in E. lra.
Qed.
Lemma dx_convolved : convolved 1 16 dx_uin dx_win dx_r.
Proof.
  intros j Hj. unfold cconv. cbn [rsum]. nat_cases; repeat circ_compute; unfold dx_uin, dx_win, dx_r, rnth; cbn [nth]; lra.
Qed.
Lemma dx_near : near (1 / 1000) dx_seen (ideal 1 16 100 dx_r 2 16).
Proof.
  apply near_intro; [unfold ideal; rewrite map_length, seq_length; reflexivity|]. change (length dx_seen) with 16%nat. intros j Hj.
  unfold ideal. rewrite rnth_map_seq by exact Hj.
  assert (E : rnth dx_seen j = rnth dx_r (circ 16 j 2)).
  { nat_cases; repeat circ_compute; reflexivity. }
  rewrite E. eapply Rle_trans; [apply rf_of_sharp; lra || lia|].
  assert (S1 : rsum 16 (fun i => Rabs (rnth dx_r i)) = 2).
  { cbn [rsum]. unfold rnth, dx_r. cbn [nth]. rewrite Rabs_Ropp, !Rabs_R0, !Rabs_right by lra. lra. }
  rewrite S1. pose proof PI_4. pose proof PI_RGT_0.
  assert ((PI / (2 * 100 * 1)) ^ 2 <= (1 / 50) ^ 2) by (apply pow_incr; lra). lra.
Qed.
(** What identifies a crust still does in a record less than half the margin away. *)
Lemma near_identifies e m (x y : list R) dt l pre Vp p H K H0 K0 : near e x y ->
  identifies (m + 2 * e) x dt l pre Vp p H K H0 K0 -> identifies m y dt l pre Vp p H K H0 K0.
Proof.
  intros (L & N) (I1 & I2 & HP & (S1 & S2 & S3) & HC & HR).
  assert (G : forall s T, s = 1 \/ s = -1 -> stands_out_by (m + 2 * e) s x (@uniform_axis RN dt l pre) T H K H0 K0 -> stands_out_by m s y (@uniform_axis RN dt l pre) T H K H0 K0).
  { intros s T Hs HS h k i i0 a a0 Ih Ik M M0 E E0 Ne.
    destruct (nth_error x i) as [b|] eqn:X; [|apply nth_error_None in X; assert (nth_error y i = None) by (apply nth_error_None; lia); congruence].
    destruct (nth_error x i0) as [b0|] eqn:X0; [|apply nth_error_None in X0; assert (nth_error y i0 = None) by (apply nth_error_None; lia); congruence].
    pose proof (HS h k i i0 b b0 Ih Ik M M0 X X0 Ne) as Q.
    pose proof (N i b a X E) as A. pose proof (N i0 b0 a0 X0 E0) as A0.
    apply Rabs_def2b in A. apply Rabs_def2b in A0. destruct Hs as [-> | ->]; lra. }
  split; [exact I1|]. split; [exact I2|]. split; [exact HP|]. split; [|split; assumption].
  split; [apply G; [left; reflexivity|exact S1]|]. split; [apply G; [left; reflexivity|exact S2]|apply G; [right; reflexivity|exact S3]].
Qed.

(** The arrivals themselves, one sample each, delayed by [s] samples: with a margin for the width of the Gaussian
    pulse, what identifies the crust there does in the ideal receiver function. *)
Theorem C143_sharp dt n gaussian r s m l pre Vp p H K H0 K0 : 0 < dt -> 0 < gaussian -> (0 < n)%nat ->
  let width := (PI / (2 * gaussian * dt)) ^ 2 * rsum n (fun i => Rabs (rnth r i)) in
  identifies (m + 2 * width) (map (fun j => rnth r (circ n j s)) (seq 0 l)) dt l pre Vp p H K H0 K0 ->
  identifies m (ideal dt n gaussian r s l) dt l pre Vp p H K H0 K0.
Proof.
  intros Hd Ha Hn width. apply near_identifies. apply near_intro; [unfold ideal; rewrite !map_length; reflexivity|].
  rewrite map_length, seq_length. intros j Hj. unfold ideal. rewrite rnth_map_seq by exact Hj.
  rewrite (rnth_map_seq (fun j => rnth r (circ n j s))) by exact Hj. apply rf_of_sharp; assumption.
Qed.

Lemma dx_read m i : (m < 16)%nat -> @nearest_first RN (@uniform_axis RN 1 16 2) (INR m - 2) i -> i = m.
Proof.
  intros Hm N. apply (nearest_first_unique RN_laws _ _ i m N). apply (nearest_R_intro (@taxis RN 1 16 2) _ m (1 * INR m - 2)).
  - apply taxis_R_nth. exact Hm.
  - intros j tj _. replace (1 * INR m - 2 - (INR m - 2)) with 0 by ring. rewrite Rabs_R0. apply Rabs_pos.
  - intros j tj Hj Hn. apply taxis_R_inv in Hn. destruct Hn as [_ ->].
    replace (1 * INR m - 2 - (INR m - 2)) with 0 by ring. rewrite Rabs_R0.
    apply Rabs_pos_lt. assert (INR j < INR m) by (apply lt_INR; exact Hj). lra.
Qed.
Lemma dx_times h k : 0 <= k -> t_Ps 1 0 h k = h * (k - 1) /\ t_PpPs 1 0 h k = h * (k + 1) /\ t_PsPs 1 0 h k = 2 * h * k.
Proof. intro Hk. unfold t_Ps, t_PpPs, t_PsPs. rewrite ex_qp1, (ex_qs k Hk). repeat split; field. Qed.
Lemma dx_seen_identifies m : m < 1 / 4 -> identifies m dx_seen 1 16 2 1 0 [1; 2] [2; 3] 1 2.
Proof.
  intro Hm. destruct (dx_times 1 2 ltac:(lra)) as (G1 & G2 & G3).
  assert (I : forall (x : R) m i, x = INR m - 2 -> (m < 16)%nat -> @nearest_first RN (@uniform_axis RN 1 16 2) x i -> i = m) by (intros x n i -> Hn Hi; apply dx_read; assumption).
  assert (V : forall i a, nth_error dx_seen i = Some a -> a = rnth dx_seen i) by (intros i a E; apply nth_error_rnth in E; apply E).
  split; [left; reflexivity|]. split; [left; reflexivity|]. split.
  { unfold precritical. repeat split; try lra. }
  split; [split; [|split]|split].
  1-3: intros h k i i0 a a0 Ih Ik M M0 Ea Ea0 Ne; apply V in Ea; apply V in Ea0;
    destruct (dx_times h k ltac:(destruct Ik as [<-|[<-|[]]]; lra)) as (F1 & F2 & F3).
  + rewrite F1 in M. rewrite G1 in M0. apply (I _ 3%nat) in M0; [|simpl; field|lia]. subst i0.
    destruct Ih as [<-|[<-|[]]]; destruct Ik as [<-|[<-|[]]];
      [apply (I _ 3%nat) in M|apply (I _ 4%nat) in M|apply (I _ 4%nat) in M|apply (I _ 6%nat) in M]; try (simpl; field); try lia; subst i; try congruence;
      unfold rnth in Ea, Ea0; simpl in Ea, Ea0; lra.
  + rewrite F2 in M. rewrite G2 in M0. apply (I _ 5%nat) in M0; [|simpl; field|lia]. subst i0.
    destruct Ih as [<-|[<-|[]]]; destruct Ik as [<-|[<-|[]]];
      [apply (I _ 5%nat) in M|apply (I _ 6%nat) in M|apply (I _ 8%nat) in M|apply (I _ 10%nat) in M]; try (simpl; field); try lia; subst i; try congruence;
      unfold rnth in Ea, Ea0; simpl in Ea, Ea0; lra.
  + rewrite F3 in M. rewrite G3 in M0. apply (I _ 6%nat) in M0; [|simpl; field|lia]. subst i0.
    destruct Ih as [<-|[<-|[]]]; destruct Ik as [<-|[<-|[]]];
      [apply (I _ 6%nat) in M|apply (I _ 8%nat) in M|apply (I _ 10%nat) in M|apply (I _ 14%nat) in M]; try (simpl; field); try lia; subst i; try congruence;
      unfold rnth in Ea, Ea0; simpl in Ea, Ea0; lra.
  + intros h k Ih Ik. destruct (dx_times h k ltac:(destruct Ik as [<-|[<-|[]]]; lra)) as (-> & -> & ->).
    unfold covered. change (16 - 1)%nat with 15%nat. rewrite (INR_IZR_INZ 15). simpl (IZR (Z.of_nat 15)).
    destruct Ih as [<-|[<-|[]]]; destruct Ik as [<-|[<-|[]]]; lra.
  + exact ex_res.
Qed.
Lemma dx_identifies m : m <= 1 / 5 -> identifies m (ideal 1 16 100 dx_r 2 16) 1 16 2 1 0 [1; 2] [2; 3] 1 2.
Proof.
  intro Hm. eapply (near_identifies (1 / 1000)); [exact dx_near|]. apply dx_seen_identifies. lra.
Qed.

Lemma dx_not_zero : ~ all_zero dx_win /\ ~ all_zero dx_uin.
Proof. split; intro A; specialize (A 0%nat); unfold rnth in A; cbn in A; lra. Qed.
Lemma dx_searched rf : length rf = 16%nat -> exists q,
  @hkSynth RN (@pyplot RN) rf (@uniform_axis RN 1 16 2) 0 NpF [1; 2] [2; 3] (Some 1) (Some 1) (Some 1) (Some 1) None = Ok q.
Proof.
  intro L. eapply (drawn_R (@pyplot RN) [2; 3] [1; 2] _ hs_stk ex_pyplot).
  eapply (C77_hkSynth_completes RN (@pyplot RN) rf (@uniform_axis RN 1 16 2) 0 NpF [1; 2] [2; 3] (Some 1) (Some 1) (Some 1) (Some 1) None); try discriminate.
  - change (length (@uniform_axis RN 1%R 16 2%R) <= length rf)%nat. rewrite L. unfold uniform_axis. rewrite map_length, seq_length. apply le_n.
  - cbn [dflt]. simpl. unfold Reqb. destruct (Req_EM_T 1 0) as [C|]; [lra|reflexivity].
Qed.

(** The water-level route on this record, and the iterative one with enough iterations. *)
Theorem C143_example : 
  (exists rf rms q v, deconv_waterlevel dx_uin dx_win 1 2 0 100 true = Ok (rf, rms) /\
     @hkSynth RN (@pyplot RN) rf (@uniform_axis RN 1 16 2) 0 NpF [1; 2] [2; 3] (Some 1) (Some 1) (Some 1) (Some 1) None = Ok q /\
     nth_error (hs_stk q) (hs_best q) = Some (@mkRow RN 1 2 v)) /\
  (exists itmax rf rms it q v, deconv_iterative dx_uin dx_win 1 None 2 100 itmax 0 "P" = Ok (rf, rms, it) /\
     @hkSynth RN (@pyplot RN) rf (@uniform_axis RN 1 16 2) 0 NpF [1; 2] [2; 3] (Some 1) (Some 1) (Some 1) (Some 1) None = Ok q /\
     nth_error (hs_stk q) (hs_best q) = Some (@mkRow RN 1 2 v)).
Proof.
  destruct dx_not_zero as [Zw Zu]. split.
  - assert (T2 : (2 <= length dx_uin)%nat) by (cbn; lia). assert (NZ : (1 <> 0 /\ 100 <> 0)%R) by lra.
    destruct (C41_returns dx_uin dx_win 1 2 0 100 true eq_refl T2 (proj1 NZ) (proj2 NZ) Zw (or_intror (fun k _ => dft_21_16 k))) as (rf & rms & E).
    pose proof E as E'. apply deconv_waterlevel_inv in E'. destruct E' as (M & D & R). pose proof (wr_lrf _ _ _ _ _ _ _ _ _ _ _ _ R) as L.
    destruct (dx_searched rf L) as [q EQ]. exists rf, rms, q.
    destruct (C143_water_exact dx_uin dx_win 1 2 0 100 true rf rms dx_r 2 (@pyplot RN) 0 NpF [1; 2] [2; 3] 1 1 1 1 None q 1 2 E Rlt_0_1 ltac:(lra) dx_convolved) as [v Ev];
      [intros k l _ _; rewrite Rmult_0_l; apply Cnorm2_pos|apply dx_identifies; lra|exact Rlt_0_1|exact Rlt_0_1|exact Rlt_0_1|exact EQ|].
     exists v. split; [exact E|]. split; [exact EQ|exact Ev].
  - assert (SB : spikes_below 16 7 dx_r).
    { split; [reflexivity|]. intros k Hk. do 16 (destruct k as [|k]; [first [lia|reflexivity]|]). apply rnth_over'. cbn. lia. }
    destruct (C143_limit dx_uin dx_win 1 100 "P" dx_r eq_refl ltac:(lra) Zu (fun k _ => dft_21_16 k) SB dx_convolved (1 / 5) ltac:(lra)) as [N HN].
    assert (T2 : Rtrunc (2 / 1) = 2%Z) by (replace (2 / 1) with (IZR 2) by field; apply Rtrunc_Z).
    assert (T3 : (2 <= length dx_uin)%nat /\ (3 <= length dx_uin)%nat) by (cbn; lia). assert (NZ : (1 <> 0 /\ 100 <> 0)%R) by lra.
    destruct (C37_returns dx_uin dx_win 1 2 100 N 0 "P" eq_refl (proj1 T3) (fun _ => proj2 T3) (proj1 NZ) (proj2 NZ) Zu Zw) as (rf & rms & it & E & _).
    + rewrite T2. vm_compute. discriminate.
    + destruct (C37_spikes _ _ _ _ _ _ _ _ _ _ _ E) as (_ & L & _). destruct (dx_searched rf L) as [q EQ].
      destruct (HN N 2 0 rf rms it (@pyplot RN) 0 NpF [1; 2] [2; 3] 1 1 1 1 None q 1 2 (le_n N) (Rle_refl 0) E) as [v Ev];
        [rewrite T2; apply dx_identifies; lra|exact Rlt_0_1|exact Rlt_0_1|exact Rlt_0_1|exact EQ|].
       exists N, rf, rms, it, q, v. split; [exact E|]. split; [exact EQ|exact Ev].
Qed.
