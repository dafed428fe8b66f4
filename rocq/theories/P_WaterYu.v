(** * P_WaterYu: from a noisy seismogram of a crust below sediment through water-level deconvolution and
    reverberation filter to the crust (C151). *)

From Coq Require Import Reals Lra Lia.
From Verif Require Import Base Num NumPy Spec HkModel HkProofs HkReal HkFacts HkFacts2 HkFacts4 P_Hk DrawSpec P_Hk2 P_Hk3 P_Hk4 P_Hk5 P_Hk6 P_HkEx P_Hk7 P_Noise.
From Verif Require Import P_Float3.
From Verif Require Import Cplx DFT DFT2 SpecSignal SpecConv LeastSquares ReverbModel ReverbProofs ReverbProofs2 P_Reverb P_Reverb2 P_Reverb3 P_Reverb5 P_Reverb6 P_Reverb7 P_Reverb8 DeconModel DeconProofs
  DeconProofs2 DeconProofs3 DeconProofs4 DeconProofs5 DeconConv P_Decon P_Decon2 P_Conv P_Shift P_WlNoise P_DeconHk P_DeconHkNoise P_IterNoise P_IterYu.
Local Open Scope R_scope.

(** The root-sum-square of what the water level takes away from the arrivals [r] (by Parseval). *)
Definition removed (dt : R) (n : nat) (gaussian wlevel M : R) (win r : list R) : R :=
  sqrt (/ INR n * rsum n (fun k => (taken n wlevel M win k * gauss_gain dt n gaussian k) ^ 2 * Cnorm2 (dft n r k))).
(** The ideal receiver function in the units in use. *)
Definition scaled (c : R) (x : list R) : list R := map (Rmult c) x.

Lemma rnth_scaled c x j : rnth (scaled c x) j = c * rnth x j.
Proof. unfold scaled, rnth. rewrite <- (Rmult_0_r c) at 1. apply map_nth. Qed.

Lemma water_l2 uin win dt preonset wlevel gaussian normalize rf rms r s M :
  deconv_waterlevel uin win dt preonset wlevel gaussian normalize = Ok (rf, rms) -> 0 < dt ->
  let n := (2 ^ Nat.log2_up (length uin))%nat in
  preonset = dt * IZR s -> convolved dt n uin win r -> max_power n (dft n win) M ->
  let c := rf_scale normalize dt n gaussian in
  (0 < n)%nat /\ length rf = length uin /\
  nrm (length uin) (fun j => rnth rf j - c * rf_of dt n gaussian r s j) <= c * removed dt n gaussian wlevel M win r.
Proof.
  intros E Hdt n Hp HC HM c.
  destruct (C102_water _ _ _ _ _ _ _ _ _ r s E Hp HC) as (M' & att & HM' & HA & HR). fold n in HM', HA, HR.
  assert (M' = M) as ->.
  { destruct HM as [U (k & Hk & Ek)], HM' as [U' (k' & Hk' & Ek')]. apply Rle_antisym; [rewrite <- Ek'; apply U; exact Hk'|rewrite <- Ek; apply U'; exact Hk]. }
  apply deconv_waterlevel_inv in E. destruct E as (M0 & D & R).
  pose proof (wr_lrf _ _ _ _ _ _ _ _ _ _ _ _ R) as L. pose proof (wr_le _ _ _ _ _ _ _ _ _ _ _ _ R) as Hle. fold n in Hle.
  destruct (wr_n2 _ _ _ _ _ _ _ _ _ _ _ _ R) as (m & Hm & En).
  assert (Hn : (0 < n)%nat) by (unfold n; lia). assert (HnR : 0 < INR n) by (apply lt_0_INR; exact Hn).
  assert (Hc : 0 < c) by (apply rf_scale_pos; assumption).
  fold (rf_scale normalize dt n gaussian) in HR. fold c in HR.
  split; [exact Hn|]. split; [exact L|].
  set (G := fun k => (RtoC (gauss_gain dt n gaussian k) * dft n r k * W n (- (s * Z.of_nat k)))%C).
  set (F := fun k => (RtoC (att k - 1) * G k)%C).
  rewrite (nrm_ext _ _ (fun j => c * synth n F j)).
  2:{ intros j Hj. rewrite HR, rf_of_synth by assumption. rewrite <- Rmult_minus_distr_l. f_equal. unfold synth. rewrite <- Rmult_minus_distr_l. f_equal. rewrite rsum_diff. apply rsum_ext. intros k _.
      unfold F, G. set (z := (RtoC (gauss_gain dt n gaussian k) * dft n r k * W n (- (s * Z.of_nat k)))%C). destruct z as [zr zi]. destruct (W n (Z.of_nat j * Z.of_nat k)) as [wr wi].
      cunf. ring. }
  rewrite nrm_scale, (Rabs_right c) by lra. apply Rmult_le_compat_l; [lra|]. unfold removed, nrm. apply sqrt_le_1_alt.
  eapply Rle_trans; [apply (ssq_le_prefix _ n _ Hle)|]. eapply Rle_trans; [apply synth_energy; exact Hn|].
  apply Rmult_le_compat_l; [apply Rlt_le, Rinv_0_lt_compat; exact HnR|].
  apply rsum_le. intros k Hk. unfold F, G. rewrite !Cnorm2_mul, W_norm, !Cnorm2_real, Rmult_1_r.
  destruct (HA k Hk) as ((A0 & A1) & A2 & A3). pose proof (gauss_gain_pos dt n gaussian k) as Gp.
  pose proof (Cnorm2_pos (dft n win k)) as Pw. pose proof (Cnorm2_pos (dft n r k)) as Pr.
  set (g := gauss_gain dt n gaussian k) in *. set (Q := Cnorm2 (dft n r k)) in *.
  replace ((att k - 1) * (att k - 1) * (g * g * Q)) with (((1 - att k) * g) ^ 2 * Q) by ring.
  apply Rmult_le_compat_r; [exact Pr|]. apply pow_incr. split; [apply Rmult_le_pos; lra|]. apply Rmult_le_compat_r; [lra|]. unfold taken.
  destruct (Rle_or_lt (wlevel * M) (Cnorm2 (dft n win k))) as [X|X].
  - rewrite (A2 X). pose proof (Rmax_l 0 (1 - Cnorm2 (dft n win k) / (wlevel * M))). lra.
  - rewrite (A3 X). apply Rmax_r.
Qed.

(** ** The computed receiver function is close to the ideal one, root-sum-square *)
Theorem C151_close uin uin' win dt preonset wlevel gaussian normalize rf' rms' r s M noise :
  deconv_waterlevel uin' win dt preonset wlevel gaussian normalize = Ok (rf', rms') -> 0 < dt -> 0 < wlevel ->
  length uin' = length uin -> dist2 uin uin' <= noise ->
  let n := (2 ^ Nat.log2_up (length uin))%nat in
  preonset = dt * IZR s -> convolved dt n uin win r -> max_power n (dft n win) M ->
  let c := rf_scale normalize dt n gaussian in
  0 < c /\ length rf' = length uin /\
  sqrt (dist2 (scaled c (ideal dt n gaussian r s (length uin))) rf')
    <= c * (removed dt n gaussian wlevel M win r + sqrt (noise / (wlevel * energy_of win)) / dt).
Proof.
  intros E' Hdt Hwl Hlen Hno n Hp HC HM c.
  pose proof (wl_energy _ _ _ _ _ _ _ _ _ E') as HE.
  pose proof E' as E1. apply deconv_waterlevel_inv in E1 as (M1 & D1 & Q1).
  pose proof (wr_len _ _ _ _ _ _ _ _ _ _ _ _ Q1) as L1'. pose proof (wr_lrf _ _ _ _ _ _ _ _ _ _ _ _ Q1) as Lrf'.
  destruct (wl_other _ uin _ _ _ _ _ _ _ _ _ _ _ Q1 ltac:(lia)) as (rf & rms & D & E & Q & _).
  destruct (water_l2 _ _ _ _ _ _ _ _ _ r s M E Hdt Hp HC HM) as (Hn & L & N). fold n in Hn, N.
  pose proof (C137_waterlevel _ _ _ _ _ _ _ _ _ _ _ _ E E' ltac:(lra)) as B.
  assert (EC : circle win = n) by (unfold circle, n; f_equal; f_equal; lia). rewrite EC in B.
  pose proof (rf_scale_pos normalize dt n gaussian Hdt Hn) as Hc. pose proof (scale_unit normalize dt n gaussian Hdt Hn) as HU.
  fold c in N, Hc, HU. set (U := rf_unit normalize dt n gaussian) in *. set (shaken := sqrt (noise / (wlevel * energy_of win)) / dt).
  split; [exact Hc|]. split; [lia|].
  assert (SB : sqrt (dist2 rf rf') <= c * shaken).
  { set (d := dist2 rf rf') in *. assert (D0 : 0 <= d) by (apply rsum_nonneg; intros; apply Rle_0_sqr).
    assert (WE : 0 < wlevel * energy_of win) by (apply Rmult_lt_0_compat; assumption).
    assert (B2 : dt * dt * (wlevel * energy_of win) * d <= c * c * noise).
    { rewrite <- HU. replace (c * U * (c * U) * (wlevel * energy_of win) * d) with (c * c * (U ^ 2 * wlevel * energy_of win * d)) by ring.
      apply Rmult_le_compat_l; [apply Rle_0_sqr|]. lra. }
    assert (B3 : d <= Rsqr (c / dt) * (noise / (wlevel * energy_of win))).
    { apply (Rmult_le_reg_l (dt * dt * (wlevel * energy_of win))); [apply Rmult_lt_0_compat; [apply Rmult_lt_0_compat; exact Hdt|exact WE]|].
      eapply Rle_trans; [exact B2|]. apply Req_le. unfold Rsqr. field. split; lra. }
    eapply Rle_trans; [apply sqrt_le_1_alt; exact B3|]. rewrite sqrt_mult_alt by apply Rle_0_sqr.
    rewrite sqrt_Rsqr by (apply Rlt_le, Rdiv_lt_0_compat; assumption). unfold shaken. apply Req_le. field. lra. }
  assert (Lg : length (scaled c (ideal dt n gaussian r s (length uin))) = length uin) by (unfold scaled, ideal; rewrite !map_length, seq_length; reflexivity).
  unfold dist2. rewrite Lg. unfold dist2 in SB. rewrite L in SB. set (l := length uin) in *.
  change (nrm l (fun j => rnth rf' j - rnth rf j) <= c * shaken) in SB.
  change (nrm l (fun j => rnth rf' j - rnth (scaled c (ideal dt n gaussian r s l)) j) <= c * (removed dt n gaussian wlevel M win r + shaken)).
  rewrite (nrm_ext l _ (fun j => (rnth rf' j - rnth rf j) + (rnth rf j - c * rf_of dt n gaussian r s j))).
  - eapply Rle_trans; [apply (nrm_add l (fun j => rnth rf' j - rnth rf j) (fun j => rnth rf j - c * rf_of dt n gaussian r s j))|]. lra.
  - intros j Hj. rewrite rnth_scaled. unfold ideal. rewrite rnth_map_seq by exact Hj. ring.
Qed.

(** ** From the record to the crust *)
(** [x0] is a record that reverberates with two-way time [L] samples and strength [rho], in which the phases of the
    crust [(H0, K0)] stand out of the reverberation-free record [S]; the seismogram [uin] is the source pulse [win]
    convolved with spikes whose Gaussian receiver function, in the units in use, is within [g] of [x0]; [uin'] is
    that seismogram with noise of energy [noise]. *)
Theorem C151_crust uin uin' win dt preonset wlevel gaussian normalize rf' rms' r s M noise
    x0 D g L rho S A t eta o o' draw tk (p : R) pk (H K : list R) (VM VS vs w1 w2 w3 : R) q (H0 K0 : R) :
  deconv_waterlevel uin' win dt preonset wlevel gaussian normalize = Ok (rf', rms') -> 0 < dt -> 0 < wlevel ->
  length uin' = length uin -> dist2 uin uin' <= noise ->
  let n := (2 ^ Nat.log2_up (length uin))%nat in
  preonset = dt * IZR s -> convolved dt n uin win r -> max_power n (dft n win) M ->
  let c := rf_scale normalize dt n gaussian in
  length x0 = length uin -> reverberates L rho S x0 -> (2 * L <= length x0)%nat ->
  (forall j, (j < length x0)%nat -> Rabs (rnth x0 j) <= A) ->
  (forall j, (length x0 - L <= j < length x0)%nat -> Rabs (rnth x0 j) <= t) ->
  0 <= eta -> falls_to (2 * (eta * (2 + eta))) L x0 -> ls_residual x0 D ->
  sqrt (dist2 x0 (scaled c (ideal dt n gaussian r s (length uin)))) <= g ->
  g + c * (removed dt n gaussian wlevel M win r + sqrt (noise / (wlevel * energy_of win)) / dt) <= eta * sqrt (ssq (length x0) (rnth D)) ->
  let axis := @uniform_axis RN dt (length uin) preonset in
  ResonanceFiltSynth x0 axis = Ok o -> ResonanceFiltSynth rf' axis = Ok o' ->
  @hkYu RN draw (fl_filtered o') (fl_time o') (fl_tlag o') tk p pk H K (Some VM) (Some VS) (Some vs) (Some w1) (Some w2) (Some w3) = Ok q ->
  0 < w1 -> 0 < w2 -> 0 < w3 -> In H0 H -> In K0 K -> (forall k, In k K -> 1 <= k) ->
  precritical VM p -> 0 < vs -> vs <= VS ->
  let hs := INR L * dt * vs / 2 in
  let T1 h k := t_Ps VS 0 hs (VS / vs) + t_Ps VM p h k in
  let T2 h k := t_PpPs VS 0 hs (VS / vs) + t_PpPs VM p h k in
  let T3 h k := t_PsPs VS 0 hs (VS / vs) + t_PsPs VM p h k in
  let e := Rabs (fl_r o - rho) * A + 21 * rsum (length x0) (fun i => Rabs (rnth x0 i)) / INR (length x0) + t
           + eta * (6 + 2 * eta) * sqrt (ssq (length x0) (rnth D)) in
  clear_phases_by (2 * e) S axis T1 T2 T3 H K H0 K0 ->
  (forall h k, In h H -> In k K ->
     covered dt (length uin) preonset (T1 h k) /\ covered dt (length uin) preonset (T2 h k) /\ covered dt (length uin) preonset (T3 h k)) ->
  (forall h k, In h H -> In k K -> (h, k) <> (H0, K0) -> resolved dt VM p H0 K0 h k) ->
  fl_tlag o' = INR L * dt /\ exists v, nth_error (yr_stk q) (yr_best q) = Some (@mkRow RN H0 K0 v).
Proof.
  intros E' Hdt Hwl Hlen Hno n Hp HC HM c Lx HR H2 HA Ht He HF HD Hg Hgb axis Eo Eo' Eq W1 W2 W3 HH HK HK1 HP Hv HvS hs T1 T2 T3 e HS HCov Hres.
  destruct (C151_close uin uin' win dt preonset wlevel gaussian normalize rf' rms' r s M noise E' Hdt Hwl Hlen Hno Hp HC HM) as (_ & Lf' & B).
  assert (NW : noise_within eta x0 rf').
  { eapply (within_ideal eta g _ x0 D _ rf'); [| |exact He|exact HD|exact Hg|exact B|exact Hgb]; [unfold scaled, ideal; rewrite !map_length, seq_length; lia|lia]. }
  assert (L2 : (2 <= length uin)%nat) by (destruct HF as (X & Y & _); lia).
  pose proof (synth_run x0 dt (length uin) preonset o Hdt L2 Eo) as Ru. pose proof (synth_run rf' dt (length uin) preonset o' Hdt L2 Eo') as Ru'.
  split; [exact (proj2 (C142_lag eta L x0 rf' dt dt _ _ o o' Ru Ru' NW HF))|].
  exact (C142_then_hkYu dt (length uin) preonset draw x0 rf' S L rho A t eta o o' tk p pk H K VM VS vs w1 w2 w3 q H0 K0 D Hdt ltac:(lia) Ru Ru' HR H2 HA Ht NW HF HD Eq
    W1 W2 W3 HH HK HK1 HP Hv HvS HS HCov Hres).
Qed.

(** ** Example: the record of C150, deconvolved with a water level of a half *)
Theorem C151_example : exists rf rms o' q v,
  dist2 ex_record iy_noisy = 1 / 1000000 /\ convolved 1 512 ex_record iy_win iy_r /\
  deconv_waterlevel iy_noisy iy_win 1 0 (1 / 2) 1000 false = Ok (rf, rms) /\
  ResonanceFiltSynth rf (@uniform_axis RN 1 500 0) = Ok o' /\
  @hkYu RN (@pyplot RN) (fl_filtered o') (fl_time o') (fl_tlag o') NpF 0 PyF [1; 2] [2; 3] (Some 1) (Some 1) (Some 1) (Some 1) (Some 1) (Some 1) = Ok q /\
  fl_tlag o' = INR 2 * 1 /\ nth_error (yr_stk q) (yr_best q) = Some (@mkRow RN 1 2 v).
Proof.
  destruct (ex_run ex_record ex_rec_len) as (o & Eo & Ru). destruct (ex_filter _ o Ru) as (Et & Er).
  assert (Zw : ~ all_zero iy_win) by (intro A; specialize (A 0%nat); rewrite iy_win_nth in A; cbn [Nat.eqb] in A; lra).
  assert (Lw : length iy_win = 500%nat) by reflexivity. assert (Lu : length iy_noisy = 500%nat) by reflexivity.
  assert (EC : (2 ^ Nat.log2_up (length ex_record))%nat = 512%nat) by (rewrite ex_rec_len; reflexivity).
  assert (S8 : ssq (length ex_record) (rnth ex_record) = 8) by (rewrite <- acorr_ssq, ex_acorr by lia; unfold rnth; simpl; lra).
  assert (En : 28 / 10 <= sqrt (ssq (length ex_record) (rnth ex_record)) <= 3).
  { rewrite S8. split; [rewrite <- (sqrt_Rsqr (28 / 10)) by lra|rewrite <- (sqrt_Rsqr 3) by lra]; apply sqrt_le_1_alt; unfold Rsqr; lra. }
  assert (Rem : Rabs (fl_r o - 3 / 8) * 2 + 21 * rsum (length ex_record) (fun i => Rabs (rnth ex_record i)) / INR (length ex_record) + 0 = 126 / 500).
  { rewrite Er, ex_mean, ex_rec_len. replace (3 / 8 - 3 / 8) with 0 by ring. rewrite Rabs_R0. rewrite INR_IZR_INZ. simpl. field. }
  assert (MP : max_power 512 (dft 512 iy_win) 1).
  { split; [intros k _; rewrite iy_dft; lra|]. exists 0%nat. split; [lia|apply iy_dft]. }
  assert (RM : removed 1 512 1000 (1 / 2) 1 iy_win iy_r = 0).
  { unfold removed. rewrite (rsum_nil 512), Rmult_0_r; [apply sqrt_0|]. intros k _. unfold taken. rewrite iy_dft, Rmax_left by lra. ring. }
  assert (EW : energy_of iy_win = 1).
  { unfold energy_of. rewrite Lw. unfold ssq. rewrite (rsum_single 500 _ 0); [rewrite iy_win_nth; cbn [Nat.eqb]; ring|lia|].
    intros j _ Nj. rewrite iy_win_nth, (proj2 (Nat.eqb_neq j 0) Nj). ring. }
  assert (SQ : sqrt (1 / 1000000 / (1 / 2 * 1)) <= 15 / 10000).
  { rewrite <- (sqrt_Rsqr (15 / 10000)) by lra. apply sqrt_le_1_alt. unfold Rsqr. lra. }
  assert (SI : scaled 1 (ideal 1 512 1000 iy_r 0 500) = ideal 1 512 1000 iy_r 0 500).
  { unfold scaled. rewrite (map_ext (Rmult 1) (fun v => v)) by (intro; ring). apply map_id. }
  destruct (C41_returns iy_noisy iy_win 1 0 (1 / 2) 1000 false eq_refl ltac:(rewrite Lu; lia) ltac:(lra) ltac:(lra) Zw ltac:(left; lra)) as (rf & rms & E).
  pose proof E as E1. apply deconv_waterlevel_inv in E1 as (M1 & D1 & Q1). pose proof (wr_lrf _ _ _ _ _ _ _ _ _ _ _ _ Q1) as Lf. rewrite Lu in Lf.
  destruct (ex_run rf Lf) as (o' & E' & Ru'). destruct (ex_searched rf o' Lf Ru') as (q & Eq).
  pose proof (C151_crust ex_record iy_noisy iy_win 1 0 (1 / 2) 1000 false rf rms iy_r 0 1 (1 / 1000000) ex_record ex_record (6 / 10000) 2 (3 / 8) ex_direct 2 0 (1 / 1000) o o'
    (@pyplot RN) NpF 0 PyF [1; 2] [2; 3] 1 1 1 1 1 1 q 1 2) as B.
  cbv zeta in B. rewrite EC in B. change (rf_scale false 1 512 1000) with 1 in B. rewrite RM, EW in B.
  destruct B as (Tl & v & Ev).
  - exact E.
  - lra.
  - lra.
  - reflexivity.
  - apply Req_le. exact iy_dist.
  - ring.
  - exact iy_convolved.
  - exact MP.
  - reflexivity.
  - exact ex_reverberates.
  - rewrite ex_rec_len. lia.
  - exact ex_large.
  - exact ex_late.
  - lra.
  - exact ex_falls.
  - exact ex_residual.
  - change (length ex_record) with 500%nat. rewrite SI. exact iy_ideal.
  - lra.
  - exact Eo.
  - exact E'.
  - exact Eq.
  - lra.
  - lra.
  - lra.
  - now left.
  - now left.
  - intros k [<-|[<-|[]]]; lra.
  - split; lra.
  - lra.
  - lra.
  - rewrite Rem. apply ex_clear. lra.
  - exact ex_cov.
  - exact ex_res.
  - exists rf, rms, o', q, v. split; [exact iy_dist|]. split; [exact iy_convolved|]. split; [exact E|]. split; [exact E'|].
    split; [exact Eq|]. split; [exact Tl|exact Ev].
Qed.
