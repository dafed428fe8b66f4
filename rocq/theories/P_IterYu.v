(** * P_IterYu: from a noisy seismogram of a crust below sediment through deconvolution and reverberation
    filter to the crust (C150). *)

From Coq Require Import Reals Lra Lia.
From Verif Require Import Base Num NumPy Spec HkModel HkProofs HkReal HkFacts HkFacts2 HkFacts4 P_Hk DrawSpec P_Hk2 P_Hk3 P_Hk4 P_Hk5 P_Hk6 P_HkEx P_Hk7 P_Noise.
From Verif Require Import P_Float3.
From Verif Require Import Cplx DFT DFT2 SpecSignal SpecConv LeastSquares ReverbModel ReverbProofs ReverbProofs2 P_Reverb P_Reverb2 P_Reverb3 P_Reverb5 P_Reverb6 P_Reverb7 P_Reverb8 DeconModel DeconProofs
  DeconProofs2 DeconProofs3 DeconProofs4 DeconProofs5 DeconConv P_Decon P_Decon2 P_Conv P_Shift P_WlNoise P_DeconHk P_DeconHkNoise P_IterNoise.
Local Open Scope R_scope.

(** ** The receiver function is close to the ideal one *)

Lemma dist_ideal dt n gaussian r r' s m rf' b1 b2 :
  length rf' = m ->
  ssq m (fun j => rf_of dt n gaussian r s j - rf_of dt n gaussian r' s j) <= b1 ->
  ssq m (fun j => rnth rf' j - rf_of dt n gaussian r' s j) <= b2 ->
  sqrt (dist2 (ideal dt n gaussian r s m) rf') <= sqrt b1 + sqrt b2.
Proof.
  intros L B1 B2.
  assert (Lg : length (ideal dt n gaussian r s m) = m) by (unfold ideal; rewrite map_length, seq_length; reflexivity).
  unfold dist2. rewrite Lg. change (nrm m (fun j => rnth rf' j - rnth (ideal dt n gaussian r s m) j) <= sqrt b1 + sqrt b2).
  rewrite (nrm_ext m _ (fun j => (rnth rf' j - rf_of dt n gaussian r' s j) + (-1) * (rf_of dt n gaussian r s j - rf_of dt n gaussian r' s j))).
  2:{ intros j Hj. unfold ideal. rewrite rnth_map_seq by exact Hj. ring. }
  eapply Rle_trans; [apply (nrm_add m (fun j => rnth rf' j - rf_of dt n gaussian r' s j) (fun j => (-1) * (rf_of dt n gaussian r s j - rf_of dt n gaussian r' s j)))|].
  rewrite nrm_scale. replace (Rabs (-1)) with 1 by (rewrite Rabs_left; lra). rewrite Rmult_1_l.
  assert (A1 : nrm m (fun j => rf_of dt n gaussian r s j - rf_of dt n gaussian r' s j) <= sqrt b1) by (apply sqrt_le_1_alt; exact B1).
  assert (A2 : nrm m (fun j => rnth rf' j - rf_of dt n gaussian r' s j) <= sqrt b2) by (apply sqrt_le_1_alt; exact B2).
  lra.
Qed.

Theorem C150_close uin uin' win dt preonset gaussian itmax minderr phase rf' rms' it' mu m0 r noise :
  deconv_iterative uin' win dt None preonset gaussian itmax minderr phase = Ok (rf', rms', it') -> (0 < it')%nat -> 0 < dt ->
  length uin' = length uin -> dist2 uin uin' <= noise ->
  let n := (2 ^ Nat.log2_up (length uin))%nat in
  let lim := (if String.eqb phase "P" then n / 2 - 1 else n)%nat in
  let u' := gfilt dt n gaussian uin' in let w := gfilt dt n gaussian win in
  spikes_below n lim r -> convolved dt n uin win r ->
  0 < mu -> (forall k, (k < n)%nat -> mu <= Cnorm2 (dft n w k)) ->
  0 < m0 -> (forall k, (k < n)%nat -> m0 <= Cnorm2 (dft n win k)) ->
  let rate := mu / (INR lim * ssq n (rnth w)) in
  let size' := ssq n (rnth u') / (dt * dt * m0) in
  sqrt (dist2 (ideal dt n gaussian r (Rtrunc (preonset / dt)) (length uin)) rf')
    <= sqrt (noise / (dt * dt * m0)) + sqrt (unfinished minderr rate size' it' itmax).
Proof.
  intros E' Hit' Hdt Hlen Hno n lim u' w Hsp HC Hmu HB Hm0 HB0 rate size'.
  pose proof E' as F'. apply deconv_iterative_inv in F'; [|reflexivity]. destruct F' as (n2 & Ps' & R').
  assert (EC' : n = (2 ^ Nat.log2_up (length uin'))%nat) by (unfold n; rewrite Hlen; reflexivity).
  pose proof (ir_n _ _ _ _ _ _ _ _ _ _ _ _ _ R') as N2. rewrite <- EC' in N2. subst n2.
  pose proof (run_n _ _ _ _ _ _ _ _ _ _ _ _ _ R' Hit') as Hn. assert (Hdt0 : dt <> 0) by lra.
  pose proof (run_pw _ _ _ _ _ _ _ _ _ _ _ _ _ R' Hit') as Hpw. fold w in Hpw.
  pose proof (run_pu _ _ _ _ _ _ _ _ _ _ _ _ _ R' Hit') as Hpu'. fold u' in Hpu'.
  assert (HL : (lim <= n)%nat) by exact (lim_of_le phase n).
  pose proof (C101_receiver_function _ _ _ _ _ _ _ _ _ _ _ mu m0 E' Hit') as A. cbv zeta in A. rewrite <- EC' in A.
  destruct (A Hmu HB Hm0 HB0) as (_ & r' & Br' & _ & E1' & E2'). clear A.
  destruct (C37_spikes _ _ _ _ _ _ _ _ _ _ _ E') as (_ & Lf' & _).
  set (s := Rtrunc (preonset / dt)) in *. rewrite Hlen in E1', E2'. set (m := length uin) in *.
  assert (Q : 0 < dt * dt * m0) by (apply Rmult_lt_0_compat; [apply Rmult_lt_0_compat; exact Hdt|exact Hm0]).
  assert (Hle : (m <= n)%nat).
  { destruct (next_pow_2_Ok m n) as (_&X&_); [|exact X]. unfold next_pow_2. fold m in EC'.
    destruct (Nat.eqb_spec m 0) as [Z|_]; [|reflexivity].
    exfalso. pose proof (ir_n2 _ _ _ _ _ _ _ _ _ _ _ _ _ R') as X. unfold n in X. rewrite Z in X. cbn in X. lia. }
  assert (L1 : (1 <= m)%nat).
  { destruct (Nat.eq_dec m 0) as [Z|]; [|lia]. exfalso.
    pose proof (ir_n2 _ _ _ _ _ _ _ _ _ _ _ _ _ R') as X. unfold n in X. rewrite Z in X. cbn in X. lia. }
  assert (MID : ssq m (fun j => rf_of dt n gaussian r s j - rf_of dt n gaussian r' s j) <= noise / (dt * dt * m0)).
  { apply (Rmult_le_reg_l (dt * dt * m0)); [exact Q|]. replace (dt * dt * m0 * (noise / (dt * dt * m0))) with noise by (field; split; lra).
    eapply Rle_trans; [|exact Hno].
    eapply Rle_trans; [|apply (gfilt_dist dt n gaussian uin uin' Hn Hdt0 Hle Hlen)]. fold u'.
    eapply Rle_trans; [|apply (fit_near_truth dt n lim (gfilt dt n gaussian uin) u' w r r' (gauss_pulse dt n gaussian) (zpad n win) m0 Hn Hdt0 HL Hpu' Hpw Hsp)].
    - apply Rmult_le_compat_l; [lra|]. eapply Rle_trans; [apply (ssq_le_prefix m n _ Hle)|].
      unfold rf_of. apply Req_le. exact (ssq_circ n (fun i => cconv n r (gauss_pulse dt n gaussian) i - cconv n r' (gauss_pulse dt n gaussian) i) s Hn).
    - apply gfilt_convolved; assumption.
    - exact Br'.
    - intros j Hj. apply gfilt_nth. exact Hj.
    - intros k Hk. rewrite zpad_dft. apply HB0. exact Hk. }
  set (B := unfinished minderr rate size' it' itmax) in *.
  assert (EB : ssq m (fun j => rnth rf' j - rf_of dt n gaussian r' s j) <= B).
  { unfold B, unfinished. destruct (Nat.ltb_spec it' itmax) as [X|X]; [apply E2'; exact X|exact E1']. }
  exact (dist_ideal dt n gaussian r r' s m rf' _ _ ltac:(unfold m; lia) MID EB).
Qed.

Theorem C150_close_limit uin uin' win dt gaussian phase r m0 noise :
  length uin = length win -> length uin' = length win -> 0 < dt -> ~ all_zero uin' -> dist2 uin uin' <= noise ->
  let n := (2 ^ Nat.log2_up (length uin))%nat in
  let lim := (if String.eqb phase "P" then n / 2 - 1 else n)%nat in
  0 < m0 -> (forall k, (k < n)%nat -> m0 <= Cnorm2 (dft n win k)) ->
  spikes_below n lim r -> convolved dt n uin win r ->
  forall m, 0 < m -> exists N, forall itmax preonset minderr rf' rms' it',
    (N <= itmax)%nat -> minderr <= 0 ->
    deconv_iterative uin' win dt None preonset gaussian itmax minderr phase = Ok (rf', rms', it') ->
    sqrt (dist2 (ideal dt n gaussian r (Rtrunc (preonset / dt)) (length uin)) rf') <= sqrt (noise / (dt * dt * m0)) + m.
Proof.
  intros L L' Hdt Hu' Hno n lim Hm0 HB0 Hsp HC m Hm.
  assert (EC' : (2 ^ Nat.log2_up (length uin'))%nat = n) by (unfold n; rewrite L, L'; reflexivity).
  assert (Hn : (0 < n)%nat) by (apply pow2n_pos). assert (Hdt0 : dt <> 0) by lra.
  assert (HL : (lim <= n)%nat) by exact (lim_of_le phase n).
  assert (Hnz : forall k, (k < n)%nat -> dft n win k <> C0).
  { intros k Hk Z. specialize (HB0 k Hk). rewrite Z in HB0. cbv [Cnorm2 C0] in HB0. cbn in HB0. lra. }
  destruct (C101_converges uin' win dt gaussian phase L' Hdt0 Hu') as (r' & Br' & _ & CV'); [rewrite EC'; exact Hnz|]. rewrite EC' in Br', CV'. fold lim in Br'.
  destruct (CV' (m / INR (S (length uin))) ltac:(apply Rdiv_lt_0_compat; [exact Hm|apply lt_0_INR; lia])) as [N HN]. exists N.
  intros itmax preonset minderr rf' rms' it' HI Hmin E'.
  specialize (HN itmax preonset minderr rf' rms' it' HI Hmin E').
  set (s := Rtrunc (preonset / dt)) in *. set (l := length uin) in *.
  destruct (C37_spikes _ _ _ _ _ _ _ _ _ _ _ E') as (_ & Lf' & _).
  assert (L1 : (1 <= l)%nat) by (unfold l; destruct uin' as [|x y]; [exfalso; apply Hu'; intro j; destruct j; reflexivity|cbn in L'; lia]).
  assert (Hle : (l <= n)%nat).
  { destruct (next_pow_2_Ok l n) as (_&X&_); [|exact X]. unfold next_pow_2. fold n. destruct (Nat.eqb_spec l 0) as [Z|_]; [lia|reflexivity]. }
  assert (Hw : ~ all_zero win).
  { intro A. apply (Hnz 0%nat Hn). unfold dft. rewrite (csum_ext n _ (fun _ => C0)); [apply csum_0|]. intros j _. rewrite (A j). change (RtoC 0) with C0. ring. }
  assert (Q : 0 < dt * dt * m0) by (apply Rmult_lt_0_compat; [apply Rmult_lt_0_compat; exact Hdt|exact Hm0]).
  assert (MID : ssq l (fun j => rf_of dt n gaussian r s j - rf_of dt n gaussian r' s j) <= noise / (dt * dt * m0)).
  { apply (Rmult_le_reg_l (dt * dt * m0)); [exact Q|]. replace (dt * dt * m0 * (noise / (dt * dt * m0))) with noise by (field; split; lra).
    eapply Rle_trans; [|exact Hno].
    eapply Rle_trans; [|apply (gfilt_dist dt n gaussian uin uin' Hn Hdt0 Hle); unfold l; lia].
    eapply Rle_trans; [|apply (fit_near_truth dt n lim (gfilt dt n gaussian uin) (gfilt dt n gaussian uin') (gfilt dt n gaussian win) r r' (gauss_pulse dt n gaussian) (zpad n win) m0 Hn Hdt0 HL)].
    - apply Rmult_le_compat_l; [lra|]. eapply Rle_trans; [apply (ssq_le_prefix l n _ Hle)|].
      unfold rf_of. apply Req_le. exact (ssq_circ n (fun i => cconv n r (gauss_pulse dt n gaussian) i - cconv n r' (gauss_pulse dt n gaussian) i) s Hn).
    - apply gfilt_nonzero; try assumption. unfold l in *. lia.
    - apply gfilt_nonzero; try assumption. unfold l in *. lia.
    - exact Hsp.
    - apply gfilt_convolved; assumption.
    - exact Br'.
    - intros j Hj. apply gfilt_nth. exact Hj.
    - intros k Hk. rewrite zpad_dft. apply HB0. exact Hk. }
  assert (Lm : length rf' = l) by (unfold l; lia).
  assert (IS : 0 < INR (S l)) by (apply lt_0_INR; lia).
  assert (EB : ssq l (fun j => rnth rf' j - rf_of dt n gaussian r' s j) <= m * m).
  { apply Rle_trans with (INR l * ((m / INR (S l)) * (m / INR (S l)))).
    - unfold ssq. rewrite <- rsum_const. apply rsum_le. intros j Hj. specialize (HN j ltac:(unfold l in Hj; lia)).
      rewrite <- (Rabs_right ((_ - _) * _)) by (apply Rle_ge, Rle_0_sqr). rewrite Rabs_mult.
      apply Rmult_le_compat; try apply Rabs_pos; exact HN.
    - assert (Z : INR l <= INR (S l) * INR (S l)).
      { assert (1 <= INR (S l)) by (rewrite S_INR; pose proof (pos_INR l); lra). rewrite S_INR in *. pose proof (pos_INR l). nra. }
      replace (INR l * (m / INR (S l) * (m / INR (S l)))) with (INR l * / (INR (S l) * INR (S l)) * (m * m)) by (field; lra).
      rewrite <- (Rmult_1_l (m * m)) at 2. apply Rmult_le_compat_r; [apply Rle_0_sqr|].
      apply (Rmult_le_reg_r (INR (S l) * INR (S l))); [apply Rmult_lt_0_compat; exact IS|].
      replace (INR l * / (INR (S l) * INR (S l)) * (INR (S l) * INR (S l))) with (INR l) by (field; lra). lra. }
  eapply Rle_trans; [exact (dist_ideal dt n gaussian r r' s l rf' _ _ Lm MID EB)|].
  rewrite (sqrt_square m) by lra. lra.
Qed.

(** ** From the record to the crust *)

(** If [rf] is closer to the ideal receiver function than the noise bound leaves after the ideal one's own
    distance [g] from a reverberating record [x0], then [rf] is within the noise of [x0]. *)
Lemma within_ideal eta g b x0 D (y rf : list R) :
  length y = length x0 -> length rf = length x0 -> 0 <= eta -> ls_residual x0 D ->
  sqrt (dist2 x0 y) <= g -> sqrt (dist2 y rf) <= b -> g + b <= eta * sqrt (ssq (length x0) (rnth D)) ->
  noise_within eta x0 rf.
Proof.
  intros Ly Lr He HD G B GB. split; [exact Lr|]. split; [exact He|]. intros D' HD'. rewrite (ls_residual_unique x0 D' D HD' HD). clear D' HD'.
  set (n := length x0) in *.
  assert (T : nrm n (fun j => rnth rf j - rnth x0 j) <= g + b).
  { rewrite (nrm_ext n _ (fun j => (rnth y j - rnth x0 j) + (rnth rf j - rnth y j))) by (intros; ring).
    eapply Rle_trans; [apply (nrm_add n (fun j => rnth y j - rnth x0 j) (fun j => rnth rf j - rnth y j))|].
    apply Rplus_le_compat; [exact G|]. unfold dist2 in B. rewrite Ly in B. exact B. }
  rewrite <- (nrm_sq n (fun j => rnth rf j - rnth x0 j)), <- (nrm_sq n (rnth D)).
  replace (eta * eta * (nrm n (rnth D) * nrm n (rnth D))) with ((eta * nrm n (rnth D)) * (eta * nrm n (rnth D))) by ring.
  assert (P := nrm_pos n (fun j => rnth rf j - rnth x0 j)).
  apply Rmult_le_compat; try exact P; eapply Rle_trans; [exact T|exact GB|exact T|exact GB].
Qed.

Lemma synth_run (data : list R) dt l pre o : 0 < dt -> (2 <= l)%nat ->
  ResonanceFiltSynth data (@uniform_axis RN dt l pre) = Ok o -> run_of data dt (@uniform_axis RN dt l pre) o.
Proof.
  intros Hd Hl E. right. split; [exact E|]. exists (dt * INR 0 - pre)%R, (dt * INR 1 - pre)%R.
  split; [apply taxis_R_nth; lia|]. split; [apply taxis_R_nth; lia|]. simpl. ring.
Qed.

(** The crust is found after finitely many iterations.  [x0] is a record that reverberates with two-way time
    [L] samples and strength [rho], in which the phases of the crust [(H0, K0)] stand out of the reverberation-free
    record [S]; the seismogram [uin] is the source pulse [win] convolved with spikes whose Gaussian receiver function
    is within [g] of [x0]; [uin'] is that seismogram with noise of energy [noise]. *)
Theorem C150_crust uin uin' win dt preonset gaussian itmax minderr phase rf' rms' it' mu m0 r noise
    x0 D g L rho S A t eta o o' draw tk (p : R) pk (H K : list R) (VM VS vs w1 w2 w3 : R) q (H0 K0 : R) :
  deconv_iterative uin' win dt None preonset gaussian itmax minderr phase = Ok (rf', rms', it') -> (0 < it')%nat -> 0 < dt ->
  length uin' = length uin -> dist2 uin uin' <= noise ->
  let n := (2 ^ Nat.log2_up (length uin))%nat in
  let lim := (if String.eqb phase "P" then n / 2 - 1 else n)%nat in
  let u' := gfilt dt n gaussian uin' in let w := gfilt dt n gaussian win in
  spikes_below n lim r -> convolved dt n uin win r ->
  0 < mu -> (forall k, (k < n)%nat -> mu <= Cnorm2 (dft n w k)) ->
  0 < m0 -> (forall k, (k < n)%nat -> m0 <= Cnorm2 (dft n win k)) ->
  let rate := mu / (INR lim * ssq n (rnth w)) in
  let size' := ssq n (rnth u') / (dt * dt * m0) in
  length x0 = length uin -> reverberates L rho S x0 -> (2 * L <= length x0)%nat ->
  (forall j, (j < length x0)%nat -> Rabs (rnth x0 j) <= A) ->
  (forall j, (length x0 - L <= j < length x0)%nat -> Rabs (rnth x0 j) <= t) ->
  0 <= eta -> falls_to (2 * (eta * (2 + eta))) L x0 -> ls_residual x0 D ->
  sqrt (dist2 x0 (ideal dt n gaussian r (Rtrunc (preonset / dt)) (length uin))) <= g ->
  g + (sqrt (noise / (dt * dt * m0)) + sqrt (unfinished minderr rate size' it' itmax)) <= eta * sqrt (ssq (length x0) (rnth D)) ->
  let axis := @uniform_axis RN dt (length uin) preonset in
  ResonanceFiltSynth x0 axis = Ok o -> ResonanceFiltSynth rf' axis = Ok o' ->
  @hkYu RN draw (fl_filtered o') (fl_time o') (fl_tlag o') tk p pk H K (Some VM) (Some VS) (Some vs) (Some w1) (Some w2) (Some w3) = Ok q ->
  0 < w1 -> 0 < w2 -> 0 < w3 -> In H0 H -> In K0 K -> (forall k, In k K -> 1 <= k) ->
  precritical VM p -> 0 < vs -> vs <= VS ->
  let hs := INR L * dt * vs / 2 in
  let T1 h k := t_Ps VS 0 hs (VS / vs) + t_Ps VM p h k in
  let T2 h k := t_PpPs VS 0 hs (VS / vs) + t_PpPs VM p h k in
  let T3 h k := t_PsPs VS 0 hs (VS / vs) + t_PsPs VM p h k in
  let e := Rabs (fl_r o - rho) * A + 21 * rsum (length x0) (fun i => Rabs (rnth x0 i)) / INR (length x0) + t
           + eta * (6 + 2 * eta) * sqrt (ssq (length x0) (rnth D)) in
  clear_phases_by (2 * e) S axis T1 T2 T3 H K H0 K0 ->
  (forall h k, In h H -> In k K ->
     covered dt (length uin) preonset (T1 h k) /\ covered dt (length uin) preonset (T2 h k) /\ covered dt (length uin) preonset (T3 h k)) ->
  (forall h k, In h H -> In k K -> (h, k) <> (H0, K0) -> resolved dt VM p H0 K0 h k) ->
  fl_tlag o' = INR L * dt /\ exists v, nth_error (yr_stk q) (yr_best q) = Some (@mkRow RN H0 K0 v).
Proof.
  intros E' Hit' Hdt Hlen Hno n lim u' w Hsp HC Hmu HB Hm0 HB0 rate size' Lx HR H2 HA Ht He HF HD Hg Hgb axis Eo Eo' Eq W1 W2 W3 HH HK HK1 HP Hv HvS hs T1 T2 T3 e HS HCov Hres.
  pose proof (C150_close uin uin' win dt preonset gaussian itmax minderr phase rf' rms' it' mu m0 r noise E' Hit' Hdt Hlen Hno Hsp HC Hmu HB Hm0 HB0) as B. cbv zeta in B.
  destruct (C37_spikes _ _ _ _ _ _ _ _ _ _ _ E') as (_ & Lf' & _).
  assert (NW : noise_within eta x0 rf').
  { eapply (within_ideal eta g _ x0 D _ rf'); [| |exact He|exact HD|exact Hg|exact B|exact Hgb]; [unfold ideal; rewrite map_length, seq_length; lia|lia]. }
  assert (L2 : (2 <= length uin)%nat) by (destruct HF as (X & Y & _); lia).
  pose proof (synth_run x0 dt (length uin) preonset o Hdt L2 Eo) as Ru. pose proof (synth_run rf' dt (length uin) preonset o' Hdt L2 Eo') as Ru'.
  split; [exact (proj2 (C142_lag eta L x0 rf' dt dt _ _ o o' Ru Ru' NW HF))|].
  exact (C142_then_hkYu dt (length uin) preonset draw x0 rf' S L rho A t eta o o' tk p pk H K VM VS vs w1 w2 w3 q H0 K0 D Hdt ltac:(lia) Ru Ru' HR H2 HA Ht NW HF HD Eq
    W1 W2 W3 HH HK HK1 HP Hv HvS HS HCov Hres).
Qed.

(** The same once there are enough iterations: only the noise and [g] count. *)
Theorem C150_found uin uin' win dt preonset gaussian phase r m0 noise
    x0 D g L rho S A t eta o draw tk (p : R) pk (H K : list R) (VM VS vs w1 w2 w3 : R) (H0 K0 : R) :
  length uin = length win -> length uin' = length win -> 0 < dt -> ~ all_zero uin' -> dist2 uin uin' <= noise ->
  let n := (2 ^ Nat.log2_up (length uin))%nat in
  let lim := (if String.eqb phase "P" then n / 2 - 1 else n)%nat in
  0 < m0 -> (forall k, (k < n)%nat -> m0 <= Cnorm2 (dft n win k)) ->
  spikes_below n lim r -> convolved dt n uin win r ->
  length x0 = length uin -> reverberates L rho S x0 -> (2 * L <= length x0)%nat ->
  (forall j, (j < length x0)%nat -> Rabs (rnth x0 j) <= A) ->
  (forall j, (length x0 - L <= j < length x0)%nat -> Rabs (rnth x0 j) <= t) ->
  0 <= eta -> falls_to (2 * (eta * (2 + eta))) L x0 -> ls_residual x0 D ->
  sqrt (dist2 x0 (ideal dt n gaussian r (Rtrunc (preonset / dt)) (length uin))) <= g ->
  g + sqrt (noise / (dt * dt * m0)) < eta * sqrt (ssq (length x0) (rnth D)) ->
  let axis := @uniform_axis RN dt (length uin) preonset in
  ResonanceFiltSynth x0 axis = Ok o ->
  0 < w1 -> 0 < w2 -> 0 < w3 -> In H0 H -> In K0 K -> (forall k, In k K -> 1 <= k) ->
  precritical VM p -> 0 < vs -> vs <= VS ->
  let hs := INR L * dt * vs / 2 in
  let T1 h k := t_Ps VS 0 hs (VS / vs) + t_Ps VM p h k in
  let T2 h k := t_PpPs VS 0 hs (VS / vs) + t_PpPs VM p h k in
  let T3 h k := t_PsPs VS 0 hs (VS / vs) + t_PsPs VM p h k in
  let e := Rabs (fl_r o - rho) * A + 21 * rsum (length x0) (fun i => Rabs (rnth x0 i)) / INR (length x0) + t
           + eta * (6 + 2 * eta) * sqrt (ssq (length x0) (rnth D)) in
  clear_phases_by (2 * e) S axis T1 T2 T3 H K H0 K0 ->
  (forall h k, In h H -> In k K ->
     covered dt (length uin) preonset (T1 h k) /\ covered dt (length uin) preonset (T2 h k) /\ covered dt (length uin) preonset (T3 h k)) ->
  (forall h k, In h H -> In k K -> (h, k) <> (H0, K0) -> resolved dt VM p H0 K0 h k) ->
  exists N, forall itmax minderr rf' rms' it' o' q,
    (N <= itmax)%nat -> minderr <= 0 ->
    deconv_iterative uin' win dt None preonset gaussian itmax minderr phase = Ok (rf', rms', it') ->
    ResonanceFiltSynth rf' axis = Ok o' ->
    @hkYu RN draw (fl_filtered o') (fl_time o') (fl_tlag o') tk p pk H K (Some VM) (Some VS) (Some vs) (Some w1) (Some w2) (Some w3) = Ok q ->
    fl_tlag o' = INR L * dt /\ exists v, nth_error (yr_stk q) (yr_best q) = Some (@mkRow RN H0 K0 v).
Proof.
  intros Lu Lu' Hdt Hu' Hno n lim Hm0 HB0 Hsp HC Lx HR H2 HA Ht He HF HD Hg Hgb axis Eo W1 W2 W3 HH HK HK1 HP Hv HvS hs T1 T2 T3 e HS HCov Hres.
  set (m := eta * sqrt (ssq (length x0) (rnth D)) - (g + sqrt (noise / (dt * dt * m0)))).
  assert (Hm : 0 < m) by (unfold m; lra).
  destruct (C150_close_limit uin uin' win dt gaussian phase r m0 noise Lu Lu' Hdt Hu' Hno Hm0 HB0 Hsp HC m Hm) as [N HN]. exists N.
  intros itmax minderr rf' rms' it' o' q HI Hmin E' Eo' Eq.
  pose proof (HN itmax preonset minderr rf' rms' it' HI Hmin E') as B. fold n in B.
  destruct (C37_spikes _ _ _ _ _ _ _ _ _ _ _ E') as (_ & Lf' & _).
  assert (NW : noise_within eta x0 rf').
  { eapply (within_ideal eta g _ x0 D _ rf'); [| |exact He|exact HD|exact Hg|exact B|unfold m; lra]; [unfold ideal; rewrite map_length, seq_length; lia|lia]. }
  assert (L2 : (2 <= length uin)%nat) by (destruct HF as (X & Y & _); lia).
  pose proof (synth_run x0 dt (length uin) preonset o Hdt L2 Eo) as Ru. pose proof (synth_run rf' dt (length uin) preonset o' Hdt L2 Eo') as Ru'.
  split; [exact (proj2 (C142_lag eta L x0 rf' dt dt _ _ o o' Ru Ru' NW HF))|].
  exact (C142_then_hkYu dt (length uin) preonset draw x0 rf' S L rho A t eta o o' tk p pk H K VM VS vs w1 w2 w3 q H0 K0 D Hdt ltac:(lia) Ru Ru' HR H2 HA Ht NW HF HD Eq
    W1 W2 W3 HH HK HK1 HP Hv HvS HS HCov Hres).
Qed.

(** ** Example *)
(** The record [ex_record] of C141 (reverberation lag 2, strength 3/8) as the spikes, a spike as the source pulse and
    noise of 1/1000 on the last sample. *)
Definition iy_win : list R := 1 :: repeat 0 499.
Definition iy_noisy : list R := [0; 1; -1; -1; 0; 2; -1; 0; 0] ++ repeat 0 490 ++ [1 / 1000].
Definition iy_r : list R := ex_record ++ repeat 0 12.

Lemma iy_win_nth j : rnth iy_win j = if (j =? 0)%nat then 1 else 0.
Proof.
  destruct j as [|j]; [reflexivity|]. change (rnth iy_win (Datatypes.S j)) with (nth j (repeat 0 499) 0). apply nth_repeat.
Qed.
Lemma iy_r_nth j : rnth iy_r j = rnth ex_record j. Proof. apply rnth_pad. Qed.
Lemma iy_nth j : (j < 500)%nat -> rnth iy_noisy j - rnth ex_record j = if (j =? 499)%nat then 1 / 1000 else 0.
Proof.
  intro Hj. unfold iy_noisy, ex_record. replace (repeat 0 491) with (repeat 0 490 ++ [0]) by (rewrite <- repeat_cons; reflexivity).
  rewrite !app_assoc. set (l := [0; 1; -1; -1; 0; 2; -1; 0; 0] ++ repeat 0 490). assert (Ll : length l = 499%nat) by reflexivity. clearbody l.
  unfold rnth. destruct (Nat.eqb_spec j 499) as [->|N].
  - rewrite !app_nth2 by lia. rewrite Ll. simpl. lra.
  - rewrite !app_nth1 by lia. lra.
Qed.
Lemma iy_dist : dist2 ex_record iy_noisy = 1 / 1000000.
Proof.
  unfold dist2. rewrite ex_rec_len. unfold ssq.
  rewrite (rsum_single 500 _ 499) by (try lia; intros j Hj Nj; rewrite (iy_nth j Hj), (proj2 (Nat.eqb_neq j 499) Nj); ring).
  rewrite (iy_nth 499) by lia. rewrite Nat.eqb_refl. field.
Qed.
Lemma iy_dft k : Cnorm2 (dft 512 iy_win k) = 1.
Proof.
  unfold dft. rewrite (csum_single 512 _ 0); [|lia|].
  - rewrite iy_win_nth. cbn [Nat.eqb]. replace (- (Z.of_nat 0 * Z.of_nat k))%Z with 0%Z by lia. rewrite W_0. cbv [Cnorm2 RtoC C1 Cmul fst snd Re Im]. ring.
  - intros j _ Nj. rewrite iy_win_nth, (proj2 (Nat.eqb_neq j 0) Nj). change (RtoC 0) with C0. ring.
Qed.
Lemma iy_convolved : convolved 1 512 ex_record iy_win iy_r.
Proof.
  intros j Hj. unfold cconv. rewrite (rsum_single 512 _ j); [|exact Hj|].
  - rewrite iy_r_nth, iy_win_nth. replace (circ 512 j (Z.of_nat j)) with 0%nat; [cbn [Nat.eqb]; ring|].
    apply circ_unique; try lia. replace (Z.of_nat j - Z.of_nat 0 - Z.of_nat j)%Z with 0%Z by lia. reflexivity.
  - intros i Hi Ni. rewrite iy_win_nth. destruct (Nat.eqb_spec (circ 512 j (Z.of_nat i)) 0) as [Z|]; [|ring]. exfalso.
    symmetry in Z. apply circ_unique in Z; try lia. apply Z.mod_divide in Z; [|lia]. destruct Z as [z Hz]. nia.
Qed.
Lemma iy_spikes : spikes_below 512 255 iy_r.
Proof. split; [reflexivity|]. intros k Hk. rewrite iy_r_nth. apply ex_rec_0. lia. Qed.
Lemma iy_ideal : sqrt (dist2 ex_record (ideal 1 512 1000 iy_r 0 500)) <= 6 / 10000.
Proof.
  rewrite <- (sqrt_Rsqr (6 / 10000)) by lra. apply sqrt_le_1_alt. unfold dist2. rewrite ex_rec_len.
  assert (S1 : rsum 512 (fun i => Rabs (rnth iy_r i)) = 6).
  { rewrite <- ex_mean, ex_rec_len. rewrite (rsum_ext 512 _ (fun i => Rabs (rnth ex_record i))) by (intros; rewrite iy_r_nth; reflexivity).
    apply rsum_pad; [lia|]. intros j Hj. rewrite ex_rec_0 by lia. apply Rabs_R0. }
  eapply Rle_trans; [apply (rsum_le 500 _ (fun _ => (24 / 1000000) * (24 / 1000000)))|].
  - intros j Hj. unfold ideal. rewrite rnth_map_seq by exact Hj.
    pose proof (rf_of_sharp 1 512 1000 iy_r 0 j Rlt_0_1 ltac:(lra) ltac:(lia)) as B. rewrite S1 in B.
    replace (circ 512 j 0) with j in B by (apply circ_unique; try lia; replace (Z.of_nat j - Z.of_nat j - 0)%Z with 0%Z by lia; reflexivity).
    rewrite iy_r_nth in B. pose proof PI_4 as P4. pose proof PI_RGT_0 as P0.
    assert (Q : (PI / (2 * 1000 * 1)) ^ 2 <= 4 / 1000000).
    { replace (4 / 1000000) with ((4 / 2000) ^ 2) by field. apply pow_incr. split; [apply Rlt_le, Rdiv_lt_0_compat; lra|lra]. }
    set (d := rf_of 1 512 1000 iy_r 0 j - rnth ex_record j) in *. clearbody d.
    assert (B2 : Rabs d <= 24 / 1000000) by lra. rewrite <- (Rabs_right (d * d)) by (apply Rle_ge, Rle_0_sqr). rewrite Rabs_mult.
    apply Rmult_le_compat; try apply Rabs_pos; exact B2.
  - rewrite rsum_const, INR_IZR_INZ. unfold Rsqr. simpl Z.of_nat. lra.
Qed.

Theorem C150_example : exists N rf rms it o' q v,
  dist2 ex_record iy_noisy = 1 / 1000000 /\ convolved 1 512 ex_record iy_win iy_r /\
  deconv_iterative iy_noisy iy_win 1 None 0 1000 N 0 "P" = Ok (rf, rms, it) /\
  ResonanceFiltSynth rf (@uniform_axis RN 1 500 0) = Ok o' /\
  @hkYu RN (@pyplot RN) (fl_filtered o') (fl_time o') (fl_tlag o') NpF 0 PyF [1; 2] [2; 3] (Some 1) (Some 1) (Some 1) (Some 1) (Some 1) (Some 1) = Ok q /\
  fl_tlag o' = INR 2 * 1 /\ nth_error (yr_stk q) (yr_best q) = Some (@mkRow RN 1 2 v).
Proof.
  destruct (ex_run ex_record ex_rec_len) as (o & Eo & Ru). destruct (ex_filter _ o Ru) as (Et & Er).
  assert (Zw : ~ all_zero iy_win) by (intro A; specialize (A 0%nat); rewrite iy_win_nth in A; cbn [Nat.eqb] in A; lra).
  assert (Zu : ~ all_zero iy_noisy) by (intro A; specialize (A 1%nat); unfold rnth, iy_noisy in A; cbn [nth app] in A; lra).
  assert (Lw : length iy_win = 500%nat) by reflexivity. assert (Lu : length iy_noisy = 500%nat) by reflexivity.
  assert (EC : (2 ^ Nat.log2_up (length ex_record))%nat = 512%nat) by (rewrite ex_rec_len; reflexivity).
  assert (S8 : ssq (length ex_record) (rnth ex_record) = 8) by (rewrite <- acorr_ssq, ex_acorr by lia; unfold rnth; simpl; lra).
  assert (En : 28 / 10 <= sqrt (ssq (length ex_record) (rnth ex_record)) <= 3).
  { rewrite S8. split; [rewrite <- (sqrt_Rsqr (28 / 10)) by lra|rewrite <- (sqrt_Rsqr 3) by lra]; apply sqrt_le_1_alt; unfold Rsqr; lra. }
  assert (Rem : Rabs (fl_r o - 3 / 8) * 2 + 21 * rsum (length ex_record) (fun i => Rabs (rnth ex_record i)) / INR (length ex_record) + 0 = 126 / 500).
  { rewrite Er, ex_mean, ex_rec_len. replace (3 / 8 - 3 / 8) with 0 by ring. rewrite Rabs_R0. rewrite INR_IZR_INZ. simpl. field. }
  assert (T0 : Rtrunc (0 / 1) = 0%Z) by (replace (0 / 1) with (IZR 0) by field; apply Rtrunc_Z).
  assert (SQ : sqrt (1 / 1000000 / (1 * 1 * 1)) = 1 / 1000).
  { replace (1 / 1000000 / (1 * 1 * 1)) with ((1 / 1000) * (1 / 1000)) by field. apply sqrt_square. lra. }
  pose proof (C150_found ex_record iy_noisy iy_win 1 0 1000 "P" iy_r 1 (1 / 1000000) ex_record ex_record (6 / 10000) 2 (3 / 8) ex_direct 2 0 (1 / 1000) o
    (@pyplot RN) NpF 0 PyF [1; 2] [2; 3] 1 1 1 1 1 1 1 2) as B.
  cbv zeta in B. rewrite EC, T0 in B. change (if String.eqb "P" "P" then (512 / 2 - 1)%nat else 512%nat) with 255%nat in B.
  destruct B as [N HN].
  - reflexivity.
  - reflexivity.
  - lra.
  - exact Zu.
  - apply Req_le. exact iy_dist.
  - lra.
  - intros k _. rewrite iy_dft. lra.
  - exact iy_spikes.
  - exact iy_convolved.
  - reflexivity.
  - exact ex_reverberates.
  - rewrite ex_rec_len. lia.
  - exact ex_large.
  - exact ex_late.
  - lra.
  - exact ex_falls.
  - exact ex_residual.
  - exact iy_ideal.
  - rewrite SQ. lra.
  - exact Eo.
  - lra.
  - lra.
  - lra.
  - now left.
  - now left.
  - intros k [<-|[<-|[]]]; lra.
  - split; lra.
  - lra.
  - lra.
  - rewrite Rem. apply ex_clear. lra.
  - exact ex_cov.
  - exact ex_res.
  - destruct (C37_returns iy_noisy iy_win 1 0 1000 N 0 "P" eq_refl) as (rf & rms & it & E & _); try exact Zu; try exact Zw; try lra; try (rewrite Lu; lia).
    + rewrite T0, Lu. vm_compute. discriminate.
    + destruct (C37_spikes _ _ _ _ _ _ _ _ _ _ _ E) as (_ & Lf & _). rewrite Lu in Lf.
      destruct (ex_run rf Lf) as (o' & E' & Ru'). destruct (ex_searched rf o' Lf Ru') as (q & Eq).
      destruct (HN N 0 rf rms it o' q (le_n N) (Rle_refl 0) E E' Eq) as (Tl & v & Ev).
      exists N, rf, rms, it, o', q, v. split; [exact iy_dist|]. split; [exact iy_convolved|]. split; [exact E|]. split; [exact E'|].
      split; [exact Eq|]. split; [exact Tl|exact Ev].
Qed.
