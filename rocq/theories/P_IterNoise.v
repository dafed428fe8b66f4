(** * P_IterNoise: noise amplification of the iterative deconvolution (C147), and from there to the crust. *)

From Coq Require Import Reals Lra Lia.
From Verif Require Import Base Num NumPy Spec HkModel HkProofs HkReal HkFacts HkFacts2 HkFacts4 P_Hk DrawSpec P_Hk2 P_Hk3 P_Hk4 P_Hk5 P_Hk6 P_HkEx P_Hk7 P_Noise.
From Verif Require Import P_Float3.
From Verif Require Import Cplx DFT DFT2 SpecSignal SpecConv LeastSquares ReverbModel P_Reverb7 P_Reverb8 DeconModel DeconProofs
  DeconProofs2 DeconProofs3 DeconProofs4 DeconProofs5 DeconConv P_Decon P_Decon2 P_Conv P_Shift P_WlNoise P_DeconHk P_DeconHkNoise.
Local Open Scope R_scope.

(** ** Lemmas *)

(** The Gaussian filter makes no difference larger. *)
Lemma gfilt_dist dt n a x x' : (0 < n)%nat -> dt <> 0 -> (length x <= n)%nat -> length x' = length x ->
  ssq n (fun j => rnth (gfilt dt n a x') j - rnth (gfilt dt n a x) j) <= dist2 x x'.
Proof.
  intros Hn Hdt Hl Hl'. assert (HnR : 0 < INR n) by (apply lt_0_INR; exact Hn).
  set (v := map (fun j => rnth x' j - rnth x j) (seq 0 n)).
  set (g := map (fun j => rnth (gfilt dt n a x') j - rnth (gfilt dt n a x) j) (seq 0 n)).
  rewrite (ssq_ext n _ (rnth g)) by (intros j Hj; unfold g; rewrite (rnth_map_seq (fun j => rnth (gfilt dt n a x') j - rnth (gfilt dt n a x) j)) by exact Hj; reflexivity).
  assert (S2 : dist2 x x' = ssq n (rnth v)).
  { unfold dist2. rewrite <- (ssq_ext n (fun j => rnth x' j - rnth x j) (rnth v))
      by (intros j Hj; unfold v; symmetry; apply (rnth_map_seq (fun j => rnth x' j - rnth x j)); exact Hj).
    symmetry. apply ssq_tail; [exact Hl|]. intros j Hj. rewrite !rnth_over' by lia. ring. }
  rewrite S2, !parseval by exact Hn. apply Rmult_le_compat_l; [apply Rlt_le, Rinv_0_lt_compat; exact HnR|].
  apply rsum_le. intros k Hk. unfold g, v. rewrite !dft_diff, !dft_gfilt by assumption.
  pose proof (gauss_gain_pos dt n a k) as G0. pose proof (gauss_gain_le1 dt n a k) as G1.
  set (h := gauss_gain dt n a k) in *.
  replace (dft n x' k * RtoC h - dft n x k * RtoC h)%C with (RtoC h * (dft n x' k - dft n x k))%C by ring.
  rewrite Cnorm2_mul, Cnorm2_real. pose proof (Cnorm2_pos (dft n x' k - dft n x k)%C) as Q.
  rewrite <- (Rmult_1_l (Cnorm2 (dft n x' k - dft n x k)%C)) at 2. apply Rmult_le_compat_r; [exact Q|].
  rewrite <- (Rmult_1_l 1). apply Rmult_le_compat; lra.
Qed.

(** Two least-squares fits with the same source: the receiver functions differ by no more than the records. *)
Lemma fits_close dt n lim u u' w r r' (g w0 : list R) m0 : (0 < n)%nat -> dt <> 0 -> (lim <= n)%nat ->
  0 < ssq n (rnth u) -> 0 < ssq n (rnth u') -> 0 < ssq n (rnth w) ->
  best_fit dt n lim u w r -> best_fit dt n lim u' w r' ->
  (forall j, (j < n)%nat -> rnth w j = cconv n w0 g j) -> (forall k, (k < n)%nat -> m0 <= Cnorm2 (dft n w0 k)) ->
  dt * dt * m0 * ssq n (fun j => cconv n r' g j - cconv n r g j) <= ssq n (fun j => rnth u' j - rnth u j).
Proof.
  intros Hn Hdt HL Hpu Hpu' Hpw Hr Hr' Hw Hm.
  pose proof (rf_distance dt n lim u w Hn Hdt HL Hpu Hpw r r' g w0 m0 Hr (proj1 Hr') Hw Hm) as D.
  pose proof (rf_distance dt n lim u' w Hn Hdt HL Hpu' Hpw r' r g w0 m0 Hr' (proj1 Hr) Hw Hm) as D'.
  rewrite (ssq_ext n (fun j => cconv n r g j - cconv n r' g j) (fun j => (-1) * (cconv n r' g j - cconv n r g j))) in D' by (intros; ring).
  assert (SC : ssq n (fun j => (-1) * (cconv n r' g j - cconv n r g j)) = ssq n (fun j => cconv n r' g j - cconv n r g j))
    by (unfold ssq; apply rsum_ext; intros; ring).
  rewrite SC in D'. clear SC.
  pose proof (mf_pyth dt n lim u w Hn HL Hpu r r' (proj1 Hr) (proj1 Hr') (best_orthogonal dt n lim u w Hn Hdt HL Hpu Hpw r Hr)) as E.
  pose proof (mf_pyth dt n lim u' w Hn HL Hpu' r' r (proj1 Hr') (proj1 Hr) (best_orthogonal dt n lim u' w Hn Hdt HL Hpu' Hpw r' Hr')) as E'.
  set (d := fun j => dt * (cconv n r' w j - cconv n r w j)).
  assert (I : ip n (dev dt n lim w r r') (dev dt n lim w r r') = ssq n d).
  { unfold ip, ssq. apply rsum_ext. intros j _. pose proof (res_dev dt n lim u w Hn HL r r' j (proj1 Hr) (proj1 Hr')) as Q. unfold res_of in Q.
    assert (Q' : dev dt n lim w r r' j = - d j) by (unfold d; lra). rewrite Q'. ring. }
  assert (I' : ip n (dev dt n lim w r' r) (dev dt n lim w r' r) = ssq n d).
  { unfold ip, ssq. apply rsum_ext. intros j _. pose proof (res_dev dt n lim u w Hn HL r' r j (proj1 Hr') (proj1 Hr)) as Q. unfold res_of in Q.
    assert (Q' : dev dt n lim w r' r j = d j) by (unfold d; lra). rewrite Q'. ring. }
  rewrite I in E. rewrite I' in E'.
  set (T := rsum n (fun j => (rnth u' j - rnth u j) * d j)).
  assert (S : ssq n (rnth u) * (misfit dt n u w r' - misfit dt n u w r) + ssq n (rnth u') * (misfit dt n u' w r - misfit dt n u' w r') = 2 * T).
  { unfold misfit. replace (ssq n (rnth u) * (ssq n (fun j => rnth u j - dt * cconv n r' w j) / ssq n (rnth u) - ssq n (fun j => rnth u j - dt * cconv n r w j) / ssq n (rnth u)))
      with (ssq n (fun j => rnth u j - dt * cconv n r' w j) - ssq n (fun j => rnth u j - dt * cconv n r w j)) by (field; lra).
    replace (ssq n (rnth u') * (ssq n (fun j => rnth u' j - dt * cconv n r w j) / ssq n (rnth u') - ssq n (fun j => rnth u' j - dt * cconv n r' w j) / ssq n (rnth u')))
      with (ssq n (fun j => rnth u' j - dt * cconv n r w j) - ssq n (fun j => rnth u' j - dt * cconv n r' w j)) by (field; lra).
    unfold T, ssq. rewrite !rsum_diff, <- rsum_add, <- rsum_scale. apply rsum_ext. intros j _. unfold d. ring. }
  pose proof (ip_bound n (fun j => rnth u' j - rnth u j) d) as CS. cbv beta in CS. fold T in CS.
  assert (TA : T <= Rabs T) by apply Rle_abs.
  set (a := nrm n (fun j => rnth u' j - rnth u j)) in *. assert (Ea : a * a = ssq n (fun j => rnth u' j - rnth u j)) by apply nrm_sq.
  assert (Ed : nrm n d * nrm n d = ssq n d) by apply nrm_sq. pose proof (nrm_pos n d) as P1. pose proof (nrm_pos n (fun j => rnth u' j - rnth u j)) as P2. fold a in P2.
  set (b := nrm n d) in *. rewrite <- Ea.
  assert (BB : b * b <= a * b) by lra.
  assert (BA : b <= a). { destruct (Req_dec b 0) as [Z|Z]; [lra|]. apply (Rmult_le_reg_r b); lra. }
  assert (AB : a * b <= a * a) by (apply Rmult_le_compat_l; assumption).
  lra.
Qed.

(** The same with a train of spikes that fits the noise-free record exactly. *)
Lemma fit_near_truth dt n lim u u' w r r' (g w0 : list R) m0 : (0 < n)%nat -> dt <> 0 -> (lim <= n)%nat ->
  0 < ssq n (rnth u') -> 0 < ssq n (rnth w) -> spikes_below n lim r ->
  (forall j, (j < n)%nat -> rnth u j = dt * cconv n r w j) -> best_fit dt n lim u' w r' ->
  (forall j, (j < n)%nat -> rnth w j = cconv n w0 g j) -> (forall k, (k < n)%nat -> m0 <= Cnorm2 (dft n w0 k)) ->
  dt * dt * m0 * ssq n (fun j => cconv n r g j - cconv n r' g j) <= ssq n (fun j => rnth u' j - rnth u j).
Proof.
  intros Hn Hdt HL Hpu' Hpw Hr Hu Hr' Hw Hm.
  eapply Rle_trans; [apply (rf_distance dt n lim u' w Hn Hdt HL Hpu' Hpw r' r g w0 m0 Hr' Hr Hw Hm)|].
  rewrite Rmult_minus_distr_l. assert (0 <= ssq n (rnth u') * misfit dt n u' w r') by (apply Rmult_le_pos; [lra|apply misfit_nonneg; exact Hpu']).
  assert (Q : ssq n (rnth u') * misfit dt n u' w r = ssq n (fun j => rnth u' j - rnth u j)).
  { unfold misfit. rewrite (ssq_ext n (fun j => rnth u' j - dt * cconv n r w j) (fun j => rnth u' j - rnth u j)) by (intros j Hj; rewrite Hu by exact Hj; reflexivity). field. lra. }
  lra.
Qed.

(** ** C147 *)

(** What the iterations have left to do (C101): [it] iterations of at most [itmax] were made. *)
Definition unfinished (minderr rate size : R) (it itmax : nat) : R :=
  if (it <? itmax)%nat then minderr / (100 * rate) * size else (1 - rate) ^ it * size.

(** Two radial records over the same source record. *)
Theorem C147_iterative uin uin' win dt preonset gaussian itmax minderr phase rf rms it rf' rms' it' mu m0 :
  deconv_iterative uin win dt None preonset gaussian itmax minderr phase = Ok (rf, rms, it) -> (0 < it)%nat ->
  deconv_iterative uin' win dt None preonset gaussian itmax minderr phase = Ok (rf', rms', it') -> (0 < it')%nat ->
  let n := circle win in
  let lim := (if String.eqb phase "P" then n / 2 - 1 else n)%nat in
  let u := gfilt dt n gaussian uin in let u' := gfilt dt n gaussian uin' in let w := gfilt dt n gaussian win in
  0 < mu -> (forall k, (k < n)%nat -> mu <= Cnorm2 (dft n w k)) ->
  0 < m0 -> (forall k, (k < n)%nat -> m0 <= Cnorm2 (dft n win k)) ->
  let rate := mu / (INR lim * ssq n (rnth w)) in
  let size := ssq n (rnth u) / (dt * dt * m0) in let size' := ssq n (rnth u') / (dt * dt * m0) in
  sqrt (dist2 rf rf') <= sqrt (dist2 uin uin' / (dt * dt * m0))
    + sqrt (unfinished minderr rate size it itmax) + sqrt (unfinished minderr rate size' it' itmax).
Proof.
  intros E Hit E' Hit' n lim u u' w Hmu HB Hm0 HB0 rate size size'.
  pose proof E as F. apply deconv_iterative_inv in F; [|reflexivity]. destruct F as (n1 & Ps & R).
  pose proof E' as F'. apply deconv_iterative_inv in F'; [|reflexivity]. destruct F' as (n2 & Ps' & R').
  pose proof (ir_len _ _ _ _ _ _ _ _ _ _ _ _ _ R) as L. pose proof (ir_len _ _ _ _ _ _ _ _ _ _ _ _ _ R') as L'.
  assert (EC : n = (2 ^ Nat.log2_up (length uin))%nat) by (unfold n, circle; rewrite L; reflexivity).
  assert (EC' : n = (2 ^ Nat.log2_up (length uin'))%nat) by (unfold n, circle; rewrite L'; reflexivity).
  pose proof (ir_n _ _ _ _ _ _ _ _ _ _ _ _ _ R) as N1. rewrite <- EC in N1. subst n1.
  pose proof (ir_n _ _ _ _ _ _ _ _ _ _ _ _ _ R') as N2. rewrite <- EC' in N2. subst n2.
  pose proof (run_n _ _ _ _ _ _ _ _ _ _ _ _ _ R Hit) as Hn. pose proof (ir_dt _ _ _ _ _ _ _ _ _ _ _ _ _ R) as Hdt.
  pose proof (run_pw _ _ _ _ _ _ _ _ _ _ _ _ _ R Hit) as Hpw. fold w in Hpw.
  pose proof (run_pu _ _ _ _ _ _ _ _ _ _ _ _ _ R Hit) as Hpu. fold u in Hpu.
  pose proof (run_pu _ _ _ _ _ _ _ _ _ _ _ _ _ R' Hit') as Hpu'. fold u' in Hpu'.
  assert (HL : (lim <= n)%nat) by exact (lim_of_le phase n).
  pose proof (C101_receiver_function _ _ _ _ _ _ _ _ _ _ _ mu m0 E Hit) as A. cbv zeta in A. rewrite <- EC in A.
  destruct (A Hmu HB Hm0 HB0) as (_ & r & Br & _ & E1 & E2). clear A.
  pose proof (C101_receiver_function _ _ _ _ _ _ _ _ _ _ _ mu m0 E' Hit') as A. cbv zeta in A. rewrite <- EC' in A.
  destruct (A Hmu HB Hm0 HB0) as (_ & r' & Br' & _ & E1' & E2'). clear A.
  destruct (C37_spikes _ _ _ _ _ _ _ _ _ _ _ E) as (_ & Lf & _). destruct (C37_spikes _ _ _ _ _ _ _ _ _ _ _ E') as (_ & Lf' & _).
  set (s := Rtrunc (preonset / dt)) in *. set (m := length uin) in *.
  assert (Q : 0 < dt * dt * m0) by (apply Rmult_lt_0_compat; [|exact Hm0]; destruct (Rtotal_order dt 0) as [X|[X|X]]; [nra|contradiction|nra]).
  assert (Hle : (m <= n)%nat).
  { destruct (next_pow_2_Ok m n) as (_&X&_); [|exact X]. unfold next_pow_2. fold m in EC. rewrite EC.
    destruct (Nat.eqb_spec m 0) as [Z|_]; [|reflexivity].
    exfalso. pose proof (ir_n2 _ _ _ _ _ _ _ _ _ _ _ _ _ R) as X. rewrite EC, Z in X. cbn in X. lia. }
  (* the two least-squares receiver functions *)
  assert (MID : ssq m (fun j => rf_of dt n gaussian r' s j - rf_of dt n gaussian r s j) <= dist2 uin uin' / (dt * dt * m0)).
  { apply (Rmult_le_reg_l (dt * dt * m0)); [exact Q|]. replace (dt * dt * m0 * (dist2 uin uin' / (dt * dt * m0))) with (dist2 uin uin') by (field; split; [lra|exact Hdt]).
    eapply Rle_trans; [|apply (gfilt_dist dt n gaussian uin uin' Hn Hdt); [exact Hle|unfold m in *; lia]]. fold u u'.
    eapply Rle_trans; [|apply (fits_close dt n lim u u' w r r' (gauss_pulse dt n gaussian) (zpad n win) m0 Hn Hdt HL Hpu Hpu' Hpw Br Br')].
    - apply Rmult_le_compat_l; [lra|]. eapply Rle_trans; [apply (ssq_le_prefix m n _ Hle)|].
      unfold rf_of. apply Req_le. exact (ssq_circ n (fun i => cconv n r' (gauss_pulse dt n gaussian) i - cconv n r (gauss_pulse dt n gaussian) i) s Hn).
    - intros j Hj. apply gfilt_nth. exact Hj.
    - intros k Hk. rewrite zpad_dft. apply HB0. exact Hk. }
  assert (B1 : nrm m (fun j => rf_of dt n gaussian r s j - rnth rf j) <= sqrt (unfinished minderr rate size it itmax)).
  { unfold nrm. rewrite (ssq_ext m _ (fun j => (-1) * (rnth rf j - rf_of dt n gaussian r s j))) by (intros; ring).
    apply sqrt_le_1_alt. replace (ssq m (fun j => -1 * (rnth rf j - rf_of dt n gaussian r s j))) with (ssq m (fun j => rnth rf j - rf_of dt n gaussian r s j))
      by (unfold ssq; apply rsum_ext; intros; ring).
    unfold unfinished. destruct (Nat.ltb_spec it itmax) as [X|X]; [apply E2; exact X|exact E1]. }
  assert (B2 : nrm m (fun j => rnth rf' j - rf_of dt n gaussian r' s j) <= sqrt (unfinished minderr rate size' it' itmax)).
  { unfold nrm. apply sqrt_le_1_alt. assert (Lm : length uin' = m) by (unfold m; lia). rewrite Lm in E1', E2'.
    unfold unfinished. destruct (Nat.ltb_spec it' itmax) as [X|X]; [apply E2'; exact X|exact E1']. }
  assert (B3 : nrm m (fun j => rf_of dt n gaussian r' s j - rf_of dt n gaussian r s j) <= sqrt (dist2 uin uin' / (dt * dt * m0)))
    by (apply sqrt_le_1_alt; exact MID).
  unfold dist2 at 1. rewrite Lf. fold m. change (nrm m (fun j => rnth rf' j - rnth rf j) <= sqrt (dist2 uin uin' / (dt * dt * m0))
    + sqrt (unfinished minderr rate size it itmax) + sqrt (unfinished minderr rate size' it' itmax)).
  rewrite (nrm_ext m _ (fun j => (rf_of dt n gaussian r' s j - rf_of dt n gaussian r s j) + ((rf_of dt n gaussian r s j - rnth rf j) + (rnth rf' j - rf_of dt n gaussian r' s j)))) by (intros; ring).
  eapply Rle_trans; [apply (nrm_add m (fun j => rf_of dt n gaussian r' s j - rf_of dt n gaussian r s j) (fun j => (rf_of dt n gaussian r s j - rnth rf j) + (rnth rf' j - rf_of dt n gaussian r' s j)))|].
  pose proof (nrm_add m (fun j => rf_of dt n gaussian r s j - rnth rf j) (fun j => rnth rf' j - rf_of dt n gaussian r' s j)) as T. cbv beta in T.
  lra.
Qed.

(** From a noisy seismogram to the crust: [uin] is the source convolved with the arrivals, the recorded [uin']
    differs from it by noise of energy at most [noise]. *)
Theorem C147_recovers uin uin' win dt preonset gaussian itmax minderr phase rf' rms' it' mu m0 r noise
    draw (p : R) pk (H K : list R) (Vp w1 w2 w3 : R) layer q (H0 K0 : R) :
  deconv_iterative uin' win dt None preonset gaussian itmax minderr phase = Ok (rf', rms', it') -> (0 < it')%nat -> 0 < dt ->
  length uin' = length uin -> dist2 uin uin' <= noise ->
  let n := (2 ^ Nat.log2_up (length uin))%nat in
  let lim := (if String.eqb phase "P" then n / 2 - 1 else n)%nat in
  let u' := gfilt dt n gaussian uin' in let w := gfilt dt n gaussian win in
  spikes_below n lim r -> convolved dt n uin win r ->
  0 < mu -> (forall k, (k < n)%nat -> mu <= Cnorm2 (dft n w k)) ->
  0 < m0 -> (forall k, (k < n)%nat -> m0 <= Cnorm2 (dft n win k)) ->
  let rate := mu / (INR lim * ssq n (rnth w)) in
  let size' := ssq n (rnth u') / (dt * dt * m0) in
  let margin := 2 * (sqrt (noise / (dt * dt * m0)) + sqrt (unfinished minderr rate size' it' itmax)) in
  identifies margin (ideal dt n gaussian r (Rtrunc (preonset / dt)) (length uin)) dt (length uin) preonset Vp p H K H0 K0 ->
  0 < w1 -> 0 < w2 -> 0 < w3 ->
  @hkSynth RN draw rf' (@uniform_axis RN dt (length uin) preonset) p pk H K (Some Vp) (Some w1) (Some w2) (Some w3) layer = Ok q ->
  exists v, nth_error (hs_stk q) (hs_best q) = Some (@mkRow RN H0 K0 v).
Proof.
  intros E' Hit' Hdt Hlen Hno n lim u' w Hsp HC Hmu HB Hm0 HB0 rate size' margin ID P1 P2 P3 EQ.
  pose proof E' as F'. apply deconv_iterative_inv in F'; [|reflexivity]. destruct F' as (n2 & Ps' & R').
  assert (EC' : n = (2 ^ Nat.log2_up (length uin'))%nat) by (unfold n; rewrite Hlen; reflexivity).
  pose proof (ir_n _ _ _ _ _ _ _ _ _ _ _ _ _ R') as N2. rewrite <- EC' in N2. subst n2.
  pose proof (run_n _ _ _ _ _ _ _ _ _ _ _ _ _ R' Hit') as Hn. assert (Hdt0 : dt <> 0) by lra.
  pose proof (run_pw _ _ _ _ _ _ _ _ _ _ _ _ _ R' Hit') as Hpw. fold w in Hpw.
  pose proof (run_pu _ _ _ _ _ _ _ _ _ _ _ _ _ R' Hit') as Hpu'. fold u' in Hpu'.
  assert (HL : (lim <= n)%nat) by exact (lim_of_le phase n).
  pose proof (C101_receiver_function _ _ _ _ _ _ _ _ _ _ _ mu m0 E' Hit') as A. cbv zeta in A. rewrite <- EC' in A.
  destruct (A Hmu HB Hm0 HB0) as (_ & r' & Br' & _ & E1' & E2'). clear A.
  destruct (C37_spikes _ _ _ _ _ _ _ _ _ _ _ E') as (_ & Lf' & _).
  set (s := Rtrunc (preonset / dt)) in *. rewrite Hlen in E1', E2'. set (m := length uin) in *.
  assert (Q : 0 < dt * dt * m0) by (apply Rmult_lt_0_compat; [apply Rmult_lt_0_compat; exact Hdt|exact Hm0]).
  assert (Hle : (m <= n)%nat).
  { destruct (next_pow_2_Ok m n) as (_&X&_); [|exact X]. unfold next_pow_2. fold m in EC'.
    destruct (Nat.eqb_spec m 0) as [Z|_]; [|reflexivity].
    exfalso. pose proof (ir_n2 _ _ _ _ _ _ _ _ _ _ _ _ _ R') as X. unfold n in X. rewrite Z in X. cbn in X. lia. }
  assert (L1 : (1 <= m)%nat).
  { destruct (Nat.eq_dec m 0) as [Z|]; [|lia]. exfalso.
    pose proof (ir_n2 _ _ _ _ _ _ _ _ _ _ _ _ _ R') as X. unfold n in X. rewrite Z in X. cbn in X. lia. }
  assert (MID : ssq m (fun j => rf_of dt n gaussian r s j - rf_of dt n gaussian r' s j) <= noise / (dt * dt * m0)).
  { apply (Rmult_le_reg_l (dt * dt * m0)); [exact Q|]. replace (dt * dt * m0 * (noise / (dt * dt * m0))) with noise by (field; split; lra).
    eapply Rle_trans; [|exact Hno].
    eapply Rle_trans; [|apply (gfilt_dist dt n gaussian uin uin' Hn Hdt0 Hle Hlen)]. fold u'.
    eapply Rle_trans; [|apply (fit_near_truth dt n lim (gfilt dt n gaussian uin) u' w r r' (gauss_pulse dt n gaussian) (zpad n win) m0 Hn Hdt0 HL Hpu' Hpw Hsp)].
    - apply Rmult_le_compat_l; [lra|]. eapply Rle_trans; [apply (ssq_le_prefix m n _ Hle)|].
      unfold rf_of. apply Req_le. exact (ssq_circ n (fun i => cconv n r (gauss_pulse dt n gaussian) i - cconv n r' (gauss_pulse dt n gaussian) i) s Hn).
    - apply gfilt_convolved; assumption.
    - exact Br'.
    - intros j Hj. apply gfilt_nth. exact Hj.
    - intros k Hk. rewrite zpad_dft. apply HB0. exact Hk. }
  set (B := unfinished minderr rate size' it' itmax) in *.
  assert (EB : ssq m (fun j => rnth rf' j - rf_of dt n gaussian r' s j) <= B).
  { unfold B, unfinished. destruct (Nat.ltb_spec it' itmax) as [X|X]; [apply E2'; exact X|exact E1']. }
  assert (TERM : forall f b j, (j < m)%nat -> ssq m f <= b -> Rabs (f j) <= sqrt b).
  { intros f b j Hj Hb. rewrite <- sqrt_Rsqr_abs. apply sqrt_le_1_alt. eapply Rle_trans; [|exact Hb]. unfold Rsqr. apply ssq_term. exact Hj. }
  assert (Lg : length (ideal dt n gaussian r s m) = m) by (unfold ideal; rewrite map_length, seq_length; reflexivity).
  apply (near_recovers draw (ideal dt n gaussian r s m) rf' 1 (sqrt (noise / (dt * dt * m0)) + sqrt B) dt m preonset p pk H K Vp w1 w2 w3 layer q H0 K0);
    try assumption; try lra; try (rewrite Lg; lia).
  rewrite Lg. intros j Hj. unfold ideal. rewrite rnth_map_seq, !Rmult_1_l by exact Hj.
  pose proof (TERM _ _ j Hj EB) as T1. pose proof (TERM _ _ j Hj MID) as T2. cbv beta in T1, T2.
  replace (rnth rf' j - rf_of dt n gaussian r s j) with ((rnth rf' j - rf_of dt n gaussian r' s j) + - (rf_of dt n gaussian r s j - rf_of dt n gaussian r' s j)) by ring.
  eapply Rle_trans; [apply Rabs_triang|]. rewrite Rabs_Ropp. lra.
Qed.

(** As the iterations go on only the noise remains. *)
Theorem C147_limit uin uin' win dt gaussian phase m0 :
  length uin = length win -> length uin' = length win -> dt <> 0 -> ~ all_zero uin -> ~ all_zero uin' ->
  let n := circle win in
  0 < m0 -> (forall k, (k < n)%nat -> m0 <= Cnorm2 (dft n win k)) ->
  forall eps, 0 < eps -> exists N, forall itmax preonset minderr rf rms it rf' rms' it', (N <= itmax)%nat -> minderr <= 0 ->
    deconv_iterative uin win dt None preonset gaussian itmax minderr phase = Ok (rf, rms, it) ->
    deconv_iterative uin' win dt None preonset gaussian itmax minderr phase = Ok (rf', rms', it') ->
    sqrt (dist2 rf rf') <= sqrt (dist2 uin uin' / (dt * dt * m0)) + eps.
Proof.
  intros L L' Hdt Hu Hu' n Hm0 HB0 eps He.
  assert (EC : (2 ^ Nat.log2_up (length uin))%nat = n) by (unfold n, circle; rewrite L; reflexivity).
  assert (EC' : (2 ^ Nat.log2_up (length uin'))%nat = n) by (unfold n, circle; rewrite L'; reflexivity).
  assert (Hn : (0 < n)%nat) by (apply pow2n_pos).
  assert (Hsp : forall k, (k < n)%nat -> dft n win k <> C0).
  { intros k Hk Z. specialize (HB0 k Hk). rewrite Z in HB0. cbv [Cnorm2 C0] in HB0. cbn in HB0. lra. }
  set (lim := (if String.eqb phase "P" then n / 2 - 1 else n)%nat). assert (HL : (lim <= n)%nat) by exact (lim_of_le phase n).
  destruct (C101_converges uin win dt gaussian phase L Hdt Hu) as (r & Br & _ & CV); [rewrite EC; exact Hsp|]. rewrite EC in Br, CV. fold lim in Br.
  destruct (C101_converges uin' win dt gaussian phase L' Hdt Hu') as (r' & Br' & _ & CV'); [rewrite EC'; exact Hsp|]. rewrite EC' in Br', CV'. fold lim in Br'.
  set (m := length uin) in *. assert (Hm : 0 < INR (S m)) by (apply lt_0_INR; lia).
  set (e := eps / (2 * INR (S m))). assert (Hep : 0 < e) by (apply Rdiv_lt_0_compat; lra).
  destruct (CV e Hep) as [N1 H1]. destruct (CV' e Hep) as [N2 H2]. exists (Nat.max N1 N2).
  intros itmax preonset minderr rf rms it rf' rms' it' HN Hmin E E'.
  specialize (H1 itmax preonset minderr rf rms it ltac:(lia) Hmin E). specialize (H2 itmax preonset minderr rf' rms' it' ltac:(lia) Hmin E').
  set (s := Rtrunc (preonset / dt)) in *.
  destruct (C37_spikes _ _ _ _ _ _ _ _ _ _ _ E) as (_ & Lf & _).
  assert (Hle : (m <= n)%nat).
  { destruct (next_pow_2_Ok m n) as (_&X&_); [|exact X]. unfold next_pow_2. rewrite EC. destruct (Nat.eqb_spec m 0) as [Z|_]; [|reflexivity].
    exfalso. apply Hu. intro j. apply rnth_over'. fold m. lia. }
  assert (Hw : ~ all_zero win).
  { intro A. apply (Hsp 0%nat Hn). unfold dft. rewrite (csum_ext n _ (fun _ => C0)); [apply csum_0|]. intros j _. rewrite (A j). change (RtoC 0) with C0. ring. }
  assert (Q : 0 < dt * dt * m0) by (apply Rmult_lt_0_compat; [|exact Hm0]; destruct (Rtotal_order dt 0) as [X|[X|X]]; [nra|contradiction|nra]).
  assert (MID : ssq m (fun j => rf_of dt n gaussian r' s j - rf_of dt n gaussian r s j) <= dist2 uin uin' / (dt * dt * m0)).
  { apply (Rmult_le_reg_l (dt * dt * m0)); [exact Q|]. replace (dt * dt * m0 * (dist2 uin uin' / (dt * dt * m0))) with (dist2 uin uin') by (field; split; [lra|exact Hdt]).
    eapply Rle_trans; [|apply (gfilt_dist dt n gaussian uin uin' Hn Hdt); [exact Hle|unfold m in *; lia]].
    eapply Rle_trans; [|apply (fits_close dt n lim (gfilt dt n gaussian uin) (gfilt dt n gaussian uin') (gfilt dt n gaussian win) r r' (gauss_pulse dt n gaussian) (zpad n win) m0 Hn Hdt HL)].
    - apply Rmult_le_compat_l; [lra|]. eapply Rle_trans; [apply (ssq_le_prefix m n _ Hle)|].
      unfold rf_of. apply Req_le. exact (ssq_circ n (fun i => cconv n r' (gauss_pulse dt n gaussian) i - cconv n r (gauss_pulse dt n gaussian) i) s Hn).
    - apply gfilt_nonzero; try assumption.
    - apply gfilt_nonzero; try assumption. lia.
    - apply gfilt_nonzero; try assumption. lia.
    - exact Br.
    - exact Br'.
    - intros j Hj. apply gfilt_nth. exact Hj.
    - intros k Hk. rewrite zpad_dft. apply HB0. exact Hk. }
  assert (SM : forall f, (forall j, (j < m)%nat -> Rabs (f j) <= e) -> nrm m f <= eps / 2).
  { intros f Hf. apply nrm_le; [lra|].
    assert (S1 : ssq m f <= rsum m (fun _ => e * e)).
    { unfold ssq. apply rsum_le. intros j Hj. specialize (Hf j Hj). change (Rsqr (f j) <= e * e). rewrite Rsqr_abs. unfold Rsqr. apply Rmult_le_compat; try apply Rabs_pos; exact Hf. }
    rewrite rsum_const in S1. assert (Ee : eps / 2 = INR (S m) * e) by (unfold e; field; lra). rewrite Ee, S_INR.
    pose proof (pos_INR m) as Pm. set (x := INR m) in *. assert (0 <= e * e) by (apply Rmult_le_pos; lra).
    replace ((x + 1) * e * ((x + 1) * e)) with (((x + 1) * (x + 1)) * (e * e)) by ring.
    eapply Rle_trans; [exact S1|]. apply Rmult_le_compat_r; [assumption|]. assert (0 <= x * x) by (apply Rmult_le_pos; assumption). lra. }
  assert (B1 : nrm m (fun j => rf_of dt n gaussian r s j - rnth rf j) <= eps / 2).
  { apply SM. intros j Hj. rewrite Rabs_minus_sym. apply H1. exact Hj. }
  assert (B2 : nrm m (fun j => rnth rf' j - rf_of dt n gaussian r' s j) <= eps / 2).
  { apply SM. intros j Hj. apply H2. unfold m in Hj. lia. }
  assert (B3 : nrm m (fun j => rf_of dt n gaussian r' s j - rf_of dt n gaussian r s j) <= sqrt (dist2 uin uin' / (dt * dt * m0)))
    by (apply sqrt_le_1_alt; exact MID).
  unfold dist2 at 1. rewrite Lf. fold m. change (nrm m (fun j => rnth rf' j - rnth rf j) <= sqrt (dist2 uin uin' / (dt * dt * m0)) + eps).
  rewrite (nrm_ext m _ (fun j => (rf_of dt n gaussian r' s j - rf_of dt n gaussian r s j) + ((rf_of dt n gaussian r s j - rnth rf j) + (rnth rf' j - rf_of dt n gaussian r' s j)))) by (intros; ring).
  eapply Rle_trans; [apply (nrm_add m (fun j => rf_of dt n gaussian r' s j - rf_of dt n gaussian r s j) (fun j => (rf_of dt n gaussian r s j - rnth rf j) + (rnth rf' j - rf_of dt n gaussian r' s j)))|].
  pose proof (nrm_add m (fun j => rf_of dt n gaussian r s j - rnth rf j) (fun j => rnth rf' j - rf_of dt n gaussian r' s j)) as T. cbv beta in T.
  lra.
Qed.

(** Enough iterations on a noisy record find every crust that the ideal receiver function identifies by more than
    twice what the noise can do. *)
Theorem C147_found uin uin' win dt gaussian phase r m0 noise :
  length uin = length win -> length uin' = length win -> 0 < dt -> ~ all_zero uin' -> dist2 uin uin' <= noise ->
  let n := (2 ^ Nat.log2_up (length uin))%nat in
  let lim := (if String.eqb phase "P" then n / 2 - 1 else n)%nat in
  0 < m0 -> (forall k, (k < n)%nat -> m0 <= Cnorm2 (dft n win k)) ->
  spikes_below n lim r -> convolved dt n uin win r ->
  forall m, 0 < m -> exists N, forall itmax preonset minderr rf' rms' it' draw (p : R) pk (H K : list R) (Vp w1 w2 w3 : R) layer q (H0 K0 : R),
    (N <= itmax)%nat -> minderr <= 0 ->
    deconv_iterative uin' win dt None preonset gaussian itmax minderr phase = Ok (rf', rms', it') ->
    identifies (2 * sqrt (noise / (dt * dt * m0)) + m) (ideal dt n gaussian r (Rtrunc (preonset / dt)) (length uin)) dt (length uin) preonset Vp p H K H0 K0 ->
    0 < w1 -> 0 < w2 -> 0 < w3 ->
    @hkSynth RN draw rf' (@uniform_axis RN dt (length uin) preonset) p pk H K (Some Vp) (Some w1) (Some w2) (Some w3) layer = Ok q ->
    exists v, nth_error (hs_stk q) (hs_best q) = Some (@mkRow RN H0 K0 v).
Proof.
  intros L L' Hdt Hu' Hno n lim Hm0 HB0 Hsp HC m Hm.
  assert (EC' : (2 ^ Nat.log2_up (length uin'))%nat = n) by (unfold n; rewrite L, L'; reflexivity).
  assert (Hn : (0 < n)%nat) by (apply pow2n_pos). assert (Hdt0 : dt <> 0) by lra.
  assert (HL : (lim <= n)%nat) by exact (lim_of_le phase n).
  assert (Hnz : forall k, (k < n)%nat -> dft n win k <> C0).
  { intros k Hk Z. specialize (HB0 k Hk). rewrite Z in HB0. cbv [Cnorm2 C0] in HB0. cbn in HB0. lra. }
  destruct (C101_converges uin' win dt gaussian phase L' Hdt0 Hu') as (r' & Br' & _ & CV'); [rewrite EC'; exact Hnz|]. rewrite EC' in Br', CV'. fold lim in Br'.
  destruct (CV' (m / 2) ltac:(lra)) as [N HN]. exists N.
  intros itmax preonset minderr rf' rms' it' draw p pk H K Vp w1 w2 w3 layer q H0 K0 HI Hmin E' ID P1 P2 P3 EQ.
  specialize (HN itmax preonset minderr rf' rms' it' HI Hmin E').
  set (s := Rtrunc (preonset / dt)) in *. set (l := length uin) in *.
  destruct (C37_spikes _ _ _ _ _ _ _ _ _ _ _ E') as (_ & Lf' & _).
  assert (L1 : (1 <= l)%nat) by (unfold l; destruct uin' as [|x y]; [exfalso; apply Hu'; intro j; destruct j; reflexivity|cbn in L'; lia]).
  assert (Hle : (l <= n)%nat).
  { destruct (next_pow_2_Ok l n) as (_&X&_); [|exact X]. unfold next_pow_2. fold n. destruct (Nat.eqb_spec l 0) as [Z|_]; [lia|reflexivity]. }
  assert (Hw : ~ all_zero win).
  { intro A. apply (Hnz 0%nat Hn). unfold dft. rewrite (csum_ext n _ (fun _ => C0)); [apply csum_0|]. intros j _. rewrite (A j). change (RtoC 0) with C0. ring. }
  assert (Q : 0 < dt * dt * m0) by (apply Rmult_lt_0_compat; [apply Rmult_lt_0_compat; exact Hdt|exact Hm0]).
  assert (MID : ssq l (fun j => rf_of dt n gaussian r s j - rf_of dt n gaussian r' s j) <= noise / (dt * dt * m0)).
  { apply (Rmult_le_reg_l (dt * dt * m0)); [exact Q|]. replace (dt * dt * m0 * (noise / (dt * dt * m0))) with noise by (field; split; lra).
    eapply Rle_trans; [|exact Hno].
    eapply Rle_trans; [|apply (gfilt_dist dt n gaussian uin uin' Hn Hdt0 Hle); unfold l; lia].
    eapply Rle_trans; [|apply (fit_near_truth dt n lim (gfilt dt n gaussian uin) (gfilt dt n gaussian uin') (gfilt dt n gaussian win) r r' (gauss_pulse dt n gaussian) (zpad n win) m0 Hn Hdt0 HL)].
    - apply Rmult_le_compat_l; [lra|]. eapply Rle_trans; [apply (ssq_le_prefix l n _ Hle)|].
      unfold rf_of. apply Req_le. exact (ssq_circ n (fun i => cconv n r (gauss_pulse dt n gaussian) i - cconv n r' (gauss_pulse dt n gaussian) i) s Hn).
    - apply gfilt_nonzero; try assumption. unfold l in *. lia.
    - apply gfilt_nonzero; try assumption. unfold l in *. lia.
    - exact Hsp.
    - apply gfilt_convolved; assumption.
    - exact Br'.
    - intros j Hj. apply gfilt_nth. exact Hj.
    - intros k Hk. rewrite zpad_dft. apply HB0. exact Hk. }
  assert (Lg : length (ideal dt n gaussian r s l) = l) by (unfold ideal; rewrite map_length, seq_length; reflexivity).
  apply (near_recovers draw (ideal dt n gaussian r s l) rf' 1 (sqrt (noise / (dt * dt * m0)) + m / 2) dt l preonset p pk H K Vp w1 w2 w3 layer q H0 K0);
    try assumption; try lra; try (rewrite Lg; unfold l; lia).
  - rewrite Lg. intros j Hj. unfold ideal. rewrite rnth_map_seq, !Rmult_1_l by exact Hj.
    assert (Hj' : (j < length uin')%nat) by (unfold l in Hj; lia). specialize (HN j Hj').
    assert (T2 : Rabs (rf_of dt n gaussian r s j - rf_of dt n gaussian r' s j) <= sqrt (noise / (dt * dt * m0))).
    { rewrite <- sqrt_Rsqr_abs. apply sqrt_le_1_alt. eapply Rle_trans; [|exact MID]. unfold Rsqr. exact (ssq_term l (fun j => rf_of dt n gaussian r s j - rf_of dt n gaussian r' s j) j Hj). }
    replace (rnth rf' j - rf_of dt n gaussian r s j) with ((rnth rf' j - rf_of dt n gaussian r' s j) + - (rf_of dt n gaussian r s j - rf_of dt n gaussian r' s j)) by ring.
    eapply Rle_trans; [apply Rabs_triang|]. rewrite Rabs_Ropp. lra.
  - replace (2 * (sqrt (noise / (dt * dt * m0)) + m / 2)) with (2 * sqrt (noise / (dt * dt * m0)) + m) by field. exact ID.
Qed.

(** The record of C146_example. *)
Theorem C147_example : exists itmax rf rms it q v,
  deconv_iterative dx_noisy dx_win 1 None 2 100 itmax 0 "P" = Ok (rf, rms, it) /\ dist2 dx_uin dx_noisy = 1 / 200 /\
  @hkSynth RN (@pyplot RN) rf (@uniform_axis RN 1 16 2) 0 NpF [1; 2] [2; 3] (Some 1) (Some 1) (Some 1) (Some 1) None = Ok q /\
  nth_error (hs_stk q) (hs_best q) = Some (@mkRow RN 1 2 v).
Proof.
  destruct dx_not_zero as [Zw _]. assert (Zu : ~ all_zero dx_noisy) by (intro A; specialize (A 0%nat); unfold rnth in A; cbn in A; lra).
  assert (SB : spikes_below 16 7 dx_r).
  { split; [reflexivity|]. intros k Hk. do 16 (destruct k as [|k]; [first [lia|reflexivity]|]). apply rnth_over'. cbn. lia. }
  assert (DN : dist2 dx_uin dx_noisy = 1 / 200) by (unfold dist2, ssq; cbn [length dx_uin rsum]; unfold rnth, dx_uin, dx_noisy; cbn [nth]; lra).
  assert (PW : forall k, (k < 16)%nat -> 1 <= Cnorm2 (dft 16 dx_win k)).
  { intros k _. rewrite dx_power. pose proof (COS_bound (2 * PI * IZR (- (Z.of_nat 1 * Z.of_nat k)) / INR 16)) as [B _]. lra. }
  destruct (C147_found dx_uin dx_noisy dx_win 1 100 "P" dx_r 1 (1 / 200) eq_refl eq_refl Rlt_0_1 Zu (Req_le _ _ DN) Rlt_0_1 PW SB dx_convolved (1 / 100) ltac:(lra)) as [N HN].
  assert (T2 : Rtrunc (2 / 1) = 2%Z) by (replace (2 / 1) with (IZR 2) by field; apply Rtrunc_Z).
  assert (T3 : (2 <= length dx_noisy)%nat /\ (3 <= length dx_noisy)%nat) by (cbn; lia). assert (NZ : (1 <> 0 /\ 100 <> 0)%R) by lra.
  destruct (C37_returns dx_noisy dx_win 1 2 100 N 0 "P" eq_refl (proj1 T3) (fun _ => proj2 T3) (proj1 NZ) (proj2 NZ) Zu Zw) as (rf & rms & it & E & _).
  - rewrite T2. vm_compute. discriminate.
  - destruct (C37_spikes _ _ _ _ _ _ _ _ _ _ _ E) as (_ & L & _). destruct (dx_searched rf L) as [q EQ].
    assert (MG : 2 * sqrt (1 / 200 / (1 * 1 * 1)) + 1 / 100 <= 1 / 5).
    { assert (sqrt (1 / 200 / (1 * 1 * 1)) <= 19 / 200). { rewrite <- (sqrt_Rsqr (19 / 200)) by lra. apply sqrt_le_1_alt. unfold Rsqr. lra. } lra. }
    destruct (HN N 2 0 rf rms it (@pyplot RN) 0 NpF [1; 2] [2; 3] 1 1 1 1 None q 1 2 (le_n N) (Rle_refl 0) E) as [v Ev];
      [rewrite T2; apply dx_identifies; exact MG|exact Rlt_0_1|exact Rlt_0_1|exact Rlt_0_1|exact EQ|].
     exists N, rf, rms, it, q, v. split; [exact E|]. split; [exact DN|]. split; [exact EQ|exact Ev].
Qed.
