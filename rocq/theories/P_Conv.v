(** * P_Conv: iterative deconvolution converges (C101), receiver functions are recovered (C102). *)

From Coq Require Import Reals Lra Lia.
From Verif Require Import Base Num NumPy HkReal Cplx DFT DFT2 SpecSignal SpecConv LeastSquares ReverbModel DeconModel DeconProofs
  DeconProofs2 DeconProofs3 DeconProofs4 DeconProofs5 DeconConv P_Decon P_Decon2.
Local Open Scope R_scope.

Lemma zeros_below n lim : spikes_below n lim (repeat 0 n).
Proof. split; [apply repeat_length|]. intros k _. apply rnth_repeat0. Qed.

Lemma lim_of_le phase n : (lim_of phase n <= n)%nat.
Proof.
  unfold lim_of. destruct (String.eqb phase "P"); [|lia]. destruct n as [|n]; [cbn; lia|].
  assert (S n / 2 <= S n)%nat by (apply Nat.div_le_upper_bound; lia). lia.
Qed.

Lemma last_nth_error {A} (l : list A) d : nth_error (d :: l) (length l) = Some (last l d).
Proof.
  revert d. induction l as [|x l IH]; intro d; [reflexivity|].
  change (nth_error (d :: x :: l) (length (x :: l))) with (nth_error (x :: l) (length l)). rewrite IH.
  rewrite last_cons_d. reflexivity.
Qed.

(** A run, a lower frame bound [c] of the delayed filtered sources, and a best fit. *)
Section Run.
Variables (uin win : list R) (dt pre a : R) (itmax : nat) (minderr : R) (phase : string) (rf rms : list R) (it n : nat) (Ps : list (list R)).
Context (R : iter_run uin win dt pre a itmax minderr phase rf rms it n Ps) (Hit : (0 < it)%nat).
Let lim := lim_of phase n.
Let u := gfilt dt n a uin.
Let w := gfilt dt n a win.
Let pu := ssq n (rnth u).
Let pw := ssq n (rnth w).

Lemma run_ne : Ps <> [].
Proof. intros E. pose proof (ir_it _ _ _ _ _ _ _ _ _ _ _ _ _ R) as X. rewrite E in X. cbn in X. lia. Qed.
Lemma run_n : (0 < n)%nat.
Proof. pose proof (ir_n2 _ _ _ _ _ _ _ _ _ _ _ _ _ R). lia. Qed.
Lemma run_pw : 0 < pw. Proof. apply (ir_power _ _ _ _ _ _ _ _ _ _ _ _ _ R run_ne). Qed.
Lemma run_pu : 0 < pu. Proof. apply (ir_power _ _ _ _ _ _ _ _ _ _ _ _ _ R run_ne). Qed.
Lemma run_lim : (0 < lim)%nat.
Proof.
  pose proof run_ne as Hne. pose proof (ir_greedy _ _ _ _ _ _ _ _ _ _ _ _ _ R) as G.
  destruct Ps as [|p Q]; [contradiction|]. destruct G as [(l&b&Hl&_) _]. unfold lim. lia.
Qed.

Lemma run_conv c r : frame n lim w c -> best_fit dt n lim u w r ->
  let k := c / (INR lim * pw) in
  0 < k <= 1 /\ spikes_below n lim (last Ps (repeat 0 n)) /\
  misfit dt n u w r <= 1 /\
  misfit dt n u w r <= misfit dt n u w (last Ps (repeat 0 n)) <= misfit dt n u w r + (1 - k) ^ it * (1 - misfit dt n u w r) /\
  (forall i, (i < length rms)%nat -> misfit dt n u w r <= rnth rms i <= misfit dt n u w r + (1 - k) ^ (S i) * (1 - misfit dt n u w r)) /\
  ((it < itmax)%nat -> misfit dt n u w (last Ps (repeat 0 n)) <= misfit dt n u w r + minderr / (100 * k)).
Proof.
  intros HF Hr k. pose proof run_n as Hn. pose proof run_lim as Hl0. pose proof run_pw as Hpw. pose proof run_pu as Hpu.
  pose proof (ir_dt _ _ _ _ _ _ _ _ _ _ _ _ _ R) as Hdt. pose proof (lim_of_le phase n) as HL. fold lim in HL.
  pose proof (ir_greedy _ _ _ _ _ _ _ _ _ _ _ _ _ R) as G. fold u w lim in G.
  pose proof (ir_it _ _ _ _ _ _ _ _ _ _ _ _ _ R) as Eit.
  pose proof (kappa_le_1 n lim w Hn Hpw c HF Hl0) as HK. fold pw k in HK. split; [exact HK|].
  pose proof (greedy_run_conv dt n lim u w Hn Hdt HL Hpu Hpw c r Ps HF Hr Hl0 (repeat 0 n) (zeros_below n lim) G) as CV.
  fold pw k in CV. rewrite misfit_zero in CV by exact Hpu.
  assert (CL := CV it (last Ps (repeat 0 n))). rewrite Eit in CL. specialize (CL (last_nth_error _ _)). rewrite <- Eit in CL.
  destruct CL as (B1&B2). split; [exact B1|].
  assert (M1 : misfit dt n u w r <= 1).
  { rewrite <- (misfit_zero dt n u w Hpu). apply Hr. apply zeros_below. }
  split; [exact M1|]. split; [exact B2|]. split.
  - intros i Hi.
    assert (Erms : rms = firstn (it - 1) (misfits dt n u w Ps)).
    { pose proof run_ne as Hne. rewrite (ir_rms _ _ _ _ _ _ _ _ _ _ _ _ _ R). fold u w. clear - Hne. destruct Ps; [contradiction|reflexivity]. }
    rewrite Erms in Hi |- *.
    rewrite firstn_length in Hi. unfold misfits in Hi. rewrite map_length in Hi.
    rewrite rnth_firstn by lia. unfold misfits, rnth.
    destruct (nth_error Ps i) as [q|] eqn:Eq; [|apply nth_error_None in Eq; lia].
    rewrite (nth_error_nth_d (map (misfit dt n u w) Ps) i (misfit dt n u w q)) by (rewrite nth_error_map, Eq; reflexivity).
    destruct (CV (S i) q Eq) as (_&B). exact B.
  - intro Hlt. pose proof run_ne as Hne.
    assert (exists q, nth_error (repeat 0 n :: Ps) (it - 1) = Some q) as [q Eq].
    { destruct (nth_error (repeat 0 n :: Ps) (it - 1)) as [q|] eqn:E; [eauto|]. apply nth_error_None in E. cbn in E. lia. }
    assert (Eq' : nth_error (repeat 0 n :: Ps) (S (it - 1)) = Some (last Ps (repeat 0 n))).
    { replace (S (it - 1)) with (length Ps) by lia. apply last_nth_error. }
    pose proof (ir_stop _ _ _ _ _ _ _ _ _ _ _ _ _ R Hlt (it - 1)%nat q _ ltac:(lia) Eq Eq') as ST. fold u w in ST.
    destruct (CV _ q Eq) as (Hq&Hq2&_).
    pose proof (run_step_at dt n lim u w Ps (repeat 0 n) G _ q _ Eq Eq') as STEP.
    pose proof (greedy_contract dt n lim u w Hn Hdt HL Hpu Hpw c r q _ HF Hr Hq STEP Hl0) as GC. fold pw k in GC.
    assert (Y : k * (misfit dt n u w q - misfit dt n u w r) <= minderr / 100) by lra.
    assert (Z : misfit dt n u w q - misfit dt n u w r <= minderr / (100 * k)).
    { apply Rmult_le_reg_l with k; [lra|]. replace (k * (minderr / (100 * k))) with (minderr / 100) by (field; lra). exact Y. }
    assert (0 <= k * (misfit dt n u w q - misfit dt n u w r)) by (apply Rmult_le_pos; lra). lra.
Qed.
End Run.

(** ** C101 *)
(** For every source there is a rate: whatever the numerator, the misfit after [i]
    iterations exceeds the smallest misfit any train of allowed spikes can have by at
    most (1-rate)^i, and a run ended by [minderr] by at most minderr percent of 1/rate. *)
Theorem C101_rate win dt gaussian phase : exists rate, 0 < rate <= 1 /\
  forall uin preonset itmax minderr rf rms it,
  deconv_iterative uin win dt None preonset gaussian itmax minderr phase = Ok (rf, rms, it) -> (0 < it)%nat ->
  let n := (2 ^ Nat.log2_up (length uin))%nat in
  let lim := (if String.eqb phase "P" then n / 2 - 1 else n)%nat in
  let u := gfilt dt n gaussian uin in let w := gfilt dt n gaussian win in
  exists r p, best_fit dt n lim u w r /\ spikes_below n lim p /\
    let opt := misfit dt n u w r in
    opt <= 1 /\
    (forall j, (j < length uin)%nat -> rnth rf j = rf_of dt n gaussian p (Rtrunc (preonset / dt)) j) /\
    opt <= misfit dt n u w p <= opt + (1 - rate) ^ it * (1 - opt) /\
    (forall i, (i < length rms)%nat -> opt <= rnth rms i <= opt + (1 - rate) ^ (S i) * (1 - opt)) /\
    ((it < itmax)%nat -> misfit dt n u w p <= opt + minderr / (100 * rate)).
Proof.
  set (n := (2 ^ Nat.log2_up (length win))%nat). set (lim := lim_of phase n). set (w := gfilt dt n gaussian win).
  destruct (frame_some n lim w) as [c HF].
  exists (if (0 <? lim)%nat then if Rlt_dec 0 (ssq n (rnth w)) then c / (INR lim * ssq n (rnth w)) else 1 else 1).
  split.
  { destruct (Nat.ltb_spec 0 lim) as [Hl|_]; [|lra]. destruct (Rlt_dec 0 (ssq n (rnth w))) as [Hw|_]; [|lra].
    apply kappa_le_1; try assumption. unfold n. apply Nat.neq_0_lt_0, Nat.pow_nonzero. lia. }
  intros uin pre itmax minderr rf rms it H Hit. apply deconv_iterative_inv in H; [|reflexivity]. destruct H as (n0&Ps&R).
  pose proof (ir_len _ _ _ _ _ _ _ _ _ _ _ _ _ R) as EL. rewrite EL. fold n. fold (lim_of phase n). fold lim. fold w.
  pose proof (ir_n _ _ _ _ _ _ _ _ _ _ _ _ _ R) as En. rewrite EL in En. fold n in En. subst n0.
  set (u := gfilt dt n gaussian uin).
  pose proof (run_n _ _ _ _ _ _ _ _ _ _ _ _ _ R Hit) as Hn.
  pose proof (run_pw _ _ _ _ _ _ _ _ _ _ _ _ _ R Hit) as Hpw. fold w in Hpw.
  pose proof (run_pu _ _ _ _ _ _ _ _ _ _ _ _ _ R Hit) as Hpu. fold u in Hpu.
  pose proof (run_lim _ _ _ _ _ _ _ _ _ _ _ _ _ R Hit) as Hl. fold lim in Hl.
  pose proof (ir_dt _ _ _ _ _ _ _ _ _ _ _ _ _ R) as Hdt.
  destruct (Nat.ltb_spec 0 lim) as [_|X]; [|lia]. destruct (Rlt_dec 0 (ssq n (rnth w))) as [_|X]; [|contradiction].
  destruct (best_exists dt n lim u w Hn Hdt (lim_of_le phase n) Hpu) as [r Hr].
  destruct (run_conv _ _ _ _ _ _ _ _ _ _ _ _ _ R Hit c r HF Hr) as (_&B1&B2&B3&B4&B5).
  cbv zeta. exists r, (last Ps (repeat 0 n)). split; [exact Hr|]. split; [exact B1|]. split; [exact B2|]. split.
  - intros j Hj. rewrite (ir_rf _ _ _ _ _ _ _ _ _ _ _ _ _ R).
    rewrite (rnth_map_seq (fun j => cconv n (last Ps (repeat 0 n)) (gauss_pulse dt n gaussian) (circ n j (Rtrunc (pre / dt))))) by (rewrite EL; exact Hj).
    reflexivity.
  - split; [exact B3|]. split; [exact B4|exact B5].
Qed.

(** The smallest of finitely many positive numbers. *)
Lemma min_pos (f : nat -> R) n : (forall k, (k < n)%nat -> 0 < f k) -> exists mu, 0 < mu /\ forall k, (k < n)%nat -> mu <= f k.
Proof.
  induction n as [|n IH]; intro H; [exists 1; split; [lra|intros k Hk; lia]|].
  destruct IH as (mu&Hm&HB); [intros k Hk; apply H; lia|]. exists (Rmin mu (f n)).
  split; [apply Rmin_glb_lt; [exact Hm|apply H; lia]|]. intros k Hk. destruct (Nat.eq_dec k n) as [->|Hne]; [apply Rmin_r|].
  eapply Rle_trans; [apply Rmin_l|]. apply HB. lia.
Qed.

Lemma zpad_dft n x k : dft n (zpad n x) k = dft n x k.
Proof. unfold dft. apply csum_ext. intros j _. rewrite zpad_nth. reflexivity. Qed.

(** Two best fits are equal when the filtered source has power at every frequency. *)
Lemma best_unique dt n lim u w mu r r' : (0 < n)%nat -> dt <> 0 -> (lim <= n)%nat -> 0 < ssq n (rnth u) -> 0 < ssq n (rnth w) ->
  0 < mu -> (forall k, (k < n)%nat -> mu <= Cnorm2 (dft n w k)) ->
  best_fit dt n lim u w r -> best_fit dt n lim u w r' -> r' = r.
Proof.
  intros Hn Hdt HL Hpu Hpw Hmu Hsp Hr Hr'.
  assert (E : misfit dt n u w r' = misfit dt n u w r) by (apply Rle_antisym; [apply Hr'; apply Hr|apply Hr; apply Hr']).
  assert (Z : forall j, (j < n)%nat -> rnth r' j - rnth r j = 0).
  { pose proof (rf_distance dt n lim u w Hn Hdt HL Hpu Hpw r r' (spike n 0 1) w mu Hr (proj1 Hr')) as D.
    rewrite E in D. unfold Rminus at 2 in D. rewrite Rplus_opp_r, Rmult_0_r in D.
    assert (S1 : forall x j, (j < n)%nat -> cconv n x (spike n 0 1) j = rnth x j).
    { intros x j Hj. rewrite cconv_comm by exact Hn. rewrite cconv_spike1 by exact Hn. change (Z.of_nat 0) with 0%Z. rewrite circ_0 by exact Hj. ring. }
    assert (D' : dt * dt * mu * ssq n (fun j => cconv n r' (spike n 0 1) j - cconv n r (spike n 0 1) j) <= 0).
    { apply D; [|exact Hsp]. intros j Hj. rewrite S1 by exact Hj. reflexivity. }
    rewrite (ssq_ext n _ (fun j => rnth r' j - rnth r j)) in D' by (intros j Hj; rewrite !S1 by exact Hj; reflexivity).
    pose proof (ssq_nonneg n (fun j => rnth r' j - rnth r j)) as P.
    assert (Q : 0 < dt * dt * mu) by (apply Rmult_lt_0_compat; [|exact Hmu]; destruct (Rtotal_order dt 0) as [X|[X|X]]; [nra|contradiction|nra]).
    apply ssq_zero. nra. }
  apply rlist_ext; [rewrite (proj1 (proj1 Hr)), (proj1 (proj1 Hr')); reflexivity|].
  intros j Hj. rewrite (proj1 (proj1 Hr')) in Hj. specialize (Z j Hj). lra.
Qed.

Lemma ssq_le_prefix m n f : (m <= n)%nat -> ssq m f <= ssq n f.
Proof.
  intro H. unfold ssq. replace n with (m + (n - m))%nat by lia. rewrite rsum_split.
  assert (0 <= rsum (n - m) (fun j => f (m + j)%nat * f (m + j)%nat)) by (apply rsum_nonneg; intros; apply Rle_0_sqr). lra.
Qed.

(** When no frequency of the source is missing, the rate is explicit: the smallest power
    of the filtered source over its mean power times the number of allowed lags; the best
    train of spikes [r] is unique, and the returned receiver function is close to its. *)
Theorem C101_receiver_function uin win dt preonset gaussian itmax minderr phase rf rms it mu m0 :
  deconv_iterative uin win dt None preonset gaussian itmax minderr phase = Ok (rf, rms, it) -> (0 < it)%nat ->
  let n := (2 ^ Nat.log2_up (length uin))%nat in
  let lim := (if String.eqb phase "P" then n / 2 - 1 else n)%nat in
  let u := gfilt dt n gaussian uin in let w := gfilt dt n gaussian win in
  0 < mu -> (forall k, (k < n)%nat -> mu <= Cnorm2 (dft n w k)) ->
  0 < m0 -> (forall k, (k < n)%nat -> m0 <= Cnorm2 (dft n win k)) ->
  let rate := mu / (INR lim * ssq n (rnth w)) in
  let size := ssq n (rnth u) / (dt * dt * m0) in
  0 < rate <= 1 /\
  exists r, best_fit dt n lim u w r /\ (forall r', best_fit dt n lim u w r' -> r' = r) /\
    let err := ssq (length uin) (fun j => rnth rf j - rf_of dt n gaussian r (Rtrunc (preonset / dt)) j) in
    err <= (1 - rate) ^ it * size /\
    ((it < itmax)%nat -> err <= minderr / (100 * rate) * size).
Proof.
  intros H Hit. apply deconv_iterative_inv in H; [|reflexivity]. destruct H as (n&Ps&R).
  rewrite <- (ir_n _ _ _ _ _ _ _ _ _ _ _ _ _ R). cbv zeta.
  fold (lim_of phase n). set (lim := lim_of phase n). set (u := gfilt dt n gaussian uin). set (w := gfilt dt n gaussian win).
  intros Hmu Hsp Hm0 Hsp0.
  pose proof (run_n _ _ _ _ _ _ _ _ _ _ _ _ _ R Hit) as Hn.
  pose proof (run_pw _ _ _ _ _ _ _ _ _ _ _ _ _ R Hit) as Hpw. fold w in Hpw.
  pose proof (run_pu _ _ _ _ _ _ _ _ _ _ _ _ _ R Hit) as Hpu. fold u in Hpu.
  pose proof (run_lim _ _ _ _ _ _ _ _ _ _ _ _ _ R Hit) as Hl. fold lim in Hl.
  pose proof (ir_dt _ _ _ _ _ _ _ _ _ _ _ _ _ R) as Hdt. pose proof (lim_of_le phase n) as HL. fold lim in HL.
  pose proof (frame_spectral n lim w Hn HL mu Hmu Hsp) as HF.
  destruct (best_exists dt n lim u w Hn Hdt HL Hpu) as [r Hr].
  destruct (run_conv _ _ _ _ _ _ _ _ _ _ _ _ _ R Hit mu r HF Hr) as (B0&B1&B2&B3&_&B5). fold u w lim in B0, B1, B2, B3, B5.
  set (rate := mu / (INR lim * ssq n (rnth w))) in *. split; [exact B0|]. exists r. split; [exact Hr|].
  split; [intros r' Hr'; exact (best_unique dt n lim u w mu r r' Hn Hdt HL Hpu Hpw Hmu Hsp Hr Hr')|].
  set (p := last Ps (repeat 0 n)) in *. set (s := Rtrunc (preonset / dt)).
  assert (Hle : (length uin <= n)%nat).
  { destruct (next_pow_2_Ok (length uin) n) as (_&X&_); [|exact X]. unfold next_pow_2.
    rewrite (ir_n _ _ _ _ _ _ _ _ _ _ _ _ _ R). destruct (Nat.eqb_spec (length uin) 0) as [E|_]; [|reflexivity].
    exfalso. pose proof (ir_n2 _ _ _ _ _ _ _ _ _ _ _ _ _ R) as X. rewrite (ir_n _ _ _ _ _ _ _ _ _ _ _ _ _ R), E in X. cbn in X. lia. }
  assert (Q : 0 < dt * dt * m0) by (apply Rmult_lt_0_compat; [|exact Hm0]; destruct (Rtotal_order dt 0) as [X|[X|X]]; [nra|contradiction|nra]).
  assert (ERR : ssq (length uin) (fun j => rnth rf j - rf_of dt n gaussian r s j)
     <= (misfit dt n u w p - misfit dt n u w r) * (ssq n (rnth u) / (dt * dt * m0))).
  { set (h := fun i => cconv n p (gauss_pulse dt n gaussian) i - cconv n r (gauss_pulse dt n gaussian) i).
    rewrite (ssq_ext (length uin) _ (fun j => h (circ n j s))).
    2:{ intros j Hj. rewrite (ir_rf _ _ _ _ _ _ _ _ _ _ _ _ _ R). fold p.
        rewrite (rnth_map_seq (fun j => cconv n p (gauss_pulse dt n gaussian) (circ n j (Rtrunc (preonset / dt))))) by exact Hj. reflexivity. }
    eapply Rle_trans; [apply (ssq_le_prefix _ n _ Hle)|]. rewrite (ssq_circ n h s Hn).
    apply Rmult_le_reg_l with (dt * dt * m0); [exact Q|].
    replace (dt * dt * m0 * ((misfit dt n u w p - misfit dt n u w r) * (ssq n (rnth u) / (dt * dt * m0))))
      with (ssq n (rnth u) * (misfit dt n u w p - misfit dt n u w r)) by (field; split; [lra|exact Hdt]).
    apply (rf_distance dt n lim u w Hn Hdt HL Hpu Hpw r p (gauss_pulse dt n gaussian) (zpad n win) m0 Hr B1).
    - intros j Hj. apply gfilt_nth. exact Hj.
    - intros k Hk. rewrite zpad_dft. apply Hsp0. exact Hk. }
  assert (SZ : 0 <= ssq n (rnth u) / (dt * dt * m0)) by (apply Rlt_le, Rdiv_lt_0_compat; assumption).
  assert (OP : 0 <= misfit dt n u w r) by (apply misfit_nonneg; exact Hpu).
  split.
  - eapply Rle_trans; [exact ERR|]. apply Rmult_le_compat_r; [exact SZ|].
    assert (0 <= (1 - rate) ^ it) by (apply pow_le; lra).
    assert ((1 - rate) ^ it * (1 - misfit dt n u w r) <= (1 - rate) ^ it * 1) by (apply Rmult_le_compat_l; lra). lra.
  - intro Hlt. eapply Rle_trans; [exact ERR|]. apply Rmult_le_compat_r; [exact SZ|]. specialize (B5 Hlt). lra.
Qed.

Lemma dft_gfilt dt n a x k : (0 < n)%nat -> dt <> 0 -> (k < n)%nat ->
  dft n (gfilt dt n a x) k = (dft n x k * RtoC (gauss_gain dt n a k))%C.
Proof. intros Hn Hdt Hk. rewrite <- fft_dft, gfilt_spectrum, fft_dft, zpad_dft by assumption. reflexivity. Qed.

Lemma Cnorm2_pos' z : z <> C0 -> 0 < Cnorm2 z.
Proof. intro H. pose proof (Cnorm2_pos z). destruct (Req_dec (Cnorm2 z) 0) as [E|E]; [apply Cnorm2_0 in E; contradiction|lra]. Qed.

Lemma pow2n_pos l : (0 < 2 ^ Nat.log2_up l)%nat.
Proof. apply Nat.neq_0_lt_0, Nat.pow_nonzero. lia. Qed.

Lemma spectra dt n a x : (0 < n)%nat -> dt <> 0 -> (forall k, (k < n)%nat -> dft n x k <> C0) ->
  exists mu m0, 0 < mu /\ (forall k, (k < n)%nat -> mu <= Cnorm2 (dft n (gfilt dt n a x) k)) /\
                0 < m0 /\ (forall k, (k < n)%nat -> m0 <= Cnorm2 (dft n x k)).
Proof.
  intros Hn Hdt H.
  destruct (min_pos (fun k => Cnorm2 (dft n (gfilt dt n a x) k)) n) as (mu&Hmu&HB).
  { intros k Hk. apply Cnorm2_pos'. rewrite dft_gfilt by assumption. apply Cmul_neq0; [apply H; exact Hk|].
    apply RtoC_neq0. apply Rgt_not_eq. apply gauss_gain_pos. }
  destruct (min_pos (fun k => Cnorm2 (dft n x k)) n) as (m0&Hm0&HB0).
  { intros k Hk. apply Cnorm2_pos'. apply H. exact Hk. }
  exists mu, m0. auto.
Qed.

Lemma sample_le m f e j : 0 < e -> ssq m f <= e * e -> (j < m)%nat -> Rabs (f j) <= e.
Proof.
  intros He H Hj. assert (Q : f j * f j <= e * e).
  { eapply Rle_trans; [|exact H]. unfold ssq. replace m with (j + S (m - S j))%nat by lia. rewrite rsum_split.
    assert (0 <= rsum j (fun i => f i * f i)) by (apply rsum_nonneg; intros; apply Rle_0_sqr).
    replace (S (m - S j)) with (1 + (m - S j))%nat by lia. rewrite rsum_split. cbn [rsum].
    assert (0 <= rsum (m - S j) (fun i => f (j + (1 + i))%nat * f (j + (1 + i))%nat)) by (apply rsum_nonneg; intros; apply Rle_0_sqr).
    rewrite Nat.add_0_r. lra. }
  apply Rabs_le. split; nra.
Qed.

(** With [minderr] at most 0, every sample of the receiver function tends to the one of the
    best train of spikes as the number of iterations allowed grows. *)
Theorem C101_converges uin win dt gaussian phase :
  length uin = length win -> dt <> 0 -> ~ all_zero uin ->
  let n := (2 ^ Nat.log2_up (length uin))%nat in
  let lim := (if String.eqb phase "P" then n / 2 - 1 else n)%nat in
  (forall k, (k < n)%nat -> dft n win k <> C0) ->
  exists r, best_fit dt n lim (gfilt dt n gaussian uin) (gfilt dt n gaussian win) r /\
  (forall r', best_fit dt n lim (gfilt dt n gaussian uin) (gfilt dt n gaussian win) r' -> r' = r) /\
  forall eps, 0 < eps -> exists N, forall itmax preonset minderr rf rms it, (N <= itmax)%nat -> minderr <= 0 ->
    deconv_iterative uin win dt None preonset gaussian itmax minderr phase = Ok (rf, rms, it) ->
    forall j, (j < length uin)%nat -> Rabs (rnth rf j - rf_of dt n gaussian r (Rtrunc (preonset / dt)) j) <= eps.
Proof.
  intros EL Hdt Hu n lim Hsp. pose proof (pow2n_pos (length uin)) as Hn. fold n in Hn.
  destruct (spectra dt n gaussian win Hn Hdt Hsp) as (mu&m0&Hmu&HB&Hm0&HB0).
  assert (L0 : (length uin <> 0)%nat) by (intro E; apply Hu; intro j; apply rnth_over'; lia).
  assert (Hle : (length uin <= n)%nat).
  { destruct (next_pow_2_Ok (length uin) n) as (_&X&_); [|exact X]. unfold next_pow_2. destruct (Nat.eqb_spec (length uin) 0); [contradiction|reflexivity]. }
  assert (Hw : ~ all_zero win).
  { intro A. apply (Hsp 0%nat Hn). unfold dft. rewrite (csum_ext n _ (fun _ => C0)); [apply csum_0|].
    intros j _. rewrite (A j). change (RtoC 0) with C0. ring. }
  set (u := gfilt dt n gaussian uin) in *. set (w := gfilt dt n gaussian win) in *.
  assert (Hpu : 0 < ssq n (rnth u)) by (apply gfilt_nonzero; assumption).
  assert (Hpw : 0 < ssq n (rnth w)) by (apply gfilt_nonzero; try assumption; lia).
  assert (HL : (lim <= n)%nat) by exact (lim_of_le phase n).
  destruct (best_exists dt n lim u w Hn Hdt HL Hpu) as [r Hr]. exists r. split; [exact Hr|].
  split; [intros r' Hr'; exact (best_unique dt n lim u w mu r r' Hn Hdt HL Hpu Hpw Hmu HB Hr Hr')|].
  intros eps He. set (rate := mu / (INR lim * ssq n (rnth w))). set (size := ssq n (rnth u) / (dt * dt * m0)).
  assert (Q : 0 < dt * dt * m0) by (apply Rmult_lt_0_compat; [|exact Hm0]; destruct (Rtotal_order dt 0) as [X|[X|X]]; [nra|contradiction|nra]).
  assert (SZ : 0 < size) by (apply Rdiv_lt_0_compat; assumption).
  assert (EN : exists N, 0 < rate <= 1 -> forall k, (N <= k)%nat -> (1 - rate) ^ k * size <= eps * eps).
  { destruct (Rlt_dec 0 rate) as [X|X]; [|exists 0%nat; intros []; lra].
    destruct (Rle_dec rate 1) as [Y|Y]; [|exists 0%nat; intros []; lra].
    destruct (pow_lt_1_zero (1 - rate)) with (y := eps * eps / size) as [N HN].
    - apply Rabs_def1; lra.
    - apply Rdiv_lt_0_compat; [nra|exact SZ].
    - exists N. intros _ k Hk. specialize (HN k Hk). assert (0 <= (1 - rate) ^ k) by (apply pow_le; lra).
      rewrite Rabs_pos_eq in HN by assumption.
      apply Rmult_le_reg_r with (/ size); [apply Rinv_0_lt_compat; exact SZ|].
      rewrite Rmult_assoc, Rinv_r by lra. unfold Rdiv in HN. lra. }
  destruct EN as [N HN]. exists (S N). intros itmax pre minderr rf rms it Hmax Hmin H j Hj.
  assert (Hit : (0 < it)%nat).
  { pose proof H as H'. apply deconv_iterative_inv in H'; [|reflexivity]. destruct H' as (n0&Ps&R).
    destruct it as [|it]; [|lia]. destruct (ir_zero _ _ _ _ _ _ _ _ _ _ _ _ _ R eq_refl) as [X|X]; [lia|contradiction]. }
  destruct (C101_receiver_function _ _ _ _ _ _ _ _ _ _ _ mu m0 H Hit Hmu HB Hm0 HB0) as (RT&r'&Hr'&_&E1&E2).
  fold n in E1, E2, RT, Hr'. fold lim in E1, E2, RT, Hr'. fold u w in E1, E2, RT, Hr'. fold rate in E1, E2, RT. fold size in E1, E2.
  rewrite (best_unique dt n lim u w mu r r' Hn Hdt HL Hpu Hpw Hmu HB Hr Hr') in E1, E2. clear r' Hr'.
  apply (sample_le (length uin) (fun j => rnth rf j - rf_of dt n gaussian r (Rtrunc (pre / dt)) j)); [exact He| |exact Hj].
  assert (Hmx : (it <= itmax)%nat) by (apply C37_spikes in H; apply H).
  destruct (Nat.eq_dec it itmax) as [Eit|Hne].
  - eapply Rle_trans; [exact E1|]. apply HN; [exact RT|lia].
  - eapply Rle_trans; [apply E2; lia|]. 
    assert (minderr / (100 * rate) <= 0).
    { unfold Rdiv. assert (0 < / (100 * rate)) by (apply Rinv_0_lt_compat; lra). nra. }
    nra.
Qed.

(** ** C102 *)
(** The numerator is the source convolved with the spikes [r]. *)
Definition convolved (dt : R) (n : nat) (uin win r : list R) : Prop :=
  forall j, (j < n)%nat -> rnth uin j = dt * cconv n r win j.

Lemma gfilt_convolved dt n a uin win r : (0 < n)%nat -> convolved dt n uin win r ->
  forall j, (j < n)%nat -> rnth (gfilt dt n a uin) j = dt * cconv n r (gfilt dt n a win) j.
Proof.
  intros Hn H j Hj. rewrite gfilt_nth by exact Hj.
  set (y := map (cconv n r (zpad n win)) (seq 0 n)).
  rewrite (cconv_add_l n y y (zpad n uin) _ dt 0 j).
  - unfold y. rewrite cconv_assoc by exact Hn. unfold gfilt. ring.
  - intros m Hm. unfold y. rewrite zpad_nth, cconv_list, H by exact Hm.
    rewrite (cconv_ext n r r (zpad n win) win m Hn); [ring|reflexivity|]. intros i _. apply zpad_nth.
Qed.

Lemma convolved_best dt n lim a uin win r : (0 < n)%nat -> 0 < ssq n (rnth (gfilt dt n a uin)) -> spikes_below n lim r ->
  convolved dt n uin win r ->
  misfit dt n (gfilt dt n a uin) (gfilt dt n a win) r = 0 /\ best_fit dt n lim (gfilt dt n a uin) (gfilt dt n a win) r.
Proof.
  intros Hn Hpu Hr H.
  assert (Z : misfit dt n (gfilt dt n a uin) (gfilt dt n a win) r = 0) by (apply misfit_0; apply gfilt_convolved; assumption).
  split; [exact Z|]. split; [exact Hr|]. intros p _. rewrite Z. apply misfit_nonneg. exact Hpu.
Qed.

(** A numerator made of allowed arrivals: the receiver function is recovered within the
    stated error, both when the iterations run out and when [minderr] stops them. *)
Theorem C102_iterative uin win dt preonset gaussian itmax minderr phase rf rms it mu m0 r :
  deconv_iterative uin win dt None preonset gaussian itmax minderr phase = Ok (rf, rms, it) -> (0 < it)%nat ->
  let n := (2 ^ Nat.log2_up (length uin))%nat in
  let lim := (if String.eqb phase "P" then n / 2 - 1 else n)%nat in
  let u := gfilt dt n gaussian uin in let w := gfilt dt n gaussian win in
  spikes_below n lim r -> convolved dt n uin win r ->
  0 < mu -> (forall k, (k < n)%nat -> mu <= Cnorm2 (dft n w k)) ->
  0 < m0 -> (forall k, (k < n)%nat -> m0 <= Cnorm2 (dft n win k)) ->
  let rate := mu / (INR lim * ssq n (rnth w)) in
  let size := ssq n (rnth u) / (dt * dt * m0) in
  0 < rate <= 1 /\
  (forall i, (i < length rms)%nat -> 0 <= rnth rms i <= (1 - rate) ^ (S i)) /\
  let err := ssq (length uin) (fun j => rnth rf j - rf_of dt n gaussian r (Rtrunc (preonset / dt)) j) in
  err <= (1 - rate) ^ it * size /\
  ((it < itmax)%nat -> err <= minderr / (100 * rate) * size).
Proof.
  intros H Hit. cbv zeta. intros Hr HC Hmu HB Hm0 HB0.
  destruct (C101_receiver_function _ _ _ _ _ _ _ _ _ _ _ mu m0 H Hit Hmu HB Hm0 HB0) as (RT&r'&Hr'&Hun&E1&E2).
  cbv zeta in RT, Hr', Hun, E1, E2.
  apply deconv_iterative_inv in H; [|reflexivity]. destruct H as (n&Ps&R).
  pose proof (ir_n _ _ _ _ _ _ _ _ _ _ _ _ _ R) as En. rewrite <- En in *.
  pose proof (run_n _ _ _ _ _ _ _ _ _ _ _ _ _ R Hit) as Hn. pose proof (run_pu _ _ _ _ _ _ _ _ _ _ _ _ _ R Hit) as Hpu.
  destruct (convolved_best dt n _ gaussian uin win r Hn Hpu Hr HC) as (Z&HBst).
  rewrite <- (Hun r HBst) in E1, E2. split; [exact RT|]. split; [|split; assumption].
  destruct (run_conv _ _ _ _ _ _ _ _ _ _ _ _ _ R Hit mu r) as (_&_&_&_&B4&_).
  - apply frame_spectral; [exact Hn|apply lim_of_le|exact Hmu|exact HB].
  - exact HBst.
  - intros i Hi. specialize (B4 i Hi). rewrite Z, Rminus_0_r, Rmult_1_r, Rplus_0_l in B4. exact B4.
Qed.

Theorem C102_limit uin win dt gaussian phase r :
  length uin = length win -> dt <> 0 -> ~ all_zero uin ->
  let n := (2 ^ Nat.log2_up (length uin))%nat in
  let lim := (if String.eqb phase "P" then n / 2 - 1 else n)%nat in
  (forall k, (k < n)%nat -> dft n win k <> C0) ->
  spikes_below n lim r -> convolved dt n uin win r ->
  forall eps, 0 < eps -> exists N, forall itmax preonset minderr rf rms it, (N <= itmax)%nat -> minderr <= 0 ->
    deconv_iterative uin win dt None preonset gaussian itmax minderr phase = Ok (rf, rms, it) ->
    forall j, (j < length uin)%nat -> Rabs (rnth rf j - rf_of dt n gaussian r (Rtrunc (preonset / dt)) j) <= eps.
Proof.
  intros EL Hdt Hu n lim Hsp Hr HC. destruct (C101_converges uin win dt gaussian phase EL Hdt Hu Hsp) as (r'&_&Hun&Hcv).
  fold n lim in Hun, Hcv. rewrite <- (Hun r) in Hcv; [exact Hcv|].
  apply convolved_best; try assumption; [apply pow2n_pos|].
  assert (L0 : (length uin <> 0)%nat) by (intro E; apply Hu; intro j; apply rnth_over'; lia).
  assert (Hle : (length uin <= n)%nat).
  { destruct (next_pow_2_Ok (length uin) n) as (_&X&_); [|exact X]. unfold next_pow_2. destruct (Nat.eqb_spec (length uin) 0); [contradiction|reflexivity]. }
  apply gfilt_nonzero; try assumption. apply pow2n_pos.
Qed.

Lemma dft_convolved dt n uin win r k : (0 < n)%nat -> convolved dt n uin win r ->
  dft n uin k = (RtoC dt * (dft n r k * dft n win k))%C.
Proof.
  intros Hn H. rewrite <- dft_cconv by exact Hn. unfold dft. rewrite <- csum_scale. apply csum_ext. intros j Hj.
  rewrite cconv_list, H, RtoC_mul by exact Hj. ring.
Qed.

Lemma rf_of_synth dt n a r s j : (0 < n)%nat ->
  rf_of dt n a r s j = synth n (fun k => RtoC (gauss_gain dt n a k) * dft n r k * W n (- (s * Z.of_nat k)))%C j.
Proof.
  intro Hn. unfold rf_of, cconv.
  rewrite (rsum_ext n _ (fun m => / INR n * rsum n (fun k => rnth r m * Re (RtoC (gauss_gain dt n a k) * W n (- ((s + Z.of_nat m) * Z.of_nat k)) * W n (Z.of_nat j * Z.of_nat k))%C))).
  2:{ intros m Hm. rewrite circ_circ, gauss_pulse_at by exact Hn. unfold synth. rewrite rsum_scale. ring. }
  rewrite rsum_scale, rsum_swap. unfold synth. f_equal. apply rsum_ext. intros k Hk.
  unfold dft.
  replace (RtoC (gauss_gain dt n a k) * csum n (fun i => RtoC (rnth r i) * W n (- (Z.of_nat i * Z.of_nat k))) * W n (- (s * Z.of_nat k)) * W n (Z.of_nat j * Z.of_nat k))%C
    with (RtoC (gauss_gain dt n a k) * W n (- (s * Z.of_nat k)) * W n (Z.of_nat j * Z.of_nat k) * csum n (fun i => RtoC (rnth r i) * W n (- (Z.of_nat i * Z.of_nat k))))%C by ring.
  rewrite <- csum_scale, Re_csum. apply rsum_ext. intros m Hm. rewrite <- Re_scale. f_equal.
  replace (- ((s + Z.of_nat m) * Z.of_nat k))%Z with (- (s * Z.of_nat k) + - (Z.of_nat m * Z.of_nat k))%Z by ring.
  rewrite W_add. ring.
Qed.

(** Water-level deconvolution of the same numerator returns the spectrum of the receiver
    function with the frequencies where the source is below the level attenuated, none
    amplified. *)
Theorem C102_water uin win dt preonset wlevel gaussian normalize rf rms r s :
  deconv_waterlevel uin win dt preonset wlevel gaussian normalize = Ok (rf, rms) ->
  let n := (2 ^ Nat.log2_up (length uin))%nat in
  preonset = dt * IZR s -> convolved dt n uin win r ->
  exists M att, max_power n (dft n win) M /\
    (forall k, (k < n)%nat -> 0 <= att k <= 1 /\ (wlevel * M <= Cnorm2 (dft n win k) -> att k = 1) /\
       (Cnorm2 (dft n win k) < wlevel * M -> att k = Cnorm2 (dft n win k) / (wlevel * M))) /\
    (forall j, (j < length uin)%nat -> rnth rf j = (if normalize then dt / rnth (gauss_pulse dt n gaussian) 0 else 1) *
       synth n (fun k => RtoC (att k) * (RtoC (gauss_gain dt n gaussian k) * dft n r k * W n (- (s * Z.of_nat k))))%C j).
Proof.
  intro H. apply deconv_waterlevel_inv in H. destruct H as (M&D&R). cbv zeta. set (n := (2 ^ Nat.log2_up (length uin))%nat) in *.
  intros Hp HC.
  assert (Hn : (0 < n)%nat). { destruct (wr_n2 _ _ _ _ _ _ _ _ _ _ _ _ R) as (m&Hm&E). lia. }
  pose proof (wr_dt _ _ _ _ _ _ _ _ _ _ _ _ R) as Hdt.
  assert (HnR : INR n <> 0) by (apply not_0_INR; lia).
  pose proof (wr_D _ _ _ _ _ _ _ _ _ _ _ _ R) as HD. pose proof (wr_D0 _ _ _ _ _ _ _ _ _ _ _ _ R) as HD0.
  exists M, (fun k => Cnorm2 (dft n win k) / D k). split; [exact (wr_M _ _ _ _ _ _ _ _ _ _ _ _ R)|]. split.
  - intros k Hk. specialize (HD k Hk). specialize (HD0 k Hk). pose proof (Cnorm2_pos (dft n win k)) as P.
    assert (DP : 0 < D k). { pose proof (Rmax_l (Cnorm2 (dft n win k)) (wlevel * M)). rewrite <- HD in *. lra. }
    split; [|split].
    + split; [apply Rmult_le_pos; [exact P|apply Rlt_le, Rinv_0_lt_compat; exact DP]|].
      apply Rmult_le_reg_r with (D k); [exact DP|]. unfold Rdiv. rewrite Rmult_assoc, Rinv_l by lra.
      rewrite Rmult_1_r, Rmult_1_l, HD. apply Rmax_l.
    + intro Hk2. rewrite Rmax_left in HD by exact Hk2. rewrite HD. apply Rinv_r. lra.
    + intro Hk2. rewrite Rmax_right in HD by lra. rewrite HD. reflexivity.
  - intros j Hj. rewrite (wr_rf _ _ _ _ _ _ _ _ _ _ _ _ R j Hj). f_equal.
    + destruct normalize; [|reflexivity].
      assert (P0 : rnth (gauss_pulse dt n gaussian) 0 = / INR n * rsum n (gauss_gain dt n gaussian)).
      { unfold gauss_pulse. rewrite rnth_map_seq by exact Hn. f_equal. apply rsum_ext. intros k _.
        change (INR 0) with 0. replace (2 * PI * 0 * INR k / INR n) with 0 by (unfold Rdiv; ring). rewrite cos_0. ring. }
      rewrite P0. pose proof (rsum_gain_pos dt n gaussian Hn). field. repeat split; lra.
    + apply synth_ext. intros k Hk. rewrite (omega_phase dt n k s preonset Hn Hdt Hp), (dft_convolved dt n uin win r k Hn HC).
      rewrite (RtoC_div _ _ Hdt). unfold Rdiv. rewrite RtoC_mul, <- Cmul_conj.
      assert (Hdc : RtoC dt <> C0) by (apply RtoC_neq0; exact Hdt). field. exact Hdc.
Qed.

(** If no frequency of the source is below the level, the receiver function is exact. *)
Theorem C102_water_exact uin win dt preonset wlevel gaussian normalize rf rms r s :
  deconv_waterlevel uin win dt preonset wlevel gaussian normalize = Ok (rf, rms) ->
  let n := (2 ^ Nat.log2_up (length uin))%nat in
  preonset = dt * IZR s -> convolved dt n uin win r ->
  (forall k l, (k < n)%nat -> (l < n)%nat -> wlevel * Cnorm2 (dft n win l) <= Cnorm2 (dft n win k)) ->
  forall j, (j < length uin)%nat ->
    rnth rf j = (if normalize then dt / rnth (gauss_pulse dt n gaussian) 0 else 1) * rf_of dt n gaussian r s j.
Proof.
  intros H n Hp HC HW j Hj. destruct (C102_water _ _ _ _ _ _ _ _ _ r s H Hp HC) as (M&att&HM&HA&HR).
  fold n in HM, HA, HR. rewrite HR by exact Hj. f_equal. rewrite rf_of_synth by apply pow2n_pos. apply synth_ext. intros k Hk.
  destruct HM as [_ (l&Hl&El)]. destruct (HA k Hk) as (_&E&_). rewrite E; [change (RtoC 1) with C1; ring|].
  rewrite <- El. apply HW; assumption.
Qed.

(** A concrete case: two arrivals in the allowed lags. *)
Lemma dft_21_8 k : dft 8 [2; 1; 0; 0; 0; 0; 0; 0] k <> C0.
Proof.
  intros E. apply (f_equal Re) in E. unfold dft in E. rewrite Re_csum in E. cbn [rsum] in E.
  unfold rnth in E. cbn [nth] in E. rewrite !Re_scale in E. unfold W, cis, Re in E. cbn [fst] in E.
  change (Z.of_nat 0 * Z.of_nat k)%Z with 0%Z in E. rewrite Z.opp_0 in E.
  replace (2 * PI * 0 / INR 8) with 0 in E by (unfold Rdiv; ring). rewrite cos_0 in E.
  pose proof (COS_bound (2 * PI * IZR (- (Z.of_nat 1 * Z.of_nat k)) / INR 8)) as [B _]. change (fst C0) with 0 in E. lra.
Qed.

Example C102_example : let uin := [2; 1; 1; 1 / 2; 0; 0; 0; 0] in let win := [2; 1; 0; 0; 0; 0; 0; 0] in
  let r := [10; 0; 5; 0; 0; 0; 0; 0] in
  spikes_below 8 3 r /\ convolved (1 / 10) 8 uin win r /\
  forall eps, 0 < eps -> exists N, exists rf rms it,
    deconv_iterative uin win (1 / 10) None 0 2 N 0 "P" = Ok (rf, rms, it) /\
    forall j, (j < 8)%nat -> Rabs (rnth rf j - rf_of (1 / 10) 8 2 r 0 j) <= eps.
Proof.
  intros uin win r.
  assert (A : spikes_below 8 3 r).
  { split; [reflexivity|]. intros k Hk. do 8 (destruct k as [|k]; [first [lia|reflexivity]|]). apply rnth_over'. cbn. lia. }
  assert (B : convolved (1 / 10) 8 uin win r).
  { intros j Hj. unfold cconv. cbn [rsum]. nat_cases; repeat circ_compute; unfold uin, win, r, rnth; cbn [nth]; lra. }
  split; [exact A|]. split; [exact B|]. intros eps He.
  assert (NZ : ~ all_zero uin) by (apply not_all_zero_head; lra).
  destruct (C102_limit uin win (1 / 10) 2 "P" r eq_refl ltac:(lra) NZ (fun k _ => dft_21_8 k) A B eps He) as [N HN].
  exists N. destruct (C37_returns uin win (1 / 10) 0 2 N 0 "P") as (rf&rms&it&E&_); try (cbn; lia); try lra; try assumption.
  - apply not_all_zero_head. lra.
  - unfold Rdiv at 1. rewrite Rmult_0_l, (Rtrunc_Z 0). vm_compute. discriminate.
  - exists rf, rms, it. split; [exact E|]. intros j Hj. specialize (HN N 0 0 rf rms it (le_n N) (Rle_refl 0) E j Hj).
    unfold Rdiv at 2 in HN. rewrite Rmult_0_l, (Rtrunc_Z 0) in HN. exact HN.
Qed.
