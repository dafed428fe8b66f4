(** * P_Decon: Gaussian filter, phase shift, iterative deconvolution (C34-C39, C58). *)

From Coq Require Import Reals Lra.
From Verif Require Import Base Num NumPy HkReal Cplx DFT DFT2 SpecSignal ReverbModel DeconModel DeconProofs DeconProofs2 DeconProofs3.
Local Open Scope R_scope.

(** ** C34 *)
Theorem C34_gaussFilter dt nft gaussian : 0 < dt -> 0 < gaussian -> (0 < nft)%nat -> Nat.Even nft ->
  exists G, gaussFilter dt nft gaussian = Ok G /\ length G = nft /\
    rnth G 0 = 1 / dt /\
    (forall k, (0 < k < nft)%nat -> rnth G k = rnth G (nft - k)) /\
    (forall k, (k < nft / 2)%nat -> rnth G (S k) < rnth G k) /\
    (forall k, (k < nft)%nat -> 0 < rnth G k) /\
    (forall k, (k <= nft / 2)%nat ->
       rnth G k = exp (- (2 * PI * (INR k / (INR nft * dt))) ^ 2 / (4 * gaussian ^ 2)) / dt).
Proof.
  intros Hdt Hg Hn [m ->]. assert (Hm : (0 < m)%nat) by lia.
  rewrite gaussFilter_even by (auto; lra). eexists. split; [reflexivity|].
  split; [rewrite map_length, seq_length; reflexivity|].
  assert (E2 : (2 * m / 2 = m)%nat) by (rewrite Nat.mul_comm; apply Nat.div_mul; lia). rewrite E2.
  assert (HnR : 0 < INR (2 * m)) by (apply lt_0_INR; lia).
  assert (V : forall k, (k <= m)%nat -> gauss_gain dt (2 * m) gaussian k
            = exp (- (2 * PI * (INR k / (INR (2 * m) * dt))) ^ 2 / (4 * gaussian ^ 2))).
  { intros k Hk. unfold gauss_gain. replace (Nat.min k (2 * m - k)) with k by lia. f_equal. field. split; [lra|split; lra]. }
  split.
  { rewrite rnth_map_seq by lia. rewrite V by lia. change (INR 0) with 0.
    assert (X : - (2 * PI * (0 / (INR (2 * m) * dt))) ^ 2 / (4 * gaussian ^ 2) = 0) by (field; split; [lra|split; lra]).
    rewrite X, exp_0. reflexivity. }
  split.
  { intros k Hk. rewrite !rnth_map_seq by lia. unfold gauss_gain.
    replace (Nat.min (2 * m - k) (2 * m - (2 * m - k))) with (Nat.min k (2 * m - k)) by lia. reflexivity. }
  split.
  { intros k Hk. rewrite !rnth_map_seq by lia. apply Rmult_lt_compat_r; [apply Rinv_0_lt_compat; lra|].
    rewrite !V by lia. apply exp_increasing. rewrite S_INR.
    assert (A : 0 < 2 * PI / (INR (2 * m) * dt)).
    { apply Rmult_lt_0_compat; [pose proof PI_RGT_0; lra|]. apply Rinv_0_lt_compat. apply Rmult_lt_0_compat; assumption. }
    set (c := 2 * PI / (INR (2 * m) * dt)) in *.
    replace (2 * PI * ((INR k + 1) / (INR (2 * m) * dt))) with (c * (INR k + 1)) by (unfold c; field; split; lra).
    replace (2 * PI * (INR k / (INR (2 * m) * dt))) with (c * INR k) by (unfold c; field; split; lra).
    pose proof (pos_INR k) as HkR.
    assert (B : 0 < / (4 * gaussian ^ 2)) by (apply Rinv_0_lt_compat; nra).
    unfold Rdiv. assert (C : - (c * (INR k + 1)) ^ 2 < - (c * INR k) ^ 2) by nra.
    apply Rmult_lt_compat_r; assumption. }
  split.
  { intros k Hk. rewrite rnth_map_seq by lia. apply Rmult_lt_0_compat; [apply gauss_gain_pos|apply Rinv_0_lt_compat; lra]. }
  intros k Hk. rewrite rnth_map_seq by lia. rewrite V by exact Hk. reflexivity.
Qed.

Theorem C34_odd_rejected dt nft gaussian : dt <> 0 -> gaussian <> 0 -> Nat.Odd nft ->
  gaussFilter dt nft gaussian = Err ValueError.
Proof. intros Hdt Hg [m ->]. apply gaussFilter_odd; assumption. Qed.

Example C34_example : exists G, gaussFilter (1 / 10) 8 2 = Ok G.
Proof. destruct (C34_gaussFilter (1 / 10) 8 2) as (G&E&_); [lra|lra|lia|exists 4%nat; reflexivity|]. eauto. Qed.

(** ** C35 *)
Theorem C35_real_even_kernel dt n gaussian G : gaussFilter dt n gaussian = Ok G ->
  exists h : list R, length h = n /\
    (forall t, rnth h (circ n 0 t) = rnth h (circ n 0 (- t))) /\
    rsum n (rnth h) = 1 /\
    forall x, exists y, gfilter x n (map RtoC G) dt = Ok y /\ length y = n /\
      (forall j, (j < n)%nat -> rnth y j = cconv n x h j) /\
      (forall j, (j < n)%nat ->
         Im (cnth (ifft (map (fun z => z * RtoC dt)%C (cmul2 (fft (map RtoC x) n) (map RtoC G))) n) j) = 0).
Proof.
  intro H. apply gaussFilter_Ok_inv in H. destruct H as (Hn&_&Hdt&Ha&->).
  exists (gauss_pulse dt n gaussian). split; [apply gauss_pulse_length|].
  split.
  { intro t. unfold gauss_pulse. rewrite !rnth_map_seq by (apply circ_lt; exact Hn). f_equal. apply rsum_ext. intros k Hk. f_equal.
    assert (P : forall L, cos (2 * PI * INR (circ n 0 L) * INR k / INR n) = cos (2 * PI * (IZR L * INR k) / INR n)).
    { intro L.
      replace (cos (2 * PI * INR (circ n 0 L) * INR k / INR n)) with (Re (W n (Z.of_nat (circ n 0 L) * Z.of_nat k))).
      - rewrite W_circ by exact Hn. unfold W, cis, Re. cbn [fst].
        change (Z.of_nat 0) with 0%Z. rewrite mult_IZR, minus_IZR, <- INR_IZR_INZ.
        rewrite <- cos_neg. f_equal. unfold Rdiv. ring.
      - unfold W, cis, Re. cbn [fst]. f_equal. rewrite mult_IZR, <- !INR_IZR_INZ. unfold Rdiv. ring. }
    rewrite !P. rewrite opp_IZR. rewrite <- cos_neg. f_equal. unfold Rdiv. ring. }
  split.
  { rewrite <- ggains_pulse by exact Hn.
    assert (E : csum n (cnth (ifft (ggains dt n gaussian) n)) = cnth (ggains dt n gaussian) 0).
    { rewrite <- (fft_ifft (ggains dt n gaussian) n 0 Hn). rewrite fft_nth by exact Hn. apply csum_ext. intros j _.
      change (Z.of_nat 0) with 0%Z. rewrite Z.mul_0_r, Z.opp_0, W_0. ring. }
    apply (f_equal Re) in E. rewrite Re_csum in E.
    rewrite (rsum_ext n _ (fun j => Re (cnth (ifft (ggains dt n gaussian) n) j))) by (intros j _; apply rnth_map_Re).
    rewrite E. unfold ggains. rewrite cnth_map_seq by exact Hn. unfold gauss_gain. cbn [Nat.min].
    replace (2 * PI * (INR 0 / (INR n * dt)) / (2 * gaussian)) with 0.
    - cunf. replace (- 0 ^ 2) with 0 by ring. apply exp_0.
    - simpl INR. field. split; [assumption|]. split; [apply not_0_INR; lia|assumption]. }
  intro x.
  set (G := map RtoC (map (fun k => gauss_gain dt n gaussian k / dt) (seq 0 n))).
  assert (LG : length G = n) by (unfold G; rewrite !map_length, seq_length; reflexivity).
  destruct (gfilter_herm x n G dt Hn LG (gain_herm dt n gaussian Hn)) as [E1 E2].
  unfold G in E1 at 2. unfold G in E2 at 1. rewrite response_gauss in E1, E2 by assumption.
  exists (map (cconv n x (gauss_pulse dt n gaussian)) (seq 0 n)). split; [exact E1|].
  split; [rewrite map_length, seq_length; reflexivity|]. split; [intros j Hj; apply cconv_list; exact Hj|].
  intros j Hj. rewrite cmul2_scale by (rewrite fft_length; congruence). rewrite <- E2, cnth_map_RtoC. reflexivity.
Qed.

Theorem C35_linear dt n gaussian G x y x' y' z' a b : gaussFilter dt n gaussian = Ok G ->
  length x = n -> length y = n ->
  gfilter x n (map RtoC G) dt = Ok x' -> gfilter y n (map RtoC G) dt = Ok y' ->
  gfilter (map (fun j => a * rnth x j + b * rnth y j) (seq 0 n)) n (map RtoC G) dt = Ok z' ->
  forall j, (j < n)%nat -> rnth z' j = a * rnth x' j + b * rnth y' j.
Proof.
  intros H Lx Ly Ex Ey Ez j Hj. destruct (C35_real_even_kernel _ _ _ _ H) as (h&Lh&_&_&K).
  destruct (K x) as (x1&E1&_&V1&_). destruct (K y) as (y1&E2&_&V2&_).
  destruct (K (map (fun j => a * rnth x j + b * rnth y j) (seq 0 n))) as (z1&E3&_&V3&_).
  rewrite Ex in E1. rewrite Ey in E2. rewrite Ez in E3. injection E1 as <-. injection E2 as <-. injection E3 as <-.
  rewrite V1, V2, V3 by exact Hj. unfold cconv. rewrite <- !rsum_scale, <- rsum_add. apply rsum_ext. intros m Hm.
  rewrite rnth_map_seq by exact Hm. ring.
Qed.

Theorem C35_shift dt n gaussian G x x' y' L : gaussFilter dt n gaussian = Ok G -> length x = n ->
  gfilter x n (map RtoC G) dt = Ok x' ->
  gfilter (map (fun j => rnth x (circ n j L)) (seq 0 n)) n (map RtoC G) dt = Ok y' ->
  forall j, (j < n)%nat -> rnth y' j = rnth x' (circ n j L).
Proof.
  intros H Lx Ex Ey j Hj. destruct (C35_real_even_kernel _ _ _ _ H) as (h&Lh&_&_&K).
  assert (Hn : (0 < n)%nat) by lia.
  destruct (K x) as (x1&E1&_&V1&_). destruct (K (map (fun j => rnth x (circ n j L)) (seq 0 n))) as (y1&E2&_&V2&_).
  rewrite Ex in E1. rewrite Ey in E2. injection E1 as <-. injection E2 as <-.
  rewrite V2 by exact Hj. rewrite V1 by (apply circ_lt; exact Hn). unfold cconv.
  rewrite <- (rsum_circ n (fun m => rnth x m * rnth h (circ n (circ n j L) (Z.of_nat m))) L Hn).
  apply rsum_ext. intros m Hm. rewrite rnth_map_seq by exact Hm. f_equal. f_equal.
  rewrite circ_circ by exact Hn. destruct (circ_q n m L Hn) as [q E].
  apply (circ_cong n _ _ _ _ q); [exact Hn|]. lia.
Qed.

(** ** C36 *)
(** When the cosine the result is divided by vanishes. *)
Lemma cos_quarter n s : (0 < n)%nat ->
  (cos (2 * PI * IZR s / INR n) = 0 <-> ((4 * s) mod (2 * Z.of_nat n) = Z.of_nat n)%Z).
Proof.
  intro Hn. assert (HnR : INR n <> 0) by (apply not_0_INR; lia). pose proof PI_RGT_0 as HPI. split; intro H.
  - apply cos_eq_0_0 in H. destruct H as [k Hk].
    assert (E : IZR (4 * s) = IZR (Z.of_nat n * (2 * k + 1))).
    { rewrite !mult_IZR, plus_IZR, mult_IZR, <- INR_IZR_INZ. apply (Rmult_eq_reg_r (PI / 2)); [|lra].
      replace (4 * IZR s * (PI / 2)) with (2 * PI * IZR s / INR n * INR n) by (field; exact HnR).
      rewrite Hk. field. }
    apply eq_IZR in E. rewrite E.
    replace (Z.of_nat n * (2 * k + 1))%Z with (Z.of_nat n + k * (2 * Z.of_nat n))%Z by ring.
    rewrite Z.mod_add by lia. apply Z.mod_small. lia.
  - pose proof (Z.div_mod (4 * s) (2 * Z.of_nat n) ltac:(lia)) as D. rewrite H in D.
    set (k := (4 * s / (2 * Z.of_nat n))%Z) in *. apply cos_eq_0_1. exists k.
    assert (E : 4 * IZR s = 2 * INR n * IZR k + INR n).
    { rewrite (INR_IZR_INZ n), <- !mult_IZR, <- plus_IZR. f_equal. lia. }
    apply (Rmult_eq_reg_r (INR n)); [|exact HnR].
    replace (2 * PI * IZR s / INR n * INR n) with (PI / 2 * (4 * IZR s)) by (field; exact HnR).
    rewrite E. field.
Qed.

(** [phaseshift] delays circularly by [int(preonset/dt)] samples, except when that
    shift is an odd multiple of a quarter of the window, where it divides by 0. *)
Theorem C36_delay x n dt preonset : (0 < n)%nat -> dt <> 0 ->
  let s := Rtrunc (preonset / dt) in
  ((4 * s) mod (2 * Z.of_nat n) <> Z.of_nat n)%Z ->
  exists y, phaseshift x n dt preonset = Ok y /\ length y = n /\
    forall j, (j < n)%nat -> rnth y j = rnth x (circ n j s).
Proof.
  intros Hn Hdt s Hs. rewrite phaseshift_eq by assumption. cbn zeta. fold s.
  destruct (Req_EM_T _ 0) as [E|_]; [exfalso; apply Hs; apply cos_quarter; assumption|].
  eexists. split; [reflexivity|]. split; [rewrite map_length, seq_length; reflexivity|].
  intros j Hj. apply (rnth_map_seq (fun j => rnth x (circ n j s))). exact Hj.
Qed.

Theorem C36_quarter_window_refuted x n dt preonset : (0 < n)%nat -> dt <> 0 ->
  ((4 * Rtrunc (preonset / dt)) mod (2 * Z.of_nat n) = Z.of_nat n)%Z ->
  phaseshift x n dt preonset = Err NaNResult.
Proof.
  intros Hn Hdt Hs. rewrite phaseshift_eq by assumption. cbn zeta.
  destruct (Req_EM_T _ 0) as [_|E]; [reflexivity|]. exfalso. apply E. apply cos_quarter; assumption.
Qed.

(** Truncation of an exact multiple. *)
Lemma Rtrunc_Z z : Rtrunc (IZR z) = z.
Proof.
  assert (IP : forall k, Int_part (IZR k) = k).
  { intro k. unfold Int_part. rewrite <- (tech_up (IZR k) (k + 1)); [lia| |]; rewrite plus_IZR; lra. }
  unfold Rtrunc. destruct (Rle_dec 0 (IZR z)); [apply IP|].
  rewrite <- opp_IZR, IP. lia.
Qed.

Example C36_example : exists y, phaseshift [1; 2; 3; 4; 5; 6; 7; 8] 8 (1 / 2) (3 / 2) = Ok y /\
  rnth y 3 = 1 /\ rnth y 0 = 6.
Proof.
  destruct (C36_delay [1; 2; 3; 4; 5; 6; 7; 8] 8 (1 / 2) (3 / 2)) as (y&E&_&V); [lia|lra| |].
  - replace (3 / 2 / (1 / 2)) with 3 by field. rewrite Rtrunc_Z. intro H. vm_compute in H. discriminate H.
  - replace (3 / 2 / (1 / 2)) with 3 in V by field. rewrite Rtrunc_Z in V.
    exists y. split; [exact E|]. rewrite !V by lia. split; reflexivity.
Qed.
Example C36_singular_example : phaseshift [1; 0; 0; 0] 4 (1 / 2) (1 / 2) = Err NaNResult.
Proof.
  apply C36_quarter_window_refuted; [lia|lra|]. replace (1 / 2 / (1 / 2)) with 1 by field. rewrite Rtrunc_Z. reflexivity.
Qed.

(** ** C37 *)
Lemma greedy_run_lags dt n lim u w Ps : forall p, length p = n -> greedy_run dt n lim u w p Ps ->
  exists lags, length lags = length Ps /\ (forall k, In k lags -> (k < lim)%nat) /\
    length (last Ps p) = n /\
    (forall k, rnth (last Ps p) k <> rnth p k -> In k lags).
Proof.
  induction Ps as [|p' Ps IH]; intros p Lp H.
  - exists []. split; [reflexivity|]. split; [intros k []|]. split; [exact Lp|]. intros k Hk. exfalso. apply Hk. reflexivity.
  - destruct H as [(l&b&Hl&(S1&S2&S3)&_) H]. destruct (IH p' S2 H) as (lags&L1&L2&L3&L4).
    exists (l :: lags). split; [cbn; lia|]. split; [intros k [<-|Hk]; auto|].
    assert (EL : last (p' :: Ps) p = last Ps p') by (clear; revert p'; induction Ps as [|q Ps IH]; intro p'; [reflexivity|]; exact (IH q) || (cbn in *; destruct Ps; [reflexivity|apply IH])).
    rewrite EL. split; [exact L3|]. intros k Hk. destruct (Nat.eq_dec k l) as [->|Hne]; [left; reflexivity|right].
    apply L4. rewrite S3. destruct (Nat.eqb_spec k l); [contradiction|]. rewrite Rplus_0_r. exact Hk.
Qed.

(** The receiver function is a train of at most [it] spikes, all at lags in the first
    half of the window (phase P), Gaussian-filtered and delayed by preonset. *)
Theorem C37_spikes uin win dt preonset gaussian itmax minderr phase rf rms it :
  deconv_iterative uin win dt None preonset gaussian itmax minderr phase = Ok (rf, rms, it) ->
  (it <= itmax)%nat /\ length rf = length uin /\
  exists n p lags, n = (2 ^ Nat.log2_up (length uin))%nat /\ length p = n /\ length lags = it /\
    (forall k, rnth p k <> 0 -> In k lags) /\
    (forall k, In k lags -> (k < (if String.eqb phase "P" then n / 2 - 1 else n))%nat) /\
    (forall j, (j < length uin)%nat ->
       rnth rf j = cconv n p (gauss_pulse dt n gaussian) (circ n j (Rtrunc (preonset / dt)))).
Proof.
  intro H. apply deconv_iterative_inv in H; [|reflexivity]. destruct H as (n&Ps&R).
  split; [apply (ir_max _ _ _ _ _ _ _ _ _ _ _ _ _ R)|].
  pose proof (ir_rf _ _ _ _ _ _ _ _ _ _ _ _ _ R) as Erf.
  split; [rewrite Erf, map_length, seq_length; reflexivity|].
  destruct (greedy_run_lags _ _ _ _ _ _ (repeat 0 n) (repeat_length _ _) (ir_greedy _ _ _ _ _ _ _ _ _ _ _ _ _ R)) as (lags&L1&L2&L3&L4).
  exists n, (last Ps (repeat 0 n)), lags. split; [apply (ir_n _ _ _ _ _ _ _ _ _ _ _ _ _ R)|].
  split; [exact L3|]. split; [rewrite L1; symmetry; apply (ir_it _ _ _ _ _ _ _ _ _ _ _ _ _ R)|].
  split; [intros k Hk; apply L4; rewrite rnth_repeat0; exact Hk|]. split; [exact L2|].
  intros j Hj. rewrite Erf. apply (rnth_map_seq (fun j => cconv n _ _ _)). exact Hj.
Qed.

Lemma log2_up_ge2 l : (3 <= l)%nat -> (4 <= 2 ^ Nat.log2_up l)%nat.
Proof.
  intro H. assert (2 <= Nat.log2_up l)%nat. { change 2%nat with (Nat.log2_up 3). apply Nat.log2_up_le_mono. exact H. }
  change 4%nat with (2 ^ 2)%nat. apply Nat.pow_le_mono_r; lia.
Qed.

(** A call on two non-silent traces of the same length (at least 2 samples, 3 for
    phase P) returns. *)
Theorem C37_returns uin win dt preonset gaussian itmax minderr phase :
  length uin = length win -> (2 <= length uin)%nat -> (phase = "P"%string -> (3 <= length uin)%nat) -> dt <> 0 -> gaussian <> 0 ->
  ~ all_zero uin -> ~ all_zero win ->
  ((4 * Rtrunc (preonset / dt)) mod (2 * Z.of_nat (2 ^ Nat.log2_up (length uin))) <> Z.of_nat (2 ^ Nat.log2_up (length uin)))%Z ->
  exists rf rms it, deconv_iterative uin win dt None preonset gaussian itmax minderr phase = Ok (rf, rms, it) /\
    ((0 < itmax)%nat -> (0 < it)%nat).
Proof.
  intros HL H2 H3 Hdt Ha Hu Hw Hs.
  assert (G : exists rf rms it, deconv_iterative uin win dt None preonset gaussian itmax minderr phase = Ok (rf, rms, it)).
  { unfold deconv_iterative. rewrite HL, Nat.eqb_refl. cbn [negb dflt].
    unfold next_pow_2. destruct (Nat.eqb_spec (length win) 0) as [?|Hl0]; [lia|]. cbn [bind]. rewrite <- HL. set (n := (2 ^ Nat.log2_up (length uin))%nat) in *.
    assert (Hn2 : (2 <= n)%nat).
    { unfold n. change 2%nat with (2 ^ Nat.log2_up 2)%nat at 1. apply Nat.pow_le_mono_r; [lia|]. apply Nat.log2_up_le_mono. exact H2. }
    assert (Hn4 : phase = "P"%string -> (4 <= n)%nat) by (intro E; apply log2_up_ge2; exact (H3 E)).
    assert (Hle : (length uin <= n)%nat).
    { destruct (next_pow_2_Ok (length uin) n) as (_&X&_); [|exact X]. unfold next_pow_2. destruct (Nat.eqb_spec (length uin) 0); [lia|reflexivity]. }
    rewrite put_prefix_zpad by exact Hle. cbn [bind].
    assert (PW : put_prefix n (length uin) win = Ok (zpad n win)) by (rewrite HL; apply put_prefix_zpad; lia). rewrite PW. cbn [bind].
    assert (EV : exists m, (0 < m)%nat /\ n = (2 * m)%nat).
    { apply pow2_even. change 1%nat with (Nat.log2_up 2). apply Nat.log2_up_le_mono. lia. }
    destruct EV as (m&Hm&Em).
    assert (EG : gaussFilter dt n gaussian = Ok (map (fun k => gauss_gain dt n gaussian k / dt) (seq 0 n))) by (rewrite Em; apply gaussFilter_even; assumption).
    rewrite EG. cbn [bind]. rewrite !gfilter_gauss by (auto; lia). cbn [bind].
    fold (gfilt dt n gaussian uin). fold (gfilt dt n gaussian win).
    rewrite ssq_list, gfilt_length.
    set (s0 := mkD _ _ _ _ _ _).
    destruct (dloop_total dt minderr gaussian itmax n (String.eqb phase "P") (gfilt dt n gaussian uin) (zpad n win)
       ltac:(lia) Hdt (gfilt_length _ _ _ _) (zpad_length n win ltac:(lia)) itmax s0) as [s Es].
    - split; [apply repeat_length|]. split; [symmetry; apply resid_zero; apply gfilt_length|apply repeat_length].
    - lia.
    - destruct (String.eqb_spec phase "P") as [E|_]; [|lia]. specialize (Hn4 E).
      assert (2 <= n / 2)%nat by (apply Nat.div_le_lower_bound; lia). lia.
    - exact (gfilt_nonzero dt n gaussian win ltac:(lia) Hdt ltac:(lia) Hw).
    - apply gfilt_nonzero; [lia|assumption|lia|assumption].
    - unfold gfilt at 2. rewrite Es. cbn [bind]. rewrite gfilter_gauss by (auto; lia). cbn [bind].
      rewrite phaseshift_eq by (auto; lia). cbn zeta.
      destruct (Req_EM_T _ 0) as [E|_]; [exfalso; apply Hs; apply cos_quarter; [lia|exact E]|]. cbn [bind]. eauto. }
  destruct G as (rf&rms&it&E). exists rf, rms, it. split; [exact E|]. intro Hmax.
  apply deconv_iterative_inv in E; [|reflexivity]. destruct E as (n&Ps&R).
  destruct it as [|it]; [|lia]. exfalso.
  destruct (ir_zero _ _ _ _ _ _ _ _ _ _ _ _ _ R eq_refl) as [X|X]; [lia|contradiction].
Qed.

Lemma not_all_zero_head x l : x <> 0 -> ~ all_zero (x :: l).
Proof. intros H A. apply H. exact (A 0%nat). Qed.

Example C37_example : exists rf rms it,
  deconv_iterative [1; 2; 0; 1] [2; 1; 0; 0] (1 / 10) None 0 2 10 (1 / 1000) "P" = Ok (rf, rms, it) /\ (0 < it)%nat.
Proof.
  destruct (C37_returns [1; 2; 0; 1] [2; 1; 0; 0] (1 / 10) 0 2 10 (1 / 1000) "P") as (rf&rms&it&E&P); simpl; try lia; try lra;
    try (apply not_all_zero_head; lra).
  - unfold Rdiv at 1. rewrite Rmult_0_l, (Rtrunc_Z 0). vm_compute. discriminate.
  - exists rf, rms, it. split; [exact E|apply P; lia].
Qed.

(** ** C38 *)
Lemma nth_firstn_lt (l : list R) : forall k i d, (i < k)%nat -> nth i (firstn k l) d = nth i l d.
Proof.
  induction l as [|x l IH]; intros k i d H; [rewrite firstn_nil; reflexivity|].
  destruct k as [|k]; [lia|]. destruct i as [|i]; [reflexivity|]. apply IH. lia.
Qed.

(** The run is a sequence of spike trains [Ps], each obtained from the previous one by
    the best single additional spike; the relative misfit starts at 1, never increases,
    stays in [0,1]; the loop goes on while it drops by more than minderr percent. *)
Theorem C38_residual uin win dt preonset gaussian itmax minderr phase rf rms it :
  deconv_iterative uin win dt None preonset gaussian itmax minderr phase = Ok (rf, rms, it) -> (0 < it)%nat ->
  let n := (2 ^ Nat.log2_up (length uin))%nat in
  let u := gfilt dt n gaussian uin in let w := gfilt dt n gaussian win in
  exists Ps, length Ps = it /\
    greedy_run dt n (if String.eqb phase "P" then n / 2 - 1 else n)%nat u w (repeat 0 n) Ps /\
    (let h := map (misfit dt n u w) (repeat 0 n :: Ps) in
     rnth h 0 = 1 /\
     (forall i, (i <= it)%nat -> 0 <= rnth h i <= 1) /\
     (forall i, (i < it)%nat -> rnth h (S i) <= rnth h i) /\
     (forall i, (i + 1 < it)%nat -> minderr < 100 * (rnth h i - rnth h (S i))) /\
     ((it < itmax)%nat -> 100 * (rnth h (it - 1) - rnth h it) <= minderr) /\
     (forall i, (i < length rms)%nat -> rnth rms i = rnth h (S i))) /\
    (forall j, (j < length uin)%nat ->
       rnth rf j = cconv n (last Ps (repeat 0 n)) (gauss_pulse dt n gaussian) (circ n j (Rtrunc (preonset / dt)))).
Proof.
  intros H Hit n u w. apply deconv_iterative_inv in H; [|reflexivity]. destruct H as (n0&Ps&R).
  destruct R as [R1 R2 R3 R4 R5 R6 R7 R8 R9 R10 R11 R12 R13 R14 R15 R16]. subst n0.
  fold n in R3, R6, R9, R10, R11, R12, R13, R14, R15. fold u in R9, R11, R12, R13, R14, R15. fold w in R9, R11, R12, R13, R14, R15.
  exists Ps. split; [congruence|]. split; [exact R9|].
  assert (Hne : Ps <> []) by (intros ->; simpl in R7; lia).
  destruct (R12 Hne) as [_ Hpu].
  split.
  - set (Q := repeat 0 n :: Ps). assert (LQ : length Q = S it) by (unfold Q; simpl; congruence).
    assert (HQ : forall i, (i <= it)%nat -> exists p, nth_error Q i = Some p /\ rnth (map (misfit dt n u w) Q) i = misfit dt n u w p).
    { intros i Hi. destruct (nth_error Q i) as [p|] eqn:E; [|apply nth_error_None in E; lia]. exists p. split; [reflexivity|].
      unfold rnth. apply nth_error_nth. rewrite nth_error_map, E. reflexivity. }
    assert (M : forall i, (i < it)%nat -> rnth (map (misfit dt n u w) Q) (S i) <= rnth (map (misfit dt n u w) Q) i).
    { intros i Hi. destruct (HQ i ltac:(lia)) as (p&E&->). destruct (HQ (S i) ltac:(lia)) as (p'&E'&->). apply (R13 i p p' E E'). }
    assert (H0 : rnth (map (misfit dt n u w) Q) 0 = 1) by (cbn; apply misfit_zero; exact Hpu).
    cbv zeta. split; [exact H0|]. split.
    { intros i Hi. split.
      - destruct (HQ i Hi) as (p&_&->). unfold misfit. apply Rmult_le_pos; [apply ssq_nonneg|left; apply Rinv_0_lt_compat; exact Hpu].
      - induction i as [|i IH]; [rewrite H0; lra|]. specialize (IH ltac:(lia)). specialize (M i ltac:(lia)). lra. }
    split; [exact M|]. split.
    { intros i Hi. destruct (HQ i ltac:(lia)) as (p&E&->). destruct (HQ (S i) ltac:(lia)) as (p'&E'&->). apply (R14 i p p' Hi E E'). }
    split.
    { intro Hlt. destruct (HQ (it - 1)%nat ltac:(lia)) as (p&E&->). destruct (HQ it ltac:(lia)) as (p'&E'&->).
      apply (R15 Hlt (it - 1)%nat p p'); [lia|exact E|]. replace (S (it - 1)) with it by lia. exact E'. }
    intros i Hi. rewrite R11 in Hi |- *. destruct Ps as [|q Ps]; [congruence|].
    rewrite firstn_length in Hi. unfold misfits in Hi |- *. unfold rnth.
    assert (Hi2 : (i < it - 1)%nat) by lia.
    change (nth (S i) (map (misfit dt n u w) Q) 0) with (nth i (map (misfit dt n u w) (q :: Ps)) 0).
    apply nth_firstn_lt. exact Hi2.
  - intros j Hj. rewrite R10. apply (rnth_map_seq (fun j => cconv n _ _ _)). exact Hj.
Qed.

(** ** C39 *)
(** What is returned: the history without its last entry (all of it zeros when no
    iteration was made). *)
Theorem C39_rms_drops_last uin win dt preonset gaussian itmax minderr phase rf rms it :
  deconv_iterative uin win dt None preonset gaussian itmax minderr phase = Ok (rf, rms, it) ->
  ((0 < it)%nat -> length rms = (it - 1)%nat) /\ (it = 0%nat -> rms = repeat 0 (itmax - 1)).
Proof.
  intro H. apply deconv_iterative_inv in H; [|reflexivity]. destruct H as (n0&Ps&R).
  destruct R as [R1 R2 R3 R4 R5 R6 R7 R8 R9 R10 R11 R12 R13 R14 R15 R16]. split; intro Hit.
  - rewrite R11. destruct Ps as [|p Ps]; [simpl in R7; lia|]. rewrite firstn_length. unfold misfits. rewrite map_length. lia.
  - rewrite R11. destruct Ps; [reflexivity|]. simpl in R7. lia.
Qed.

Theorem C39_refuted : ~ (forall uin win dt preonset gaussian itmax minderr phase rf rms it,
  deconv_iterative uin win dt None preonset gaussian itmax minderr phase = Ok (rf, rms, it) -> length rms = it).
Proof.
  intro H. destruct C37_example as (rf&rms&it&E&Hit).
  pose proof (H _ _ _ _ _ _ _ _ _ _ _ E) as X. apply C39_rms_drops_last in E. destruct E as [E _]. specialize (E Hit). lia.
Qed.
