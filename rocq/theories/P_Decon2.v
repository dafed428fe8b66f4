(** * P_Decon2: dispatch (C40), water level (C41), exact recovery (C58), scaling (C59). *)

From Coq Require Import Reals Lra Ascii.
From Verif Require Import Base Num NumPy HkReal Cplx DFT DFT2 SpecSignal ReverbModel DeconModel DeconProofs DeconProofs2 DeconProofs3 DeconProofs4 DeconProofs5 P_Decon.
Local Open Scope R_scope.

(** ** C40 *)
(** [c] is the (lower-case) letter [d] in either case. *)
Definition char_nocase (c d : ascii) : Prop :=
  c = d \/ ((65 <= nat_of_ascii c <= 90)%nat /\ nat_of_ascii d = (nat_of_ascii c + 32)%nat).
Fixpoint nocase (s t : string) : Prop :=
  match s, t with
  | EmptyString, EmptyString => True
  | String c s', String d t' => char_nocase c d /\ nocase s' t'
  | _, _ => False
  end.
Fixpoint lowercase (t : string) : Prop :=
  match t with EmptyString => True | String d t' => (97 <= nat_of_ascii d <= 122)%nat /\ lowercase t' end.

Lemma lower_ascii_nocase c d : (97 <= nat_of_ascii d <= 122)%nat -> (lower_ascii c = d <-> char_nocase c d).
Proof.
  intro Hd. unfold lower_ascii, char_nocase.
  assert (B : (nat_of_ascii c < 256)%nat) by apply nat_ascii_bounded.
  destruct (Nat.leb_spec 65 (nat_of_ascii c)), (Nat.leb_spec (nat_of_ascii c) 90); cbn [andb].
  - split.
    + intro E. right. split; [lia|]. rewrite <- E, nat_ascii_embedding by lia. reflexivity.
    + intros [->|[_ E]]; [lia|]. rewrite <- E. apply ascii_nat_embedding.
  - split; [auto|]. intros [E|[X _]]; [exact E|lia].
  - split; [auto|]. intros [E|[X _]]; [exact E|lia].
  - split; [auto|]. intros [E|[X _]]; [exact E|lia].
Qed.
Lemma lower_nocase s : forall t, lowercase t -> (lower s = t <-> nocase s t).
Proof.
  induction s as [|c s IH]; intros [|d t] H; cbn [lower nocase]; try (split; [discriminate|contradiction]).
  - tauto.
  - destruct H as [Hd Ht]. rewrite <- (IH t Ht), <- (lower_ascii_nocase c d Hd). split.
    + intro E. injection E. auto.
    + intros [-> ->]. reflexivity.
Qed.
Lemma lowercase_iter : lowercase "iter". Proof. cbn. lia. Qed.
Lemma lowercase_water : lowercase "water". Proof. cbn. lia. Qed.

Theorem C40_dispatch uin win dt method k :
  (nocase method "iter" -> deconvolve uin win dt method k =
     (r <- call_iterative uin win dt k ;; Ok (RIter (fst (fst r)) (snd (fst r)) (snd r)))) /\
  (nocase method "water" -> deconvolve uin win dt method k =
     (r <- call_waterlevel uin win dt k ;; Ok (RWater (fst r) (snd r)))) /\
  (~ nocase method "iter" -> ~ nocase method "water" -> deconvolve uin win dt method k = Err SynrfValueError).
Proof.
  unfold deconvolve.
  pose proof (lower_nocase method "iter" lowercase_iter) as Hi. pose proof (lower_nocase method "water" lowercase_water) as Hw.
  split; [|split].
  - intro H. rewrite (proj2 Hi H). cbn [String.eqb Ascii.eqb Bool.eqb].
    destruct (call_iterative uin win dt k) as [[[rf rms] it]|]; reflexivity.
  - intro H. rewrite (proj2 Hw H). cbn [String.eqb Ascii.eqb Bool.eqb].
    destruct (call_waterlevel uin win dt k) as [[rf rms]|]; reflexivity.
  - intros H1 H2. destruct (String.eqb_spec (lower method) "iter") as [E|_]; [exfalso; apply H1; apply Hi; exact E|].
    destruct (String.eqb_spec (lower method) "water") as [E|_]; [exfalso; apply H2; apply Hw; exact E|]. reflexivity.
Qed.

(** Keywords the chosen algorithm does not have are refused first, then traces of
    different lengths; both before anything is computed. *)
Theorem C40_rejects uin win dt method k :
  (nocase method "iter" -> kw_wlevel k <> None \/ kw_normalize k <> None \/ kw_other k = true ->
     deconvolve uin win dt method k = Err TypeError) /\
  (nocase method "water" -> kw_nt k <> None \/ kw_itmax k <> None \/ kw_minderr k <> None \/ kw_other k = true ->
     deconvolve uin win dt method k = Err TypeError) /\
  (length uin <> length win -> nocase method "iter" ->
     kw_wlevel k = None -> kw_normalize k = None -> kw_other k = false ->
     deconvolve uin win dt method k = Err SynrfValueError) /\
  (length uin <> length win -> nocase method "water" ->
     kw_nt k = None -> kw_itmax k = None -> kw_minderr k = None -> kw_other k = false ->
     deconvolve uin win dt method k = Err SynrfValueError).
Proof.
  destruct (C40_dispatch uin win dt method k) as (D1&D2&_).
  assert (G : forall A (x : option A), x <> None -> given x = true) by (intros A [?|] H; [reflexivity|contradiction]).
  split; [|split; [|split]].
  - intros Hm H. rewrite D1 by exact Hm. unfold call_iterative.
    assert (E : given (kw_wlevel k) || given (kw_normalize k) || kw_other k = true).
    { destruct H as [H|[H|H]]; [rewrite (G _ _ H)|rewrite (G _ _ H)|rewrite H]; rewrite ?orb_true_r; reflexivity. }
    rewrite E. reflexivity.
  - intros Hm H. rewrite D2 by exact Hm. unfold call_waterlevel.
    assert (E : given (kw_nt k) || given (kw_itmax k) || given (kw_minderr k) || kw_other k = true).
    { destruct H as [H|[H|[H|H]]]; [rewrite (G _ _ H)|rewrite (G _ _ H)|rewrite (G _ _ H)|rewrite H]; rewrite ?orb_true_r; reflexivity. }
    rewrite E. reflexivity.
  - intros HL Hm H1 H2 H3. rewrite D1 by exact Hm. unfold call_iterative. rewrite H1, H2, H3. cbn [given orb].
    unfold deconv_iterative. destruct (Nat.eqb_spec (length uin) (length win)); [contradiction|]. reflexivity.
  - intros HL Hm H1 H2 H3 H4. rewrite D2 by exact Hm. unfold call_waterlevel. rewrite H1, H2, H3, H4. cbn [given orb].
    unfold deconv_waterlevel. destruct (Nat.eqb_spec (length uin) (length win)); [contradiction|]. reflexivity.
Qed.

(** An omitted keyword stands for its documented default: preonset 10 s, Gaussian width 2,
    and 400 iterations, misfit 0.001 and phase P (iterative) or water level 0.05 without
    normalisation (water level). *)
Theorem C40_defaults uin win dt method k :
  (nocase method "iter" -> deconvolve uin win dt method k = deconvolve uin win dt method
     (mkKw (kw_nt k) (Some (dflt (kw_preonset k) 10)) (Some (dflt (kw_gaussian k) 2)) (Some (dflt (kw_itmax k) 400%nat))
           (Some (dflt (kw_minderr k) (1 / 1000))) (Some (dflt (kw_phase k) "P"%string)) (kw_wlevel k) (kw_normalize k) (kw_other k))) /\
  (nocase method "water" -> deconvolve uin win dt method k = deconvolve uin win dt method
     (mkKw (kw_nt k) (Some (dflt (kw_preonset k) 10)) (Some (dflt (kw_gaussian k) 2)) (kw_itmax k)
           (kw_minderr k) (kw_phase k) (Some (dflt (kw_wlevel k) (5 / 100))) (Some (dflt (kw_normalize k) false)) (kw_other k))).
Proof.
  destruct (C40_dispatch uin win dt method k) as (D1 & D2 & _).
  split; intro Hm.
  - rewrite (D1 Hm). rewrite (proj1 (C40_dispatch _ _ _ _ _) Hm). reflexivity.
  - rewrite (D2 Hm). rewrite (proj1 (proj2 (C40_dispatch _ _ _ _ _)) Hm). reflexivity.
Qed.

(** The rejection is not the builtin ValueError. *)
Theorem C40_not_builtin_refuted : ~ (forall uin win dt method k,
  ~ nocase method "iter" -> ~ nocase method "water" -> deconvolve uin win dt method k = Err ValueError).
Proof.
  intro H. specialize (H [] [] 1 "multitaper"%string (mkKw None None None None None None None None false)).
  assert (N1 : ~ nocase "multitaper" "iter") by (cbn; intros ([X|X]&_); [discriminate|vm_compute in X; lia]).
  assert (N2 : ~ nocase "multitaper" "water") by (cbn; intros ([X|X]&_); [discriminate|vm_compute in X; lia]).
  specialize (H N1 N2). destruct (C40_dispatch [] [] 1 "multitaper"%string (mkKw None None None None None None None None false)) as (_&_&D).
  rewrite (D N1 N2) in H. discriminate.
Qed.

Example C40_example : nocase "ItEr" "iter" /\ nocase "WATER" "water" /\ ~ nocase "iter " "iter".
Proof. cbn. unfold char_nocase. cbn. repeat split; try (left; reflexivity); try (right; lia). tauto. Qed.

(** ** C41 *)
(** Every denominator is the larger of the source power at that frequency and the
    water level (wlevel times the largest source power); the receiver function is the
    inverse transform of the Gaussian-filtered quotient, delayed by preonset. *)
Theorem C41_waterlevel uin win dt preonset wlevel gaussian rf rms :
  deconv_waterlevel uin win dt preonset wlevel gaussian false = Ok (rf, rms) ->
  let n := (2 ^ Nat.log2_up (length uin))%nat in
  length rf = length uin /\
  exists M D, max_power n (dft n win) M /\
    (forall k, (k < n)%nat -> D k = Rmax (Cnorm2 (dft n win k)) (wlevel * M) /\ 0 < D k) /\
    (forall j, (j < length uin)%nat -> rnth rf j =
       synth n (fun k => RtoC (gauss_gain dt n gaussian k / dt) * dft n uin k * Cconj (dft n win k) * RtoC (/ D k)
                         * cis (- (omega dt n k * preonset)))%C j).
Proof.
  intro H. apply deconv_waterlevel_inv in H. destruct H as (M&D&R). cbv zeta. set (n := (2 ^ Nat.log2_up (length uin))%nat) in *.
  split; [apply (wr_lrf _ _ _ _ _ _ _ _ _ _ _ _ R)|]. exists M, D.
  split; [apply (wr_M _ _ _ _ _ _ _ _ _ _ _ _ R)|]. split.
  - intros k Hk. pose proof (wr_D _ _ _ _ _ _ _ _ _ _ _ _ R k Hk) as E. split; [exact E|].
    pose proof (wr_D0 _ _ _ _ _ _ _ _ _ _ _ _ R k Hk) as N. pose proof (Cnorm2_pos (dft n win k)) as P.
    pose proof (Rmax_l (Cnorm2 (dft n win k)) (wlevel * M)). rewrite E in N |- *. lra.
  - intros j Hj. rewrite (wr_rf _ _ _ _ _ _ _ _ _ _ _ _ R j Hj). ring.
Qed.

(** A non-silent source and a positive level never divide by zero. *)
Theorem C41_returns uin win dt preonset wlevel gaussian normalize :
  length uin = length win -> (2 <= length uin)%nat -> dt <> 0 -> gaussian <> 0 ->
  let n := (2 ^ Nat.log2_up (length uin))%nat in
  ~ all_zero win -> 0 < wlevel \/ (forall k, (k < n)%nat -> dft n win k <> C0) ->
  exists rf rms, deconv_waterlevel uin win dt preonset wlevel gaussian normalize = Ok (rf, rms).
Proof.
  intros HL H2 Hdt Ha n Hz Hw.
  assert (EV : exists m, (0 < m)%nat /\ n = (2 * m)%nat).
  { apply pow2_even. change 1%nat with (Nat.log2_up 2). apply Nat.log2_up_le_mono. lia. }
  destruct EV as (m&Hm&Em).
  destruct (deconv_waterlevel_body uin win dt preonset wlevel gaussian normalize m HL ltac:(lia) Hm Em Hdt Ha) as (M&D&HM&HD&_&HN).
  fold n in HM, HD, HN.
  assert (Hle : (length uin <= n)%nat).
  { destruct (next_pow_2_Ok (length uin) n) as (_&X&_); [|exact X]. unfold next_pow_2. destruct (Nat.eqb_spec (length uin) 0); [lia|reflexivity]. }
  destruct HN as (rf&rms&E&_); [|exists rf, rms; exact E].
  intros k Hk. rewrite HD by exact Hk. destruct Hw as [Hw|Hw].
  - destruct (wl_positive n win wlevel M ltac:(lia) Hz HM) as [_ P]. specialize (P k Hw). lra.
  - specialize (Hw k Hk). rewrite <- Cnorm2_0 in Hw. pose proof (Cnorm2_pos (dft n win k)).
    pose proof (Rmax_l (Cnorm2 (dft n win k)) (wlevel * M)). lra.
Qed.

Lemma Cquot_exact U V d : V <> C0 -> d = Cnorm2 V -> (U * Cconj V * RtoC (/ d) * V)%C = U.
Proof.
  intros HV ->. replace (U * Cconj V * RtoC (/ Cnorm2 V) * V)%C with (U * ((V * Cconj V) * RtoC (/ Cnorm2 V)))%C by ring.
  rewrite Cmul_conj, <- RtoC_mul. rewrite Rinv_r by (rewrite Cnorm2_0; exact HV). change (RtoC 1) with C1. ring.
Qed.

(** Without a water level, and without a spectral zero, the division is exact: the
    source convolved with the quotient gives back the filtered numerator. *)
Theorem C41_exact uin win dt preonset wlevel gaussian normalize rf rms :
  deconv_waterlevel uin win dt preonset wlevel gaussian normalize = Ok (rf, rms) ->
  let n := (2 ^ Nat.log2_up (length uin))%nat in
  wlevel <= 0 -> (forall k, (k < n)%nat -> dft n win k <> C0) ->
  (forall r, rms = Some r -> r = 0) /\
  (normalize = false -> forall j, (j < length uin)%nat -> rnth rf j =
     synth n (fun k => RtoC (gauss_gain dt n gaussian k / dt) * (dft n uin k / dft n win k) * cis (- (omega dt n k * preonset)))%C j).
Proof.
  intro H. apply deconv_waterlevel_inv in H. destruct H as (M&D&R). cbv zeta. set (n := (2 ^ Nat.log2_up (length uin))%nat) in *.
  intros Hw HN.
  assert (HM : 0 <= M).
  { destruct (wr_M _ _ _ _ _ _ _ _ _ _ _ _ R) as [_ (k&_&<-)]. apply Cnorm2_pos. }
  assert (HD : forall k, (k < n)%nat -> D k = Cnorm2 (dft n win k)).
  { intros k Hk. rewrite (wr_D _ _ _ _ _ _ _ _ _ _ _ _ R k Hk). apply Rmax_left.
    pose proof (Cnorm2_pos (dft n win k)). assert (wlevel * M <= 0) by nra. lra. }
  split.
  - intros r Er. pose proof (wr_rms _ _ _ _ _ _ _ _ _ _ _ _ R) as E. cbv zeta in E. rewrite Er in E.
    destruct (Req_EM_T _ 0); [discriminate|]. injection E as ->.
    rewrite (ssq_ext _ _ (fun _ => 0)).
    + unfold ssq at 1. rewrite (rsum_ext _ _ (fun _ => 0)) by (intros; ring). rewrite rsum_0. unfold Rdiv. ring.
    + intros j Hj. rewrite (synth_ext n _ (fun k => RtoC (gauss_gain dt n gaussian k / dt) * dft n uin k)%C); [ring|].
      intros k Hk. apply Cquot_exact; [apply HN; exact Hk|apply HD; exact Hk].
  - intros Hf j Hj. rewrite (wr_rf _ _ _ _ _ _ _ _ _ _ _ _ R j Hj). rewrite Hf, Rmult_1_l. apply synth_ext. intros k Hk.
    rewrite HD by exact Hk. f_equal. rewrite <- (Cquot_exact (dft n uin k) (dft n win k) _ (HN k Hk) eq_refl) at 2.
    assert (Hnk : dft n win k <> C0) by (apply HN; exact Hk). field. exact Hnk.
Qed.

Example C41_example : exists rf rms, deconv_waterlevel [1; 2; 0; 1] [2; 1; 0; 0] (1 / 10) 0 (5 / 100) 2 false = Ok (rf, rms).
Proof.
  apply C41_returns; simpl; try lia; try lra. apply not_all_zero_head. lra.
Qed.

(** ** C58 *)
Lemma gauss_pulse_at dt n a (L : Z) j : (0 < n)%nat ->
  rnth (gauss_pulse dt n a) (circ n j L) = synth n (fun k => RtoC (gauss_gain dt n a k) * W n (- (L * Z.of_nat k)))%C j.
Proof.
  intro Hn. unfold gauss_pulse. rewrite rnth_map_seq by (apply circ_lt; exact Hn). unfold synth. f_equal. apply rsum_ext. intros k Hk.
  replace (RtoC (gauss_gain dt n a k) * W n (- (L * Z.of_nat k)) * W n (Z.of_nat j * Z.of_nat k))%C
    with (RtoC (gauss_gain dt n a k) * (W n (- (L * Z.of_nat k)) * W n (Z.of_nat j * Z.of_nat k)))%C by ring.
  rewrite Re_scale, <- W_add. f_equal.
  replace (- (L * Z.of_nat k) + Z.of_nat j * Z.of_nat k)%Z with ((Z.of_nat j - L) * Z.of_nat k)%Z by ring.
  rewrite <- W_circ by exact Hn. unfold W, cis, Re. cbn [fst]. f_equal.
  rewrite mult_IZR, <- !INR_IZR_INZ. unfold Rdiv. ring.
Qed.

Lemma first_nonzero (x : list R) : ~ all_zero x -> exists f, rnth x f <> 0 /\ forall i, (i < f)%nat -> rnth x i = 0.
Proof.
  induction x as [|v x IH]; intro H.
  - exfalso. apply H. intro j. apply rnth_over'. cbn; lia.
  - destruct (Req_EM_T v 0) as [->|NE].
    + destruct IH as (f&Hf&Hi).
      { intro A. apply H. intros [|j]; [reflexivity|exact (A j)]. }
      exists (S f). split; [exact Hf|]. intros [|i] Hlt; [reflexivity|apply (Hi i); lia].
    + exists 0%nat. split; [exact NE|lia].
Qed.

Lemma circ_nat_ge n j L : (L <= j)%nat -> (j < n)%nat -> circ n j (Z.of_nat L) = (j - L)%nat.
Proof. intros H1 H2. apply (circ_is n j (Z.of_nat L) (j - L) 0); lia. Qed.
Lemma circ_nat_lt n j L : (j < L)%nat -> (L <= n)%nat -> circ n j (Z.of_nat L) = (n + j - L)%nat.
Proof. intros H1 H2. apply (circ_is n j (Z.of_nat L) (n + j - L) (-1)); lia. Qed.

Lemma gfilt_delay dt n a x y c (d : Z) : (0 < n)%nat ->
  (forall j, (j < n)%nat -> rnth y j = c * rnth x (circ n j d)) ->
  forall j, (j < n)%nat -> rnth (gfilt dt n a y) j = c * rnth (gfilt dt n a x) (circ n j d).
Proof.
  intros Hn H j Hj. rewrite !gfilt_nth by (try apply circ_lt; lia).
  set (z := map (fun j => rnth x (circ n j d)) (seq 0 n)).
  assert (Hz : forall m, (m < n)%nat -> rnth z m = rnth (zpad n x) (circ n m d)).
  { intros m Hm. unfold z. rewrite zpad_nth. apply (rnth_map_seq (fun j => rnth x (circ n j d))). exact Hm. }
  rewrite <- (cconv_delay n (zpad n x) z _ d j Hn Hz).
  rewrite (cconv_add_l n z z (zpad n y) _ c 0 j); [ring|]. intros m Hm.
  rewrite Hz, !zpad_nth, H by exact Hm. ring.
Qed.

(** A numerator that is the source delayed by [d] samples and scaled by [c] gives one
    Gaussian pulse of area [c] at delay [d], after at most two iterations. *)
Theorem C58_single_arrival_iter uin win dt preonset gaussian itmax minderr phase rf rms it c d m :
  deconv_iterative uin win dt None preonset gaussian itmax minderr phase = Ok (rf, rms, it) -> (0 < it)%nat ->
  let n := (2 ^ Nat.log2_up (length uin))%nat in
  c <> 0 -> (forall j, (j < n)%nat -> rnth uin j = c * rnth win (circ n j (Z.of_nat d))) ->
  (forall j, (m <= j)%nat -> rnth win j = 0) -> (d + m <= n)%nat ->
  (d < (if String.eqb phase "P" then n / 2 - 1 else n))%nat ->
  (forall j, (j < length uin)%nat ->
     rnth rf j = c / dt * rnth (gauss_pulse dt n gaussian) (circ n j (Z.of_nat d + Rtrunc (preonset / dt)))) /\
  (forall i, rnth rms i = 0) /\ (0 <= minderr -> (it <= 2)%nat).
Proof.
  intros H Hit n Hc HU Hm Hdm Hd. apply deconv_iterative_inv in H; [|reflexivity]. destruct H as (n0&Ps&R).
  destruct R as [R1 R2 R3 R4 R5 R6 R7 R8 R9 R10 R11 R12 R13 R14 R15 R16]. fold n in R2. subst n0.
  assert (Hn : (0 < n)%nat) by lia.
  assert (Hle : (length uin <= n)%nat).
  { destruct (next_pow_2_Ok (length uin) n) as (_&X&_); [|exact X]. unfold next_pow_2.
    destruct (Nat.eqb_spec (length uin) 0) as [E|_]; [|reflexivity]. exfalso. unfold n in R3. rewrite E in R3. cbn in R3. lia. }
  set (u := gfilt dt n gaussian uin) in *. set (w := gfilt dt n gaussian win) in *.
  assert (Hne : Ps <> []) by (intros ->; simpl in R7; lia). destruct (R12 Hne) as [Hpw Hpu].
  change (if (phase =? "P")%string then (n / 2 - 1)%nat else n) with (lim_of phase n) in Hd.
  assert (Hlim : (lim_of phase n <= n)%nat).
  { unfold lim_of. destruct (String.eqb phase "P"); [|lia]. assert (n / 2 <= n)%nat by (apply Nat.div_le_upper_bound; lia). lia. }
  assert (Hw : ~ all_zero win).
  { intro A. assert (Z : ssq n (rnth w) = 0).
    { unfold ssq. rewrite (rsum_ext n _ (fun _ => 0)); [apply rsum_0|]. intros j _. unfold w. rewrite gfilt_zero by assumption. ring. }
    lra. }
  assert (HF : forall j, (j < n)%nat -> rnth u j = c * rnth w (circ n j (Z.of_nat d))) by (apply gfilt_delay; assumption).
  assert (EA : forall q, In q Ps -> q = spike n d (c / dt)).
  { apply (greedy_single dt n (lim_of phase n) u w); try assumption.
    - intros j Hj. rewrite HF by exact Hj. field. exact R4.
    - intros l' b' Hl' Hex. destruct (first_nonzero win Hw) as (f&Hf&Hf0).
      assert (Hfm : (f < m)%nat) by (destruct (Nat.lt_ge_cases f m) as [X|X]; [exact X|exfalso; apply Hf; apply Hm; exact X]).
      (* compare unfiltered signals *)
      set (y := map (fun j => dt * b' * rnth win (circ n j (Z.of_nat l'))) (seq 0 n)).
      assert (Hy : forall j, (j < n)%nat -> rnth y j = dt * b' * rnth win (circ n j (Z.of_nat l'))).
      { intros j Hj. unfold y. apply (rnth_map_seq (fun j => dt * b' * rnth win (circ n j (Z.of_nat l')))). exact Hj. }
      assert (EQ : forall j, rnth uin j = rnth y j).
      { apply (gfilt_inj dt n gaussian); try assumption; [unfold y; rewrite map_length, seq_length; lia|].
        intros j Hj. fold u. rewrite (Hex j Hj). rewrite (gfilt_delay dt n gaussian win y (dt * b') (Z.of_nat l') Hn Hy j Hj). fold w. ring. }
      assert (Z1 : rnth uin (f + l') = 0).
      { rewrite HU by lia. replace (rnth win (circ n (f + l') (Z.of_nat d))) with 0; [ring|]. symmetry.
        destruct (Nat.le_gt_cases d (f + l')) as [X|X].
        - rewrite circ_nat_ge by lia. apply Hf0. lia.
        - rewrite circ_nat_lt by lia. apply Hm. lia. }
      rewrite EQ, Hy in Z1 by lia. rewrite circ_nat_ge in Z1 by lia. replace (f + l' - l')%nat with f in Z1 by lia.
      assert (B0 : dt * b' = 0) by (apply Rmult_integral in Z1; destruct Z1; [assumption|contradiction]).
      assert (AZ : all_zero uin).
      { intro j. rewrite EQ. destruct (Nat.lt_ge_cases j n) as [Hj|Hj]; [rewrite Hy, B0 by exact Hj; ring|].
        apply rnth_over'. unfold y. rewrite map_length, seq_length. exact Hj. }
      assert (Z : ssq n (rnth u) = 0).
      { unfold ssq. rewrite (rsum_ext n _ (fun _ => 0)); [apply rsum_0|]. intros j _. unfold u. rewrite gfilt_zero by assumption. ring. }
      lra. }
  assert (EL : last Ps (repeat 0 n) = spike n d (c / dt)) by (apply EA; apply last_In; exact Hne).
  assert (M0 : misfit dt n u w (spike n d (c / dt)) = 0).
  { apply misfit_0. intros j Hj. rewrite cconv_spike1 by lia. rewrite HF by exact Hj. field. exact R4. }
  split; [|split].
  - intros j Hj. rewrite R10, EL. rewrite (rnth_map_seq (fun j => cconv n _ _ _)) by exact Hj. rewrite cconv_spike1 by lia.
    rewrite circ_circ by exact Hn. rewrite (Z.add_comm (Z.of_nat d)). reflexivity.
  - intro i. rewrite R11. destruct Ps as [|p Ps]; [contradiction|]. set (L := firstn (it - 1) _).
    destruct (Nat.lt_ge_cases i (length L)) as [Hi|Hi]; [|apply rnth_over'; exact Hi].
    assert (X : In (rnth L i) L) by (apply nth_In; exact Hi).
    assert (Y : In (rnth L i) (misfits dt n u w (p :: Ps))).
    { rewrite <- (firstn_skipn (it - 1)). apply in_or_app. left. exact X. }
    unfold misfits in Y. apply in_map_iff in Y. destruct Y as (q&<-&Hq). rewrite (EA q Hq). exact M0.
  - intro Hmin. destruct (Nat.le_gt_cases it 2) as [X|X]; [exact X|]. exfalso.
    destruct Ps as [|p [|q Ps]]; cbn in R7; try lia.
    pose proof (R14 1%nat p q ltac:(lia) eq_refl eq_refl) as Y.
    rewrite (EA p), (EA q) in Y by (cbn; auto). lra.
Qed.

Lemma omega_phase dt n k (s : Z) pre : (0 < n)%nat -> dt <> 0 -> pre = dt * IZR s ->
  cis (- (omega dt n k * pre)) = W n (- (s * Z.of_nat k)).
Proof.
  intros Hn Hdt ->. assert (HnR : INR n <> 0) by (apply not_0_INR; lia). unfold omega.
  destruct (k <=? n / 2)%nat.
  - unfold W. f_equal. rewrite opp_IZR, mult_IZR, <- INR_IZR_INZ. field. split; assumption.
  - transitivity (W n (- (s * (Z.of_nat k - Z.of_nat n)))).
    + unfold W. f_equal. rewrite opp_IZR, mult_IZR, minus_IZR, <- !INR_IZR_INZ. field. split; assumption.
    + replace (- (s * (Z.of_nat k - Z.of_nat n)))%Z with (- (s * Z.of_nat k) + Z.of_nat n * s)%Z by ring.
      rewrite W_add, W_period by exact Hn. ring.
Qed.

Lemma dft_delay n x y c (d : Z) k : (0 < n)%nat ->
  (forall j, (j < n)%nat -> rnth y j = c * rnth x (circ n j d)) ->
  dft n y k = (RtoC c * W n (- (d * Z.of_nat k)) * dft n x k)%C.
Proof.
  intros Hn H. unfold dft. rewrite <- csum_scale.
  rewrite <- (csum_circ n (fun j => RtoC c * W n (- (d * Z.of_nat k)) * (RtoC (rnth x j) * W n (- (Z.of_nat j * Z.of_nat k))))%C d Hn).
  apply csum_ext. intros j Hj. rewrite H by exact Hj. rewrite RtoC_mul.
  assert (E : W n (- (Z.of_nat j * Z.of_nat k)) = (W n (- (d * Z.of_nat k)) * W n (- (Z.of_nat (circ n j d) * Z.of_nat k)))%C).
  { replace (- (Z.of_nat (circ n j d) * Z.of_nat k))%Z with (Z.of_nat (circ n j d) * (- Z.of_nat k))%Z by ring.
    rewrite W_circ by exact Hn. rewrite <- W_add. f_equal. ring. }
  rewrite E. ring.
Qed.

Lemma synth_scale n F G c j : (forall k, (k < n)%nat -> F k = (RtoC c * G k)%C) -> synth n F j = c * synth n G j.
Proof.
  intro H. unfold synth. rewrite (rsum_ext n _ (fun k => c * Re (G k * W n (Z.of_nat j * Z.of_nat k))%C)).
  - rewrite rsum_scale. ring.
  - intros k Hk. rewrite H by exact Hk. rewrite <- Re_scale. f_equal. ring.
Qed.

(** The same for the water-level method (no water level, source without spectral
    zero, preonset a whole number of samples); normalised, the pulse peaks at [c]. *)
Theorem C58_single_arrival_water uin win dt preonset wlevel gaussian normalize rf rms c d s :
  deconv_waterlevel uin win dt preonset wlevel gaussian normalize = Ok (rf, rms) ->
  let n := (2 ^ Nat.log2_up (length uin))%nat in
  wlevel <= 0 -> (forall k, (k < n)%nat -> dft n win k <> C0) -> preonset = dt * IZR s ->
  (forall j, (j < n)%nat -> rnth uin j = c * rnth win (circ n j (Z.of_nat d))) ->
  forall j, (j < length uin)%nat ->
     rnth rf j = (if normalize then c / rnth (gauss_pulse dt n gaussian) 0 else c / dt)
                 * rnth (gauss_pulse dt n gaussian) (circ n j (Z.of_nat d + s)).
Proof.
  intro H. apply deconv_waterlevel_inv in H. destruct H as (M&D&R). cbv zeta. set (n := (2 ^ Nat.log2_up (length uin))%nat) in *.
  intros Hw HN Hp HU j Hj.
  assert (Hn : (0 < n)%nat). { destruct (wr_n2 _ _ _ _ _ _ _ _ _ _ _ _ R) as (m&Hm&E). lia. }
  pose proof (wr_dt _ _ _ _ _ _ _ _ _ _ _ _ R) as Hdt.
  assert (HnR : INR n <> 0) by (apply not_0_INR; lia).
  assert (HM : 0 <= M).
  { destruct (wr_M _ _ _ _ _ _ _ _ _ _ _ _ R) as [_ (k&_&<-)]. apply Cnorm2_pos. }
  assert (HD : forall k, (k < n)%nat -> D k = Cnorm2 (dft n win k)).
  { intros k Hk. rewrite (wr_D _ _ _ _ _ _ _ _ _ _ _ _ R k Hk). apply Rmax_left.
    pose proof (Cnorm2_pos (dft n win k)). assert (wlevel * M <= 0) by nra. lra. }
  rewrite (wr_rf _ _ _ _ _ _ _ _ _ _ _ _ R j Hj).
  rewrite (synth_scale n _ (fun k => RtoC (gauss_gain dt n gaussian k) * W n (- ((Z.of_nat d + s) * Z.of_nat k)))%C (c / dt)).
  - rewrite <- gauss_pulse_at by exact Hn. destruct normalize; [|ring].
    assert (P0 : rnth (gauss_pulse dt n gaussian) 0 = / INR n * rsum n (gauss_gain dt n gaussian)).
    { unfold gauss_pulse. rewrite rnth_map_seq by exact Hn. f_equal. apply rsum_ext. intros k _.
      change (INR 0) with 0. replace (2 * PI * 0 * INR k / INR n) with 0 by (unfold Rdiv; ring). rewrite cos_0. ring. }
    rewrite P0. pose proof (rsum_gain_pos dt n gaussian Hn). field. repeat split; lra.
  - intros k Hk. rewrite (omega_phase dt n k s preonset Hn Hdt Hp). rewrite (dft_delay n win uin c (Z.of_nat d) k Hn HU).
    rewrite HD by exact Hk. rewrite (RtoC_div _ _ Hdt), (RtoC_div c dt Hdt).
    replace (- ((Z.of_nat d + s) * Z.of_nat k))%Z with (- (Z.of_nat d * Z.of_nat k) + - (s * Z.of_nat k))%Z by ring. rewrite W_add.
    assert (X : (dft n win k * Cconj (dft n win k) * RtoC (/ Cnorm2 (dft n win k)))%C = C1).
    { rewrite Cmul_conj, <- RtoC_mul, Rinv_r; [reflexivity|]. rewrite Cnorm2_0. apply HN; exact Hk. }
    assert (Hdc : RtoC dt <> C0) by (apply RtoC_neq0; exact Hdt).
    transitivity (RtoC (gauss_gain dt n gaussian k) / RtoC dt * (RtoC c * W n (- (Z.of_nat d * Z.of_nat k))) *
       (dft n win k * Cconj (dft n win k) * RtoC (/ Cnorm2 (dft n win k))) * W n (- (s * Z.of_nat k)))%C; [ring|].
    rewrite X. field. exact Hdc.
Qed.

(** ** C59: amplitudes *)
Lemma gfilt_rscale dt n a c x : (length x <= n)%nat -> gfilt dt n a (rscale c x) = rscale c (gfilt dt n a x).
Proof.
  intro Hl. apply rlist_ext; [rewrite rscale_length, !gfilt_length; reflexivity|]. rewrite gfilt_length. intros j Hj.
  rewrite rscale_nth, !gfilt_nth by exact Hj.
  rewrite (cconv_add_l n (zpad n x) (zpad n x) (zpad n (rscale c x)) _ c 0 j); [ring|].
  intros m _. rewrite !zpad_nth, rscale_nth. ring.
Qed.

(** Two complete greedy runs (same stopping rule) of the same data coincide. *)
Lemma run_complete_unique dt n lim u w itmax minderr Ps Qs : dt <> 0 -> (lim <= n)%nat -> 0 < ssq n (rnth u) -> 0 < ssq n (rnth w) ->
  greedy_run dt n lim u w (repeat 0 n) Ps -> greedy_run dt n lim u w (repeat 0 n) Qs ->
  (length Ps <= itmax)%nat -> (length Qs <= itmax)%nat -> Ps <> [] -> Qs <> [] ->
  (forall i p p', (i + 1 < length Ps)%nat -> nth_error (repeat 0 n :: Ps) i = Some p -> nth_error (repeat 0 n :: Ps) (S i) = Some p' ->
     minderr < 100 * (misfit dt n u w p - misfit dt n u w p')) ->
  (forall i p p', (i + 1 < length Qs)%nat -> nth_error (repeat 0 n :: Qs) i = Some p -> nth_error (repeat 0 n :: Qs) (S i) = Some p' ->
     minderr < 100 * (misfit dt n u w p - misfit dt n u w p')) ->
  ((length Ps < itmax)%nat -> forall i p p', (i + 1 = length Ps)%nat -> nth_error (repeat 0 n :: Ps) i = Some p -> nth_error (repeat 0 n :: Ps) (S i) = Some p' ->
     100 * (misfit dt n u w p - misfit dt n u w p') <= minderr) ->
  ((length Qs < itmax)%nat -> forall i p p', (i + 1 = length Qs)%nat -> nth_error (repeat 0 n :: Qs) i = Some p -> nth_error (repeat 0 n :: Qs) (S i) = Some p' ->
     100 * (misfit dt n u w p - misfit dt n u w p') <= minderr) ->
  Ps = Qs.
Proof.
  intros Hdt Hl Hu Hw GP GQ LP LQ NP NQ goP goQ stP stQ.
  assert (W : forall As Bs, As <> [] -> (length As < length Bs)%nat -> (length Bs <= itmax)%nat ->
     greedy_run dt n lim u w (repeat 0 n) As -> greedy_run dt n lim u w (repeat 0 n) Bs ->
     (forall i p p', (i + 1 < length Bs)%nat -> nth_error (repeat 0 n :: Bs) i = Some p -> nth_error (repeat 0 n :: Bs) (S i) = Some p' ->
        minderr < 100 * (misfit dt n u w p - misfit dt n u w p')) ->
     ((length As < itmax)%nat -> forall i p p', (i + 1 = length As)%nat -> nth_error (repeat 0 n :: As) i = Some p -> nth_error (repeat 0 n :: As) (S i) = Some p' ->
        100 * (misfit dt n u w p - misfit dt n u w p') <= minderr) -> False).
  { intros As Bs NA Hlt HB GA GB goB stA.
    pose proof (greedy_run_unique dt n lim u w As Hdt Hl Hu Hw _ Bs GA GB ltac:(lia)) as EA.
    assert (LA : (0 < length As)%nat) by (destruct As; [contradiction|cbn; lia]).
    set (i := (length As - 1)%nat).
    assert (NE : forall k, (k < S (length As))%nat -> nth_error (repeat 0 n :: As) k = nth_error (repeat 0 n :: Bs) k).
    { intros [|k] Hk; [reflexivity|]. cbn [nth_error]. rewrite <- (firstn_skipn (length As) Bs), <- EA.
      rewrite nth_error_app1 by lia. reflexivity. }
    destruct (nth_error (repeat 0 n :: As) i) as [p|] eqn:E1; [|apply nth_error_None in E1; cbn [length] in E1; lia].
    destruct (nth_error (repeat 0 n :: As) (S i)) as [p'|] eqn:E2; [|apply nth_error_None in E2; cbn [length] in E2; lia].
    pose proof (stA ltac:(lia) i p p' ltac:(unfold i; lia) E1 E2) as X.
    rewrite NE in E1, E2 by (unfold i; lia).
    pose proof (goB i p p' ltac:(unfold i; lia) E1 E2). lra. }
  destruct (Nat.lt_trichotomy (length Ps) (length Qs)) as [X|[X|X]].
  - exfalso. exact (W Ps Qs NP X LQ GP GQ goQ stP).
  - pose proof (greedy_run_unique dt n lim u w Ps Hdt Hl Hu Hw _ Qs GP GQ ltac:(lia)) as E. rewrite X, firstn_all in E. exact E.
  - exfalso. exact (W Qs Ps NQ X LP GQ GP goP stQ).
Qed.

Theorem C59_amplitude_iter uin win dt preonset gaussian itmax minderr phase rf rms it c d :
  deconv_iterative uin win dt None preonset gaussian itmax minderr phase = Ok (rf, rms, it) -> (0 < it)%nat ->
  c <> 0 -> d <> 0 ->
  deconv_iterative (rscale c uin) (rscale d win) dt None preonset gaussian itmax minderr phase
  = Ok (rscale (c / d) rf, rms, it).
Proof.
  intros H Hit Hc Hd. apply deconv_iterative_inv in H; [|reflexivity]. destruct H as (n&Ps&R).
  destruct R as [R1 R2 R3 R4 R5 R6 R7 R8 R9 R10 R11 R12 R13 R14 R15 R16].
  assert (Hn : (0 < n)%nat) by lia.
  assert (H2 : (2 <= length uin)%nat).
  { destruct (length uin) as [|[|l]] eqn:E; cbn in R2; lia. }
  assert (Hle : (length uin <= n)%nat).
  { destruct (next_pow_2_Ok (length uin) n) as (_&X&_); [|exact X]. unfold next_pow_2.
    destruct (Nat.eqb_spec (length uin) 0) as [E|_]; [lia|]. rewrite R2. reflexivity. }
  set (u := gfilt dt n gaussian uin) in *. set (w := gfilt dt n gaussian win) in *.
  assert (Hne : Ps <> []) by (intros ->; simpl in R7; lia). destruct (R12 Hne) as [Hpw Hpu].
  assert (Hlim : (lim_of phase n <= n)%nat).
  { unfold lim_of. destruct (String.eqb phase "P"); [|lia]. assert (n / 2 <= n)%nat by (apply Nat.div_le_upper_bound; lia). lia. }
  assert (Hlim0 : (0 < lim_of phase n)%nat).
  { destruct Ps as [|p Ps]; [contradiction|]. destruct R9 as [(l&b&Hl&_) _]. lia. }
  assert (AZ : forall x, 0 < ssq n (rnth (gfilt dt n gaussian x)) -> ~ all_zero x).
  { intros x P A. assert (Z : ssq n (rnth (gfilt dt n gaussian x)) = 0).
    { unfold ssq. rewrite (rsum_ext n _ (fun _ => 0)); [apply rsum_0|]. intros j _. rewrite gfilt_zero by assumption. ring. }
    lra. }
  assert (SZ : forall k x, k <> 0 -> ~ all_zero x -> ~ all_zero (rscale k x)).
  { intros k x Hk Hx A. apply Hx. intro j. specialize (A j). rewrite rscale_nth in A. apply Rmult_integral in A. tauto. }
  destruct (C37_returns (rscale c uin) (rscale d win) dt preonset gaussian itmax minderr phase) as (rf'&rms'&it'&E'&Hit');
    try (rewrite ?rscale_length; assumption).
  - intros ->. rewrite rscale_length. unfold lim_of in Hlim0. cbn [String.eqb Ascii.eqb Bool.eqb] in Hlim0.
    destruct (length uin) as [|[|[|l]]] eqn:E; try lia. exfalso. rewrite R2 in Hlim0. cbn in Hlim0. lia.
  - apply SZ; [exact Hc|]. apply AZ. exact Hpu.
  - apply SZ; [exact Hd|]. apply AZ. exact Hpw.
  - rewrite rscale_length, <- R2. intro X. apply R6. apply cos_quarter; assumption.
  - rewrite E'. apply deconv_iterative_inv in E'; [|reflexivity]. destruct E' as (n2&Qs&R').
    destruct R' as [S1 S2 S3 S4 S5 S6 S7 S8 S9 S10 S11 S12 S13 S14 S15 S16]. rewrite rscale_length, <- R2 in S2. subst n2.
    assert (Eu : gfilt dt n gaussian (rscale c uin) = rscale c u) by (apply gfilt_rscale; exact Hle).
    assert (Ew : gfilt dt n gaussian (rscale d win) = rscale d w) by (apply gfilt_rscale; lia).
    rewrite Eu, Ew in *.
    assert (Hmax : (0 < itmax)%nat) by lia. specialize (Hit' Hmax).
    assert (NQ : Qs <> []) by (intros ->; simpl in S7; lia). destruct (S12 NQ) as [Qw Qu].
    assert (GS : greedy_run dt n (lim_of phase n) (rscale c u) (rscale d w) (repeat 0 n) (map (rscale (c / d)) Ps)).
    { rewrite <- (rscale_repeat0 (c / d) n). apply greedy_run_scale; assumption. }
    assert (Hcd : c / d <> 0) by (apply Rmult_integral_contrapositive; split; [exact Hc|apply Rinv_neq_0_compat; exact Hd]).
    assert (NE : forall i q, nth_error (repeat 0 n :: map (rscale (c / d)) Ps) i = Some q ->
        exists p, nth_error (repeat 0 n :: Ps) i = Some p /\ misfit dt n (rscale c u) (rscale d w) q = misfit dt n u w p).
    { intros i q Hq. assert (Hq' : nth_error (map (rscale (c / d)) (repeat 0 n :: Ps)) i = Some q) by (cbn [map]; rewrite rscale_repeat0; exact Hq).
      rewrite nth_error_map in Hq'. destruct (nth_error (repeat 0 n :: Ps) i) as [p|]; [|discriminate]. injection Hq' as <-.
      exists p. split; [reflexivity|]. apply misfit_scale; assumption. }
    assert (EQ : Qs = map (rscale (c / d)) Ps).
    { symmetry. apply (run_complete_unique dt n (lim_of phase n) (rscale c u) (rscale d w) itmax minderr); try assumption.
      - rewrite map_length. lia.
      - lia.
      - destruct Ps; [contradiction|discriminate].
      - intros i p p' Hi Hp Hp'. rewrite map_length in Hi. destruct (NE _ _ Hp) as (q&Hq&->). destruct (NE _ _ Hp') as (q'&Hq'&->).
        apply (R14 i q q'); [lia|assumption|assumption].
      - intros i p p' Hi. apply (S14 i p p'). lia.
      - rewrite map_length. intros Hlt i p p' Hi Hp Hp'. destruct (NE _ _ Hp) as (q&Hq&->). destruct (NE _ _ Hp') as (q'&Hq'&->).
        apply (R15 ltac:(lia) i q q'); [lia|assumption|assumption].
      - intros Hlt i p p' Hi. apply (S15 ltac:(lia) i p p'). lia. }
    assert (Eit : it' = it) by (rewrite S7, EQ, map_length; congruence). rewrite Eit.
    f_equal. f_equal. f_equal.
    + rewrite S10, R10, rscale_length. unfold rscale at 1. rewrite map_map. apply map_ext_in. intros j Hj.
      assert (EL : last Qs (repeat 0 n) = rscale (c / d) (last Ps (repeat 0 n))).
      { rewrite EQ. rewrite <- (rscale_repeat0 (c / d) n) at 1. clear. induction Ps as [|p Ps IH]; [reflexivity|]. cbn [map last]. destruct Ps; [reflexivity|exact IH]. }
      rewrite EL. unfold rscale. apply cconv_scale_l.
    + rewrite S11, R11, Eit. rewrite EQ. destruct Ps as [|p Ps]; [contradiction|]. cbn [map].
      change (rscale (c / d) p :: map (rscale (c / d)) Ps) with (map (rscale (c / d)) (p :: Ps)). f_equal. unfold misfits. rewrite map_map.
      apply map_ext. intro q. apply misfit_scale; assumption.
Qed.

Theorem C59_amplitude_water uin win dt preonset wlevel gaussian normalize rf rms c d :
  deconv_waterlevel uin win dt preonset wlevel gaussian normalize = Ok (rf, rms) -> c <> 0 -> d <> 0 ->
  deconv_waterlevel (rscale c uin) (rscale d win) dt preonset wlevel gaussian normalize
  = Ok (rscale (c / d) rf, rms).
Proof.
  intros H Hc Hd. apply deconv_waterlevel_inv in H. destruct H as (M&D&R).
  set (n := (2 ^ Nat.log2_up (length uin))%nat) in *.
  destruct R as [R1 R2 R3 R4 R5 R6 R7 R8 R9 R10 R11 R12]. destruct R3 as (m&Hm&Em).
  assert (Hpos : (0 < length uin)%nat) by (destruct (Nat.eq_dec (length uin) 0) as [E|]; [exfalso; unfold n in Em; rewrite E in Em; cbn in Em; lia|lia]).
  pose proof (deconv_waterlevel_body (rscale c uin) (rscale d win) dt preonset wlevel gaussian normalize m) as B. cbv zeta in B.
  rewrite !rscale_length in B. fold n in B.
  destruct (B R1 Hpos Hm Em R5 R6) as (M'&D'&HM&HD&_&HN). clear B.
  assert (Hdd : 0 < d * d) by (apply Rsqr_pos_lt; exact Hd).
  assert (FS : forall k x i, dft n (rscale k x) i = (RtoC k * dft n x i)%C).
  { intros k x i. unfold dft. rewrite <- csum_scale. apply csum_ext. intros j _. rewrite rscale_nth, RtoC_mul. ring. }
  assert (NS : forall i, Cnorm2 (dft n (rscale d win) i) = d * d * Cnorm2 (dft n win i)).
  { intro i. rewrite FS, Cnorm2_mul. f_equal. cunf. ring. }
  assert (EM : M' = d * d * M).
  { destruct HM as [U (k&Hk&E)]. destruct R7 as [U' (k'&Hk'&E')]. rewrite NS in E.
    pose proof (U k' Hk') as X. rewrite NS, E' in X. pose proof (U' k Hk) as Y.
    assert (d * d * Cnorm2 (dft n win k) <= d * d * M) by (apply Rmult_le_compat_l; lra). lra. }
  assert (ED : forall k, (k < n)%nat -> D' k = d * d * D k).
  { intros k Hk. rewrite HD, R8, NS, EM by exact Hk. replace (wlevel * (d * d * M)) with (d * d * (wlevel * M)) by ring.
    rewrite RmaxRmult by lra. reflexivity. }
  destruct HN as (rf'&rms'&E&R').
  { intros k Hk. rewrite ED by exact Hk. apply Rmult_integral_contrapositive. split; [lra|apply R9; exact Hk]. }
  rewrite E. destruct R' as [S1 S2 S3 S4 S5 S6 S7 S8 S9 S10 S11 S12]. rewrite rscale_length in *.
  assert (Hcc : 0 < c * c) by (apply Rsqr_pos_lt; exact Hc).
  f_equal. f_equal.
  - apply rlist_ext; [rewrite rscale_length; congruence|]. intros j Hj. rewrite S10 in Hj.
    rewrite rscale_nth, R11, S11 by exact Hj.
    rewrite (synth_scale n _ (fun k => RtoC (gauss_gain dt n gaussian k / dt) * dft n uin k * Cconj (dft n win k) * RtoC (/ D k) * cis (- (omega dt n k * preonset)))%C (c / d)); [ring|].
    intros k Hk. rewrite !FS, Cconj_mul, Cconj_RtoC, ED by exact Hk.
    replace (/ (d * d * D k)) with (/ (d * d) * / D k) by (field; split; [apply R9; exact Hk|exact Hd]).
    replace (c / d) with (c * d * / (d * d)) by (field; exact Hd). rewrite !RtoC_mul. ring.
  - cbv zeta in S12, R12. rewrite S12, R12.
    assert (E1 : forall j, synth n (fun k => RtoC (gauss_gain dt n gaussian k / dt) * dft n (rscale c uin) k)%C j
                 = c * synth n (fun k => RtoC (gauss_gain dt n gaussian k / dt) * dft n uin k)%C j).
    { intro j. apply synth_scale. intros k _. rewrite FS. ring. }
    assert (E2 : forall j, synth n (fun k => RtoC (gauss_gain dt n gaussian k / dt) * dft n (rscale c uin) k * Cconj (dft n (rscale d win) k) * RtoC (/ D' k) * dft n (rscale d win) k)%C j
                 = c * synth n (fun k => RtoC (gauss_gain dt n gaussian k / dt) * dft n uin k * Cconj (dft n win k) * RtoC (/ D k) * dft n win k)%C j).
    { intro j. apply synth_scale. intros k Hk. rewrite !FS, Cconj_mul, Cconj_RtoC, ED by exact Hk.
      replace (/ (d * d * D k)) with (/ (d * d) * / D k) by (field; split; [apply R9; exact Hk|exact Hd]).
      transitivity (RtoC c * (RtoC (d * d * / (d * d)) * (RtoC (gauss_gain dt n gaussian k / dt) * dft n uin k * Cconj (dft n win k) * RtoC (/ D k) * dft n win k)))%C; [rewrite !RtoC_mul; ring|].
      rewrite Rinv_r by lra. change (RtoC 1) with C1. ring. }
    rewrite (ssq_ext _ (fun j => synth n (fun k => RtoC (gauss_gain dt n gaussian k / dt) * dft n (rscale c uin) k)%C j)
              (fun j => c * synth n (fun k => RtoC (gauss_gain dt n gaussian k / dt) * dft n uin k)%C j)) by (intros; apply E1).
    rewrite (ssq_ext _ (fun j => synth n (fun k => RtoC (gauss_gain dt n gaussian k / dt) * dft n (rscale c uin) k * Cconj (dft n (rscale d win) k) * RtoC (/ D' k) * dft n (rscale d win) k)%C j - _)
       (fun j => c * (synth n (fun k => RtoC (gauss_gain dt n gaussian k / dt) * dft n uin k * Cconj (dft n win k) * RtoC (/ D k) * dft n win k)%C j
                      - synth n (fun k => RtoC (gauss_gain dt n gaussian k / dt) * dft n uin k)%C j)))
      by (intros; rewrite E1, E2; ring).
    rewrite !ssq_scale.
    set (A := ssq _ (fun j => synth n (fun k => RtoC (gauss_gain dt n gaussian k / dt) * dft n uin k)%C j)).
    change (ssq (length uin) (synth n (fun k => RtoC (gauss_gain dt n gaussian k / dt) * dft n uin k)%C)) with A.
    destruct (Req_EM_T (c * c * A) 0) as [X|X], (Req_EM_T A 0) as [Y|Y].
    + reflexivity.
    + exfalso. apply Rmult_integral in X. destruct X; [lra|contradiction].
    + exfalso. apply X. rewrite Y. ring.
    + f_equal. field. split; assumption.
Qed.

(** ** Instances *)
Ltac nat_cases := repeat match goal with
  | H : (?j < S ?k)%nat |- _ => destruct (Nat.eq_dec j k) as [->|?]; [clear H|assert (j < k)%nat by lia; clear H]
  | H : (_ < 0)%nat |- _ => exfalso; lia end.

Ltac circ_compute := match goal with |- context [circ ?n ?j ?L] =>
  let c := eval vm_compute in (circ n j L) in change (circ n j L) with c end.

Example C58_example_iter : exists rf rms it,
  deconv_iterative [0; 6; 3; 0; 0; 0; 0; 0] [2; 1; 0; 0; 0; 0; 0; 0] (1 / 10) None 0 2 10 (1 / 1000) "P" = Ok (rf, rms, it) /\
  forall j, (j < 8)%nat -> rnth rf j = 3 / (1 / 10) * rnth (gauss_pulse (1 / 10) 8 2) (circ 8 j 1).
Proof.
  destruct (C37_returns [0; 6; 3; 0; 0; 0; 0; 0] [2; 1; 0; 0; 0; 0; 0; 0] (1 / 10) 0 2 10 (1 / 1000) "P") as (rf&rms&it&E&P);
    try (simpl; lia); try lra.
  - intro A. specialize (A 1%nat). cbn in A. lra.
  - apply not_all_zero_head. lra.
  - unfold Rdiv at 1. rewrite Rmult_0_l, (Rtrunc_Z 0). vm_compute. discriminate.
  - specialize (P ltac:(lia)). exists rf, rms, it. split; [exact E|].
    destruct (C58_single_arrival_iter _ _ _ _ _ _ _ _ _ _ _ 3 1 2 E P) as (H&_).
    + lra.
    + intros j Hj. assert (Hj' : (j < 8)%nat) by exact Hj. clear Hj. nat_cases; circ_compute; unfold rnth; cbn [nth]; lra.
    + intros j Hj. destruct j as [|[|[|[|[|[|[|[|j]]]]]]]]; try lia; try reflexivity. apply rnth_over'. cbn. lia.
    + cbn. lia.
    + cbn. lia.
    + intros j Hj. rewrite (H j Hj). replace (Rtrunc (0 / (1 / 10))) with 0%Z; [reflexivity|].
      unfold Rdiv at 1. rewrite Rmult_0_l, (Rtrunc_Z 0). reflexivity.
Qed.

Lemma dft_21 k : (k < 2)%nat -> dft 2 [2; 1] k <> C0.
Proof.
  intros Hk E. apply (f_equal Re) in E. unfold dft in E. rewrite Re_csum in E. cbn [rsum] in E.
  unfold rnth in E. cbn [nth] in E. rewrite !Re_scale in E. unfold W, cis, Re in E. cbn [fst] in E.
  change (Z.of_nat 0 * Z.of_nat k)%Z with 0%Z in E. rewrite Z.opp_0 in E.
  replace (2 * PI * 0 / INR 2) with 0 in E by (unfold Rdiv; ring). rewrite cos_0 in E.
  pose proof (COS_bound (2 * PI * IZR (- (Z.of_nat 1 * Z.of_nat k)) / INR 2)) as [B _]. change (fst C0) with 0 in E. lra.
Qed.

Example C58_example_water : exists rf rms,
  deconv_waterlevel [3; 6] [2; 1] (1 / 10) 0 0 2 true = Ok (rf, rms) /\ rnth rf 1 = 3.
Proof.
  destruct (C41_returns [3; 6] [2; 1] (1 / 10) 0 0 2 true) as (rf&rms&E); try (simpl; lia); try lra.
  - apply not_all_zero_head. lra.
  - right. exact dft_21.
  - exists rf, rms. split; [exact E|].
    rewrite (C58_single_arrival_water _ _ _ _ _ _ _ _ _ 3 1 0%Z E).
    + change (2 ^ Nat.log2_up (length [3; 6]))%nat with 2%nat. circ_compute.
      set (g := rnth (gauss_pulse (1 / 10) 2 2) 0). cut (g <> 0); [intro Hg; field; exact Hg|]. unfold g.
      unfold gauss_pulse. rewrite rnth_map_seq by lia.
      rewrite (rsum_ext 2 _ (gauss_gain (1 / 10) 2 2)).
      * pose proof (rsum_gain_pos (1 / 10) 2 2 ltac:(lia)) as P. apply Rmult_integral_contrapositive. split; [|lra].
        apply Rinv_neq_0_compat. apply not_0_INR. lia.
      * intros k _. change (INR 0) with 0. replace (2 * PI * 0 * INR k / INR 2) with 0 by (unfold Rdiv; ring). rewrite cos_0. ring.
    + lra.
    + exact dft_21.
    + lra.
    + intros j Hj. assert (Hj' : (j < 2)%nat) by exact Hj. clear Hj. nat_cases; circ_compute; unfold rnth; cbn [nth]; lra.
    + cbn. lia.
Qed.

Example C59_example : exists rf rms it,
  deconv_iterative (rscale 7 [1; 2; 0; 1]) (rscale (-2) [2; 1; 0; 0]) (1 / 10) None 0 2 10 (1 / 1000) "P" = Ok (rf, rms, it).
Proof.
  destruct C37_example as (rf&rms&it&E&Hit). eexists _, _, _.
  apply (C59_amplitude_iter _ _ _ _ _ _ _ _ _ _ _ 7 (-2) E Hit); lra.
Qed.
