(** * P_Reverb8: C142, noise and the resonance filter.

    As long as the first trough keeps its place, the strength and the filtered record move only as much as the
    noise; the trough keeps its place when the autocorrelation falls down to it, and rises after it, by more than
    the noise.  Without such a margin an arbitrarily small noise changes the lag and the result. *)

From Coq Require Import Reals Lra.
From Verif Require Import Base Num NumPy Spec HkModel HkReal Cplx DFT DFT2 SpecSignal LeastSquares ReverbModel ReverbProofs ReverbProofs2 P_Reverb P_Reverb2 P_Reverb3 P_Reverb5 P_Reverb6 P_Hk6 P_Noise DrawSpec P_Reverb7.
Local Open Scope R_scope.

(** ** Vocabulary *)

(** [y] is [x] plus noise whose energy is at most [eta^2] times the energy of the detrended [x]. *)
Definition noise_within (eta : R) (x y : list R) : Prop :=
  length y = length x /\ 0 <= eta /\
  forall D, ls_residual x D -> ssq (length x) (fun j => rnth y j - rnth x j) <= eta * eta * ssq (length x) (rnth D).
(** The autocorrelation of the detrended record falls by more than [m] times its value at 0 at every step down to
    lag [L], and then rises by more than that. *)
Definition falls_to (m : R) (L : nat) (x : list R) : Prop :=
  (1 <= L)%nat /\ (L + 1 < length x)%nat /\
  forall D, ls_residual x D ->
    (forall k, (k < L)%nat -> acorr D (S k) + m * acorr D 0 < acorr D k) /\ acorr D L + m * acorr D 0 < acorr D (S L).

(** ** Norms *)
Definition nrm (n : nat) (f : nat -> R) : R := sqrt (ssq n f).
Lemma ssq_nonneg n f : 0 <= ssq n f.
Proof. apply rsum_nonneg. intros. apply Rle_0_sqr. Qed.
Lemma nrm_pos n f : 0 <= nrm n f. Proof. apply sqrt_pos. Qed.
Lemma nrm_sq n f : nrm n f * nrm n f = ssq n f. Proof. apply sqrt_sqrt, ssq_nonneg. Qed.
Lemma sq_le a b : 0 <= b -> a * a <= b * b -> a <= b.
Proof. intros Hb H. destruct (Rle_lt_dec a b) as [G|G]; [exact G|]. exfalso. pose proof (Rmult_le_0_lt_compat b a b a Hb Hb G G). lra. Qed.
Lemma nrm_le n f c : 0 <= c -> ssq n f <= c * c -> nrm n f <= c.
Proof. intros Hc H. apply sq_le; [exact Hc|]. rewrite nrm_sq. exact H. Qed.
Lemma ip_bound n f g : Rabs (rsum n (fun j => f j * g j)) <= nrm n f * nrm n g.
Proof.
  apply sq_le; [apply Rmult_le_pos; apply nrm_pos|].
  replace (nrm n f * nrm n g * (nrm n f * nrm n g)) with ((nrm n f * nrm n f) * (nrm n g * nrm n g)) by ring.
  rewrite !nrm_sq. pose proof (ip_CS n f g) as H. unfold ip in H. unfold ssq.
  rewrite <- Rabs_mult, Rabs_right; [exact H|]. apply Rle_ge, Rle_0_sqr.
Qed.
Lemma nrm_add n f g : nrm n (fun j => f j + g j) <= nrm n f + nrm n g.
Proof.
  pose proof (nrm_pos n f). pose proof (nrm_pos n g). apply nrm_le; [lra|].
  replace (ssq n (fun j => f j + g j)) with (ssq n f + 2 * rsum n (fun j => f j * g j) + ssq n g).
  - pose proof (ip_bound n f g) as B. pose proof (Rle_abs (rsum n (fun j => f j * g j))).
    rewrite <- (nrm_sq n f), <- (nrm_sq n g). lra.
  - unfold ssq. rewrite <- rsum_scale, <- !rsum_add. apply rsum_ext. intros. ring.
Qed.
Lemma nrm_scale n c f : nrm n (fun j => c * f j) = Rabs c * nrm n f.
Proof.
  unfold nrm. replace (ssq n (fun j => c * f j)) with (Rsqr c * ssq n f).
  - rewrite sqrt_mult by (try apply Rle_0_sqr; apply ssq_nonneg). rewrite sqrt_Rsqr_abs. reflexivity.
  - unfold ssq, Rsqr. rewrite <- rsum_scale. apply rsum_ext. intros. ring.
Qed.
Lemma nrm_ext n f g : (forall j, (j < n)%nat -> f j = g j) -> nrm n f = nrm n g.
Proof. intro H. unfold nrm, ssq. f_equal. apply rsum_ext. intros j Hj. rewrite H by exact Hj. reflexivity. Qed.
Lemma nrm_mono n m s f : (m + s <= n)%nat -> nrm m (fun j => f (j + s)%nat) <= nrm n f.
Proof.
  intro H. unfold nrm. apply sqrt_le_1_alt. unfold ssq.
  replace n with (s + (m + (n - m - s)))%nat by lia. rewrite !rsum_split.
  pose proof (rsum_nonneg s (fun j => f j * f j) (fun j _ => Rle_0_sqr _)) as A.
  pose proof (rsum_nonneg (n - m - s) (fun j => f (s + (m + j))%nat * f (s + (m + j))%nat) (fun j _ => Rle_0_sqr _)) as B.
  rewrite (rsum_ext m (fun j => f (j + s)%nat * f (j + s)%nat) (fun j => f (s + j)%nat * f (s + j)%nat)) by (intros j _; rewrite (Nat.add_comm j s); reflexivity). lra.
Qed.
Lemma nrm_circ n L f : (0 < n)%nat -> nrm n (fun j => f (circ n j L)) = nrm n f.
Proof. intro H. unfold nrm, ssq. f_equal. apply (rsum_circ n (fun j => f j * f j) L H). Qed.
Lemma acorr_ssq D : acorr D 0 = ssq (length D) (rnth D).
Proof. rewrite <- energy_acorr. reflexivity. Qed.

(** ** Detrending does not amplify the noise *)
Lemma residual_noise x y D E : length y = length x -> ls_residual x D -> ls_residual y E ->
  ssq (length x) (fun j => rnth E j - rnth D j) <= ssq (length x) (fun j => rnth y j - rnth x j).
Proof.
  intros L (L1 & (a1 & b1 & E1) & S1 & T1) (L2 & (a2 & b2 & E2) & S2 & T2). rewrite L in *. set (n := length x) in *.
  set (d := fun j => rnth E j - rnth D j). set (z := fun j => rnth y j - rnth x j).
  assert (Hz : forall j, (j < n)%nat -> z j = d j + ((a2 - a1) + (b2 - b1) * INR j)).
  { intros j Hj. unfold z, d. rewrite (E1 j Hj), (E2 j Hj). ring. }
  assert (Sd : rsum n d = 0) by (unfold d, Rminus; rewrite rsum_add, (rsum_ext n (fun j => - rnth D j) (fun j => -1 * rnth D j)) by (intros; ring); rewrite rsum_scale, S1, S2; ring).
  assert (Td : rsum n (fun j => INR j * d j) = 0).
  { rewrite (rsum_ext n _ (fun j => INR j * rnth E j + -1 * (INR j * rnth D j))) by (intros; unfold d; ring). rewrite rsum_add, rsum_scale, T1, T2. ring. }
  set (l := fun j => (a2 - a1) + (b2 - b1) * INR j) in *.
  assert (Q : ssq n z = ssq n d + 2 * rsum n (fun j => d j * l j) + ssq n l).
  { unfold ssq. rewrite <- rsum_scale, <- !rsum_add. apply rsum_ext. intros j Hj. rewrite (Hz j Hj). fold (l j). ring. }
  assert (O : rsum n (fun j => d j * l j) = 0).
  { rewrite (rsum_ext n _ (fun j => (a2 - a1) * d j + (b2 - b1) * (INR j * d j))) by (intros; unfold l; ring). rewrite rsum_add, !rsum_scale, Sd, Td. ring. }
  rewrite Q, O. pose proof (ssq_nonneg n l). lra.
Qed.

(** The norms of the two residuals and of their difference. *)
Lemma residual_norms eta x y D E : noise_within eta x y -> ls_residual x D -> ls_residual y E ->
  nrm (length x) (fun j => rnth E j - rnth D j) <= eta * nrm (length x) (rnth D) /\
  nrm (length x) (rnth E) <= (1 + eta) * nrm (length x) (rnth D).
Proof.
  intros (L & He & Hs) HD HE. pose proof (residual_noise x y D E L HD HE) as R1. specialize (Hs D HD).
  pose proof (nrm_pos (length x) (rnth D)) as P.
  assert (A : nrm (length x) (fun j => rnth E j - rnth D j) <= eta * nrm (length x) (rnth D)).
  { apply nrm_le; [apply Rmult_le_pos; assumption|].
    replace (eta * nrm (length x) (rnth D) * (eta * nrm (length x) (rnth D))) with (eta * eta * (nrm (length x) (rnth D) * nrm (length x) (rnth D))) by ring.
    rewrite nrm_sq. lra. }
  split; [exact A|].
  rewrite (nrm_ext _ (rnth E) (fun j => rnth D j + (rnth E j - rnth D j))) by (intros; ring).
  pose proof (nrm_add (length x) (rnth D) (fun j => rnth E j - rnth D j)). lra.
Qed.

(** Noise moves every autocorrelation coefficient by at most eta (2 + eta) times the energy. *)
Lemma acorr_noise eta x y D E k : noise_within eta x y -> ls_residual x D -> ls_residual y E ->
  Rabs (acorr E k - acorr D k) <= eta * (2 + eta) * acorr D 0.
Proof.
  intros HN HD HE. destruct (residual_norms eta x y D E HN HD HE) as (A & B).
  destruct HN as (L & He & _). assert (LD : length D = length x) by apply HD. assert (LE : length E = length x) by (rewrite <- L; apply HE).
  rewrite acorr_ssq, LD. set (n := length x) in *. rewrite <- nrm_sq. set (Z := nrm n (rnth D)) in *.
  assert (PZ : 0 <= Z) by apply nrm_pos.
  set (d := fun j => rnth E j - rnth D j) in *.
  destruct (Nat.le_gt_cases n k) as [Hk|Hk].
  { unfold acorr. rewrite LD, LE. replace (n - k)%nat with 0%nat by lia. cbn [rsum]. rewrite Rminus_0_r, Rabs_R0.
    repeat apply Rmult_le_pos; lra. }
  replace (acorr E k - acorr D k) with (rsum (n - k) (fun j => rnth E (j + k) * d j) + rsum (n - k) (fun j => d (j + k)%nat * rnth D j)).
  - pose proof (Rabs_triang (rsum (n - k) (fun j => rnth E (j + k) * d j)) (rsum (n - k) (fun j => d (j + k)%nat * rnth D j))) as T.
    pose proof (ip_bound (n - k) (fun j => rnth E (j + k)) d) as B1.
    pose proof (ip_bound (n - k) (fun j => d (j + k)%nat) (rnth D)) as B2.
    pose proof (nrm_mono n (n - k) k (rnth E) ltac:(lia)) as M1. pose proof (nrm_mono n (n - k) k d ltac:(lia)) as M2.
    pose proof (nrm_mono n (n - k) 0 d ltac:(lia)) as M3. pose proof (nrm_mono n (n - k) 0 (rnth D) ltac:(lia)) as M4.
    rewrite (nrm_ext _ (fun j => d (j + 0)%nat) d) in M3 by (intros; rewrite Nat.add_0_r; reflexivity).
    rewrite (nrm_ext _ (fun j => rnth D (j + 0)%nat) (rnth D)) in M4 by (intros; rewrite Nat.add_0_r; reflexivity).
    fold Z in M4.
    assert (C1 : nrm (n - k) (fun j => rnth E (j + k)) * nrm (n - k) d <= ((1 + eta) * Z) * (eta * Z)) by (apply Rmult_le_compat; try apply nrm_pos; lra).
    assert (C2 : nrm (n - k) (fun j => d (j + k)%nat) * nrm (n - k) (rnth D) <= (eta * Z) * Z) by (apply Rmult_le_compat; try apply nrm_pos; lra).
    cbv beta in *. lra.
  - unfold acorr. rewrite LD, LE. rewrite <- rsum_add.
    replace (rsum (n - k) (fun j => rnth E (j + k) * rnth E j) - rsum (n - k) (fun j => rnth D (j + k) * rnth D j))
      with (rsum (n - k) (fun j => rnth E (j + k) * rnth E j) + -1 * rsum (n - k) (fun j => rnth D (j + k) * rnth D j)) by ring.
    rewrite <- rsum_scale, <- rsum_add. apply rsum_ext. intros. unfold d. ring.
Qed.

(** ** The reported lag *)
Lemma acorr_zero D : all_zero D -> forall k, acorr D k = 0.
Proof. intros Z k. unfold acorr. rewrite (rsum_ext _ _ (fun _ => 0)); [apply rsum_0|]. intros j _. rewrite (Z j). ring. Qed.

(** An autocorrelation that falls strictly down to lag [L] and then rises: the reported lag is [L]. *)
Lemma lag_of_fall data delta time o L : run_of data delta time o -> falls_to 0 L data ->
  ~ straight data /\ fl_tlag o = INR L * delta.
Proof.
  intros H (L1 & L2 & HF).
  destruct (C26_first_trough data delta time o H) as (D & HD & Hm).
  destruct (HF D HD) as (Dec & Ris).
  assert (NZ : ~ all_zero D).
  { intro Z. specialize (Dec 0%nat ltac:(lia)). rewrite !(acorr_zero D Z) in Dec. lra. }
  assert (NS : ~ straight data) by (intro S; apply NZ; apply (straight_residual data D HD); exact S).
  split; [exact NS|].
  destruct (C87_resonance_found data delta time o H NS) as (ac & a & b & Ea & T & Fi & _ & Et & _).
  rewrite Ea in Hm. destruct Hm as ((Lac & Hac) & _).
  assert (P : 0 < acorr D 0).
  { rewrite <- energy_acorr. assert (0 <= energy D) by (apply rsum_nonneg; intros; apply Rle_0_sqr).
    destruct (Rle_lt_or_eq_dec 0 (energy D) H0) as [P|P]; [exact P|]. exfalso. apply NZ, energy_zero. symmetry. exact P. }
  pose proof (Rinv_0_lt_compat _ P) as P'.
  assert (dec : forall k, (k < L)%nat -> rnth ac (S k) < rnth ac k).
  { intros k Hk. rewrite !Hac by lia. unfold Rdiv. apply Rmult_lt_compat_r; [exact P'|]. specialize (Dec k Hk). lra. }
  assert (ris : rnth ac L < rnth ac (S L)) by (rewrite !Hac by lia; unfold Rdiv; apply Rmult_lt_compat_r; [exact P'|]; lra).
  assert (TL : trough ac L L).
  { split; [lia|]. split; [lia|]. split; [pose proof (dec (L - 1)%nat ltac:(lia)) as Q; replace (S (L - 1))%nat with L in Q by lia; exact Q|].
    split; [intros i Hi; replace i with L by lia; reflexivity|]. rewrite Nat.add_1_r. exact ris. }
  pose proof (Fi L L TL) as aL. destruct T as ((T1 & T2) & T3 & T4 & T5 & T6).
  assert (a = L).
  { destruct (Nat.eq_dec a L) as [|N]; [assumption|]. exfalso.
    destruct (Nat.eq_dec b a) as [-> |Nb].
    - rewrite Nat.add_1_r in T6. pose proof (dec a ltac:(lia)). lra.
    - pose proof (T5 (S a) ltac:(lia)). pose proof (dec a ltac:(lia)). lra. }
  subst a. assert (b = L) by (destruct (Nat.eq_dec b L) as [|N]; [assumption|]; exfalso; pose proof (T5 (S L) ltac:(lia)); lra).
  subst b. rewrite Et. f_equal. f_equal. replace (L + L)%nat with (L * 2)%nat by lia. apply Nat.div_mul. lia.
Qed.

Lemma fall_noise eta L x y : noise_within eta x y -> falls_to (2 * (eta * (2 + eta))) L x -> falls_to 0 L y.
Proof.
  intros HN (L1 & L2 & HF). pose proof HN as (Ly & He & _). split; [exact L1|]. split; [lia|]. intros E HE.
  destruct (HF (detrend x) (detrend_ls x)) as (Dec & Ris). set (D := detrend x) in *. pose proof (detrend_ls x) as HD. fold D in HD.
  assert (B : forall k, - (eta * (2 + eta) * acorr D 0) <= acorr E k - acorr D k <= eta * (2 + eta) * acorr D 0).
  { intro k. pose proof (acorr_noise eta x y D E k HN HD HE) as A. apply Rabs_def2b in A. exact A. }
  split.
  - intros k Hk. specialize (Dec k Hk). pose proof (B k). pose proof (B (S k)). lra.
  - pose proof (B L). pose proof (B (S L)). lra.
Qed.

(** ** C142 *)

(** A margin in the autocorrelation keeps the lag. *)
Theorem C142_lag eta L x y delta delta' time time' o o' :
  run_of x delta time o -> run_of y delta' time' o' -> noise_within eta x y -> falls_to (2 * (eta * (2 + eta))) L x ->
  fl_tlag o = INR L * delta /\ fl_tlag o' = INR L * delta'.
Proof.
  intros H H' HN HF. pose proof (fall_noise eta L x y HN HF) as Fy.
  assert (Fx : falls_to 0 L x).
  { destruct HF as (L1 & L2 & HF). split; [exact L1|]. split; [exact L2|]. intros D HD. destruct (HF D HD) as (A & B). destruct HN as (_ & He & _).
    assert (0 <= acorr D 0) by (rewrite acorr_ssq; apply ssq_nonneg).
    assert (0 <= 2 * (eta * (2 + eta)) * acorr D 0) by (repeat apply Rmult_le_pos; lra).
    split; [intros k Hk; specialize (A k Hk); lra|lra]. }
  split; eapply lag_of_fall; eassumption.
Qed.

(** With the same lag, the strength and the filtered record move only as much as the noise. *)
Theorem C142_same_lag eta L x y delta delta' time time' o o' D :
  run_of x delta time o -> run_of y delta' time' o' -> ~ straight x -> ~ straight y -> noise_within eta x y ->
  fl_tlag o = INR L * delta -> fl_tlag o' = INR L * delta' -> ls_residual x D ->
  Rabs (fl_r o' - fl_r o) <= 2 * eta * (2 + eta) /\
  ssq (length x) (fun j => rnth (fl_filtered o') j - rnth (fl_filtered o) j) <=
    (eta * (6 + 2 * eta)) * (eta * (6 + 2 * eta)) * ssq (length x) (rnth D).
Proof.
  intros H H' NS NS' HN Et Et' HD. pose proof HN as (Ly & He & _).
  pose proof (detrend_ls y) as HE. set (E := detrend y) in *.
  destruct (strength_at x delta time o L D H NS Et HD) as (HL & P & Er).
  destruct (strength_at y delta' time' o' L E H' NS' Et' HE) as (_ & P' & Er').
  assert (PM : 0 <= eta * (2 + eta)) by (apply Rmult_le_pos; lra).
  assert (HR : Rabs (fl_r o' - fl_r o) <= 2 * eta * (2 + eta)).
  { rewrite Er, Er'. set (M := eta * (2 + eta)) in *.
    pose proof (acorr_noise eta x y D E L HN HD HE) as BL. pose proof (acorr_noise eta x y D E 0 HN HD HE) as B0. fold M in BL, B0.
    set (a0 := acorr D 0) in *. set (b0 := acorr E 0) in *. set (a := acorr D L) in *. set (b := acorr E L) in *.
    assert (R1 : Rabs b / b0 <= 1) by (destruct (C79_r_below_one y delta' time' o' H') as (_ & Q); rewrite Er' in Q; apply Rlt_le; exact Q).
    assert (R0 : 0 <= Rabs b / b0) by (apply Rle_mult_inv_pos; [apply Rabs_pos|exact P']).
    assert (X : (Rabs b / b0 - Rabs a / a0) * a0 = (Rabs b - Rabs a) + Rabs b / b0 * (a0 - b0)) by (field; lra).
    assert (Y : Rabs ((Rabs b / b0 - Rabs a / a0) * a0) <= 2 * M * a0).
    { rewrite X. pose proof (Rabs_triang (Rabs b - Rabs a) (Rabs b / b0 * (a0 - b0))) as T.
      pose proof (Rabs_triang_inv2 b a) as T1. rewrite Rabs_mult in T. rewrite (Rabs_right (Rabs b / b0)) in T by lra.
      rewrite (Rabs_minus_sym a0 b0) in T.
      pose proof (Rmult_le_compat_r _ _ _ (Rabs_pos (b0 - a0)) R1). lra. }
    rewrite Rabs_mult, (Rabs_right a0) in Y by lra. replace (2 * eta * (2 + eta)) with (2 * M) by (unfold M; ring).
    apply (Rmult_le_reg_r a0); [exact P|exact Y]. }
  split; [exact HR|].
  destruct (C24_two_tap x delta time o H) as (D1 & L1 & HD1 & Et1 & Lf & Hf).
  destruct (C24_two_tap y delta' time' o' H') as (E1 & L2 & HE1 & Et2 & Lf' & Hf').
  rewrite (ls_residual_unique x D1 D HD1 HD) in Hf. rewrite (ls_residual_unique y E1 E HE1 HE) in Hf'.
  destruct (run_of_core x delta time o H) as (Hd & _). destruct (run_of_core y delta' time' o' H') as (Hd' & _).
  assert (L1 = L) by (apply INR_eq; apply (Rmult_eq_reg_r delta); [congruence|exact Hd]).
  assert (L2 = L) by (apply INR_eq; apply (Rmult_eq_reg_r delta'); [congruence|exact Hd']). subst L1 L2.
  destruct (residual_norms eta x y D E HN HD HE) as (A & _). rewrite Ly in *. set (n := length x) in *.
  set (d := fun j => rnth E j - rnth D j) in *. set (c := fun j => circ n j (Z.of_nat L)).
  destruct (C79_r_below_one y delta' time' o' H') as (R0 & R1).
  set (Zn := nrm n (rnth D)) in *. assert (PZ : 0 <= Zn) by apply nrm_pos.
  assert (Hn : (0 < n)%nat) by lia.
  set (F := fun j => rnth (fl_filtered o') j - rnth (fl_filtered o) j).
  assert (HF : forall j, (j < n)%nat -> F j = d j + (fl_r o' * d (c j) + (fl_r o' - fl_r o) * rnth D (c j))).
  { intros j Hj. pose proof (Hf j Hj) as Q. pose proof (Hf' j Hj) as Q'. apply (nth_error_nth _ _ 0) in Q, Q'.
    unfold F. unfold rnth at 1 2. rewrite Q, Q'. unfold d, c. ring. }
  assert (G : nrm n F <= eta * (6 + 2 * eta) * Zn).
  { rewrite (nrm_ext n F _ HF).
    pose proof (nrm_add n d (fun j => fl_r o' * d (c j) + (fl_r o' - fl_r o) * rnth D (c j))) as T1.
    pose proof (nrm_add n (fun j => fl_r o' * d (c j)) (fun j => (fl_r o' - fl_r o) * rnth D (c j))) as T2.
    rewrite (nrm_scale n (fl_r o') (fun j => d (c j))), (nrm_scale n (fl_r o' - fl_r o) (fun j => rnth D (c j))) in T2.
    unfold c in T2 at 3 4. rewrite (nrm_circ n (Z.of_nat L) d Hn), (nrm_circ n (Z.of_nat L) (rnth D) Hn) in T2.
    fold Zn in T2. rewrite (Rabs_right (fl_r o')) in T2 by lra.
    pose proof (Rmult_le_compat_r _ _ _ (nrm_pos n d) (Rlt_le _ _ R1)) as T3.
    pose proof (Rmult_le_compat_r _ _ _ PZ HR) as T4. lra. }
  rewrite <- (nrm_sq n F). rewrite <- (nrm_sq n (rnth D)). fold Zn.
  replace (eta * (6 + 2 * eta) * (eta * (6 + 2 * eta)) * (Zn * Zn)) with ((eta * (6 + 2 * eta) * Zn) * (eta * (6 + 2 * eta) * Zn)) by ring.
  apply Rmult_le_compat; try apply nrm_pos; exact G.
Qed.

(** Both together. *)
Theorem C142_stable eta L x y delta delta' time time' o o' D :
  run_of x delta time o -> run_of y delta' time' o' -> noise_within eta x y -> falls_to (2 * (eta * (2 + eta))) L x -> ls_residual x D ->
  fl_tlag o = INR L * delta /\ fl_tlag o' = INR L * delta' /\
  Rabs (fl_r o' - fl_r o) <= 2 * eta * (2 + eta) /\
  ssq (length x) (fun j => rnth (fl_filtered o') j - rnth (fl_filtered o) j) <=
    (eta * (6 + 2 * eta)) * (eta * (6 + 2 * eta)) * ssq (length x) (rnth D).
Proof.
  intros H H' HN HF HD. destruct (C142_lag eta L x y delta delta' time time' o o' H H' HN HF) as (Et & Et').
  pose proof (fall_noise eta L x y HN HF) as Fy. destruct (lag_of_fall y delta' time' o' L H' Fy) as (NS' & _).
  split; [exact Et|]. split; [exact Et'|]. apply (C142_same_lag eta L x y delta delta' time time' o o' D); try assumption.
  intro S. apply (straight_residual x D HD) in S. destruct HF as (L1 & _ & HF). destruct (HF D HD) as (Dec & _). specialize (Dec 0%nat ltac:(lia)).
  rewrite !(acorr_zero D S) in Dec. lra.
Qed.

(** ** A concrete case: the record of [C141_example] cut to nine samples, its last sample disturbed by 1/20. *)
Definition nine : list R := [0; 1; -1; -1; 0; 2; -1; 0; 0].
Definition nine_noisy : list R := [0; 1; -1; -1; 0; 2; -1; 0; 1 / 20].
Lemma nine_residual : ls_residual nine nine.
Proof. split; [reflexivity|]. split; [exists 0, 0; intros; ring|]. split; unfold nine, rnth; simpl; lra. Qed.
Theorem C142_example : exists o o',
  ResonanceFiltSynth nine (map INR (seq 0 9)) = Ok o /\ ResonanceFiltSynth nine_noisy (map INR (seq 0 9)) = Ok o' /\
  run_of nine 1 (map INR (seq 0 9)) o /\ run_of nine_noisy 1 (map INR (seq 0 9)) o' /\
  noise_within (1 / 40) nine nine_noisy /\ falls_to (2 * (1 / 40 * (2 + 1 / 40))) 2 nine /\ ls_residual nine nine.
Proof.
  destruct (unit_run nine ltac:(cbn; lia)) as (o & E & Ru). destruct (unit_run nine_noisy ltac:(cbn; lia)) as (o' & E' & Ru').
  exists o, o'. split; [exact E|]. split; [exact E'|]. split; [exact Ru|]. split; [exact Ru'|]. split; [|split; [|exact nine_residual]].
  - split; [reflexivity|]. split; [lra|]. intros D HD. rewrite (ls_residual_unique nine D nine HD nine_residual).
    unfold ssq, nine, nine_noisy, rnth. simpl. lra.
  - split; [lia|]. split; [cbn; lia|]. intros D HD. rewrite (ls_residual_unique nine D nine HD nine_residual).
    assert (A0 : acorr nine 0 = 8) by (unfold acorr, nine, rnth; simpl; lra).
    assert (A1 : acorr nine 1 = -2) by (unfold acorr, nine, rnth; simpl; lra).
    assert (A2 : acorr nine 2 = -3) by (unfold acorr, nine, rnth; simpl; lra).
    assert (A3 : acorr nine 3 = -1) by (unfold acorr, nine, rnth; simpl; lra).
    split; [|rewrite A0, A2, A3; lra]. intros k Hk. destruct k as [|[|k]]; [rewrite A0, A1; lra|rewrite A0, A1, A2; lra|lia].
Qed.

(** ** Without a margin: however small the noise, the lag goes from 3 to 1, the strength from 2/3 to almost 0, and
    the filtered record changes by more than 1/2. *)
Definition even_fall : list R := [-1; 0; 0; 2; 0; 0; -1].
Definition even_fall_noisy (e : R) : list R := [-1; 0; - (e / 2); 2 + e; - (e / 2); 0; -1].
Lemma even_residual : ls_residual even_fall even_fall.
Proof. split; [reflexivity|]. split; [exists 0, 0; intros; ring|]. split; unfold even_fall, rnth; simpl; lra. Qed.
Lemma even_noisy_residual e : ls_residual (even_fall_noisy e) (even_fall_noisy e).
Proof. split; [reflexivity|]. split; [exists 0, 0; intros; ring|]. split; unfold even_fall_noisy, rnth; simpl; lra. Qed.
Lemma even_lag time o : run_of even_fall 1 time o -> ~ straight even_fall -> fl_tlag o = INR 3 * 1.
Proof.
  intros Ru NS. pose proof even_residual as HD.
  assert (A0 : acorr even_fall 0 = 6) by (unfold acorr, even_fall, rnth; simpl; lra).
  assert (A1 : acorr even_fall 1 = 0) by (unfold acorr, even_fall, rnth; simpl; lra).
  assert (A2 : acorr even_fall 2 = 0) by (unfold acorr, even_fall, rnth; simpl; lra).
  assert (A3 : acorr even_fall 3 = -4) by (unfold acorr, even_fall, rnth; simpl; lra).
  assert (A4 : acorr even_fall 4 = 0) by (unfold acorr, even_fall, rnth; simpl; lra).
  destruct (C87_resonance_found even_fall 1 _ o Ru NS) as (ac & a & b & Ea & T & Fi & HL & Et & _).
  destruct (C26_first_trough even_fall 1 _ o Ru) as (D' & HD' & Hm). rewrite Ea in Hm.
  rewrite (ls_residual_unique even_fall D' _ HD' HD) in Hm. destruct Hm as ((Lac & Hac) & _).
  change (length even_fall) with 7%nat in *.
  assert (B1 := Hac 1%nat ltac:(lia)). assert (B2 := Hac 2%nat ltac:(lia)). assert (B3 := Hac 3%nat ltac:(lia)). assert (B4 := Hac 4%nat ltac:(lia)).
  rewrite A0 in B1, B2, B3, B4. rewrite A1 in B1. rewrite A2 in B2. rewrite A3 in B3. rewrite A4 in B4.
  assert (T3 : trough ac 3 3).
  { split; [lia|]. split; [lia|]. change (3 - 1)%nat with 2%nat. change (3 + 1)%nat with 4%nat.
    split; [lra|]. split; [|lra]. intros i Hi. replace i with 3%nat by lia. reflexivity. }
  rewrite Et. f_equal. f_equal. pose proof (Fi 3%nat 3%nat T3) as Q. destruct T as (Ta & Tl & Tb & Tc & Td).
  assert (Ha : (a = 1 \/ a = 2 \/ a = 3)%nat) by lia. destruct Ha as [-> |[-> | ->]].
  - exfalso. destruct (Nat.eq_dec b 1) as [-> |N1]; [change (1 + 1)%nat with 2%nat in Td; lra|].
    destruct (Nat.eq_dec b 2) as [-> |N2]; [change (2 + 1)%nat with 3%nat in Td; lra|]. specialize (Tc 3%nat ltac:(lia)). lra.
  - exfalso. change (2 - 1)%nat with 1%nat in Tb. lra.
  - destruct (Nat.eq_dec b 3) as [-> |N3]; [reflexivity|]. exfalso. specialize (Tc 4%nat ltac:(lia)). lra.
Qed.
Theorem C142_refuted : exists o,
  ResonanceFiltSynth even_fall (map INR (seq 0 7)) = Ok o /\ fl_tlag o = 3 /\ fl_r o = 2 / 3 /\
  forall e, 0 < e <= 1 / 10 -> exists y o',
    length y = length even_fall /\ (forall j, Rabs (rnth y j - rnth even_fall j) <= e) /\
    ResonanceFiltSynth y (map INR (seq 0 7)) = Ok o' /\ fl_tlag o' = 1 /\ fl_r o' <= e /\
    exists a b, nth_error (fl_filtered o) 3 = Some a /\ nth_error (fl_filtered o') 3 = Some b /\ 1 / 2 < Rabs (b - a).
Proof.
  destruct (unit_run even_fall ltac:(cbn; lia)) as (o & E & Ru). exists o. split; [exact E|].
  assert (NS : ~ straight even_fall).
  { intros (a & b & S). pose proof (S 0%nat ltac:(cbn; lia)) as S0. pose proof (S 1%nat ltac:(cbn; lia)) as S1.
    pose proof (S 2%nat ltac:(cbn; lia)) as S2. unfold even_fall, rnth in S0, S1, S2. simpl in S0, S1, S2. lra. }
  pose proof (even_lag _ o Ru NS) as Et.
  destruct (strength_at even_fall 1 _ o 3 even_fall Ru NS Et even_residual) as (_ & _ & Er).
  assert (A0 : acorr even_fall 0 = 6) by (unfold acorr, even_fall, rnth; simpl; lra).
  assert (A3 : acorr even_fall 3 = -4) by (unfold acorr, even_fall, rnth; simpl; lra).
  rewrite A0, A3 in Er. rewrite Rabs_left in Er by lra.
  split; [rewrite Et; simpl; lra|]. split; [lra|]. intros e He.
  set (y := even_fall_noisy e). destruct (unit_run y ltac:(cbn; lia)) as (o' & E' & Ru').
  assert (NS' : ~ straight y).
  { intros (a & b & S). pose proof (S 0%nat ltac:(cbn; lia)) as S0. pose proof (S 1%nat ltac:(cbn; lia)) as S1.
    pose proof (S 2%nat ltac:(cbn; lia)) as S2. unfold y, even_fall_noisy, rnth in S0, S1, S2. simpl in S0, S1, S2. lra. }
  pose proof (even_noisy_residual e) as HD'. fold y in HD'.
  assert (Sq : 0 <= e * e <= e / 10) by (split; [apply Rle_0_sqr|]; pose proof (Rmult_le_compat_l e e (1 / 10) ltac:(lra) ltac:(lra)); lra).
  assert (B0 : acorr y 0 = 6 + 4 * e + 3 / 2 * (e * e)) by (unfold acorr, y, even_fall_noisy, rnth; simpl; field).
  assert (B1 : acorr y 1 = - (2 * e + e * e)) by (unfold acorr, y, even_fall_noisy, rnth; simpl; field).
  assert (B2 : acorr y 2 = e + e * e / 4) by (unfold acorr, y, even_fall_noisy, rnth; simpl; field).
  destruct (lag_one y _ o' y Ru' NS' HD' ltac:(cbn; lia) ltac:(lra) ltac:(lra)) as (Et' & Er').
  rewrite B0, B1 in Er'. rewrite Rabs_left in Er' by lra.
  assert (Hr : fl_r o' <= e).
  { rewrite Er'. apply (Rmult_le_reg_r (6 + 4 * e + 3 / 2 * (e * e))); [lra|]. unfold Rdiv. rewrite Rmult_assoc, Rinv_l by lra. rewrite Rmult_1_r.
    assert (0 <= e * (e * e)) by (apply Rmult_le_pos; lra). rewrite !Rmult_plus_distr_l. lra. }
  exists y, o'. split; [reflexivity|]. split.
  { intro j. do 7 (destruct j as [|j]; [unfold y, even_fall_noisy, even_fall, rnth; simpl; apply Rabs_le; lra|]).
    unfold rnth. rewrite !nth_overflow by (cbn; lia). rewrite Rminus_0_r, Rabs_R0. lra. }
  split; [exact E'|]. split; [exact Et'|]. split; [exact Hr|].
  destruct (C24_two_tap even_fall 1 _ o Ru) as (D1 & L1 & HD1 & Et1 & _ & Hf).
  destruct (C24_two_tap y 1 _ o' Ru') as (E1 & L2 & HE1 & Et2 & _ & Hf').
  rewrite (ls_residual_unique even_fall D1 _ HD1 even_residual) in Hf. rewrite (ls_residual_unique y E1 _ HE1 HD') in Hf'.
  assert (L1 = 3%nat) by (apply INR_eq; lra). assert (L2 = 1%nat) by (apply INR_eq; simpl; lra). subst L1 L2.
  pose proof (Hf 3%nat ltac:(cbn; lia)) as Q. pose proof (Hf' 3%nat ltac:(cbn; lia)) as Q'.
  change (circ (length even_fall) 3 (Z.of_nat 3)) with 0%nat in Q. change (circ (length y) 3 (Z.of_nat 1)) with 2%nat in Q'.
  eexists. eexists. split; [exact Q|]. split; [exact Q'|].
  destruct (C79_r_below_one y 1 _ o' Ru') as (R0 & R1). rewrite Er.
  assert (K : 0 <= fl_r o' * (e / 2) <= e / 2).
  { split; [apply Rmult_le_pos; lra|]. pose proof (Rmult_le_compat_r (e / 2) _ _ ltac:(lra) (Rlt_le _ _ R1)). lra. }
  unfold y, even_fall_noisy, even_fall, rnth. simpl. apply Rlt_le_trans with (2 / 3); [lra|]. rewrite Rabs_right; lra.
Qed.

(** ** Filtering a noisy record, then hkYu *)

Lemma sample_of_norm n f j : (j < n)%nat -> Rabs (f j) <= nrm n f.
Proof.
  intro Hj. apply sq_le; [apply nrm_pos|]. rewrite nrm_sq. rewrite <- Rabs_mult, (Rabs_right (f j * f j)) by (apply Rle_ge, Rle_0_sqr).
  unfold ssq. replace n with (j + (1 + (n - j - 1)))%nat by lia. rewrite !rsum_split. cbn [rsum]. rewrite Nat.add_0_r.
  pose proof (rsum_nonneg j (fun j => f j * f j) (fun j _ => Rle_0_sqr _)).
  pose proof (rsum_nonneg (n - j - 1) (fun i => f (j + (1 + i))%nat * f (j + (1 + i))%nat) (fun i _ => Rle_0_sqr _)). lra.
Qed.

(** The noisy filtered record, sample by sample. *)
Theorem C142_samples eta L x y delta delta' time time' o o' D :
  run_of x delta time o -> run_of y delta' time' o' -> ~ straight x -> ~ straight y -> noise_within eta x y ->
  fl_tlag o = INR L * delta -> fl_tlag o' = INR L * delta' -> ls_residual x D ->
  near (eta * (6 + 2 * eta) * sqrt (ssq (length x) (rnth D))) (fl_filtered o) (fl_filtered o').
Proof.
  intros H H' NS NS' HN Et Et' HD. destruct (C142_same_lag eta L x y delta delta' time time' o o' D H H' NS NS' HN Et Et' HD) as (_ & B).
  destruct (C24_two_tap x delta time o H) as (_ & _ & _ & _ & Lf & _). destruct (C24_two_tap y delta' time' o' H') as (_ & _ & _ & _ & Lf' & _).
  destruct HN as (Ly & He & _). split; [congruence|]. intros i a b Ea Eb.
  assert (Hi : (i < length x)%nat) by (rewrite <- Lf; apply nth_error_Some; congruence).
  apply (nth_error_nth _ _ 0) in Ea, Eb. fold (nrm (length x) (rnth D)).
  set (F := fun j => rnth (fl_filtered o') j - rnth (fl_filtered o) j) in *.
  replace (b - a) with (F i) by (unfold F, rnth; rewrite Ea, Eb; reflexivity).
  eapply Rle_trans; [apply (sample_of_norm (length x) F i Hi)|]. apply nrm_le; [repeat apply Rmult_le_pos; try lra; apply nrm_pos|].
  replace (eta * (6 + 2 * eta) * nrm (length x) (rnth D) * (eta * (6 + 2 * eta) * nrm (length x) (rnth D)))
    with (eta * (6 + 2 * eta) * (eta * (6 + 2 * eta)) * (nrm (length x) (rnth D) * nrm (length x) (rnth D))) by ring.
  rewrite nrm_sq. exact B.
Qed.

Lemma near_trans a b x y z : near a x y -> near b y z -> near (a + b) x z.
Proof.
  intros (L1 & N1) (L2 & N2). split; [congruence|]. intros i u w Eu Ew.
  destruct (nth_error y i) as [v|] eqn:Ev; [|apply nth_error_None in Ev; assert (nth_error x i = None) by (apply nth_error_None; lia); congruence].
  replace (w - u) with ((w - v) + (v - u)) by ring. eapply Rle_trans; [apply Rabs_triang|].
  pose proof (N1 i u v Eu Ev). pose proof (N2 i v w Ev Ew). lra.
Qed.

(** A crust below reverberating sediment, found in a noisy record: [C141_recovers] with the noise added to the
    remainder. *)
Theorem C142_then_hkYu (delta : R) (l : nat) (pre : R) draw x y S L rho A t eta o o' tk (p : R) pk (H K : list R) (VM VS vs w1 w2 w3 : R) r (H0 K0 : R) D :
  0 < delta -> (1 <= l)%nat ->
  run_of x delta (@uniform_axis RN delta l pre) o -> run_of y delta (@uniform_axis RN delta l pre) o' ->
  reverberates L rho S x -> (2 * L <= length x)%nat ->
  (forall j, (j < length x)%nat -> Rabs (rnth x j) <= A) ->
  (forall j, (length x - L <= j < length x)%nat -> Rabs (rnth x j) <= t) ->
  noise_within eta x y -> falls_to (2 * (eta * (2 + eta))) L x -> ls_residual x D ->
  @hkYu RN draw (fl_filtered o') (fl_time o') (fl_tlag o') tk p pk H K (Some VM) (Some VS) (Some vs) (Some w1) (Some w2) (Some w3) = Ok r ->
  0 < w1 -> 0 < w2 -> 0 < w3 -> In H0 H -> In K0 K -> (forall k, In k K -> 1 <= k) ->
  precritical VM p -> 0 < vs -> vs <= VS ->
  let hs := INR L * delta * vs / 2 in
  let T1 h k := t_Ps VS 0 hs (VS / vs) + t_Ps VM p h k in
  let T2 h k := t_PpPs VS 0 hs (VS / vs) + t_PpPs VM p h k in
  let T3 h k := t_PsPs VS 0 hs (VS / vs) + t_PsPs VM p h k in
  let e := Rabs (fl_r o - rho) * A + 21 * rsum (length x) (fun i => Rabs (rnth x i)) / INR (length x) + t
           + eta * (6 + 2 * eta) * sqrt (ssq (length x) (rnth D)) in
  clear_phases_by (2 * e) S (@uniform_axis RN delta l pre) T1 T2 T3 H K H0 K0 ->
  (forall h k, In h H -> In k K -> covered delta l pre (T1 h k) /\ covered delta l pre (T2 h k) /\ covered delta l pre (T3 h k)) ->
  (forall h k, In h H -> In k K -> (h, k) <> (H0, K0) -> resolved delta VM p H0 K0 h k) ->
  exists v, nth_error (yr_stk r) (yr_best r) = Some (@mkRow RN H0 K0 v).
Proof.
  intros Hd Hl Ru Ru' HR H2 HA Ht HN HF HD E W1 W2 W3 HH0 HK0 HK1 HP Hv HvS hs T1 T2 T3 e HS HC Hres.
  destruct (C142_lag eta L x y delta delta _ _ o o' Ru Ru' HN HF) as (Et & Et').
  pose proof (fall_noise eta L x y HN HF) as Fy. destruct (lag_of_fall y delta _ o' L Ru' Fy) as (NS' & _).
  assert (NS : ~ straight x).
  { intro Q. apply (straight_residual x D HD) in Q. destruct HF as (L1 & _ & HF). destruct (HF D HD) as (Dec & _). specialize (Dec 0%nat ltac:(lia)).
    rewrite !(acorr_zero D Q) in Dec. lra. }
  pose proof (C141_filtered x delta _ o S L rho A t Ru NS HR Et H2 HA Ht) as N1.
  pose proof (C142_samples eta L x y delta delta _ _ o o' D Ru Ru' NS NS' HN Et Et' HD) as N2.
  exact (C141_from_remainder delta l pre Hd Hl draw y S e L o' tk p pk H K VM VS vs w1 w2 w3 r H0 K0 Ru' Et'
           (near_trans _ _ S (fl_filtered o) (fl_filtered o') N1 N2) E W1 W2 W3 HH0 HK0 HK1 HP Hv HvS HS HC Hres).
Qed.

(** All hypotheses of [C142_then_hkYu] hold for the record of [C141_example] with its last sample disturbed by 1/400. *)
Definition ex_noisy : list R := [0; 1; -1; -1; 0; 2; -1; 0; 0] ++ repeat 0 490 ++ [1 / 400].
Lemma ex_noisy_nth j : (j < 500)%nat -> rnth ex_noisy j - rnth ex_record j = if (j =? 499)%nat then 1 / 400 else 0.
Proof.
  intro Hj. unfold ex_noisy, ex_record. replace (repeat 0 491) with (repeat 0 490 ++ [0]) by (rewrite <- repeat_cons; reflexivity).
  rewrite !app_assoc. set (l := [0; 1; -1; -1; 0; 2; -1; 0; 0] ++ repeat 0 490). assert (Ll : length l = 499%nat) by reflexivity. clearbody l.
  unfold rnth. destruct (Nat.eqb_spec j 499) as [->|N].
  - rewrite !app_nth2 by lia. rewrite Ll. simpl. lra.
  - rewrite !app_nth1 by lia. lra.
Qed.
Lemma ex_noise : noise_within (1 / 1000) ex_record ex_noisy.
Proof.
  split; [reflexivity|]. split; [lra|]. intros D HD. rewrite (ls_residual_unique ex_record D _ HD ex_residual).
  rewrite <- (acorr_ssq ex_record). rewrite (ex_acorr 0) by lia. rewrite ex_rec_len. unfold ssq.
  rewrite (rsum_single 500 _ 499) by (try lia; intros j Hj Nj; rewrite (ex_noisy_nth j Hj), (proj2 (Nat.eqb_neq j 499) Nj); ring).
  rewrite (ex_noisy_nth 499) by lia. rewrite Nat.eqb_refl. unfold rnth. simpl. lra.
Qed.
Lemma ex_falls : falls_to (2 * (1 / 1000 * (2 + 1 / 1000))) 2 ex_record.
Proof.
  split; [lia|]. split; [rewrite ex_rec_len; lia|]. intros D HD. rewrite (ls_residual_unique ex_record D _ HD ex_residual).
  assert (A0 : acorr ex_record 0 = 8) by (rewrite ex_acorr by lia; unfold rnth; simpl; lra).
  assert (A1 : acorr ex_record 1 = -2) by (rewrite ex_acorr by lia; unfold rnth; simpl; lra).
  assert (A2 : acorr ex_record 2 = -3) by (rewrite ex_acorr by lia; unfold rnth; simpl; lra).
  assert (A3 : acorr ex_record 3 = -1) by (rewrite ex_acorr by lia; unfold rnth; simpl; lra).
  split; [|rewrite A0, A2, A3; lra]. intros k Hk. destruct k as [|[|k]]; [rewrite A0, A1; lra|rewrite A0, A1, A2; lra|lia].
Qed.
Theorem C142_then_hkYu_example : exists o r,
  ResonanceFiltSynth ex_noisy (@uniform_axis RN 1 500 0) = Ok o /\
  @hkYu RN (@pyplot RN) (fl_filtered o) (fl_time o) (fl_tlag o) NpF 0 PyF [1; 2] [2; 3] (Some 1) (Some 1) (Some 1) (Some 1) (Some 1) (Some 1) = Ok r /\
  exists v, nth_error (yr_stk r) (yr_best r) = Some (@mkRow RN 1 2 v).
Proof.
  destruct (ex_run ex_record ex_rec_len) as (o & E & Ru). destruct (ex_run ex_noisy eq_refl) as (o' & E' & Ru').
  destruct (ex_searched ex_noisy o' eq_refl Ru') as (r & Er'). exists o', r. split; [exact E'|]. split; [exact Er'|].
  destruct (ex_filter _ o Ru) as (Et & Er).
  assert (En : sqrt (ssq (length ex_record) (rnth ex_record)) <= 3).
  { rewrite <- acorr_ssq, ex_acorr by lia. rewrite <- (sqrt_Rsqr 3) by lra. apply sqrt_le_1_alt. unfold Rsqr, rnth. simpl. lra. }
  assert (Rem : Rabs (fl_r o - 3 / 8) * 2 + 21 * rsum (length ex_record) (fun i => Rabs (rnth ex_record i)) / INR (length ex_record) + 0 = 126 / 500).
  { rewrite Er, ex_mean, ex_rec_len. replace (3 / 8 - 3 / 8) with 0 by ring. rewrite Rabs_R0. rewrite INR_IZR_INZ. simpl. field. }
  refine (C142_then_hkYu 1 500 0 (@pyplot RN) ex_record ex_noisy ex_direct 2 (3 / 8) 2 0 (1 / 1000) o o' NpF 0 PyF [1; 2] [2; 3] 1 1 1 1 1 1 r 1 2 ex_record
    _ _ Ru Ru' ex_reverberates _ ex_large ex_late ex_noise ex_falls ex_residual Er' _ _ _ _ _ _ _ _ _ _ ex_cov ex_res); try lra; try lia.
  - rewrite ex_rec_len. lia.
  - now left.
  - now left.
  - intros k [<-|[<-|[]]]; lra.
  - split; lra.
  - rewrite Rem. apply ex_clear. lra.
Qed.
