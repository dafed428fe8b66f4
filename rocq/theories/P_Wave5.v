(** * P_Wave5: the fit criteria are the textbook ones (C70); a model that reproduces the
      data wins (C68).  Exact arithmetic. *)

From Coq Require Import Reals Lra Psatz.
From Verif Require Import Base Num NumPy Spec HkModel PlotModel PoolModel WaveModel WaveProofs P_Wave P_Wave2 P_Wave3 P_Wave4.
Local Open Scope R_scope.

(** ** Specification *)
(** Sum over the sample pairs of two records. *)
Fixpoint sum2 (f : R -> R -> R) (x y : list R) : R :=
  match x, y with a :: x', b :: y' => f a b + sum2 f x' y' | _, _ => 0 end.
Definition mean (x : list R) : R := sum2 (fun a _ => a) x x / INR (length x).
(** Pearson's correlation coefficient *)
Definition pearson (x y : list R) : R :=
  sum2 (fun a b => (a - mean x) * (b - mean y)) x y /
  sqrt (sum2 (fun a b => (a - mean x) * (a - mean x)) x x * sum2 (fun a b => (a - mean y) * (a - mean y)) y y).
(** Root mean square difference *)
Definition rms_diff (x y : list R) : R := sqrt (sum2 (fun a b => (a - b) ^ 2) x y / INR (length x)).
Definition varies (x : list R) : Prop := exists a b, In a x /\ In b x /\ a <> b.

(** ** Sums *)
Lemma sum2_ext f g x y : (forall a b, f a b = g a b) -> sum2 f x y = sum2 g x y.
Proof. intro H. revert y. induction x as [|a x IH]; intros [|b y]; cbn; try reflexivity. rewrite H, IH. reflexivity. Qed.
Lemma sum2_scal c f x y : sum2 (fun a b => c * f a b) x y = c * sum2 f x y.
Proof. revert y. induction x as [|a x IH]; intros [|b y]; cbn; try ring. rewrite IH. ring. Qed.
Lemma sum2_plus f g x y : sum2 (fun a b => f a b + g a b) x y = sum2 f x y + sum2 g x y.
Proof. revert y. induction x as [|a x IH]; intros [|b y]; cbn; try ring. rewrite IH. ring. Qed.
Lemma sum2_nonneg f x y : (forall a b, 0 <= f a b) -> 0 <= sum2 f x y.
Proof. intro H. revert y. induction x as [|a x IH]; intros [|b y]; cbn; try lra. specialize (IH y). specialize (H a b). lra. Qed.
Lemma sum2_zero f x y : (forall a b, 0 <= f a b) -> sum2 f x y = 0 ->
  forall i a b, nth_error x i = Some a -> nth_error y i = Some b -> f a b = 0.
Proof.
  intros H. revert y. induction x as [|a x IH]; intros [|b y] E i a' b' Ha Hb; destruct i; cbn in *; try discriminate.
  - injection Ha as <-. injection Hb as <-. pose proof (sum2_nonneg f x y H). specialize (H a b). lra.
  - pose proof (H a b). pose proof (sum2_nonneg f x y H). eapply IH; [|eassumption|eassumption]. lra.
Qed.
Lemma sum2_self f x y : length x = length y -> sum2 (fun a _ => f a) x y = sum2 (fun a _ => f a) x x.
Proof.
  revert y. induction x as [|a x IH]; intros [|b y] L; cbn in *; try discriminate; [reflexivity|]. injection L as L. rewrite (IH y L). reflexivity.
Qed.
Lemma sum2_self_r f x y : length x = length y -> sum2 (fun _ b => f b) x y = sum2 (fun a _ => f a) y y.
Proof.
  revert y. induction x as [|a x IH]; intros [|b y] L; cbn in *; try discriminate; [reflexivity|]. injection L as L. rewrite (IH y L). reflexivity.
Qed.
Lemma sum2_const_dep f x y y' : length x = length y -> length x = length y' -> sum2 (fun a _ => f a) x y = sum2 (fun a _ => f a) x y'.
Proof. intros L L'. rewrite (sum2_self f x y L), (sum2_self f x y' L'). reflexivity. Qed.
Lemma sum2_eq_all f x y : length x = length y ->
  (forall i a b, nth_error x i = Some a -> nth_error y i = Some b -> f a b = 0) -> sum2 f x y = 0.
Proof.
  revert y. induction x as [|a x IH]; intros [|b y] L H; cbn in *; try discriminate; [reflexivity|].
  rewrite (H 0%nat a b eq_refl eq_refl). rewrite (IH y); [ring|lia|]. intros i a' b'. apply (H (S i)).
Qed.

(** ** Cauchy-Schwarz *)
Section CS.
Variables (p q : R -> R) (x y : list R).
Hypothesis L : length x = length y.
Let A := sum2 (fun a b => p a * p a) x y.
Let B := sum2 (fun a b => q b * q b) x y.
Let Cr := sum2 (fun a b => p a * q b) x y.
Lemma CS_identity : sum2 (fun a b => (A * q b - Cr * p a) * (A * q b - Cr * p a)) x y = A * (A * B - Cr * Cr).
Proof.
  rewrite (sum2_ext _ (fun a b => (A * A) * (q b * q b) + ((- (2 * A * Cr)) * (p a * q b) + (Cr * Cr) * (p a * p a)))) by (intros; ring).
  rewrite !sum2_plus, !sum2_scal. fold A B Cr. ring.
Qed.
Lemma CS_A0 : A = 0 -> Cr = 0.
Proof.
  intro E. apply sum2_eq_all; [exact L|]. intros i a b Ha Hb.
  assert (X : p a * p a = 0) by (eapply (sum2_zero (fun a b => p a * p a)); [intros; apply Rle_0_sqr|exact E|exact Ha|exact Hb]). nra.
Qed.
Lemma CS : Cr * Cr <= A * B.
Proof.
  pose proof CS_identity as E. assert (0 <= A) by (apply sum2_nonneg; intros; apply Rle_0_sqr).
  assert (0 <= A * (A * B - Cr * Cr)) by (rewrite <- E; apply sum2_nonneg; intros; apply Rle_0_sqr).
  destruct (Req_dec A 0) as [Z|Z]; [rewrite (CS_A0 Z), Z; lra|].
  apply Rnot_lt_le. intro K. assert (0 < A * (Cr * Cr - A * B)) by (apply Rmult_lt_0_compat; lra). nra.
Qed.
Lemma CS_equality : Cr * Cr = A * B -> forall i a b, nth_error x i = Some a -> nth_error y i = Some b -> A * q b = Cr * p a.
Proof.
  intros E i a b Ha Hb. pose proof CS_identity as E2. rewrite E in E2.
  assert (X : (A * q b - Cr * p a) * (A * q b - Cr * p a) = 0).
  { eapply (sum2_zero (fun a b => (A * q b - Cr * p a) * (A * q b - Cr * p a))); [intros; apply Rle_0_sqr|rewrite E2; ring|exact Ha|exact Hb]. }
  apply Rsqr_0_uniq in X. apply Rminus_diag_uniq. exact X.
Qed.
End CS.

(** ** The criteria *)
Lemma Rsum_zip f x y : length x = length y -> Rsum (map (fun p => f (fst p) (snd p)) (combine x y)) = sum2 f x y.
Proof. revert y. induction x as [|a x IH]; intros [|b y] Le; cbn in *; try discriminate; [reflexivity|]. rewrite IH; [reflexivity|lia]. Qed.
Lemma Rsum_sum2 x : Rsum x = sum2 (fun a _ => a) x x.
Proof. induction x as [|a x IH]; cbn; [reflexivity|]. rewrite IH. reflexivity. Qed.
Lemma npmean_mean (x : list R) : @npmean RN x = mean x.
Proof. unfold npmean, mean. cbn. rewrite Rsum_sum2, <- INR_IZR_INZ. reflexivity. Qed.
Lemma sum2_map g h f x y : sum2 f (map g x) (map h y) = sum2 (fun a b => f (g a) (h b)) x y.
Proof. revert y. induction x as [|a x IH]; intros [|b y]; cbn; try reflexivity. rewrite IH. reflexivity. Qed.
Definition Sxy (x y : list R) : R := sum2 (fun a b => (a - mean x) * (b - mean y)) x y.
Definition Sxx (x : list R) : R := sum2 (fun a b => (a - mean x) * (a - mean x)) x x.
Lemma cov_R (x y : list R) : length x = length y -> @cov RN x y = Sxy x y * (1 / IZR (Z.of_nat (length x) - 1)).
Proof.
  intro L. unfold cov, zipN, centred, Sxy. cbn [nsum nmul nsub ndiv nofZ RN]. f_equal.
  rewrite (Rsum_zip Rmult) by (rewrite !map_length; exact L). rewrite sum2_map.
  apply sum2_ext. intros a b. rewrite <- !npmean_mean. reflexivity.
Qed.
Lemma Sxy_self x : Sxy x x = Sxx x.
Proof.
  unfold Sxy, Sxx. generalize (mean x) as m. intro m. induction x as [|a x IH]; cbn; [reflexivity|]. rewrite IH. reflexivity.
Qed.
Lemma Sxx_nonneg x : 0 <= Sxx x. Proof. apply sum2_nonneg. intros. apply Rle_0_sqr. Qed.
Lemma Sxx_pos x : varies x -> 0 < Sxx x.
Proof.
  intros (a & b & Ia & Ib & Hab). destruct (Rle_lt_or_eq_dec _ _ (Sxx_nonneg x)) as [H|H]; [exact H|exfalso].
  apply In_nth_error in Ia as [i Hi]. apply In_nth_error in Ib as [j Hj].
  assert (X : (a - mean x) * (a - mean x) = 0) by (eapply (sum2_zero (fun a b => (a - mean x) * (a - mean x))); [intros; apply Rle_0_sqr|symmetry; exact H|exact Hi|exact Hi]).
  assert (Y : (b - mean x) * (b - mean x) = 0) by (eapply (sum2_zero (fun a b => (a - mean x) * (a - mean x))); [intros; apply Rle_0_sqr|symmetry; exact H|exact Hj|exact Hj]).
  apply Rsqr_0_uniq in X, Y. apply Hab. lra.
Qed.
Lemma Sxy_CS x y : length x = length y -> Sxy x y * Sxy x y <= Sxx x * Sxx y.
Proof.
  intro L. pose proof (CS (fun a => a - mean x) (fun b => b - mean y) x y L) as H. cbv beta in H.
  rewrite (sum2_self (fun a => (a - mean x) * (a - mean x)) x y L) in H.
  rewrite (sum2_self_r (fun b => (b - mean y) * (b - mean y)) x y L) in H. exact H.
Qed.
Lemma pearson_Sxy x y : pearson x y = Sxy x y / sqrt (Sxx x * Sxx y). Proof. reflexivity. Qed.
Lemma pearson_bound x y : length x = length y -> varies x -> varies y -> -1 <= pearson x y <= 1.
Proof.
  intros L Vx Vy. apply Sxx_pos in Vx, Vy. pose proof (Sxy_CS x y L) as H. rewrite pearson_Sxy.
  assert (P : 0 < Sxx x * Sxx y) by (apply Rmult_lt_0_compat; assumption).
  assert (Q : 0 < sqrt (Sxx x * Sxx y)) by (apply sqrt_lt_R0; exact P).
  assert (E : sqrt (Sxx x * Sxx y) * sqrt (Sxx x * Sxx y) = Sxx x * Sxx y) by (apply sqrt_sqrt; lra).
  set (s := sqrt (Sxx x * Sxx y)) in *. rewrite <- E in H. set (c := Sxy x y) in *.
  assert (-s <= c <= s) by (split; nra).
  split; apply (Rmult_le_reg_r s); try exact Q; unfold Rdiv; rewrite Rmult_assoc, Rinv_l by lra; lra.
Qed.

(** C70: the correlation criterion is Pearson's coefficient (the clipping never acts),
    and lies between -1 and 1. *)
Theorem C70_correlation (x y : list R) : length x = length y -> varies x -> varies y ->
  @corrcoef RN x y = Ok (pearson x y) /\ -1 <= pearson x y <= 1.
Proof.
  intros L Vx Vy. pose proof (pearson_bound x y L Vx Vy) as B. split; [|exact B].
  unfold corrcoef. change (F RN) with R. rewrite L, Nat.eqb_refl. f_equal.
  rewrite (cov_R x y L), (cov_R x x eq_refl), (cov_R y y eq_refl), !Sxy_self, L.
  cbn [ndiv nroot RN]. 
  assert (Ln : (2 <= length y)%nat).
  { destruct Vy as (a & b & Ia & Ib & Hab). destruct y as [|u [|v y]]; cbn in *; try contradiction; [|lia].
    exfalso. destruct Ia as [<-|[]], Ib as [<-|[]]. contradiction. }
  apply Sxx_pos in Vx, Vy.
  assert (Pn : 0 < 1 / IZR (Z.of_nat (length y) - 1)).
  { apply Rdiv_lt_0_compat; [lra|]. apply (IZR_lt 0). lia. }
  set (k := 1 / IZR (Z.of_nat (length y) - 1)) in *.
  assert (E : Sxy x y * k / sqrt (Sxx x * k) / sqrt (Sxx y * k) = pearson x y).
  { rewrite pearson_Sxy. rewrite !sqrt_mult by lra. pose proof (sqrt_lt_R0 _ Vx). pose proof (sqrt_lt_R0 _ Vy). pose proof (sqrt_lt_R0 _ Pn).
    assert (Ek : k = sqrt k * sqrt k) by (symmetry; apply sqrt_sqrt; lra). rewrite Ek at 1. field. lra. }
  assert (E' : @ndiv RN (@ndiv RN (Sxy x y * k) (sqrt (Sxx x * k))) (sqrt (Sxx y * k)) = pearson x y) by exact E.
  unfold clip1. cbn [ndiv nroot RN nltb nofZ] in *.
  match goal with |- context [Rltb ?u (-1)] => replace u with (pearson x y) end.
  assert (F1 : Rltb (pearson x y) (-1) = false) by (apply Rltb_false; lra).
  assert (F2 : Rltb 1 (pearson x y) = false) by (apply Rltb_false; lra). rewrite F1, F2. reflexivity.
Qed.

(** C70: it is 1 exactly when the synthetic is the data up to a positive factor and a
    constant. *)
Theorem C70_perfect_correlation (x y : list R) : length x = length y -> varies x -> varies y ->
  (pearson x y = 1 <-> exists al be, 0 < al /\ y = map (fun a => al * a + be) x).
Proof.
  intros L Vx Vy. pose proof (Sxx_pos _ Vx) as Px. pose proof (Sxx_pos _ Vy) as Py.
  assert (P : 0 < Sxx x * Sxx y) by (apply Rmult_lt_0_compat; assumption).
  assert (Q : 0 < sqrt (Sxx x * Sxx y)) by (apply sqrt_lt_R0; exact P).
  assert (E : sqrt (Sxx x * Sxx y) * sqrt (Sxx x * Sxx y) = Sxx x * Sxx y) by (apply sqrt_sqrt; lra).
  rewrite pearson_Sxy. split.
  - intro H. assert (Ec : Sxy x y = sqrt (Sxx x * Sxx y)).
    { rewrite <- (Rmult_1_l (sqrt _)), <- H. unfold Rdiv. rewrite Rmult_assoc, Rinv_l by lra. ring. }
    assert (Es : Sxy x y * Sxy x y = Sxx x * Sxx y) by (rewrite Ec; exact E).
    pose proof (CS_equality (fun a => a - mean x) (fun b => b - mean y) x y) as K. cbv beta in K.
    rewrite (sum2_self (fun a => (a - mean x) * (a - mean x)) x y L) in K.
    rewrite (sum2_self_r (fun b => (b - mean y) * (b - mean y)) x y L) in K. specialize (K Es).
    change (sum2 (fun a _ => (a - mean x) * (a - mean x)) x x) with (Sxx x) in K.
    change (sum2 (fun a b => (a - mean x) * (b - mean y)) x y) with (Sxy x y) in K.
    exists (Sxy x y / Sxx x), (mean y - Sxy x y / Sxx x * mean x). split; [apply Rdiv_lt_0_compat; lra|].
    assert (K' : forall i a b, nth_error x i = Some a -> nth_error y i = Some b -> b = Sxy x y / Sxx x * a + (mean y - Sxy x y / Sxx x * mean x)).
    { intros i a b Ha Hb. specialize (K i a b Ha Hb). apply (Rmult_eq_reg_l (Sxx x)); [|lra]. field_simplify; [|lra]. lra. }
    clear -L K'. generalize dependent (Sxy x y / Sxx x). generalize (mean y). generalize (mean x). intros mx my al K'.
    assert (G : forall x y : list R, length x = length y -> (forall i a b, nth_error x i = Some a -> nth_error y i = Some b -> b = al * a + (my - al * mx)) -> y = map (fun a => al * a + (my - al * mx)) x).
    { clear. induction x as [|a x IH]; intros [|b y] L H; cbn in *; try discriminate; [reflexivity|]. f_equal; [apply (H 0%nat); reflexivity|]. apply IH; [lia|]. intros i. apply (H (S i)). }
    apply G; assumption.
  - intros (al & be & Ha & Ey). clear Vy. 
    assert (Lx : (0 < length x)%nat). { destruct Vx as (a & _ & Ia & _). destruct x; [destruct Ia|cbn; lia]. }
    assert (Em : mean y = al * mean x + be).
    { rewrite Ey. unfold mean. rewrite map_length, sum2_map.
      assert (G : forall l : list R, sum2 (fun a _ => al * a + be) l l = al * sum2 (fun a _ => a) l l + be * INR (length l)).
      { clear. induction l as [|a l IH]; cbn [sum2 length]; [cbn; ring|]. rewrite IH, S_INR. ring. }
      rewrite G. field. apply not_0_INR. lia. }
    assert (E1 : Sxy x y = al * Sxx x).
    { unfold Sxy. rewrite Em. rewrite Ey. unfold Sxx. generalize (mean x) as m. clear. intro m.
      induction x as [|a x IH]; cbn [map sum2]; [ring|]. rewrite IH. ring. }
    assert (E2 : Sxx y = al * al * Sxx x).
    { unfold Sxx at 1. rewrite Em. rewrite Ey. unfold Sxx. generalize (mean x) as m. clear. intro m.
      induction x as [|a x IH]; cbn [map sum2]; [ring|]. rewrite IH. ring. }
    rewrite E1, E2. replace (Sxx x * (al * al * Sxx x)) with ((al * Sxx x) * (al * Sxx x)) by ring.
    rewrite sqrt_square by nra. field. nra.
Qed.

(** C70: the RMSE criterion is the root mean square difference. *)
Theorem C70_rmse (x y : list R) : length x = length y -> x <> [] -> @rmse RN x y = Ok (rms_diff x y).
Proof.
  intros L Hne. unfold rmse. change (F RN) with R. rewrite L, Nat.eqb_refl.
  assert (Z : (length y =? 0)%nat = false) by (apply Nat.eqb_neq; destruct x; [congruence|cbn in L; lia]). rewrite Z. cbn [andb negb].
  match goal with |- (if ?u then _ else _) = _ => assert (Fa : u = true) by (apply forallb_forall; reflexivity); rewrite Fa end. f_equal.
  cbn [nroot RN]. unfold rms_diff. f_equal. rewrite npmean_mean. unfold mean. f_equal.
  - rewrite <- Rsum_sum2. unfold zipN. rewrite (Rsum_zip (fun a b => @nsq RN (@nsub RN a b))) by exact L. apply sum2_ext. intros. cbn. ring.
  - f_equal. unfold zipN. rewrite map_length, combine_length. change (F RN) with R. rewrite <- L. apply Nat.min_id.
Qed.
Lemma rms_diff_zero x y : length x = length y -> x <> [] -> (rms_diff x y = 0 <-> x = y).
Proof.
  intros L Hne. unfold rms_diff.
  assert (P : 0 < INR (length x)) by (apply lt_0_INR; destruct x; [congruence|cbn; lia]).
  assert (Nn : 0 <= sum2 (fun a b => (a - b) ^ 2) x y) by (apply sum2_nonneg; intros; rewrite <- Rsqr_pow2; apply Rle_0_sqr).
  assert (Nd : 0 <= sum2 (fun a b => (a - b) ^ 2) x y / INR (length x)) by (apply Rmult_le_pos; [exact Nn|apply Rlt_le, Rinv_0_lt_compat; exact P]).
  split.
  - intro E. apply sqrt_eq_0 in E; [|exact Nd].
    assert (E0 : sum2 (fun a b => (a - b) ^ 2) x y = 0).
    { apply (Rmult_eq_reg_r (/ INR (length x))); [|apply Rinv_neq_0_compat; lra]. unfold Rdiv in E. lra. }
    assert (K : forall i a b, nth_error x i = Some a -> nth_error y i = Some b -> a = b).
    { intros i a b Ha Hb. assert (X : (a - b) ^ 2 = 0) by (eapply (sum2_zero (fun a b => (a - b) ^ 2)); [intros; rewrite <- Rsqr_pow2; apply Rle_0_sqr|exact E0|exact Ha|exact Hb]). rewrite <- Rsqr_pow2 in X. apply Rsqr_0_uniq in X. lra. }
    clear -L K. revert y L K. induction x as [|a x IH]; intros [|b y] L K; cbn in *; try discriminate; [reflexivity|].
    f_equal; [apply (K 0%nat); reflexivity|]. apply IH; [lia|]. intro i. apply (K (S i)).
  - intros <-. assert (Z : sum2 (fun a b => (a - b) ^ 2) x x = 0).
    { clear. induction x as [|a x IH]; cbn [sum2]; [reflexivity|]. rewrite IH. ring. }
    rewrite Z. unfold Rdiv. rewrite Rmult_0_l. apply sqrt_0.
Qed.

(** ** C68, C70: the rows of the table *)
Section Rows.
Context (stackR : stream RN -> res (list (trace RN)))
        (synO : list RN -> list RN -> list RN -> list RN -> RN -> RN -> nat -> RN -> RN -> res (list RN))
        (pgO : list RN -> list RN -> RN -> res RN).
Variables (rf : stream RN) (po HS VpS VpC rp : R) (Ks Hs : list RN) (ga a b c : R) (wf : @wfit RN).
Hypothesis Run : WaveformFitting stackR synO pgO rf po HS VpS VpC rp Ks Hs ga a b c = Ok wf.

(** Brocher's relations, WaveformFitting.py:113-118. *)
Definition vs_of (v : R) : R := 7858/10000 - 12344/10000 * v + 7949/10000 * v^2 - 1238/10000 * v^3 + 64/10000 * v^4.
Definition rho_of (v : R) : R := 16612/10000 * v - 4721/10000 * v^2 + 671/10000 * v^3 - 43/10000 * v^4 + 106/1000000 * v^5.
(** The synthetic of the grid point (h, k): sediment, crust down to h with Vs = Vp/k, mantle. *)
Definition synthetic_for (tr0 st0 : trace RN) (h k : R) : res (list R) :=
  synO [HS; h; 775/10] [VpS; VpC; 8045/1000] [vs_of VpS; VpC / k; 449/100] [rho_of VpS; rho_of VpC; 3299/1000]
       rp (tr_delta tr0) (length (tr_data st0)) (Rabs po) ga.
Lemma vs_of_R v : @brocher_vs RN v = vs_of v.
Proof. unfold brocher_vs, vs_of. cbn. ring. Qed.
Lemma rho_of_R v : @brocher_rho RN v = rho_of v.
Proof. unfold brocher_rho, rho_of. cbn. ring. Qed.

Lemma para_synth Ps : WaveformPara stackR rf po HS VpS VpC rp Ks Hs ga = Ok Ps ->
  exists tr0 rf' st0 SR s e P, rf = tr0 :: rf' /\ stackR rf = Ok (st0 :: SR) /\ Ps = [P] /\
  fit_window (@taxis RN (tr_delta tr0) (length (tr_data tr0)) po) (tr_delta tr0) = Ok (s, e) /\
  (forall h k, @synth RN synO (wp_HSed P) (wp_VpSed P) (wp_VsSed P) (wp_SedDen P) (wp_VpCrust P) (wp_CrustDen P) h k
     (wp_rayp P) (wp_delta P) (wp_n P) (wp_preonset P) (wp_gauss P) = synthetic_for tr0 st0 h k) /\
  wp_data P = tr_data st0 /\ wp_start P = s /\ wp_end P = e /\ wp_delta P = tr_delta tr0.
Proof.
  clear Run. intro HP.
  destruct (WaveformPara_inv _ _ _ _ _ _ _ _ _ _ _ HP) as (tr0 & rf' & st0 & SR & t0 & ts & s & e & E1 & E2 & E3 & E4 & E5).
  exists tr0, rf', st0, SR, s, e. eexists. split; [exact E1|]. split; [exact E2|]. split; [exact E5|]. rewrite E3. split; [exact E4|].
  cbn [wp_data wp_start wp_end wp_HSed wp_VpSed wp_VsSed wp_SedDen wp_VpCrust wp_CrustDen wp_rayp wp_delta wp_n wp_preonset wp_gauss]. split; [|repeat split].
  intros h k. unfold synth, synthetic_for. rewrite vs_of_R, !rho_of_R.
  assert (Et : @nabs RN t0 = Rabs po).
  { unfold taxis in E3. destruct (length (tr_data tr0)) as [|n]; [cbn in E3; discriminate|]. cbn [seq map] in E3. injection E3 as <- _.
    cbn [nsub nmul nofZ RN nabs Z.of_nat]. change (F RN) with R in *. rewrite Rmult_0_r, Rminus_0_l. apply Rabs_Ropp. }
  rewrite Et. reflexivity.
Qed.
(** The table and its ingredients. *)
Lemma run_inv : exists tr0 rf' st0 SR s e P T mc mr mp, rf = tr0 :: rf' /\ stackR rf = Ok (st0 :: SR) /\
  fit_window (@taxis RN (tr_delta tr0) (length (tr_data tr0)) po) (tr_delta tr0) = Ok (s, e) /\
  mapM (fun kh => eval_node synO pgO P (snd kh) (fst kh)) (list_prod Ks Hs) = Ok T /\
  wf_sols wf = map (with_gof a b c mc mr mp) T /\ best_rows (wf_sols wf) = Ok (wf_printed wf) /\
  (forall h k, @synth RN synO (wp_HSed P) (wp_VpSed P) (wp_VsSed P) (wp_SedDen P) (wp_VpCrust P) (wp_CrustDen P) h k
     (wp_rayp P) (wp_delta P) (wp_n P) (wp_preonset P) (wp_gauss P) = synthetic_for tr0 st0 h k) /\
  wp_data P = tr_data st0 /\ wp_start P = s /\ wp_end P = e /\ wp_delta P = tr_delta tr0.
Proof.
  destruct (wf_inv _ _ _ _ _ _ _ _ _ _ _ _ _ _ _ _ Run) as (P & T & HP & _ & _ & HT & HR & HB & _).
  apply rank_spec in HR as (mc & mr & mp & M1 & M2 & M3 & EW).
  destruct (para_synth _ HP) as (tr0 & rf' & st0 & SR & s & e & P' & E1 & E2 & E3 & E4 & E5). injection E3 as <-.
  exists tr0, rf', st0, SR, s, e, P, T, mc, mr, mp. split; [exact E1|]. split; [exact E2|]. split; [exact E4|]. split; [exact HT|]. split; [exact EW|]. split; [exact HB|]. exact E5.
Qed.
Lemma with_gof_strip mc mr mp s : strip (with_gof a b c mc mr mp s) = s. Proof. destruct s; reflexivity. Qed.

(** C70: the table has one row per grid point, Vp/Vs by Vp/Vs; each row holds the
    correlation and the root mean square difference between the 25 s windows of the
    stacked record and of the synthetic of that grid point. *)
Theorem C70_rows : exists tr0 rf' st0 SR s e, rf = tr0 :: rf' /\ stackR rf = Ok (st0 :: SR) /\
  fit_window (@taxis RN (tr_delta tr0) (length (tr_data tr0)) po) (tr_delta tr0) = Ok (s, e) /\
  map (fun r => (sr_K r, sr_H r)) (wf_sols wf) = list_prod Ks Hs /\
  forall r, In r (wf_sols wf) -> exists sy, synthetic_for tr0 st0 (sr_H r) (sr_K r) = Ok sy /\
    let x := slice (tr_data st0) s e in let y := slice sy s e in
    length x = length y /\ x <> [] /\ sr_rmse r = rms_diff x y /\ (varies x -> varies y -> sr_corr r = pearson x y) /\
    pgO (signs x) (signs y) (tr_delta tr0) = Ok (sr_pg r).
Proof.
  destruct run_inv as (tr0 & rf' & st0 & SR & s & e & P & T & mc & mr & mp & E1 & E2 & E3 & HT & EW & _ & ES & D1 & D2 & D3 & D4).
  exists tr0, rf', st0, SR, s, e. split; [exact E1|]. split; [exact E2|]. split; [exact E3|]. split.
  - rewrite EW, map_map. cbn [with_gof sr_K sr_H]. clear -HT. apply mapM_Ok in HT.
    induction HT as [|[k h] q l T Hsv F IH]; cbn [map]; [reflexivity|]. apply eval_node_HK in Hsv as [Q1 Q2]. cbn [fst snd] in *. rewrite Q1, Q2, IH. reflexivity.
  - intros r Hr. assert (HT' : mapM (fun hk => eval_node synO pgO P (fst hk) (snd hk)) (map (fun p => (snd p, fst p)) (list_prod Ks Hs)) = Ok T).
    { rewrite mapM_map. exact HT. }
    rewrite EW in Hr. apply in_map_iff in Hr as (q & <- & Hq).
    assert (Hq' : In (strip (with_gof a b c mc mr mp q)) T) by (rewrite with_gof_strip; exact Hq).
    destruct (eval_row _ _ _ _ _ _ HT' Hq') as (sy & Hsy & Hc & Hrm & Hp). rewrite ES in Hsy. rewrite D1, D2, D3 in *.
    exists sy. split; [exact Hsy|]. cbv zeta. set (x := slice (tr_data st0) s e) in *. set (y := slice sy s e) in *.
    assert (L : length x = length y /\ x <> []).
    { unfold rmse in Hrm. destruct (length x =? length y)%nat eqn:EL; [|discriminate]. apply Nat.eqb_eq in EL. split; [exact EL|]. intro Z. rewrite Z in Hrm. discriminate. }
    destruct L as [L Hne]. split; [exact L|]. split; [exact Hne|]. split; [|split].
    + pose proof (C70_rmse x y L Hne) as K. assert (X : Ok (sr_rmse (with_gof a b c mc mr mp q)) = Ok (rms_diff x y)) by (rewrite <- K; symmetry; exact Hrm). injection X as X. exact X.
    + intros Vx Vy. destruct (C70_correlation x y L Vx Vy) as [K _].
      assert (X : Ok (sr_corr (with_gof a b c mc mr mp q)) = Ok (pearson x y)) by (rewrite <- K; symmetry; exact Hc). injection X as X. exact X.
    + rewrite <- D4. exact Hp.
Qed.

(** C68: if some grid point reproduces the data in the window, the model reported as
    best by RMSE has RMSE 0 and reproduces the data too; it is that grid point when no
    other one does.  If the data vary in the window, the best correlation is 1. *)
Theorem C68_reproduced tr0 rf' st0 SR s e h k sy :
  rf = tr0 :: rf' -> stackR rf = Ok (st0 :: SR) ->
  fit_window (@taxis RN (tr_delta tr0) (length (tr_data tr0)) po) (tr_delta tr0) = Ok (s, e) ->
  In h Hs -> In k Ks -> synthetic_for tr0 st0 h k = Ok sy -> slice sy s e = slice (tr_data st0) s e ->
  let best := b_rmse (wf_printed wf) in
  sr_rmse best = 0 /\ In (sr_H best) Hs /\ In (sr_K best) Ks /\
  (exists sy', synthetic_for tr0 st0 (sr_H best) (sr_K best) = Ok sy' /\ slice sy' s e = slice (tr_data st0) s e) /\
  ((forall h' k' sy', In h' Hs -> In k' Ks -> synthetic_for tr0 st0 h' k' = Ok sy' -> slice sy' s e = slice (tr_data st0) s e -> h' = h /\ k' = k) ->
   sr_H best = h /\ sr_K best = k) /\
  (varies (slice (tr_data st0) s e) -> sr_corr (b_corr (wf_printed wf)) = 1).
Proof.
  intros E1 E2 E3 Ih Ik Hsy Hw. cbv zeta.
  destruct C70_rows as (tr0' & rf'' & st0' & SR' & s' & e' & F1 & F2 & F3 & FG & FR).
  rewrite E1 in F1. injection F1 as <- <-. rewrite E2 in F2. injection F2 as <- <-. rewrite E3 in F3. injection F3 as <- <-.
  destruct (wf_inv _ _ _ _ _ _ _ _ _ _ _ _ _ _ _ _ Run) as (_ & _ & _ & _ & _ & _ & _ & HB & _).
  apply best_rows_spec in HB as ((i & Hi & A1 & _) & (j & Hj & D1 & _) & _). apply nth_error_In in Hi, Hj.
  assert (Hr : exists r, In r (wf_sols wf) /\ sr_H r = h /\ sr_K r = k).
  { assert (I : In (k, h) (map (fun r => (sr_K r, sr_H r)) (wf_sols wf))) by (rewrite FG; apply in_prod; assumption).
    apply in_map_iff in I as (r & Er & Ir). injection Er as <- <-. exists r. auto. }
  destruct Hr as (r & Ir & Rh & Rk).
  destruct (FR r Ir) as (sy1 & Q1 & L1 & Ne1 & R1 & C1 & _). rewrite Rh, Rk, Hsy in Q1. injection Q1 as <-.
  assert (Z : sr_rmse r = 0) by (rewrite R1; apply rms_diff_zero; [exact L1|exact Ne1|symmetry; exact Hw]).
  destruct (FR _ Hj) as (sy2 & Q2 & L2 & Ne2 & R2 & _).
  assert (Zb : sr_rmse (b_rmse (wf_printed wf)) = 0).
  { specialize (D1 r Ir). assert (0 <= rms_diff (slice (tr_data st0) s e) (slice sy2 s e)) by apply sqrt_pos. change (F RN) with R in *. lra. }
  assert (W2 : slice sy2 s e = slice (tr_data st0) s e).
  { symmetry. apply rms_diff_zero; [exact L2|exact Ne2|rewrite <- R2; exact Zb]. }
  assert (G : In (sr_K (b_rmse (wf_printed wf)), sr_H (b_rmse (wf_printed wf))) (list_prod Ks Hs)).
  { rewrite <- FG. apply (in_map (fun r => (sr_K r, sr_H r)) _ _ Hj). }
  apply in_prod_iff in G as [G1 G2].
  split; [exact Zb|]. split; [exact G2|]. split; [exact G1|]. split; [exists sy2; split; assumption|]. split.
  - intro U. exact (U _ _ _ G2 G1 Q2 W2).
  - intro V. assert (Vy : varies (slice sy s e)) by (rewrite Hw; exact V).
    assert (Cr : sr_corr r = 1).
    { rewrite (C1 V Vy), Hw. apply C70_perfect_correlation; [reflexivity|exact V|exact V|]. exists 1, 0. split; [lra|].
      rewrite <- (map_id (slice (tr_data st0) s e)) at 1. apply map_ext. intro q. ring. }
    specialize (A1 r Ir). assert (Up : sr_corr (b_corr (wf_printed wf)) <= 1).
    { destruct run_inv as (a1 & a2 & a3 & a4 & a5 & a6 & P & T & mc & mr & mp & _ & _ & _ & HT & EW & _).
      rewrite EW in Hi. apply in_map_iff in Hi as (q & Eq & Iq). rewrite <- Eq. cbn [with_gof sr_corr].
      apply mapM_Ok in HT. clear -HT Iq. induction HT as [|kh q' l T Hsv F0 IH]; [destruct Iq|]. destruct Iq as [->|Iq]; [|exact (IH Iq)].
      unfold eval_node in Hsv. apply bind_Ok_inv in Hsv as (u1 & _ & H). apply bind_Ok_inv in H as (u2 & Hc & H). apply bind_Ok_inv in H as (u3 & _ & H). apply bind_Ok_inv in H as (u4 & _ & H).
      injection H as <-. cbn [so_corr]. unfold corrcoef in Hc. destruct (_ =? _)%nat; [|discriminate]. injection Hc as <-. unfold clip1. cbn [nltb nofZ RN].
      change (F RN) with R in *. destruct (Rltb _ (-1)) eqn:B1; [lra|]. destruct (Rltb 1 _) eqn:B2; [lra|]. apply Rltb_false in B2. exact B2. }
    change (F RN) with R in *. lra.
Qed.
End Rows.
