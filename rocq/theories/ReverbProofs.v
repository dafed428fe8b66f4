(** * ReverbProofs: lemmas about the resonance filter model. *)

From Coq Require Import Reals Lra.
From Verif Require Import Base Num NumPy HkModel Cplx DFT ReverbModel.

(** ** Peaks *)

(** A (possibly flat) strict local maximum of a list, from index [a] to [b]. *)
Definition plateau {N : Num} (x : list N) (a b : nat) : Prop :=
  1 <= a /\ a <= b /\ b + 1 < length x /\
  nltb (at_ x (a - 1)) (at_ x a) = true /\
  (forall i, a < i -> i <= b -> neqb (at_ x i) (at_ x a) = true) /\
  nltb (at_ x (b + 1)) (at_ x a) = true.

Section Peaks.
Context {N : Num} (L : OrdLaws N).

Lemma ltb_not_eqb (u v : N) : nltb u v = true -> neqb u v = false.
Proof.
  intro H. rewrite (eqb_leb N L).
  destruct (nisnan u) eqn:Hu; [rewrite (ltb_nan_l N L) in H by exact Hu; discriminate|].
  destruct (nisnan v) eqn:Hv; [rewrite (ltb_nan_r N L) in H by exact Hv; discriminate|].
  rewrite (ltb_leb N L) in H by assumption. apply negb_true_iff in H. rewrite H. apply andb_false_r.
Qed.

Lemma lm_ahead_spec (x : list N) imax v fuel : forall ia,
  ia + fuel = imax ->
  let r := lm_ahead x imax v ia fuel in
  ia <= r /\ r <= imax /\ (forall i, ia <= i -> i < r -> neqb (at_ x i) v = true) /\
  (r < imax -> neqb (at_ x r) v = false).
Proof.
  induction fuel as [|fuel IH]; intros ia H; simpl.
  - split; [lia|]. split; [lia|]. split; [intros; lia|intros; lia].
  - destruct (Nat.ltb_spec ia imax) as [Hi|Hi]; [|lia]. simpl.
    destruct (neqb (at_ x ia) v) eqn:E.
    + destruct (IH (S ia) ltac:(lia)) as (A&B&C&D). repeat split; auto; try lia.
      intros i H1 H2. destruct (Nat.eq_dec i ia) as [->|]; [exact E|]. apply C; lia.
    + repeat split; auto; try lia.
Qed.

(** A plateau starting at [i] is exactly what the inner loop looks for. *)
Lemma plateau_ahead (x : list N) i b : plateau x i b ->
  lm_ahead x (length x - 1) (at_ x i) (S i) (length x - 1 - S i) = b + 1.
Proof.
  intros (H1&H2&H3&H4&H5&H6).
  destruct (lm_ahead_spec x (length x - 1) (at_ x i) (length x - 1 - S i) (S i) ltac:(lia)) as (A&B&C&D).
  set (r := lm_ahead _ _ _ _ _) in *.
  destruct (Nat.lt_trichotomy r (b + 1)) as [Hl|[E|Hg]]; [|exact E|]; exfalso.
  - assert (E : neqb (at_ x r) (at_ x i) = true) by (apply H5; lia). rewrite D in E by lia. discriminate.
  - assert (E : neqb (at_ x (b + 1)) (at_ x i) = true) by (apply C; lia).
    rewrite (ltb_not_eqb _ _ H6) in E. discriminate.
Qed.

Lemma lm_loop_spec (x : list N) fuel : forall i,
  1 <= i -> length x - 1 <= i + fuel ->
  (forall a b, plateau x a b -> i <= a) ->
  match lm_loop x (length x - 1) i fuel with
  | [] => forall a b, ~ plateau x a b
  | m :: _ => exists a b, plateau x a b /\ m = (a + b) / 2 /\ forall a' b', plateau x a' b' -> a <= a'
  end.
Proof.
  induction fuel as [|fuel IH]; intros i Hi Hf Hmin; simpl.
  - intros a b P. pose proof (Hmin a b P). destruct P as (P1&P2&P3&_). lia.
  - destruct (Nat.ltb_spec i (length x - 1)) as [Hlt|Hge].
    2:{ intros a b P. pose proof (Hmin a b P). destruct P as (P1&P2&P3&_). lia. }
    assert (Next : (forall b, ~ plateau x i b) ->
      match lm_loop x (length x - 1) (S i) fuel with
      | [] => forall a b, ~ plateau x a b
      | m :: _ => exists a b, plateau x a b /\ m = (a + b) / 2 /\ forall a' b', plateau x a' b' -> a <= a'
      end).
    { intro Hno. apply IH; [lia|lia|]. intros a b P. pose proof (Hmin a b P) as Ha.
      destruct (Nat.eq_dec a i) as [->|]; [|lia]. exfalso. exact (Hno b P). }
    destruct (nltb (at_ x (i - 1)) (at_ x i)) eqn:E1.
    2:{ apply Next. intros b (_&_&_&P&_). congruence. }
    destruct (lm_ahead_spec x (length x - 1) (at_ x i) (length x - 1 - S i) (S i) ltac:(lia)) as (A&B&C&D).
    destruct (nltb (at_ x (lm_ahead x (length x - 1) (at_ x i) (S i) (length x - 1 - S i))) (at_ x i)) eqn:E2.
    + set (r := lm_ahead _ _ _ _ _) in *.
      exists i, (r - 1). split; [|split; [reflexivity|exact Hmin]].
      repeat split; try lia; auto.
      * intros j J1 J2. apply C; lia.
      * replace (r - 1 + 1) with r by lia. exact E2.
    + apply Next. intros b P. pose proof (plateau_ahead x i b P) as E. rewrite E in E2.
      destruct P as (_&_&_&_&_&P). congruence.
Qed.

Lemma find_peaks_spec (x : list N) :
  match find_peaks x with
  | [] => forall a b, ~ plateau x a b
  | m :: _ => exists a b, plateau x a b /\ m = (a + b) / 2 /\ forall a' b', plateau x a' b' -> a <= a'
  end.
Proof.
  apply lm_loop_spec; [lia|lia|]. intros a b (P&_). exact P.
Qed.
End Peaks.

Local Open Scope R_scope.

(** ** Frequency vector *)

Lemma zarange_length a b : length (zarange a b) = Z.to_nat (b - a).
Proof. unfold zarange. rewrite map_length, seq_length. reflexivity. Qed.
Lemma zarange_nth a b k : (k < Z.to_nat (b - a))%nat -> nth k (zarange a b) 0%Z = (a + Z.of_nat k)%Z.
Proof. intro H. unfold zarange. apply (nth_map_seq (fun i => (a + Z.of_nat i)%Z) 0%Z _ k H). Qed.

Lemma div2_bounds (n : nat) :
  (2 * (Z.of_nat n / 2) <= Z.of_nat n < 2 * (Z.of_nat n / 2) + 2)%Z /\
  (2 * ((- Z.of_nat n) / 2) <= - Z.of_nat n < 2 * ((- Z.of_nat n) / 2) + 2)%Z.
Proof.
  pose proof (Z.div_mod (Z.of_nat n) 2 ltac:(lia)). pose proof (Z.mod_pos_bound (Z.of_nat n) 2 ltac:(lia)).
  pose proof (Z.div_mod (- Z.of_nat n) 2 ltac:(lia)). pose proof (Z.mod_pos_bound (- Z.of_nat n) 2 ltac:(lia)).
  lia.
Qed.

Lemma freq_index_length n : (1 <= n)%nat -> length (freq_index n) = n.
Proof.
  intro Hn. unfold freq_index. rewrite app_length, !zarange_length.
  pose proof (div2_bounds n). lia.
Qed.

Lemma freq_index_nth n k : (k < n)%nat ->
  exists q, nth k (freq_index n) 0%Z = (Z.of_nat k + q * Z.of_nat n)%Z.
Proof.
  intro Hk. unfold freq_index. pose proof (div2_bounds n) as [B1 B2].
  destruct (Nat.lt_ge_cases k (Z.to_nat (Z.of_nat n / 2 + 1 - 0))) as [H|H].
  - rewrite app_nth1 by (rewrite zarange_length; exact H). rewrite zarange_nth by exact H. exists 0%Z. lia.
  - rewrite app_nth2 by (rewrite zarange_length; exact H). rewrite zarange_length.
    rewrite zarange_nth by lia. exists (-1)%Z. lia.
Qed.

(** ** Sums of samples *)

Lemma rsum_shift_le n (f : nat -> R) s : (forall j, 0 <= f j) -> (s <= n)%nat ->
  rsum n (fun j => if (s <=? j)%nat then f (j - s)%nat else 0) <= rsum n f.
Proof.
  intros Hf Hs. replace n with (s + (n - s))%nat at 1 by lia. rewrite rsum_split.
  rewrite (rsum_ext s _ (fun _ => 0)).
  2:{ intros j Hj. destruct (Nat.leb_spec s j); [lia|reflexivity]. }
  rewrite rsum_0. rewrite (rsum_ext (n - s) _ f).
  2:{ intros j Hj. destruct (Nat.leb_spec s (s + j)); [f_equal; lia|lia]. }
  replace n with ((n - s) + s)%nat at 2 by lia. rewrite rsum_split.
  pose proof (rsum_nonneg s (fun j => f (n - s + j)%nat) ltac:(intros; apply Hf)). lra.
Qed.

Lemma rsum_ahead_le n (f : nat -> R) s : (forall j, 0 <= f j) -> (forall j, (n <= j)%nat -> f j = 0) ->
  rsum n (fun j => f (j + s)%nat) <= rsum n f.
Proof.
  intros Hf H0. destruct (Nat.le_gt_cases s n) as [Hs|Hs].
  - replace n with ((n - s) + s)%nat at 1 by lia. rewrite rsum_split.
    rewrite (rsum_ext s _ (fun _ => 0)) by (intros j Hj; apply H0; lia). rewrite rsum_0.
    replace n with (s + (n - s))%nat at 2 by lia. rewrite rsum_split.
    rewrite (rsum_ext (n - s) (fun j => f (j + s)%nat) (fun j => f (s + j)%nat)) by (intros; f_equal; lia).
    pose proof (rsum_nonneg s f ltac:(intros; apply Hf)). lra.
  - rewrite (rsum_ext n _ (fun _ => 0)) by (intros j Hj; apply H0; lia). rewrite rsum_0.
    apply rsum_nonneg. intros; apply Hf.
Qed.

(** ** Autocorrelation *)

Definition lagged (d : list R) (lag : Z) (j : nat) : R :=
  if (0 <=? Z.of_nat j + lag)%Z then rnth d (Z.to_nat (Z.of_nat j + lag)) else 0.
Definition energy (d : list R) : R := rsum (length d) (fun j => rnth d j * rnth d j).

Lemma rnth_over d j : (length d <= j)%nat -> rnth d j = 0.
Proof. apply nth_overflow. Qed.

Lemma lagged_energy d lag : rsum (length d) (fun j => lagged d lag j * lagged d lag j) <= energy d.
Proof.
  unfold energy. set (f := fun j => rnth d j * rnth d j).
  assert (Hf : forall j, 0 <= f j) by (intro j; unfold f; nra).
  assert (H0 : forall j, (length d <= j)%nat -> f j = 0).
  { intros j Hj. unfold f. rewrite rnth_over by exact Hj. ring. }
  destruct (Z_le_dec 0 lag) as [Hp|Hn].
  - rewrite (rsum_ext _ _ (fun j => f (j + Z.to_nat lag)%nat)).
    + apply rsum_ahead_le; assumption.
    + intros j _. unfold lagged, f. destruct (Z.leb_spec 0 (Z.of_nat j + lag)); [|lia].
      replace (Z.to_nat (Z.of_nat j + lag)) with (j + Z.to_nat lag)%nat by lia. reflexivity.
  - set (s := Z.to_nat (- lag)). destruct (Nat.le_gt_cases s (length d)) as [Hs|Hs].
    + rewrite (rsum_ext _ _ (fun j => if (s <=? j)%nat then f (j - s)%nat else 0)).
      * apply rsum_shift_le; assumption.
      * intros j _. unfold lagged, f. destruct (Nat.leb_spec s j); destruct (Z.leb_spec 0 (Z.of_nat j + lag)); try lia; try ring.
        replace (Z.to_nat (Z.of_nat j + lag)) with (j - s)%nat by lia. reflexivity.
    + rewrite (rsum_ext _ _ (fun _ => 0)).
      * rewrite rsum_0. apply rsum_nonneg. intros; apply Hf.
      * intros j Hj. unfold lagged. destruct (Z.leb_spec 0 (Z.of_nat j + lag)); [lia|ring].
Qed.

Lemma corr_bound d lag : - energy d <= corr_at d lag <= energy d.
Proof.
  pose proof (lagged_energy d lag) as HL. unfold corr_at. fold (lagged d lag).
  change (rsum (length d) _) with (rsum (length d) (fun j => lagged d lag j * rnth d j)).
  assert (H1 : rsum (length d) (fun j => lagged d lag j * rnth d j) <=
     rsum (length d) (fun j => / 2 * (lagged d lag j * lagged d lag j) + / 2 * (rnth d j * rnth d j))).
  { apply rsum_le. intros j _. pose proof (Rle_0_sqr (lagged d lag j - rnth d j)) as Q. unfold Rsqr in Q. lra. }
  assert (H2 : rsum (length d) (fun j => - / 2 * (lagged d lag j * lagged d lag j) + - / 2 * (rnth d j * rnth d j)) <=
     rsum (length d) (fun j => lagged d lag j * rnth d j)).
  { apply rsum_le. intros j _. pose proof (Rle_0_sqr (lagged d lag j + rnth d j)) as Q. unfold Rsqr in Q. lra. }
  rewrite rsum_add, !rsum_scale in H1, H2. unfold energy in *. lra.
Qed.

Lemma corr_0 d : corr_at d 0 = energy d.
Proof.
  unfold corr_at, energy. apply rsum_ext. intros j _. rewrite Z.add_0_r.
  destruct (Z.leb_spec 0 (Z.of_nat j)); [|lia]. rewrite Nat2Z.id. reflexivity.
Qed.

Lemma fold_Rmax_ge l : forall x, x <= fold_left Rmax l x /\ (forall y, In y l -> y <= fold_left Rmax l x).
Proof.
  induction l as [|z l IH]; intro x; simpl; [split; [lra|tauto]|].
  destruct (IH (Rmax x z)) as [A B]. pose proof (Rmax_l x z). pose proof (Rmax_r x z).
  split; [lra|]. intros y [->|Hy]; [lra|auto].
Qed.
Lemma fold_Rmax_in l : forall x, fold_left Rmax l x = x \/ In (fold_left Rmax l x) l.
Proof.
  induction l as [|z l IH]; intro x; simpl; [auto|].
  destruct (IH (Rmax x z)) as [A|A]; [|auto]. rewrite A. unfold Rmax. destruct (Rle_dec x z); auto.
Qed.
Lemma rmax_unique l m v : rmax l = Ok m -> In v l -> (forall y, In y l -> y <= v) -> m = v.
Proof.
  destruct l as [|x l]; simpl; [discriminate|]. intros E Hv Hall. injection E as <-.
  destruct (fold_Rmax_ge l x) as [A B].
  assert (v <= fold_left Rmax l x) by (destruct Hv as [<-|Hv]; auto).
  assert (fold_left Rmax l x <= v) by (destruct (fold_Rmax_in l x) as [E|E]; [rewrite E|]; apply Hall; auto).
  lra.
Qed.

Lemma rmax_correlate d : (1 <= length d)%nat -> rmax (correlate_full d) = Ok (energy d).
Proof.
  intro Hn. destruct (rmax (correlate_full d)) as [m|e] eqn:E.
  - f_equal. eapply rmax_unique; [exact E| |].
    + unfold correlate_full. apply in_map_iff. exists (length d - 1)%nat. split.
      * replace (Z.of_nat (length d - 1) - (Z.of_nat (length d) - 1))%Z with 0%Z by lia. apply corr_0.
      * apply in_seq. lia.
    + intros y Hy. unfold correlate_full in Hy. apply in_map_iff in Hy. destruct Hy as [m' [<- _]].
      apply corr_bound.
  - exfalso. unfold correlate_full in E. destruct (2 * length d - 1)%nat eqn:E2; [lia|]. discriminate E.
Qed.

(** The kept half of the autocorrelation: lags 0 .. n-1. *)
Lemma skipn_seq k s n : skipn k (seq s n) = seq (s + k) (n - k).
Proof.
  revert s n; induction k as [|k IH]; intros s n; simpl; [rewrite Nat.add_0_r, Nat.sub_0_r; reflexivity|].
  destruct n as [|n]; simpl; [reflexivity|]. rewrite IH. f_equal. lia.
Qed.
Lemma firstn_seq k s n : firstn k (seq s n) = seq s (Nat.min k n).
Proof.
  revert s n; induction k as [|k IH]; intros s n; simpl; [reflexivity|].
  destruct n as [|n]; simpl; [reflexivity|]. rewrite IH. reflexivity.
Qed.
Lemma map_seq_shift {A} (f : nat -> A) s n : map f (seq s n) = map (fun k => f (s + k)%nat) (seq 0 n).
Proof.
  revert s; induction n as [|n IH]; intro s; simpl; [reflexivity|].
  rewrite Nat.add_0_r. f_equal. rewrite (IH (S s)), <- seq_shift, map_map.
  apply map_ext. intro k. f_equal. lia.
Qed.

Lemma slice_correlate d (f : R -> R) :
  slice (map f (correlate_full d)) (length d - 1) (2 * length d - 1)
  = map (fun k => f (corr_at d (Z.of_nat k))) (seq 0 (length d)).
Proof.
  unfold slice, correlate_full. set (n := length d).
  destruct (Nat.eq_dec n 0) as [E|E]; [rewrite E; reflexivity|].
  rewrite map_map, skipn_map, firstn_map, skipn_seq, firstn_seq.
  rewrite map_seq_shift.
  replace (Nat.min (2 * n - 1 - (n - 1)) (2 * n - 1 - (n - 1)))%nat with n by lia.
  apply map_ext. intro k. f_equal. f_equal. lia.
Qed.

(** ** Detrending *)

Lemma rsum_INR n : rsum n INR = INR n * (INR n - 1) / 2.
Proof. induction n as [|n IH]; simpl rsum; [simpl; field|]. rewrite IH, S_INR. field. Qed.

Lemma centred_sum n : rsum n (fun j => INR j - centre n) = 0.
Proof.
  rewrite (rsum_ext n _ (fun j => INR j + - centre n)) by (intros; ring).
  rewrite rsum_add, rsum_const, rsum_INR. unfold centre. field.
Qed.

Lemma centred_sq_pos n : (2 <= n)%nat -> 0 < rsum n (fun j => (INR j - centre n) * (INR j - centre n)).
Proof.
  intro Hn. pose proof (rsum_nonneg n (fun j => (INR j - centre n) * (INR j - centre n)) ltac:(intros; apply Rle_0_sqr)) as H.
  destruct (Rle_lt_or_eq_dec _ _ H) as [|E]; [assumption|]. exfalso.
  pose proof (rsum_zero_all n _ (fun j _ => Rle_0_sqr (INR j - centre n)) (eq_sym E)) as Z.
  pose proof (Z 0%nat ltac:(lia)) as Z0. pose proof (Z 1%nat ltac:(lia)) as Z1.
  apply Rmult_integral in Z0, Z1. simpl in Z0, Z1. lra.
Qed.

Lemma detrend_length d : length (detrend d) = length d.
Proof. unfold detrend. rewrite map_length, seq_length. reflexivity. Qed.
Lemma detrend_nth d j : (j < length d)%nat ->
  rnth (detrend d) j = rnth d j - rmean d - slope d * (INR j - centre (length d)).
Proof. intro H. unfold rnth at 1, detrend. rewrite nth_map_seq by exact H. reflexivity. Qed.
Lemma demean_length d : length (demean d) = length d.
Proof. apply map_length. Qed.
Lemma rnth_map (f : R -> R) d j : (j < length d)%nat -> rnth (map f d) j = f (rnth d j).
Proof.
  intro H. unfold rnth. rewrite (nth_indep _ 0 (f 0)) by (rewrite map_length; exact H). apply map_nth.
Qed.
Lemma demean_nth d j : (j < length d)%nat -> rnth (demean d) j = rnth d j - rmean d.
Proof. intro H. apply (rnth_map (fun x => x - rmean d) d j H). Qed.

(** If [d' = d + a + b j] then the residuals agree. *)
Lemma detrend_affine d d' a b : length d' = length d ->
  (forall j, (j < length d)%nat -> rnth d' j = rnth d j + a + b * INR j) ->
  detrend d' = detrend d.
Proof.
  intros HL H. apply rlist_ext; [rewrite !detrend_length; exact HL|].
  rewrite detrend_length, HL. intros j Hj. rewrite !detrend_nth by (rewrite ?HL; exact Hj).
  set (n := length d) in *. assert (Hn : (1 <= n)%nat) by lia.
  assert (HnR : INR n <> 0) by (apply not_0_INR; lia).
  assert (Hm : rmean d' = rmean d + a + b * centre n).
  { unfold rmean. rewrite HL. fold n. rewrite (rsum_ext n (rnth d') (fun j => (rnth d j + a) + b * INR j)) by exact H.
    rewrite rsum_add, rsum_scale, rsum_INR, rsum_add, rsum_const. unfold centre. field. exact HnR. }
  rewrite Hm, H by exact Hj. rewrite HL. fold n.
  destruct (Nat.eq_dec n 1) as [E1|E1].
  - assert (Ej : j = 0%nat) by lia. subst j. rewrite E1. unfold centre. simpl. field.
  - assert (Hs : slope d' = slope d + b).
    { unfold slope. rewrite HL. fold n.
      pose proof (centred_sq_pos n ltac:(lia)) as P.
      set (S := rsum n (fun j => (INR j - centre n) * (INR j - centre n))) in *.
      rewrite (rsum_ext n (fun j => (INR j - centre n) * rnth d' j)
         (fun j => (INR j - centre n) * rnth d j + ((a + b * centre n) * (INR j - centre n)
                   + b * ((INR j - centre n) * (INR j - centre n))))).
      2:{ intros i Hi. rewrite H by exact Hi. ring. }
      rewrite rsum_add, rsum_add, !rsum_scale, centred_sum. fold S. field. lra. }
    rewrite Hs. ring.
Qed.

Lemma detrend_demean d : detrend (demean d) = detrend d.
Proof.
  apply (detrend_affine d (demean d) (- rmean d) 0); [apply demean_length|].
  intros j Hj. rewrite demean_nth by exact Hj. ring.
Qed.

Lemma detrend_sum d : rsum (length d) (rnth (detrend d)) = 0.
Proof.
  destruct (Nat.eq_dec (length d) 0) as [E|E]; [rewrite E; reflexivity|].
  assert (HnR : INR (length d) <> 0) by (apply not_0_INR; lia).
  rewrite (rsum_ext _ _ (fun j => rnth d j + (- rmean d + (- slope d) * (INR j - centre (length d))))).
  2:{ intros j Hj. rewrite detrend_nth by exact Hj. ring. }
  rewrite rsum_add, rsum_add, rsum_scale, rsum_const, centred_sum. unfold rmean. field. exact HnR.
Qed.

Lemma detrend_moment d : rsum (length d) (fun j => INR j * rnth (detrend d) j) = 0.
Proof.
  pose proof (detrend_sum d) as S0.
  destruct (Nat.le_gt_cases 2 (length d)) as [H2|H2].
  - pose proof (centred_sq_pos _ H2) as P.
    rewrite (rsum_ext _ _ (fun j => (INR j - centre (length d)) * rnth (detrend d) j
                                    + centre (length d) * rnth (detrend d) j)) by (intros; ring).
    rewrite rsum_add, rsum_scale, S0.
    rewrite (rsum_ext _ _ (fun j => (INR j - centre (length d)) * rnth d j +
        ((- rmean d) * (INR j - centre (length d)) +
         (- slope d) * ((INR j - centre (length d)) * (INR j - centre (length d)))))).
    2:{ intros j Hj. rewrite detrend_nth by exact Hj. ring. }
    rewrite rsum_add, rsum_add, !rsum_scale, centred_sum. unfold slope. cbn zeta. field. lra.
  - destruct (length d) as [|[|n]] eqn:E; try lia; simpl in *; lra.
Qed.

Lemma detrend_scale d c : detrend (map (Rmult c) d) = map (Rmult c) (detrend d).
Proof.
  apply rlist_ext; [rewrite map_length, !detrend_length, map_length; reflexivity|].
  rewrite detrend_length, map_length. intros j Hj.
  rewrite rnth_map by (rewrite detrend_length; exact Hj).
  rewrite !detrend_nth by (rewrite ?map_length; exact Hj). rewrite map_length.
  rewrite rnth_map by exact Hj.
  assert (Hm : rmean (map (Rmult c) d) = c * rmean d).
  { unfold rmean. rewrite map_length. rewrite (rsum_ext _ _ (fun j => c * rnth d j)) by (intros; apply rnth_map; assumption).
    rewrite rsum_scale. unfold Rdiv; ring. }
  assert (Hs : slope (map (Rmult c) d) = c * slope d).
  { unfold slope. rewrite map_length.
    rewrite (rsum_ext _ _ (fun j => c * ((INR j - centre (length d)) * rnth d j))).
    2:{ intros i Hi. rewrite rnth_map by assumption. ring. }
    rewrite rsum_scale. unfold Rdiv; ring. }
  rewrite Hm, Hs. ring.
Qed.
