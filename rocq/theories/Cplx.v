(** * Cplx: complex numbers over the reals, unit phases, finite sums.

    General mathematics used by the models of the FFT-based code (numpy's complex
    dtype in exact arithmetic).  Nothing here models rfsed code. *)

From Coq Require Import Reals Lra Ring Field.
From Verif Require Import Base.
Local Open Scope R_scope.

Definition C : Type := (R * R)%type.
Definition Re (z : C) : R := fst z.
Definition Im (z : C) : R := snd z.
Definition RtoC (x : R) : C := (x, 0).
Definition C0 : C := (0, 0).
Definition C1 : C := (1, 0).
Definition Ci : C := (0, 1).
Definition Cadd (a b : C) : C := (fst a + fst b, snd a + snd b).
Definition Copp (a : C) : C := (- fst a, - snd a).
Definition Csub (a b : C) : C := (fst a - fst b, snd a - snd b).
Definition Cmul (a b : C) : C := (fst a * fst b - snd a * snd b, fst a * snd b + snd a * fst b).
Definition Cinv (a : C) : C :=
  (fst a / (fst a * fst a + snd a * snd a), - snd a / (fst a * fst a + snd a * snd a)).
Definition Cdiv (a b : C) : C := Cmul a (Cinv b).
Definition Cconj (a : C) : C := (fst a, - snd a).
Definition Cnorm2 (a : C) : R := fst a * fst a + snd a * snd a.

Declare Scope C_scope.
Delimit Scope C_scope with C.
Bind Scope C_scope with C.
Infix "+" := Cadd : C_scope.
Infix "-" := Csub : C_scope.
Infix "*" := Cmul : C_scope.
Infix "/" := Cdiv : C_scope.
Notation "- x" := (Copp x) : C_scope.
Notation "/ x" := (Cinv x) : C_scope.

Lemma C_eq (a b : C) : Re a = Re b -> Im a = Im b -> a = b.
Proof. destruct a, b; simpl; intros -> ->; reflexivity. Qed.

Ltac cunf := cbv [Re Im RtoC C0 C1 Ci Cadd Copp Csub Cmul Cinv Cdiv Cconj Cnorm2] in *; cbn [fst snd] in *.
Ltac creal := apply C_eq; cunf.

Lemma C_ring : ring_theory C0 C1 Cadd Cmul Csub Copp eq.
Proof. split; intros; creal; ring. Qed.

Lemma sumsq_pos (a b : R) : (a, b) <> C0 -> a * a + b * b <> 0.
Proof.
  intros H E. apply H. assert (a = 0) by nra. assert (b = 0) by nra. subst; reflexivity.
Qed.

Lemma C_field : field_theory C0 C1 Cadd Cmul Csub Copp Cdiv Cinv eq.
Proof.
  split.
  - exact C_ring.
  - intro E. apply (f_equal fst) in E. simpl in E. lra.
  - reflexivity.
  - intros [a b] H. apply sumsq_pos in H. creal; field; exact H.
Qed.
Add Field C_field_inst : C_field.
#[global] Arguments Cadd : simpl never.
#[global] Arguments Cmul : simpl never.
#[global] Arguments Csub : simpl never.
#[global] Arguments Copp : simpl never.
#[global] Arguments Cinv : simpl never.
#[global] Arguments Cdiv : simpl never.
#[global] Arguments Cconj : simpl never.
#[global] Arguments RtoC : simpl never.

Lemma RtoC_add a b : RtoC (a + b) = (RtoC a + RtoC b)%C.
Proof. creal; ring. Qed.
Lemma RtoC_mul a b : RtoC (a * b) = (RtoC a * RtoC b)%C.
Proof. creal; ring. Qed.
Lemma RtoC_opp a : RtoC (- a) = (- RtoC a)%C.
Proof. creal; ring. Qed.
Lemma RtoC_sub a b : RtoC (a - b) = (RtoC a - RtoC b)%C.
Proof. creal; ring. Qed.
Lemma RtoC_inj a b : RtoC a = RtoC b -> a = b.
Proof. intro H. exact (f_equal fst H). Qed.
Lemma RtoC_neq0 a : a <> 0 -> RtoC a <> C0.
Proof. intros H E. apply H. exact (f_equal fst E). Qed.
Lemma RtoC_inv a : a <> 0 -> RtoC (/ a) = (/ RtoC a)%C.
Proof. intro H. creal; field; try (intro E; apply H; nra); exact H. Qed.
Lemma RtoC_div a b : b <> 0 -> RtoC (a / b) = (RtoC a / RtoC b)%C.
Proof. intro H. unfold Rdiv, Cdiv. rewrite RtoC_mul, RtoC_inv by exact H. reflexivity. Qed.
Lemma RtoC_1 : RtoC 1 = C1. Proof. reflexivity. Qed.
Lemma RtoC_0 : RtoC 0 = C0. Proof. reflexivity. Qed.

Lemma Cconj_add a b : Cconj (a + b)%C = (Cconj a + Cconj b)%C.
Proof. creal; ring. Qed.
Lemma Cconj_mul a b : Cconj (a * b)%C = (Cconj a * Cconj b)%C.
Proof. creal; ring. Qed.
Lemma Cconj_conj a : Cconj (Cconj a) = a.
Proof. creal; ring. Qed.
Lemma Cconj_RtoC x : Cconj (RtoC x) = RtoC x.
Proof. creal; ring. Qed.
Lemma Cmul_conj a : (a * Cconj a)%C = RtoC (Cnorm2 a).
Proof. creal; ring. Qed.
Lemma Cnorm2_mul a b : Cnorm2 (a * b)%C = Cnorm2 a * Cnorm2 b.
Proof. cunf; ring. Qed.
Lemma Cnorm2_pos a : 0 <= Cnorm2 a.
Proof. unfold Cnorm2; nra. Qed.
Lemma Cnorm2_0 a : Cnorm2 a = 0 <-> a = C0.
Proof.
  unfold Cnorm2; destruct a as [x y]; simpl. split; intro H.
  - assert (x = 0) by nra. assert (y = 0) by nra. subst; reflexivity.
  - inversion H; ring.
Qed.
Lemma Cmul_0 a b : (a * b)%C = C0 -> a = C0 \/ b = C0.
Proof.
  intro H. assert (E : Cnorm2 a * Cnorm2 b = 0) by (rewrite <- Cnorm2_mul; apply Cnorm2_0; exact H).
  apply Rmult_integral in E. destruct E; [left|right]; apply Cnorm2_0; assumption.
Qed.
Lemma Cmul_neq0 a b : a <> C0 -> b <> C0 -> (a * b)%C <> C0.
Proof. intros Ha Hb E. apply Cmul_0 in E. tauto. Qed.
Lemma Ci2 : (Ci * Ci)%C = (- C1)%C.
Proof. creal; ring. Qed.
Lemma real_part_iff a : Im a = 0 <-> a = RtoC (Re a).
Proof. destruct a as [x y]; cunf; split; intro H; [rewrite H; reflexivity | congruence]. Qed.
Lemma Re_scale x a : Re (RtoC x * a)%C = x * Re a.
Proof. cunf; ring. Qed.
Lemma Im_scale x a : Im (RtoC x * a)%C = x * Im a.
Proof. cunf; ring. Qed.

(** ** Unit phases: [cis t = exp(i t)] *)
Definition cis (t : R) : C := (cos t, sin t).
Lemma cis_0 : cis 0 = C1.
Proof. unfold cis. rewrite cos_0, sin_0; reflexivity. Qed.
Lemma cis_add a b : cis (a + b) = (cis a * cis b)%C.
Proof. unfold cis; creal; [rewrite cos_plus|rewrite sin_plus]; ring. Qed.
Lemma cis_neg a : cis (- a) = Cconj (cis a).
Proof. unfold cis; creal; [rewrite cos_neg|rewrite sin_neg]; ring. Qed.
Lemma cis_norm a : Cnorm2 (cis a) = 1.
Proof. unfold Cnorm2; simpl. pose proof (sin2_cos2 a) as H. unfold Rsqr in H. lra. Qed.
Lemma cis_neq0 a : cis a <> C0.
Proof. intro H. apply Cnorm2_0 in H. rewrite cis_norm in H. lra. Qed.

Lemma cis_2PI_nat (n : nat) : cis (2 * PI * INR n) = C1.
Proof.
  unfold cis. replace (2 * PI * INR n) with (0 + 2 * INR n * PI) by ring.
  rewrite cos_period, sin_period, cos_0, sin_0. reflexivity.
Qed.
Lemma cis_2PI (z : Z) : cis (2 * PI * IZR z) = C1.
Proof.
  destruct (Z_le_dec 0 z) as [H|H].
  - rewrite <- (Z2Nat.id z H), <- INR_IZR_INZ. apply cis_2PI_nat.
  - replace (2 * PI * IZR z) with (- (2 * PI * IZR (- z))) by (rewrite opp_IZR; ring).
    rewrite cis_neg. replace (- z)%Z with (Z.of_nat (Z.to_nat (- z))) by lia.
    rewrite <- INR_IZR_INZ, cis_2PI_nat. creal; ring.
Qed.

Lemma cis_eq_1 t : cis t = C1 -> exists k : Z, t = 2 * PI * IZR k.
Proof.
  intro H. assert (Hc : cos t = 1) by exact (f_equal fst H).
  replace t with (2 * (t / 2)) in Hc by field. rewrite cos_2a_sin in Hc.
  assert (S : sin (t / 2) = 0) by nra.
  apply sin_eq_0_0 in S. destruct S as [k Hk]. exists k. lra.
Qed.

(** ** Finite sums [f 0 + ... + f (n-1)] *)
Fixpoint csum (n : nat) (f : nat -> C) : C :=
  match n with O => C0 | S m => (csum m f + f m)%C end.
Fixpoint rsum (n : nat) (f : nat -> R) : R :=
  match n with O => 0 | S m => rsum m f + f m end.

Lemma csum_ext n f g : (forall j, (j < n)%nat -> f j = g j) -> csum n f = csum n g.
Proof.
  induction n as [|n IH]; intro H; simpl; [reflexivity|].
  rewrite IH by (intros; apply H; lia). rewrite (H n) by lia. reflexivity.
Qed.
Lemma rsum_ext n f g : (forall j, (j < n)%nat -> f j = g j) -> rsum n f = rsum n g.
Proof.
  induction n as [|n IH]; intro H; simpl; [reflexivity|].
  rewrite IH by (intros; apply H; lia). rewrite (H n) by lia. reflexivity.
Qed.
Lemma csum_add n f g : csum n (fun j => f j + g j)%C = (csum n f + csum n g)%C.
Proof. induction n as [|n IH]; simpl; [ring|]. rewrite IH; ring. Qed.
Lemma rsum_add n f g : rsum n (fun j => f j + g j) = rsum n f + rsum n g.
Proof. induction n as [|n IH]; simpl; [ring|]. rewrite IH; ring. Qed.
Lemma csum_scale n c f : csum n (fun j => c * f j)%C = (c * csum n f)%C.
Proof. induction n as [|n IH]; simpl; [ring|]. rewrite IH; ring. Qed.
Lemma rsum_scale n c f : rsum n (fun j => c * f j) = c * rsum n f.
Proof. induction n as [|n IH]; simpl; [ring|]. rewrite IH; ring. Qed.
Lemma csum_0 n : csum n (fun _ => C0) = C0.
Proof. induction n as [|n IH]; simpl; [reflexivity|]. rewrite IH; ring. Qed.
Lemma rsum_0 n : rsum n (fun _ => 0) = 0.
Proof. induction n as [|n IH]; simpl; [reflexivity|]. rewrite IH; ring. Qed.
Lemma csum_const n c : csum n (fun _ => c) = (RtoC (INR n) * c)%C.
Proof.
  induction n as [|n IH]; simpl csum; [simpl; change (RtoC 0) with C0; ring|].
  rewrite IH, S_INR, RtoC_add. change (RtoC 1) with C1. ring.
Qed.
Lemma rsum_const n c : rsum n (fun _ => c) = INR n * c.
Proof. induction n as [|n IH]; simpl rsum; [simpl; ring|]. rewrite IH, S_INR. ring. Qed.
Lemma csum_swap n m f : csum n (fun i => csum m (f i)) = csum m (fun j => csum n (fun i => f i j)).
Proof.
  induction n as [|n IH]; simpl.
  - rewrite csum_0; reflexivity.
  - rewrite IH, <- csum_add. reflexivity.
Qed.
Lemma rsum_swap n m f : rsum n (fun i => rsum m (f i)) = rsum m (fun j => rsum n (fun i => f i j)).
Proof.
  induction n as [|n IH]; simpl.
  - rewrite rsum_0; reflexivity.
  - rewrite IH, <- rsum_add. reflexivity.
Qed.
Lemma csum_conj n f : Cconj (csum n f) = csum n (fun j => Cconj (f j)).
Proof.
  induction n as [|n IH]; simpl; [creal; ring|]. rewrite Cconj_add, IH; reflexivity.
Qed.
Lemma csum_RtoC n f : csum n (fun j => RtoC (f j)) = RtoC (rsum n f).
Proof. induction n as [|n IH]; simpl; [reflexivity|]. rewrite IH, RtoC_add. reflexivity. Qed.
Lemma Re_csum n f : Re (csum n f) = rsum n (fun j => Re (f j)).
Proof. induction n as [|n IH]; simpl; [reflexivity|]. rewrite <- IH. reflexivity. Qed.
Lemma Im_csum n f : Im (csum n f) = rsum n (fun j => Im (f j)).
Proof. induction n as [|n IH]; simpl; [reflexivity|]. rewrite <- IH. reflexivity. Qed.
Lemma rsum_nonneg n f : (forall j, (j < n)%nat -> 0 <= f j) -> 0 <= rsum n f.
Proof.
  induction n as [|n IH]; intro H; simpl; [lra|].
  pose proof (IH ltac:(intros; apply H; lia)). pose proof (H n ltac:(lia)). lra.
Qed.
Lemma rsum_le n f g : (forall j, (j < n)%nat -> f j <= g j) -> rsum n f <= rsum n g.
Proof.
  induction n as [|n IH]; intro H; simpl; [lra|].
  pose proof (IH ltac:(intros; apply H; lia)). pose proof (H n ltac:(lia)). lra.
Qed.
Lemma rsum_zero_all n f : (forall j, (j < n)%nat -> 0 <= f j) -> rsum n f = 0 ->
  forall j, (j < n)%nat -> f j = 0.
Proof.
  induction n as [|n IH]; intros H E j Hj; [lia|]. simpl in E.
  pose proof (rsum_nonneg n f ltac:(intros; apply H; lia)).
  pose proof (H n ltac:(lia)).
  destruct (Nat.eq_dec j n) as [->|]; [lra|]. apply IH; [intros; apply H; lia|lra|lia].
Qed.

(** Only one non-zero term. *)
Lemma csum_single n f i : (i < n)%nat -> (forall j, (j < n)%nat -> j <> i -> f j = C0) ->
  csum n f = f i.
Proof.
  induction n as [|n IH]; intros Hi H; [lia|]. simpl.
  destruct (Nat.eq_dec i n) as [->|Hn].
  - rewrite (csum_ext n f (fun _ => C0)) by (intros; apply H; lia). rewrite csum_0; ring.
  - rewrite IH by (try lia; intros; apply H; lia). rewrite (H n) by lia. ring.
Qed.
Lemma rsum_single n f i : (i < n)%nat -> (forall j, (j < n)%nat -> j <> i -> f j = 0) ->
  rsum n f = f i.
Proof.
  induction n as [|n IH]; intros Hi H; [lia|]. simpl.
  destruct (Nat.eq_dec i n) as [->|Hn].
  - rewrite (rsum_ext n f (fun _ => 0)) by (intros; apply H; lia). rewrite rsum_0; ring.
  - rewrite IH by (try lia; intros; apply H; lia). rewrite (H n) by lia. ring.
Qed.

(** Sum of a periodic function over a shifted period. *)
Lemma rsum_split n m f : rsum (n + m) f = rsum n f + rsum m (fun j => f (n + j)%nat).
Proof.
  induction m as [|m IH]; [rewrite Nat.add_0_r; simpl; ring|].
  rewrite Nat.add_succ_r. simpl. rewrite IH. ring.
Qed.
Lemma csum_split n m f : csum (n + m) f = (csum n f + csum m (fun j => f (n + j)%nat))%C.
Proof.
  induction m as [|m IH]; [rewrite Nat.add_0_r; simpl; ring|].
  rewrite Nat.add_succ_r. simpl. rewrite IH. ring.
Qed.

Lemma rsum_rot n s (f : nat -> R) : (0 < n)%nat -> (s <= n)%nat ->
  rsum n (fun j => f ((j + s) mod n)%nat) = rsum n f.
Proof.
  intros Hn Hs. replace n with ((n - s) + s)%nat at 1 by lia. rewrite rsum_split.
  rewrite (rsum_ext (n - s) _ (fun j => f (s + j)%nat)).
  2:{ intros j Hj. rewrite Nat.mod_small by lia. f_equal; lia. }
  rewrite (rsum_ext s (fun j => f ((n - s + j + s) mod n)%nat) f).
  2:{ intros j Hj. replace (n - s + j + s)%nat with (j + 1 * n)%nat by lia.
      rewrite Nat.mod_add by lia.
      destruct (Nat.eq_dec s n) as [->|]; rewrite Nat.mod_small by lia; reflexivity. }
  replace n with (s + (n - s))%nat at 2 by lia. rewrite rsum_split. ring.
Qed.
