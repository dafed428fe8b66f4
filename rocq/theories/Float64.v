(** * Float64: the binary64 instance [B64] computes the correctly rounded results.
    Link between Coq's [SpecFloat] operations (used by [B64]) and Flocq's theorems about
    [BinarySingleNaN]; the standard error model. *)

From Coq Require Import ZArith Reals Lra Lia Psatz Floats.SpecFloat.
From Flocq Require Import Core BinarySingleNaN Relative Plus_error.
From Verif Require Import Base Num.

Local Open Scope R_scope.

(** The real number denoted by a finite float (0 for NaN and infinities). *)
Definition real (x : spec_float) : R := SF2R radix2 x.
(** A representable double: [B64] computes only such values from such values. *)
Definition double (x : spec_float) : Prop := valid_binary 53 1024 x = true.
Definition finite (x : spec_float) : Prop := match x with S754_zero _ | S754_finite _ _ _ => True | _ => False end.
(** Unit roundoff and half the smallest subnormal. *)
Definition ulp1 : R := / 2 ^ 53.
Definition tiny : R := / 2 * bpow radix2 (-1074).

#[global] Instance prec_pos : FLX.Prec_gt_0 53. Proof. reflexivity. Qed.
#[global] Instance prec_small : Prec_lt_emax 53 1024. Proof. reflexivity. Qed.

Notation fexp64 := (FLT_exp (-1074) 53).
(** Round to nearest, ties to even. *)
Definition rnd (x : R) : R := round radix2 fexp64 ZnearestE x.
Notation bin := (binary_float 53 1024).
Notation tob x H := (SF2B (prec := 53) (emax := 1024) x H).

Lemma real_B2SF (b : bin) : real (B2SF b) = B2R b. Proof. apply SF2R_B2SF. Qed.
Lemma double_B2SF (b : bin) : double (B2SF b). Proof. apply valid_binary_B2SF. Qed.
Lemma finite_B2SF (b : bin) : finite (B2SF b) <-> is_finite b = true.
Proof. destruct b; simpl; split; intro; try discriminate; try contradiction; auto. Qed.
Lemma tob_B2SF x (H : double x) : B2SF (tob x H) = x. Proof. apply B2SF_SF2B. Qed.
Lemma double_ex x : double x -> exists b : bin, x = B2SF b.
Proof. intro H. exists (tob x H). symmetry. apply tob_B2SF. Qed.

(** ** The operations are Flocq's (proofs as in Flocq's PrimFloat) *)
Lemma rne_equiv s m l : round_nearest_even m l = choice_mode mode_NE s m l.
Proof. case l; [reflexivity|intro c]. case c; [|reflexivity..]. now simpl; unfold Round.cond_incr; case Z.even. Qed.
Lemma aux_equiv sx mx ex lx :
  SpecFloat.binary_round_aux 53 1024 sx mx ex lx = binary_round_aux 53 1024 mode_NE sx mx ex lx.
Proof.
  unfold SpecFloat.binary_round_aux, binary_round_aux. set (mrse' := shr_fexp _ _ _).
  case mrse'; intros mrs' e'; simpl. now rewrite (rne_equiv sx).
Qed.
Lemma round_equiv s m e : SpecFloat.binary_round 53 1024 s m e = binary_round 53 1024 mode_NE s m e.
Proof.
  unfold SpecFloat.binary_round, binary_round, shl_align_fexp. set (mez := shl_align _ _ _); case mez as [mz ez].
  apply aux_equiv.
Qed.
Lemma norm_equiv m e z :
  SpecFloat.binary_normalize 53 1024 m e z = B2SF (binary_normalize 53 1024 prec_pos prec_small mode_NE m e z).
Proof.
  case m as [|p|p]; [reflexivity|..]; simpl; rewrite B2SF_SF2B; apply round_equiv.
Qed.
Lemma add_equiv (x y : bin) : sf_add (B2SF x) (B2SF y) = B2SF (Bplus mode_NE x y).
Proof.
  unfold sf_add, prec64, emax64. case x as [sx|sx| |sx mx ex Bx]; case y as [sy|sy| |sy my ey By];
    [now (trivial || simpl; case Bool.eqb)..|]. apply norm_equiv.
Qed.
Lemma sub_equiv (x y : bin) : sf_sub (B2SF x) (B2SF y) = B2SF (Bminus mode_NE x y).
Proof.
  unfold sf_sub, prec64, emax64. case x as [sx|sx| |sx mx ex Bx]; case y as [sy|sy| |sy my ey By];
    [now (trivial || simpl; case Bool.eqb)..|]. simpl. unfold Zminus. rewrite <- cond_Zopp_negb. apply norm_equiv.
Qed.
Lemma mul_equiv (x y : bin) : sf_mul (B2SF x) (B2SF y) = B2SF (Bmult mode_NE x y).
Proof.
  unfold sf_mul, prec64, emax64. case x as [sx|sx| |sx mx ex Bx]; case y as [sy|sy| |sy my ey By]; [now trivial..|].
  simpl. rewrite B2SF_SF2B. apply aux_equiv.
Qed.
Lemma div_equiv (x y : bin) : sf_div (B2SF x) (B2SF y) = B2SF (Bdiv mode_NE x y).
Proof.
  unfold sf_div, prec64, emax64. case x as [sx|sx| |sx mx ex Bx]; case y as [sy|sy| |sy my ey By];
    [now (trivial || simpl; case Bool.eqb)..|]. simpl. rewrite B2SF_SF2B.
  set (melz := SFdiv_core_binary _ _ _ _ _ _). case melz as [[mz ez] lz]. apply aux_equiv.
Qed.
Lemma sqrt_equiv (x : bin) : sf_sqrt (B2SF x) = B2SF (Bsqrt mode_NE x).
Proof.
  unfold sf_sqrt, prec64, emax64. case x as [sx|sx| |sx mx ex Bx]; [now (trivial || case sx)..|].
  case sx; [reflexivity|]. simpl. rewrite B2SF_SF2B.
  set (melz := SFsqrt_core_binary _ _ _ _). case melz as [[mz ez] lz]. apply aux_equiv.
Qed.
Lemma ofZ_equiv z : sf_ofZ z = B2SF (binary_normalize 53 1024 prec_pos prec_small mode_NE z 0 false).
Proof. apply norm_equiv. Qed.

(** ** Correct rounding *)

Definition huge : R := bpow radix2 1024.

Ltac dd x b := apply double_ex in x; destruct x as [b ->].


Lemma add_double x y : double x -> double y -> double (sf_add x y).
Proof. intros Hx Hy. dd Hx a. dd Hy b. rewrite add_equiv. apply double_B2SF. Qed.
Lemma sub_double x y : double x -> double y -> double (sf_sub x y).
Proof. intros Hx Hy. dd Hx a. dd Hy b. rewrite sub_equiv. apply double_B2SF. Qed.
Lemma mul_double x y : double x -> double y -> double (sf_mul x y).
Proof. intros Hx Hy. dd Hx a. dd Hy b. rewrite mul_equiv. apply double_B2SF. Qed.
Lemma div_double x y : double x -> double y -> double (sf_div x y).
Proof. intros Hx Hy. dd Hx a. dd Hy b. rewrite div_equiv. apply double_B2SF. Qed.
Lemma sqrt_double x : double x -> double (sf_sqrt x).
Proof. intros Hx. dd Hx a. rewrite sqrt_equiv. apply double_B2SF. Qed.
Lemma ofZ_double z : double (sf_ofZ z).
Proof. rewrite ofZ_equiv. apply double_B2SF. Qed.
Lemma lit_double n d : double (sf_lit n d).
Proof. apply (div_double (sf_ofZ n) (sf_ofZ (Zpos d))); apply ofZ_double. Qed.
Lemma opp_double x : double x -> double (SFopp x).
Proof. intro H. destruct x; simpl in *; auto. Qed.
Lemma abs_double x : double x -> double (SFabs x).
Proof. intro H. destruct x; simpl in *; auto. Qed.

Lemma add_finite_inv x y : finite (sf_add x y) -> finite x /\ finite y.
Proof.
  destruct x as [sx|sx| |sx mx ex], y as [sy|sy| |sy my ey]; simpl; auto;
    unfold sf_add; simpl; destruct sx; try destruct sy; simpl; auto; contradiction.
Qed.
Lemma sub_finite_inv x y : finite (sf_sub x y) -> finite x /\ finite y.
Proof.
  destruct x as [sx|sx| |sx mx ex], y as [sy|sy| |sy my ey]; simpl; auto;
    unfold sf_sub; simpl; destruct sx; try destruct sy; simpl; auto; contradiction.
Qed.
Lemma mul_finite_inv x y : finite (sf_mul x y) -> finite x /\ finite y.
Proof.
  destruct x as [sx|sx| |sx mx ex], y as [sy|sy| |sy my ey]; simpl; auto; unfold sf_mul; simpl; contradiction.
Qed.

Lemma add_val x y : double x -> double y -> finite (sf_add x y) -> real (sf_add x y) = rnd (real x + real y).
Proof.
  intros Hx Hy F. destruct (add_finite_inv x y F) as [Fx Fy]. dd Hx a. dd Hy b. rewrite add_equiv in *.
  rewrite finite_B2SF in *. rewrite !real_B2SF.
  pose proof (Bplus_correct 53 1024 prec_pos prec_small mode_NE a b Fx Fy) as C.
  destruct (Rlt_bool _ _); [apply C|]. destruct C as [C _]. exfalso.
  apply finite_B2SF in F. rewrite C in F. destruct (Bsign a); exact F.
Qed.
Lemma add_ok x y : double x -> double y -> finite x -> finite y -> Rabs (rnd (real x + real y)) < huge -> finite (sf_add x y).
Proof.
  intros Hx Hy Fx Fy B. dd Hx a. dd Hy b. rewrite add_equiv. rewrite finite_B2SF in *. rewrite !real_B2SF in B.
  pose proof (Bplus_correct 53 1024 prec_pos prec_small mode_NE a b Fx Fy) as C.
  rewrite Rlt_bool_true in C by exact B. apply C.
Qed.
Lemma sub_val x y : double x -> double y -> finite (sf_sub x y) -> real (sf_sub x y) = rnd (real x - real y).
Proof.
  intros Hx Hy F. destruct (sub_finite_inv x y F) as [Fx Fy]. dd Hx a. dd Hy b. rewrite sub_equiv in *.
  rewrite finite_B2SF in *. rewrite !real_B2SF.
  pose proof (Bminus_correct 53 1024 prec_pos prec_small mode_NE a b Fx Fy) as C.
  destruct (Rlt_bool _ _); [apply C|]. destruct C as [C _]. exfalso.
  apply finite_B2SF in F. rewrite C in F. destruct (Bsign a); exact F.
Qed.
Lemma sub_ok x y : double x -> double y -> finite x -> finite y -> Rabs (rnd (real x - real y)) < huge -> finite (sf_sub x y).
Proof.
  intros Hx Hy Fx Fy B. dd Hx a. dd Hy b. rewrite sub_equiv. rewrite finite_B2SF in *. rewrite !real_B2SF in B.
  pose proof (Bminus_correct 53 1024 prec_pos prec_small mode_NE a b Fx Fy) as C.
  rewrite Rlt_bool_true in C by exact B. apply C.
Qed.
Lemma mul_val x y : double x -> double y -> finite (sf_mul x y) -> real (sf_mul x y) = rnd (real x * real y).
Proof.
  intros Hx Hy F. destruct (mul_finite_inv x y F) as [Fx Fy]. dd Hx a. dd Hy b. rewrite mul_equiv in *.
  rewrite finite_B2SF in *. rewrite !real_B2SF.
  pose proof (Bmult_correct 53 1024 prec_pos prec_small mode_NE a b) as C.
  destruct (Rlt_bool _ _); [apply C|]. exfalso.
  apply finite_B2SF in F. rewrite C in F. destruct (xorb _ _); exact F.
Qed.
Lemma mul_ok x y : double x -> double y -> finite x -> finite y -> Rabs (rnd (real x * real y)) < huge -> finite (sf_mul x y).
Proof.
  intros Hx Hy Fx Fy B. dd Hx a. dd Hy b. rewrite mul_equiv. rewrite finite_B2SF in *. rewrite !real_B2SF in B.
  pose proof (Bmult_correct 53 1024 prec_pos prec_small mode_NE a b) as C.
  rewrite Rlt_bool_true in C by exact B. destruct C as (_ & C & _). rewrite C, Fx, Fy. reflexivity.
Qed.
Lemma div_val x y : double x -> double y -> real y <> 0 -> finite (sf_div x y) -> real (sf_div x y) = rnd (real x / real y).
Proof.
  intros Hx Hy Z F. dd Hx a. dd Hy b. rewrite div_equiv in *. rewrite !real_B2SF in *.
  pose proof (Bdiv_correct 53 1024 prec_pos prec_small mode_NE a b Z) as C.
  destruct (Rlt_bool _ _); [apply C|]. exfalso. rewrite C in F. destruct (xorb _ _); exact F.
Qed.
Lemma div_ok x y : double x -> double y -> real y <> 0 -> finite x -> Rabs (rnd (real x / real y)) < huge -> finite (sf_div x y).
Proof.
  intros Hx Hy Z Fx B. dd Hx a. dd Hy b. rewrite div_equiv in *. rewrite finite_B2SF in *. rewrite !real_B2SF in *.
  pose proof (Bdiv_correct 53 1024 prec_pos prec_small mode_NE a b Z) as C.
  rewrite Rlt_bool_true in C by exact B. destruct C as (_ & C & _). rewrite C. exact Fx.
Qed.
Lemma sqrt_val x : double x -> real (sf_sqrt x) = rnd (sqrt (real x)).
Proof.
  intros Hx. dd Hx a. rewrite sqrt_equiv, !real_B2SF.
  apply (Bsqrt_correct 53 1024 prec_pos prec_small mode_NE a).
Qed.
Lemma sqrt_ok x : double x -> finite x -> 0 <= real x -> finite (sf_sqrt x).
Proof.
  intros Hx Fx P. dd Hx a. rewrite sqrt_equiv. rewrite finite_B2SF in *. rewrite real_B2SF in P.
  destruct (Bsqrt_correct 53 1024 prec_pos prec_small mode_NE a) as (_ & C & _). rewrite C.
  destruct a as [s|s| |s m e B]; try reflexivity; try discriminate. destruct s; [|reflexivity].
  exfalso. simpl in P. assert (F2R (Float radix2 (Zneg m) e) < 0) by (apply F2R_lt_0; reflexivity). lra.
Qed.
Lemma abs_val x : real (SFabs x) = Rabs (real x).
Proof.
  destruct x as [s|s| |s m e]; simpl; rewrite ?Rabs_R0; try reflexivity.
  unfold real, SF2R. rewrite <- F2R_Zabs. destruct s; reflexivity.
Qed.
Lemma opp_val x : real (SFopp x) = - real x.
Proof.
  destruct x as [s|s| |s m e]; simpl; rewrite ?Ropp_0; try reflexivity.
  unfold real, SF2R. rewrite <- F2R_Zopp. destruct s; reflexivity.
Qed.
Lemma abs_finite x : finite (SFabs x) <-> finite x. Proof. destruct x; simpl; tauto. Qed.
Lemma opp_finite x : finite (SFopp x) <-> finite x. Proof. destruct x; simpl; tauto. Qed.

Lemma leb_val x y : double x -> double y -> finite x -> finite y -> SFleb x y = Rleb (real x) (real y).
Proof.
  intros Hx Hy Fx Fy. dd Hx a. dd Hy b. rewrite finite_B2SF in *.
  pose proof (Bleb_correct 53 1024 a b Fx Fy) as C. unfold Bleb in C. rewrite C, !real_B2SF.
  unfold Rleb. case Rle_bool_spec; intro; destruct (Rle_dec _ _); auto; lra.
Qed.
Lemma leb_iff x y : double x -> double y -> finite x -> finite y -> (SFleb x y = true <-> real x <= real y).
Proof. intros. rewrite leb_val by assumption. apply Rleb_true. Qed.
Lemma ltb_val x y : double x -> double y -> finite x -> finite y -> SFltb x y = Rltb (real x) (real y).
Proof.
  intros Hx Hy Fx Fy. dd Hx a. dd Hy b. rewrite finite_B2SF in *.
  pose proof (Bltb_correct 53 1024 a b Fx Fy) as C. unfold Bltb in C. rewrite C, !real_B2SF.
  unfold Rltb. case Rlt_bool_spec; intro; destruct (Rlt_dec _ _); auto; lra.
Qed.

(** ** Error model *)
Lemma format x : double x -> generic_format radix2 fexp64 (real x).
Proof. intro H. dd H a. rewrite real_B2SF. apply (generic_format_B2R 53 1024 a). Qed.

Lemma u_ro_ulp1 : u_ro radix2 53 = ulp1.
Proof. unfold u_ro, ulp1. simpl. lra. Qed.
Lemma ulp1_pos : 0 < ulp1. Proof. unfold ulp1. apply Rinv_0_lt_compat. lra. Qed.
Lemma ulp1_small : ulp1 < / 2 ^ 52. Proof. unfold ulp1. apply Rinv_lt_contravar; lra. Qed.
Lemma tiny_pos : 0 < tiny. Proof. unfold tiny. apply Rmult_lt_0_compat; [lra|apply bpow_gt_0]. Qed.

Lemma u_frac : 0 <= u_ro radix2 53 / (1 + u_ro radix2 53) <= ulp1.
Proof. split; [apply u_rod1pu_ro_pos|]. eapply Rle_trans; [apply u_rod1pu_ro_le_u_ro|]. rewrite u_ro_ulp1. lra. Qed.

Lemma rnd_add_err x y : double x -> double y -> Rabs (rnd (real x + real y) - (real x + real y)) <= ulp1 * Rabs (real x + real y).
Proof.
  intros Hx Hy. destruct (FLT_plus_error_N_ex radix2 (-1074) 53 (fun n => negb (Z.even n)) (real x) (real y)
    (format x Hx) (format y Hy)) as (eps & He & E).
  unfold rnd. change ZnearestE with (Znearest (fun n => negb (Z.even n))). rewrite E.
  replace ((real x + real y) * (1 + eps) - (real x + real y)) with (eps * (real x + real y)) by ring.
  rewrite Rabs_mult. apply Rmult_le_compat_r; [apply Rabs_pos|]. pose proof u_frac. lra.
Qed.
Lemma rnd_err x : Rabs (rnd x - x) <= ulp1 * Rabs x + tiny.
Proof.
  destruct (relative_error_N_FLT'_ex radix2 (-1074) 53 prec_pos (fun n => negb (Z.even n)) x) as (eps & eta & He & Ht & _ & E).
  unfold rnd. change ZnearestE with (Znearest (fun n => negb (Z.even n))). rewrite E.
  replace (x * (1 + eps) + eta - x) with (eps * x + eta) by ring.
  eapply Rle_trans; [apply Rabs_triang|]. rewrite Rabs_mult. apply Rplus_le_compat; [|exact Ht].
  apply Rmult_le_compat_r; [apply Rabs_pos|]. pose proof u_frac. lra.
Qed.
(** Above the underflow threshold the error is purely relative. *)
Lemma rnd_rel x : bpow radix2 (-1022) <= Rabs x -> Rabs (rnd x - x) <= ulp1 * Rabs x.
Proof.
  intro H. assert (E := relative_error_N_FLT radix2 (-1074) 53 prec_pos (fun n => negb (Z.even n)) x H).
  unfold rnd. change ZnearestE with (Znearest (fun n => negb (Z.even n))).
  replace ulp1 with (/ 2 * bpow radix2 (- (53) + 1)); [exact E|]. unfold ulp1. simpl. lra.
Qed.
Lemma rnd_mono x y : x <= y -> rnd x <= rnd y.
Proof. intro H. apply round_le; try exact H; typeclasses eauto. Qed.
Lemma rnd_opp x : rnd (- x) = - rnd x.
Proof. apply round_NE_opp. Qed.
Lemma rnd_0 : rnd 0 = 0.
Proof. apply round_0. typeclasses eauto. Qed.
Lemma rnd_id x : double x -> rnd (real x) = real x.
Proof. intro H. apply round_generic; [typeclasses eauto|]. apply format. exact H. Qed.
Lemma rnd_abs x : Rabs (rnd x) = rnd (Rabs x).
Proof.
  destruct (Rle_lt_dec 0 x) as [H|H].
  - rewrite (Rabs_right x) by lra. rewrite Rabs_right; [reflexivity|]. pose proof (rnd_mono _ _ H). rewrite rnd_0 in H0. lra.
  - rewrite (Rabs_left x) by lra. rewrite rnd_opp. rewrite Rabs_left1; [reflexivity|].
    assert (x <= 0) by lra. apply rnd_mono in H0. rewrite rnd_0 in H0. exact H0.
Qed.
Lemma rnd_pow2 e : (-1074 <= e)%Z -> rnd (bpow radix2 e) = bpow radix2 e.
Proof.
  intro H. apply round_generic; [typeclasses eauto|]. apply generic_format_bpow. unfold FLT_exp. lia.
Qed.
Lemma rnd_bound x e : (-1074 <= e)%Z -> Rabs x <= bpow radix2 e -> Rabs (rnd x) <= bpow radix2 e.
Proof. intros He H. rewrite rnd_abs. apply rnd_mono in H. rewrite rnd_pow2 in H by exact He. exact H. Qed.
(** No overflow as long as the exact result stays below 2^1023. *)
Lemma rnd_no_overflow x : Rabs x <= bpow radix2 1023 -> Rabs (rnd x) < huge.
Proof.
  intro H. eapply Rle_lt_trans; [apply (rnd_bound x 1023); [lia|exact H]|]. apply bpow_lt. lia.
Qed.
Lemma rnd_int z : (Z.abs z <= 2 ^ 53)%Z -> rnd (IZR z) = IZR z.
Proof.
  intro H. apply round_generic; [typeclasses eauto|].
  destruct (Z.eq_dec (Z.abs z) (2 ^ 53)) as [E|E].
  - assert (G : generic_format radix2 fexp64 (IZR (Z.abs z))).
    { rewrite E. change (IZR (2 ^ 53)) with (bpow radix2 53). apply generic_format_bpow. unfold FLT_exp. lia. }
    destruct (Z.abs_spec z) as [[_ Ez]|[_ Ez]]; rewrite Ez in G; [exact G|].
    rewrite opp_IZR in G. apply generic_format_opp in G. rewrite Ropp_involutive in G. exact G.
  - apply generic_format_FLT. exists (Float radix2 z 0); [unfold F2R; simpl; lra|simpl; lia|simpl; lia].
Qed.
Lemma ofZ_val z : (Z.abs z <= 2 ^ 53)%Z -> finite (sf_ofZ z) /\ real (sf_ofZ z) = IZR z.
Proof.
  intro H. rewrite ofZ_equiv.
  pose proof (binary_normalize_correct 53 1024 prec_pos prec_small mode_NE z 0 false) as C. cbv zeta in C.
  assert (E : F2R (Float radix2 z 0) = IZR z) by (unfold F2R; simpl; ring). rewrite E in C.
  change (round radix2 (SpecFloat.fexp 53 1024) (round_mode mode_NE) (IZR z)) with (rnd (IZR z)) in C.
  rewrite (rnd_int z H) in C. rewrite Rlt_bool_true in C.
  - destruct C as (C1 & C2 & _). rewrite finite_B2SF, real_B2SF. auto.
  - rewrite <- abs_IZR. apply Rle_lt_trans with (IZR (2 ^ 53)); [apply IZR_le; exact H|].
    change (IZR (2 ^ 53)) with (bpow radix2 53). apply bpow_lt. lia.
Qed.
Lemma real_0 : real (sf_ofZ 0) = 0. Proof. reflexivity. Qed.
