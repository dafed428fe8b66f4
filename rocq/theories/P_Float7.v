(** * P_Float7: the misfit of the waveform fit in double precision (C131). *)

From Coq Require Import ZArith Reals Lra Lia Psatz Floats.SpecFloat.
From Flocq Require Import Core.
From Verif Require Import Base Num NumPy Spec Float64 FloatErr HkModel PlotModel PoolModel PoolProofs P_Pool WaveModel WaveProofs P_Wave P_Wave2 P_Wave3 P_Wave4 P_Wave5.

Local Open Scope R_scope.

(** ** One squared difference *)
Lemma sq_term (x y : spec_float) : fdouble x -> fdouble y -> Rabs (real x) <= 2 ^ 30 -> Rabs (real y) <= 2 ^ 30 ->
  let d := real x - real y in let v := sf_mul (sf_sub x y) (sf_sub x y) in
  fdouble v /\ 0 <= real v /\ d ^ 2 <= 2 ^ 62 /\ Rabs (real v - d ^ 2) <= 4 * u * d ^ 2 + tiny.
Proof.
  intros Fx Fy Hx Hy d v. pose proof pow2_1023 as P1. pose proof u_bounds as [U1 U2]. pose proof tiny_pos as T0.
  assert (P3 : 2 ^ 100 = 1267650600228229401496703205376) by lra.
  assert (Hd : Rabs d <= 2 ^ 31). { apply abs_le_inv in Hx, Hy. apply Rabs_le. unfold d. lra. }
  destruct (sub_fd x y Fx Fy) as (F1 & _ & E1). { fold d. lra. } fold d in E1.
  set (g := sf_sub x y) in *. assert (Hd2 : 0 <= d ^ 2 <= 2 ^ 62).
  { split; [apply pow2_ge_0|]. rewrite <- (pow2_abs d). replace (2 ^ 62) with ((2 ^ 31) ^ 2) by lra. apply pow_incr. split; [apply Rabs_pos|exact Hd]. }
  assert (Ag : Rabs (real g) <= (1 + u) * Rabs d).
  { replace (real g) with (d + (real g - d)) by ring. eapply Rle_trans; [apply Rabs_triang|]. lra. }
  assert (Eg : Rabs (real g * real g - d ^ 2) <= (2 * u + u * u) * d ^ 2).
  { replace (real g * real g - d ^ 2) with ((real g - d) * (real g + d)) by ring. rewrite Rabs_mult.
    rewrite <- (pow2_abs d). assert (S : Rabs (real g + d) <= (2 + u) * Rabs d) by (eapply Rle_trans; [apply Rabs_triang|]; lra).
    eapply Rle_trans; [apply Rmult_le_compat; [apply Rabs_pos|apply Rabs_pos|exact E1|exact S]|]. right. ring. }
  assert (Uu : u * u <= u / 1000) by (unfold Rdiv; apply Rmult_le_compat_l; lra).
  assert (Q : (2 * u + u * u) * d ^ 2 <= 201 / 100 * (u * d ^ 2)).
  { replace (201 / 100 * (u * d ^ 2)) with ((201 / 100 * u) * d ^ 2) by ring. apply Rmult_le_compat_r; lra. }
  pose proof (us (d ^ 2) ltac:(lra)) as UD.
  apply abs_le_inv in Eg. 
  destruct (mul_fd g g F1 F1) as (F2 & V2 & E2 & _). { apply Rabs_le. lra. }
  fold v in F2, V2, E2. split; [exact F2|]. split.
  { rewrite V2. rewrite <- rnd_0. apply rnd_mono. apply Rle_0_sqr. }
  split; [apply Hd2|]. rewrite (Rabs_right (real g * real g)) in E2 by (apply Rle_ge, Rle_0_sqr).
  assert (W : u * (real g * real g) <= 11 / 10 * (u * d ^ 2)).
  { replace (11 / 10 * (u * d ^ 2)) with (u * (11 / 10 * d ^ 2)) by ring. apply us_le. lra. }
  apply abs_le_inv in E2. apply Rabs_le. lra.
Qed.

(** ** The sum, left to right *)
Lemma sum_b64 (vs : list spec_float) : forall (Vs : list R) (s : spec_float) (S0 : R) (m : nat),
  Forall2 (fun v V => fdouble v /\ 0 <= real v /\ 0 <= V <= 2 ^ 62 /\ Rabs (real v - V) <= 4 * u * V + tiny) vs Vs ->
  (Z.of_nat (m + length vs) <= 2 ^ 20)%Z ->
  fdouble s -> 0 <= real s -> 0 <= S0 <= 2 ^ 62 * INR m ->
  Rabs (real s - S0) <= 2 * (INR m + 3) * u * S0 + 8 * INR m * tiny ->
  let r := fold_left sf_add vs s in
  fdouble r /\ 0 <= real r /\ Rabs (real r - (S0 + sumR Vs)) <= 2 * (INR (m + length vs) + 3) * u * (S0 + sumR Vs) + 8 * INR (m + length vs) * tiny.
Proof.
  pose proof pow2_1023 as P1. pose proof tiny_small as T. pose proof tiny_pos as T0. pose proof u_bounds as [U1 U2].
  induction vs as [|v vs IH]; intros Vs s S0 m Hf Hm Fs Ps HS He; cbn zeta.
  - inversion Hf; subst. cbn [fold_left length sumR]. rewrite Nat.add_0_r, !Rplus_0_r. auto.
  - inversion Hf as [|? V ? Vs' (Fv & Pv & HV & Hev) Hf']; subst. cbn [length] in *. cbn [fold_left]. cbn [sumR].
    assert (Hmb : 0 <= INR m <= 1048576).
    { split; [apply pos_INR|]. rewrite INR_IZR_INZ. apply IZR_le. lia. }
    assert (HB0 : S0 <= 2 ^ 82). { eapply Rle_trans; [apply HS|]. replace (2 ^ 82) with (2 ^ 62 * 1048576) by lra. apply Rmult_le_compat_l; lra. }
    pose proof (us S0 ltac:(lra)) as UB0. pose proof (us V ltac:(lra)) as UB. pose proof (us tiny ltac:(lra)) as UT.
    assert (Hc : 0 <= INR m * (u * S0) <= S0 / 100).
    { split; [apply Rmult_le_pos; lra|]. eapply Rle_trans; [apply Rmult_le_compat; [lra|lra|apply (proj2 Hmb)|apply (proj2 UB0)]|]. lra. }
    assert (Hct : 0 <= INR m * tiny <= 1048576 * tiny). { split; [apply Rmult_le_pos; lra|apply Rmult_le_compat_r; lra]. }
    apply abs_le_inv in He, Hev.
    destruct (add_fd s v Fs Fv) as (Fa & Va & E). { apply Rabs_le. lra. }
    assert (Hvs : Rabs (real s + real v) <= 9 / 8 * V + 9 / 8 * S0 + 8 * (INR m * tiny) + 4 * tiny) by (apply Rabs_le; lra).
    apply us_le in Hvs. apply abs_le_inv in E.
    assert (HT : u * (8 * (INR m * tiny)) <= tiny / 8).
    { pose proof (us (8 * (INR m * tiny)) ltac:(lra)). lra. }
    rewrite <- Nat.add_succ_comm. rewrite <- !Rplus_assoc.
    apply (IH Vs' (sf_add s v) (S0 + V) (S m)); auto.
    + lia.
    + rewrite Va, <- rnd_0. apply rnd_mono. lra.
    + rewrite S_INR. lra.
    + rewrite S_INR. clear P1 T.
      assert (0 <= INR m * (u * V)) by (apply Rmult_le_pos; lra).
      apply Rabs_le. lra.
Qed.

(** ** The square root of a perturbed mean *)
Lemma sqrt_pert M M' d e : 0 <= M -> 0 <= M' -> 0 <= d <= 1 -> 0 <= e -> Rabs (M' - M) <= d * M + e ->
  Rabs (sqrt M' - sqrt M) <= d * sqrt M + sqrt e.
Proof.
  intros HM HM' Hd He H. apply abs_le_inv in H. pose proof (sqrt_pos M) as S1. pose proof (sqrt_pos e) as S2.
  pose proof (sqrt_sqrt M HM) as Q1. pose proof (sqrt_sqrt e He) as Q2. pose proof (sqrt_sqrt M' HM') as Q3. pose proof (sqrt_pos M') as S3.
  set (a := sqrt M) in *. set (b := sqrt e) in *. set (z := sqrt M') in *. assert (QM : d * M = d * (a * a)) by (rewrite Q1; reflexivity).
  assert (0 <= a * b) by (apply Rmult_le_pos; assumption). assert (0 <= d * a) by (apply Rmult_le_pos; lra).
  assert (0 <= d * (a * a)) by (apply Rmult_le_pos; [lra|apply Rle_0_sqr]).
  apply Rabs_le. split.
  - destruct (Rle_or_lt ((1 - d) * a) b) as [L|L]; [lra|].
    assert (G : (1 - d) * a - b <= z); [|lra]. apply Rsqr_incr_0; [|lra|exact S3]. unfold Rsqr.
    assert (X : b * b <= (1 - d) * a * b) by (apply Rmult_le_compat_r; lra).
    assert (Y : (1 - d) * a * ((1 - d) * a) <= (1 - d) * (a * a)).
    { replace ((1 - d) * a * ((1 - d) * a)) with ((1 - d) * ((1 - d) * (a * a))) by ring. apply Rmult_le_compat_l; [lra|].
      assert (0 <= a * a) by (apply Rle_0_sqr). lra. }
    assert (E : ((1 - d) * a - b) * ((1 - d) * a - b) = (1 - d) * a * ((1 - d) * a) - 2 * ((1 - d) * a * b) + b * b) by ring. lra.
  - assert (G : z <= a + d * a + b); [|lra]. apply Rsqr_incr_0; [|exact S3|lra]. unfold Rsqr.
    assert (E : (a + d * a + b) * (a + d * a + b) = a * a + 2 * (d * (a * a)) + d * a * (d * a) + b * b + 2 * (a * b) + 2 * (d * a * b)) by ring.
    assert (0 <= d * a * b) by (apply Rmult_le_pos; assumption). assert (0 <= d * a * (d * a)) by (apply Rle_0_sqr). lra.
Qed.

(** ** The misfit *)
(** Rounding error allowed for n samples: relative, and absolute near the bottom of the
    floating-point range. *)
Definition eps (n : nat) : R := 3 * (INR n + 4) * u.
Definition bottom : R := bpow radix2 (-535).

Definition windowed (x : list spec_float) : Prop := Forall (fun v => fdouble v /\ Rabs (real v) <= 2 ^ 30) x.

Lemma sum2_diff (x y : list spec_float) : length x = length y ->
  sum2 (fun a b => (a - b) ^ 2) (map real x) (map real y) = sumR (map (fun p => (real (fst p) - real (snd p)) ^ 2) (combine x y)).
Proof. revert y. induction x as [|a x IH]; intros [|b y] L; cbn in *; try discriminate; [reflexivity|]. rewrite IH by lia. reflexivity. Qed.

Lemma sumR_nonneg_sq (l : list (spec_float * spec_float)) : 0 <= sumR (map (fun p => (real (fst p) - real (snd p)) ^ 2) l).
Proof. induction l as [|p l IH]; cbn [map sumR]; [lra|]. pose proof (pow2_ge_0 (real (fst p) - real (snd p))). lra. Qed.

Lemma bottom_sq : bottom * bottom = 32 * tiny.
Proof.
  unfold tiny, bottom. rewrite <- bpow_plus. replace (32 * (/ 2 * bpow radix2 (-1074))) with (16 * bpow radix2 (-1074)) by lra.
  replace 16 with (bpow radix2 4) by (simpl; lra). rewrite <- bpow_plus. reflexivity.
Qed.
Lemma bottom_pos : 0 < bottom. Proof. apply bpow_gt_0. Qed.
Lemma tiny_bottom : tiny <= bottom / 10.
Proof.
  unfold tiny, bottom. pose proof (bpow_gt_0 radix2 (-535)). assert (X : bpow radix2 (-1074) <= bpow radix2 (-10) * bpow radix2 (-535)).
  { rewrite <- bpow_plus. apply bpow_le. lia. }
  assert (Y : bpow radix2 (-10) = / 1024) by (simpl; lra). rewrite Y in X. lra.
Qed.
Lemma sqrt_10tiny : sqrt (10 * tiny) <= 3 / 5 * bottom.
Proof.
  pose proof bottom_pos. pose proof tiny_pos. rewrite <- (sqrt_square (3 / 5 * bottom)) by lra. apply sqrt_le_1_alt.
  replace (3 / 5 * bottom * (3 / 5 * bottom)) with (9 / 25 * (bottom * bottom)) by field. rewrite bottom_sq. lra.
Qed.

Lemma fin_sub_self a : finite a -> sf_isnan (sf_sub a a) = false.
Proof.
  destruct a as [s|s| |s m e]; cbn; try contradiction; intros _.
  - destruct s; reflexivity.
  - unfold sf_sub, SFsub. match goal with |- context [binary_normalize _ _ ?z _ _] => replace z with 0%Z by lia end. reflexivity.
Qed.
Lemma windowed_ok x : windowed x -> forallb (fun a => negb (@nisnan B64 (@nsub B64 a a))) x = true.
Proof.
  intro H. apply forallb_forall. intros a Ha. apply (proj1 (Forall_forall _ _) H) in Ha as ((_ & Fa) & _).
  change (negb (sf_isnan (sf_sub a a)) = true). rewrite fin_sub_self by exact Fa. reflexivity.
Qed.

Lemma terms_ok (x y : list spec_float) : windowed x -> windowed y ->
  Forall2 (fun v V => fdouble v /\ 0 <= real v /\ 0 <= V <= 2 ^ 62 /\ Rabs (real v - V) <= 4 * u * V + tiny)
    (@zipN B64 (fun a b => @nsq B64 (@nsub B64 a b)) x y) (map (fun p => (real (fst p) - real (snd p)) ^ 2) (combine x y)).
Proof.
  intros Hx Hy. revert y Hy. induction Hx as [|a x [Fa Ha] Hx IH]; intros y Hy; [constructor|].
  destruct Hy as [|b y [Fb Hb] Hy]; [constructor|]. cbn [combine]. unfold zipN. cbn [combine map fst snd].
  constructor; [|apply IH; exact Hy]. destruct (sq_term a b Fa Fb Ha Hb) as (Q1 & Q2 & Q3 & Q4).
  split; [exact Q1|]. split; [exact Q2|]. split; [split; [apply pow2_ge_0|exact Q3]|exact Q4].
Qed.

(** C131: on windows of finite doubles of at most 2^30 in magnitude (up to 2^20 samples), the
    RMSE computed is the exact one up to a relative error of 3 (n+4) / 2^53 and an absolute error
    of 2^-535. *)
Theorem C131_rmse (x y : list spec_float) : windowed x -> windowed y -> length x = length y -> x <> [] -> (Z.of_nat (length x) <= 2 ^ 20)%Z ->
  exists r, @rmse B64 x y = Ok r /\ fdouble r /\ 0 <= real r /\
    Rabs (real r - rms_diff (map real x) (map real y)) <= eps (length x) * rms_diff (map real x) (map real y) + bottom.
Proof.
  intros Hx Hy L Ne Hn. pose proof pow2_1023 as P1. pose proof u_bounds as [U1 U2]. pose proof tiny_pos as T0. pose proof tiny_small as T1.
  unfold rmse. change (F B64) with spec_float. rewrite (proj2 (Nat.eqb_eq _ _) L).
  match goal with |- context [forallb ?f ?l] => replace (forallb f l) with true by (symmetry; exact (windowed_ok (x ++ y) (proj2 (Forall_app _ x y) (conj Hx Hy)))) end.
  assert (N0 : (length x =? 0)%nat = false) by (destruct x; [congruence|reflexivity]).
  rewrite N0. cbn [andb negb]. eexists. split; [reflexivity|].
  set (Vs := map (fun p => (real (fst p) - real (snd p)) ^ 2) (combine x y)).
  set (vs := @zipN B64 (fun a b => @nsq B64 (@nsub B64 a b)) x y).
  assert (Lv : @length spec_float vs = length x). { unfold vs, zipN. rewrite map_length, combine_length. change (F B64) with spec_float in *. rewrite L. apply Nat.min_id. }
  assert (Sm : @npmean B64 vs = sf_div (fold_left sf_add vs (sf_ofZ 0)) (sf_ofZ (Z.of_nat (length x)))) by (unfold npmean; change (F B64) with spec_float; rewrite Lv; reflexivity).
  match goal with |- fdouble ?r /\ _ => change r with (sf_sqrt (@npmean B64 vs)) end. rewrite Sm.
  destruct (sum_b64 vs Vs (sf_ofZ 0) 0 0) as (Fs & Ps & Es).
  { apply terms_ok; assumption. } { rewrite Lv. lia. } { destruct (ofZ_fd 0) as [Fz _]; [cbn; lia|exact Fz]. } { rewrite real_0. lra. } { cbn. lra. }
  { rewrite real_0. cbn [INR]. rewrite Rminus_0_r, Rabs_R0. lra. }
  set (Sh := fold_left sf_add vs (sf_ofZ 0)) in *. rewrite Lv in Es. cbn [Nat.add] in Es. rewrite Rplus_0_l in Es.
  assert (SV : 0 <= sumR Vs <= 2 ^ 62 * INR (length x)).
  { split; [apply sumR_nonneg_sq|]. rewrite <- Lv. pose proof (terms_ok x y Hx Hy) as Ft. fold vs Vs in Ft. clear -Ft.
    induction Ft as [|v V vs Vs (_ & _ & [_ H] & _) Ft IH]; [cbn; lra|]. cbn [sumR length]. rewrite S_INR. lra. }
  assert (Hm : 1 <= INR (length x) <= 1048576).
  { split; [destruct x; [congruence|]; cbn [length]; rewrite S_INR; pose proof (pos_INR (length x)); lra|].
    rewrite INR_IZR_INZ. apply IZR_le. lia. }
  destruct (ofZ_fd (Z.of_nat (length x))) as [Fn Vn]; [rewrite Z.abs_eq by lia; lia|]. rewrite <- INR_IZR_INZ in Vn.
  set (nn := INR (length x)) in *. set (M := sumR Vs / nn).
  assert (HM : 0 <= M <= 2 ^ 62).
  { unfold M. split; [apply Rmult_le_pos; [lra|apply Rlt_le, Rinv_0_lt_compat; lra]|].
    apply (Rmult_le_reg_r nn); [lra|]. unfold Rdiv. rewrite Rmult_assoc, Rinv_l by lra. lra. }
  assert (MS : sumR Vs = nn * M) by (unfold M; field; lra).
  set (q := real Sh / nn) in *.
  assert (UM : 0 <= u * M) by (apply Rmult_le_pos; lra).
  assert (UnM : 0 <= nn * (u * M) <= M / 100).
  { split; [apply Rmult_le_pos; lra|]. pose proof (us M ltac:(lra)) as [_ X]. eapply Rle_trans; [apply Rmult_le_compat; [lra|lra|apply (proj2 Hm)|exact X]|]. lra. }
  assert (Eq : Rabs (q - M) <= 2 * (nn + 3) * u * M + 8 * tiny).
  { replace (q - M) with ((real Sh - sumR Vs) * / nn) by (unfold q, M; field; lra). rewrite Rabs_mult, (Rabs_right (/ nn)) by (apply Rle_ge, Rlt_le, Rinv_0_lt_compat; lra).
    apply (Rmult_le_reg_r nn); [lra|]. rewrite Rmult_assoc, Rinv_l, Rmult_1_r by lra. eapply Rle_trans; [exact Es|]. rewrite MS. right. ring. }
  assert (Pq : 0 <= q) by (unfold q; apply Rmult_le_pos; [lra|apply Rlt_le, Rinv_0_lt_compat; lra]).
  apply abs_le_inv in Eq.
  assert (P3 : 2 ^ 100 = 1267650600228229401496703205376) by lra.
  pose proof (us M ltac:(lra)) as UMs. pose proof (us tiny ltac:(lra)) as UT.
  destruct (div_fd Sh (sf_ofZ (Z.of_nat (length x))) Fs Fn) as (Fd & Vd & Ed & _). { rewrite Vn. lra. } { rewrite Vn. fold q. apply Rabs_le. lra. }
  rewrite Vn in Vd, Ed. fold q in Vd, Ed. set (D := sf_div Sh (sf_ofZ (Z.of_nat (length x)))) in *.
  assert (PD : 0 <= real D) by (rewrite Vd, <- rnd_0; apply rnd_mono; exact Pq).
  rewrite (Rabs_right q) in Ed by lra. apply abs_le_inv in Ed.
  assert (Uq : u * q <= 11 / 10 * (u * M) + tiny / 10).
  { assert (X : q <= 11 / 10 * M + 8 * tiny) by lra. apply us_le in X. lra. }
  assert (ED : Rabs (real D - M) <= (2 * (nn + 3) + 2) * u * M + 10 * tiny) by (apply Rabs_le; lra).
  assert (Hdd : 0 <= (2 * (nn + 3) + 2) * u <= 1 / 100).
  { split; [apply Rmult_le_pos; lra|]. eapply Rle_trans; [apply Rmult_le_compat; [lra|lra| |apply Rlt_le; exact U2]|]; [instantiate (1 := 3000000); lra|lra]. }
  assert (ES := sqrt_pert M (real D) ((2 * (nn + 3) + 2) * u) (10 * tiny) (proj1 HM) PD ltac:(lra) ltac:(lra) ED). pose proof sqrt_10tiny as S10. pose proof bottom_pos as B0. pose proof tiny_bottom as TB.
  destruct (sqrt_fd D Fd PD) as (Fr & Vr & _). split; [exact Fr|]. pose proof (sqrt_pos (real D)) as SD. pose proof (sqrt_pos M) as SM.
  split; [rewrite Vr, <- rnd_0; apply rnd_mono; exact SD|].
  assert (ER : rms_diff (map real x) (map real y) = sqrt M).
  { unfold rms_diff, M, nn, Vs. rewrite map_length, sum2_diff by exact L. reflexivity. }
  rewrite ER. pose proof (rnd_err (sqrt (real D))) as Er. rewrite (Rabs_right (sqrt (real D))) in Er by lra. rewrite <- Vr in Er.
  apply abs_le_inv in ES, Er. set (a := sqrt M) in *.
  pose proof (us a SM) as Ua. assert (Una : 0 <= nn * (u * a)) by (apply Rmult_le_pos; lra).
  assert (Q1 : (2 * (nn + 3) + 2) * u * a <= a / 100) by (replace (a / 100) with (1 / 100 * a) by field; apply Rmult_le_compat_r; lra).
  assert (Q2 : u * sqrt (real D) <= 11 / 10 * (u * a) + bottom / 100).
  { assert (X : sqrt (real D) <= 11 / 10 * a + bottom) by lra. apply us_le in X. pose proof (us bottom ltac:(lra)). lra. }
  unfold eps. fold nn. apply Rabs_le. lra.
Qed.

(** A window fitted to itself has misfit exactly 0. *)
Lemma sub_self a : finite a -> sf_sub a a = S754_zero false.
Proof.
  destruct a as [s|s| |s m e]; cbn; try contradiction; intros _.
  - destruct s; reflexivity.
  - unfold sf_sub, SFsub. match goal with |- context [binary_normalize _ _ ?z _ _] => replace z with 0%Z by lia end. reflexivity.
Qed.
Lemma rmse_self (x : list spec_float) r : windowed x -> (Z.of_nat (length x) <= 2 ^ 53)%Z -> @rmse B64 x x = Ok r -> real r = 0.
Proof.
  intros Hx Hn H. unfold rmse in H. destruct (_ && _)%bool eqn:C in H; [|discriminate].
  assert (N0 : x <> []). { intros ->. cbn in C. discriminate. } clear C.
  assert (Z : @zipN B64 (fun a b => @nsq B64 (@nsub B64 a b)) x x = repeat (S754_zero false) (length x)).
  { clear H Hn N0. induction Hx as [|a x ((_ & Fa) & _) Hx IH]; [reflexivity|]. unfold zipN in *. cbn [combine map fst snd length repeat]. f_equal; [|exact IH].
    change (sf_mul (sf_sub a a) (sf_sub a a) = S754_zero false). rewrite sub_self by exact Fa. reflexivity. }
  rewrite Z in H. assert (S0 : forall n, fold_left sf_add (repeat (S754_zero false) n) (sf_ofZ 0) = S754_zero false).
  { induction n as [|n IH]; [reflexivity|]. cbn [repeat fold_left]. exact IH. }
  assert (E : r = sf_sqrt (sf_div (S754_zero false) (sf_ofZ (Z.of_nat (length x))))).
  { apply (f_equal (fun z => match z with Ok v => v | Err _ => r end)) in H. rewrite <- H. unfold npmean. rewrite repeat_length. cbn [nroot ndiv nsum nofZ B64]. rewrite S0. reflexivity. }
  rewrite E. destruct (ofZ_fd (Z.of_nat (length x))) as [[Dn Fn] Vn]; [rewrite Z.abs_eq by lia; exact Hn|].
  assert (Zr : real (sf_div (S754_zero false) (sf_ofZ (Z.of_nat (length x)))) = 0).
  { assert (Ne : real (sf_ofZ (Z.of_nat (length x))) <> 0). { rewrite Vn. apply not_0_IZR. destruct x; [congruence|cbn [length]; lia]. }
    assert (D0 : double (S754_zero false)) by reflexivity.
    rewrite div_val; [|exact D0|exact Dn|exact Ne|].
    - change (real (S754_zero false)) with 0. unfold Rdiv. rewrite Rmult_0_l. apply rnd_0.
    - apply div_ok; [exact D0|exact Dn|exact Ne|exact I|]. change (real (S754_zero false)) with 0. unfold Rdiv. rewrite Rmult_0_l, rnd_0, Rabs_R0. apply bpow_gt_0. }
  rewrite sqrt_val by (apply div_double; [reflexivity|exact Dn]). rewrite Zr, sqrt_0. apply rnd_0.
Qed.

(** ** The run *)
Lemma fd_not_nan v : fdouble v -> @nisnan B64 v = false.
Proof. intros [_ H]. destruct v; cbn in *; try contradiction; reflexivity. Qed.
Lemma best_rmse_le (W : list (@srow B64)) bm : best_rows W = Ok bm -> (forall r, In r W -> fdouble (sr_rmse r)) ->
  In (b_rmse bm) W /\ forall r, In r W -> real (sr_rmse (b_rmse bm)) <= real (sr_rmse r).
Proof.
  intros HB HF. pose proof (best_rows_In _ _ HB) as (_ & I2 & _). split; [exact I2|]. unfold best_rows in HB.
  apply bind_Ok_inv in HB as (i1 & _ & HB). apply bind_Ok_inv in HB as (r1 & _ & HB).
  apply bind_Ok_inv in HB as (j & Hj & HB). apply bind_Ok_inv in HB as (r2 & G2 & HB).
  apply bind_Ok_inv in HB as (i3 & _ & HB). apply bind_Ok_inv in HB as (r3 & _ & HB).
  apply bind_Ok_inv in HB as (i4 & _ & HB). apply bind_Ok_inv in HB as (r4 & _ & HB).
  assert (Eb : b_rmse bm = r2) by (apply (f_equal (fun z => match z with Ok v => b_rmse v | Err _ => r2 end)) in HB; symmetry; exact HB).
  rewrite Eb in *. clear HB Eb. intros r Ir.
  destruct (argmin_first_best B64_laws _ _ Hj) as (v & Hv & C). apply getitem_Ok in G2.
  rewrite nth_error_map, G2 in Hv. cbn [option_map] in Hv. apply (f_equal (fun z => match z with Some q => q | None => v end)) in Hv. cbn in Hv. subst v.
  destruct C as [[C _]|(_ & C & _)].
  - rewrite (fd_not_nan _ (HF _ I2)) in C. discriminate.
  - apply In_nth_error in Ir as [i Hi]. assert (Ir := nth_error_In _ _ Hi). destruct (C i (sr_rmse r)) as [_ Q]; [rewrite nth_error_map, Hi; reflexivity|].
    unfold leN in Q. change (SFleb (sr_rmse r2) (sr_rmse r) = true) in Q. destruct (HF _ I2) as [D2 F2]. destruct (HF _ Ir) as [Dr Fr].
    apply leb_iff in Q; assumption.
Qed.

Lemma eps_small n : (Z.of_nat n <= 2 ^ 20)%Z -> 0 <= eps n <= / 100.
Proof.
  intro H. pose proof u_bounds as [U1 U2]. assert (Hb : 0 <= INR n <= 1048576).
  { split; [apply pos_INR|]. rewrite INR_IZR_INZ. apply IZR_le. lia. }
  unfold eps. split; [apply Rmult_le_pos; lra|]. apply (Rle_trans _ (4000000 * / 1000000000000000)); [apply Rmult_le_compat; lra|lra].
Qed.
Lemma near_best n (R1 R2 r1 r2 : R) : (Z.of_nat n <= 2 ^ 20)%Z -> 0 <= R1 -> 0 <= R2 ->
  Rabs (r1 - R1) <= eps n * R1 + bottom -> Rabs (r2 - R2) <= eps n * R2 + bottom -> r1 <= r2 ->
  R1 <= (1 + 3 * eps n) * R2 + 3 * bottom.
Proof.
  intros Hn H1 H2 E1 E2 L. pose proof (eps_small n Hn) as [X0 X1]. pose proof bottom_pos as B. apply abs_le_inv in E1, E2. set (d := eps n) in *.
  assert (K : (1 - d) * R1 <= (1 + d) * R2 + 2 * bottom) by lra.
  apply (Rmult_le_reg_l (1 - d)); [lra|]. eapply Rle_trans; [exact K|].
  assert (Dd : d * d <= d / 100) by (unfold Rdiv; apply Rmult_le_compat_l; lra).
  assert (0 <= d * R2) by (apply Rmult_le_pos; lra).
  assert (A1 : d * d * R2 <= d * R2 / 100) by (replace (d * R2 / 100) with (d / 100 * R2) by field; apply Rmult_le_compat_r; lra).
  assert (A2 : d * bottom <= bottom / 100) by (unfold Rdiv; rewrite Rmult_comm; apply Rmult_le_compat_l; lra).
  replace ((1 - d) * ((1 + 3 * d) * R2 + 3 * bottom)) with (R2 + 2 * (d * R2) - 3 * (d * d * R2) + 3 * bottom - 3 * (d * bottom)) by ring.
  lra.
Qed.

Lemma sumR_member (l : list (spec_float * spec_float)) p : In p l -> (real (fst p) - real (snd p)) ^ 2 <= sumR (map (fun p => (real (fst p) - real (snd p)) ^ 2) l).
Proof.
  induction l as [|q l IH]; intro H; [destruct H|]. destruct H as [->|H]; cbn [map sumR].
  - pose proof (sumR_nonneg_sq l). lra.
  - specialize (IH H). pose proof (pow2_ge_0 (real (fst q) - real (snd q))). lra.
Qed.
(** No sample differs by more than sqrt n times the rms difference. *)
Lemma sample_le (x y : list spec_float) i a b : length x = length y -> nth_error x i = Some a -> nth_error y i = Some b ->
  Rabs (real a - real b) <= sqrt (INR (length x)) * rms_diff (map real x) (map real y).
Proof.
  intros L Ha Hb. unfold rms_diff. rewrite map_length, sum2_diff by exact L. rewrite <- sqrt_mult_alt by apply pos_INR.
  assert (N0 : 0 < INR (length x)). { apply lt_0_INR. apply nth_error_Some_lt in Ha || (assert (nth_error x i <> None) by congruence; apply nth_error_Some in H; lia). }
  replace (INR (length x) * (sumR (map (fun p => (real (fst p) - real (snd p)) ^ 2) (combine x y)) / INR (length x)))
    with (sumR (map (fun p => (real (fst p) - real (snd p)) ^ 2) (combine x y))) by (field; lra).
  rewrite <- (sqrt_Rsqr_abs). apply sqrt_le_1_alt. unfold Rsqr. replace ((real a - real b) * (real a - real b)) with ((real (fst (a, b)) - real (snd (a, b))) ^ 2) by (cbn [fst snd]; ring).
  apply sumR_member. clear -Ha Hb. revert x y Ha Hb. induction i as [|i IH]; intros [|p x] [|q y] Ha Hb; cbn in *; try discriminate.
  - injection Ha as ->. injection Hb as ->. left. reflexivity.
  - right. apply IH; assumption.
Qed.

Section Run64.
Context (stackR : stream B64 -> res (list (trace B64)))
        (synO : list B64 -> list B64 -> list B64 -> list B64 -> B64 -> B64 -> nat -> B64 -> B64 -> res (list B64))
        (pgO : list B64 -> list B64 -> B64 -> res B64).
Variables (rf : stream B64) (po HS VpS VpC rp : B64) (Ks Hs : list B64) (ga : B64).
(** The synthetic of the grid point (h, k), as the programs ask for it; [t0] is the first entry of the time axis. *)
Definition synthetic64 (tr0 st0 : trace B64) (t0 h k : B64) : res (list B64) :=
  synO [HS; h; @nlit B64 775 10] [VpS; VpC; @nlit B64 8045 1000] [@brocher_vs B64 VpS; @ndiv B64 VpC k; @nlit B64 449 100]
       [@brocher_rho B64 VpS; @brocher_rho B64 VpC; @nlit B64 3299 1000] rp (tr_delta tr0) (length (tr_data st0)) (@nabs B64 t0) ga.
(** The setting of a run: first trace, stack, window [s, e), and windows of ordinary size: finite
    doubles of at most 2^30 in magnitude, at most 2^20 samples. *)
Definition setting (tr0 st0 : trace B64) (t0 : B64) (s e : nat) : Prop :=
  (exists rf' SR ts, rf = tr0 :: rf' /\ stackR rf = Ok (st0 :: SR) /\
     @taxis B64 (tr_delta tr0) (length (tr_data tr0)) po = t0 :: ts /\ fit_window (t0 :: ts) (tr_delta tr0) = Ok (s, e)) /\
  windowed (slice (tr_data st0) s e) /\ (Z.of_nat (length (slice (tr_data st0) s e)) <= 2 ^ 20)%Z /\
  (forall h k sy, In h Hs -> In k Ks -> synthetic64 tr0 st0 t0 h k = Ok sy -> windowed (slice sy s e)).
(** The exact misfit of a record (its doubles taken as real numbers) in the window. *)
Definition misfit (st0 : trace B64) (s e : nat) (sy : list B64) : R :=
  rms_diff (map real (slice (tr_data st0) s e)) (map real (slice sy s e)).

Lemma row64 P tr0 st0 t0 s e T l q :
  WaveformPara stackR rf po HS VpS VpC rp Ks Hs ga = Ok [P] -> setting tr0 st0 t0 s e ->
  mapM (fun hk => eval_node synO pgO P (fst hk) (snd hk)) l = Ok T -> (forall h k, In (h, k) l -> In h Hs /\ In k Ks) -> In (strip q) T ->
  In (sr_H q) Hs /\ In (sr_K q) Ks /\
  exists sy, synthetic64 tr0 st0 t0 (sr_H q) (sr_K q) = Ok sy /\ windowed (slice sy s e) /\ length (slice (tr_data st0) s e) = length (slice sy s e) /\
    @rmse B64 (slice (tr_data st0) s e) (slice sy s e) = Ok (sr_rmse q) /\ fdouble (sr_rmse q) /\ 0 <= real (sr_rmse q) /\
    Rabs (real (sr_rmse q) - misfit st0 s e sy) <= eps (length (slice (tr_data st0) s e)) * misfit st0 s e sy + bottom.
Proof.
  intros HP ((rf' & SR & ts & E1 & E2 & E3 & E4) & Wx & Ln & Wy) HT HG Hq.
  destruct (WaveformPara_inv _ _ _ _ _ _ _ _ _ _ _ HP) as (tr0' & rf'' & st0' & SR' & t0' & ts' & s' & e' & F1 & F2 & F3 & F4 & F5).
  rewrite E1 in F1. apply (f_equal (fun z => (hd tr0 z, tl z))) in F1. cbn [hd tl] in F1. assert (A1 : tr0' = tr0) by congruence. subst tr0'.
  rewrite E2 in F2. assert (A2 : st0' = st0) by congruence. subst st0'. rewrite E3 in F3. assert (A3 : t0' = t0 /\ ts' = ts) by (split; congruence). destruct A3 as [-> ->].
  rewrite E4 in F4. assert (A4 : s' = s /\ e' = e) by (split; congruence). destruct A4 as [-> ->].
  assert (EP : P = mkWp rf rp ga HS VpS VpC (brocher_vs VpS) (brocher_rho VpS) (brocher_rho VpC) Hs Ks (tr_delta tr0) (t0 :: ts)
             (tr_sta tr0) (tr_data st0) (nabs t0) (length (tr_data st0)) s e) by (apply (f_equal (hd P)) in F5; exact F5).
  assert (G : In (sr_H q, sr_K q) l).
  { apply mapM_Ok in HT. clear -HT Hq. induction HT as [|[h k] q' l T Hsv F0 IH]; [destruct Hq|]. destruct Hq as [->|Hq]; [|right; exact (IH Hq)].
    apply eval_node_HK in Hsv as [Q1 Q2]. cbn [fst snd strip so_H so_K] in *. left. congruence. }
  destruct (HG _ _ G) as [Ih Ik]. split; [exact Ih|]. split; [exact Ik|].
  destruct (eval_row _ _ _ _ _ _ HT Hq) as (sy & Hsy & _ & Hr & _). rewrite EP in Hsy, Hr.
  cbn [wp_data wp_start wp_end wp_HSed wp_VpSed wp_VsSed wp_SedDen wp_VpCrust wp_CrustDen wp_rayp wp_delta wp_n wp_preonset wp_gauss] in Hsy, Hr.
  assert (Hsy' : synthetic64 tr0 st0 t0 (sr_H q) (sr_K q) = Ok sy) by exact Hsy.
  exists sy. split; [exact Hsy'|]. assert (Wsy := Wy _ _ _ Ih Ik Hsy'). split; [exact Wsy|].
  assert (L : length (slice (tr_data st0) s e) = length (slice sy s e) /\ slice (tr_data st0) s e <> []).
  { unfold rmse in Hr. destruct (_ && _)%bool eqn:C in Hr; [|discriminate]. apply andb_prop in C as [C _]. apply andb_prop in C as [C1 C2]. apply Nat.eqb_eq in C1.
    split; [exact C1|]. intro Z. rewrite Z in C2. discriminate. }
  destruct L as [L Ne]. split; [exact L|]. split; [exact Hr|].
  destruct (C131_rmse _ _ Wx Wsy L Ne Ln) as (r & Hr' & Fr & Pr & Er).
  assert (Q : sr_rmse q = r) by (rewrite Hr in Hr'; apply (f_equal (fun z => match z with Ok v => v | Err _ => r end)) in Hr'; exact Hr').
  rewrite Q. split; [exact Fr|]. split; [exact Pr|exact Er].
Qed.

Context (a b c : B64) (wf : @wfit B64).
Hypothesis Run : WaveformFitting stackR synO pgO rf po HS VpS VpC rp Ks Hs ga a b c = Ok wf.

Lemma run64 tr0 st0 t0 s e : setting tr0 st0 t0 s e ->
  best_rows (wf_sols wf) = Ok (wf_printed wf) /\
  (forall h k, In h Hs -> In k Ks -> exists r, In r (wf_sols wf) /\ sr_H r = h /\ sr_K r = k) /\
  forall r, In r (wf_sols wf) -> In (sr_H r) Hs /\ In (sr_K r) Ks /\
    exists sy, synthetic64 tr0 st0 t0 (sr_H r) (sr_K r) = Ok sy /\ windowed (slice sy s e) /\ length (slice (tr_data st0) s e) = length (slice sy s e) /\
    @rmse B64 (slice (tr_data st0) s e) (slice sy s e) = Ok (sr_rmse r) /\ fdouble (sr_rmse r) /\ 0 <= real (sr_rmse r) /\
    Rabs (real (sr_rmse r) - misfit st0 s e sy) <= eps (length (slice (tr_data st0) s e)) * misfit st0 s e sy + bottom.
Proof.
  intro HS0. destruct (wf_inv _ _ _ _ _ _ _ _ _ _ _ _ _ _ _ _ Run) as (P & T & HP & _ & _ & HT & HR & HB & _).
  assert (HT' : mapM (fun hk => eval_node synO pgO P (fst hk) (snd hk)) (map (fun p => (snd p, fst p)) (list_prod Ks Hs)) = Ok T).
  { rewrite mapM_map. exact HT. }
  apply strip_rank in HR. split; [exact HB|]. split.
  - intros h k Ih Ik. assert (G : In (k, h) (map (fun r => (sr_K r, sr_H r)) (wf_sols wf))).
    { assert (X : map (fun r => (sr_K r, sr_H r)) (wf_sols wf) = map (fun s => (so_K s, so_H s)) T) by (rewrite <- HR, map_map; reflexivity).
      rewrite X. apply mapM_Ok in HT. assert (Y : map (fun s => (so_K s, so_H s)) T = list_prod Ks Hs).
      { clear -HT. induction HT as [|[k h] q l T Hsv F0 IH]; cbn [map]; [reflexivity|]. apply eval_node_HK in Hsv as [Q1 Q2]. cbn [fst snd] in *. rewrite Q1, Q2, IH. reflexivity. }
      rewrite Y. apply in_prod; assumption. }
    apply in_map_iff in G as (r & Er & Ir). exists r. split; [exact Ir|]. split; congruence.
  - intros r Ir. apply (row64 P tr0 st0 t0 s e T _ r HP HS0 HT').
    + intros h k G. apply in_map_iff in G as ([k' h'] & Eg & G). apply in_prod_iff in G as [G1 G2]. cbn [fst snd] in Eg. split; congruence.
    + rewrite <- HR. apply in_map. exact Ir.
Qed.

(** C131: every RMSE in the table is the exact misfit up to rounding. *)
Theorem C131_table tr0 st0 t0 s e r : setting tr0 st0 t0 s e -> In r (wf_sols wf) ->
  exists sy, synthetic64 tr0 st0 t0 (sr_H r) (sr_K r) = Ok sy /\
    Rabs (real (sr_rmse r) - misfit st0 s e sy) <= eps (length (slice (tr_data st0) s e)) * misfit st0 s e sy + bottom.
Proof.
  intros HS0 Ir. destruct (run64 _ _ _ _ _ HS0) as (_ & _ & FR). destruct (FR r Ir) as (_ & _ & sy & Q & _ & _ & _ & _ & _ & E). exists sy. split; assumption.
Qed.

(** C131: the exact misfit of the model reported as best by RMSE exceeds that of no grid point,
    except by rounding. *)
Theorem C131_best tr0 st0 t0 s e h k sy : setting tr0 st0 t0 s e -> In h Hs -> In k Ks -> synthetic64 tr0 st0 t0 h k = Ok sy ->
  let best := b_rmse (wf_printed wf) in
  In (sr_H best) Hs /\ In (sr_K best) Ks /\ exists sb, synthetic64 tr0 st0 t0 (sr_H best) (sr_K best) = Ok sb /\
    misfit st0 s e sb <= (1 + 3 * eps (length (slice (tr_data st0) s e))) * misfit st0 s e sy + 3 * bottom.
Proof.
  intros HS0 Ih Ik Hsy. cbv zeta. destruct (run64 _ _ _ _ _ HS0) as (HB & FG & FR).
  destruct (best_rmse_le _ _ HB) as [Ib Lb]. { intros r Ir. destruct (FR r Ir) as (_ & _ & sy' & _ & _ & _ & _ & Q & _). exact Q. }
  destruct (FG h k Ih Ik) as (r & Ir & Eh & Ek). destruct (FR r Ir) as (_ & _ & sy' & Q & _ & _ & _ & _ & _ & E). rewrite Eh, Ek, Hsy in Q.
  assert (sy' = sy) by congruence. subst sy'.
  destruct (FR _ Ib) as (J1 & J2 & sb & Qb & _ & _ & _ & _ & _ & Eb). split; [exact J1|]. split; [exact J2|]. exists sb. split; [exact Qb|].
  eapply near_best; [apply HS0|apply sqrt_pos|apply sqrt_pos|exact Eb|exact E|apply Lb; exact Ir].
Qed.

(** C131: if some grid point reproduces the data in the window, the RMSE reported as best is
    exactly 0 and that model reproduces the data to 2^-523 in every sample. *)
Theorem C131_reproduced tr0 st0 t0 s e h k sy : setting tr0 st0 t0 s e -> In h Hs -> In k Ks -> synthetic64 tr0 st0 t0 h k = Ok sy ->
  slice sy s e = slice (tr_data st0) s e ->
  let best := b_rmse (wf_printed wf) in
  real (sr_rmse best) = 0 /\ exists sb, synthetic64 tr0 st0 t0 (sr_H best) (sr_K best) = Ok sb /\
    forall i x y, nth_error (slice (tr_data st0) s e) i = Some x -> nth_error (slice sb s e) i = Some y -> Rabs (real x - real y) <= bpow radix2 (-523).
Proof.
  intros HS0 Ih Ik Hsy Hw. cbv zeta. destruct (run64 _ _ _ _ _ HS0) as (HB & FG & FR). assert (HS1 := HS0). destruct HS1 as (_ & Wx & Ln & _).
  destruct (best_rmse_le _ _ HB) as [Ib Lb]. { intros r Ir. destruct (FR r Ir) as (_ & _ & sy' & _ & _ & _ & _ & Q & _). exact Q. }
  destruct (FG h k Ih Ik) as (r & Ir & Eh & Ek). destruct (FR r Ir) as (_ & _ & sy' & Q & _ & _ & Hr & _). rewrite Eh, Ek, Hsy in Q.
  assert (sy' = sy) by congruence. subst sy'. rewrite Hw in Hr. apply rmse_self in Hr; [|exact Wx|eapply Z.le_trans; [exact Ln|lia]].
  specialize (Lb r Ir). rewrite Hr in Lb. destruct (FR _ Ib) as (J1 & J2 & sb & Qb & _ & Lsb & _ & _ & Pb & Eb).
  assert (Z : real (sr_rmse (b_rmse (wf_printed wf))) = 0) by (apply Rle_antisym; assumption).
  split; [exact Z|]. exists sb. split; [exact Qb|]. intros i x y Hx Hy. rewrite Z in Eb.
  pose proof (sample_le _ _ _ _ _ Lsb Hx Hy) as Q1. fold (misfit st0 s e sb) in Q1.
  pose proof (eps_small _ Ln) as [X0 X1]. set (n := length (slice (tr_data st0) s e)) in *. assert (M0 : 0 <= misfit st0 s e sb) by apply sqrt_pos.
  set (m := misfit st0 s e sb) in *. apply abs_le_inv in Eb. pose proof bottom_pos as B0.
  assert (Em : eps n * m <= m / 100) by (unfold Rdiv; rewrite Rmult_comm; apply Rmult_le_compat_l; lra).
  assert (Hm : m <= 2 * bottom) by lra.
  assert (Sn : 0 <= sqrt (INR n) <= 1024).
  { split; [apply sqrt_pos|]. replace 1024 with (sqrt (1024 * 1024)) by (apply sqrt_square; lra). apply sqrt_le_1_alt.
    rewrite INR_IZR_INZ. rewrite <- mult_IZR. apply IZR_le. lia. }
  assert (Q2 : Rabs (real x - real y) <= sqrt (INR n) * m) by exact Q1. eapply Rle_trans; [exact Q2|]. apply (Rle_trans _ (1024 * (2 * bottom))); [apply Rmult_le_compat; lra|].
  unfold bottom. assert (B11 : bpow radix2 11 = 2048) by (simpl; lra).
  replace (1024 * (2 * bpow radix2 (-535))) with (bpow radix2 11 * bpow radix2 (-535)) by (rewrite B11; lra).
  rewrite <- bpow_plus. apply bpow_le. lia.
Qed.
End Run64.

(** ** A concrete case: of four grid points only (30 km, 3) reproduces the record. *)
Definition syn31 := syn4 [1;0;0;0;0;0]%Z [1;2;3;5;4;0]%Z [2;4;6;10;8;0]%Z [0;0;1;0;0;0]%Z.
Lemma windowed_ints (l : list Z) : Forall (fun z => (Z.abs z <= 2 ^ 30)%Z) l -> windowed (map z2 l).
Proof.
  induction 1 as [|z l Hz Hl IH]; cbn [map]; constructor; [|exact IH]. destruct (ofZ_fd z) as [Fz Vz]; [eapply Z.le_trans; [exact Hz|lia]|].
  split; [exact Fz|]. change (z2 z) with (sf_ofZ z). rewrite Vz, <- abs_IZR, pow_IZR. apply IZR_le. exact Hz.
Qed.
Lemma windowed_slice x s e : windowed x -> windowed (slice x s e).
Proof.
  intro H. apply Forall_forall. intros v Hv. apply (proj1 (Forall_forall _ _) H). unfold slice in Hv.
  apply In_firstn in Hv || (rewrite <- (firstn_skipn s x); apply in_or_app; right; rewrite <- (firstn_skipn (e - s) (skipn s x)); apply in_or_app; left; exact Hv).
Qed.
Lemma syn31_windowed dp vp vs rho r dt n p g sy : syn31 dp vp vs rho r dt n p g = Ok sy -> windowed sy.
Proof.
  unfold syn31, syn4. intro H. apply (f_equal (fun z => match z with Ok v => v | Err _ => sy end)) in H. rewrite <- H. apply windowed_ints.
  destruct dp as [|? [|? [|? [|]]]]; try constructor. destruct vs as [|? [|? [|? [|]]]]; try constructor.
  destruct (neqb _ _); destruct (neqb _ _); repeat constructor; cbn; lia.
Qed.
Definition same_float (p : spec_float * spec_float) : bool :=
  match fst p, snd p with S754_finite s m e, S754_finite s' m' e' => Bool.eqb s s' && Pos.eqb m m' && Z.eqb e e' | S754_zero s, S754_zero s' => Bool.eqb s s' | _, _ => false end.
Lemma same_floats (x y : list spec_float) : forallb same_float (combine x y) = true -> length x = length y -> x = y.
Proof.
  revert y. induction x as [|a x IH]; intros [|b y] Hq L; cbn [length] in L; try discriminate; [reflexivity|]. cbn [combine forallb] in Hq. apply andb_prop in Hq as [Ha Hq].
  f_equal; [|apply IH; [exact Hq|lia]].
  destruct a as [s|s| |s m e], b as [s'|s'| |s' m' e']; try discriminate Ha; unfold same_float in Ha; cbn [fst snd] in Ha.
  - apply Bool.eqb_prop in Ha. congruence.
  - apply andb_prop in Ha as [Ha He]. apply andb_prop in Ha as [Ha Hm]. apply Bool.eqb_prop in Ha. apply Pos.eqb_eq in Hm. apply Z.eqb_eq in He. congruence.
Qed.
Theorem C131_example : exists wf,
  ex_fit syn31 [1;2;3;5;4;0]%Z (1, 0, 0)%Z = Ok wf /\
  setting ex_stack syn31 [ex_trace [1;2;3;5;4;0]%Z] (z2 0) (z2 1) (z2 2) (z2 6) (z2 0) [z2 2; z2 3] [z2 30; z2 40] (z2 1)
    (ex_trace [1;2;3;5;4;0]%Z) (ex_trace [1;2;3;5;4;0]%Z) (@nsub B64 (@nmul B64 (z2 5) (z2 0)) (z2 0)) 0 5 /\
  real (sr_rmse (b_rmse (wf_printed wf))) = 0 /\ rowis (b_rmse (wf_printed wf)) 30 3 = true.
Proof.
  assert (E : chk (ex_fit syn31 [1;2;3;5;4;0]%Z (1, 0, 0)%Z) (fun wf => rowis (b_rmse (wf_printed wf)) 30 3) = true) by (vm_compute; reflexivity).
  apply chk_true in E as (wf & E & Hb). exists wf. split; [exact E|].
  assert (W : chk (@fit_window B64 (@taxis B64 (z2 5) 6 (z2 0)) (z2 5)) (fun w => (fst w =? 0)%nat && (snd w =? 5)%nat) = true) by (vm_compute; reflexivity).
  apply chk_true in W as ([s e] & W & Hse). apply andb_prop in Hse as [H1 H2]. cbn [fst snd] in H1, H2. apply Nat.eqb_eq in H1, H2. subst s e.
  assert (S0 : setting ex_stack syn31 [ex_trace [1;2;3;5;4;0]%Z] (z2 0) (z2 1) (z2 2) (z2 6) (z2 0) [z2 2; z2 3] [z2 30; z2 40] (z2 1)
    (ex_trace [1;2;3;5;4;0]%Z) (ex_trace [1;2;3;5;4;0]%Z) (@nsub B64 (@nmul B64 (z2 5) (z2 0)) (z2 0)) 0 5).
  { split; [|split; [|split]].
    - exists [], [], (tl (@taxis B64 (z2 5) 6 (z2 0))). split; [reflexivity|]. split; [reflexivity|]. split; [reflexivity|exact W].
    - apply windowed_slice. apply windowed_ints. repeat constructor; cbn; lia.
    - cbn. lia.
    - intros h k sy _ _ Hsy. apply windowed_slice. unfold synthetic64 in Hsy. eapply syn31_windowed. exact Hsy. }
  split; [exact S0|]. split; [|exact Hb].
  assert (Sy : chk (synthetic64 syn31 (z2 1) (z2 2) (z2 6) (z2 0) (z2 1) (ex_trace [1;2;3;5;4;0]%Z) (ex_trace [1;2;3;5;4;0]%Z) (@nsub B64 (@nmul B64 (z2 5) (z2 0)) (z2 0)) (z2 30) (z2 3))
     (fun sy => forallb same_float (combine sy (map z2 [1;2;3;5;4;0]%Z)) && (length sy =? 6)%nat) = true) by (vm_compute; reflexivity).
  apply chk_true in Sy as (sy & Sy & Hq). apply andb_prop in Hq as [Hq Hl]. apply Nat.eqb_eq in Hl.
  assert (Eq : sy = map z2 [1;2;3;5;4;0]%Z) by exact (same_floats _ _ Hq Hl).
  refine (proj1 (C131_reproduced _ _ _ _ _ _ _ _ _ _ _ _ _ _ _ _ E _ _ _ _ _ (z2 30) (z2 3) sy S0 _ _ Sy _)).
  - left. reflexivity.
  - right. left. reflexivity.
  - rewrite Eq. reflexivity.
Qed.
