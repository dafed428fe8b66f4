(** * FloatErr: error bounds for the arithmetic patterns of the H-k programs in binary64. *)

From Coq Require Import ZArith Reals Lra Lia Psatz Floats.SpecFloat.
From Flocq Require Import Core.
From Verif Require Import Base Num Float64.

Local Open Scope R_scope.

(** A finite double. *)
Definition fdouble (x : spec_float) : Prop := double x /\ finite x.
Notation u := ulp1.

Lemma u_val : u = / 9007199254740992. Proof. unfold ulp1. apply f_equal. lra. Qed.
Lemma u_bounds : 0 < u < / 1000000000000000.
Proof. rewrite u_val. split; [|apply Rinv_lt_contravar]; lra. Qed.

Lemma pow2_1023 : 2 ^ 100 <= bpow radix2 1023.
Proof. change (2 ^ 100) with (2 ^ 100). replace (2 ^ 100) with (bpow radix2 100) by (simpl; lra). apply bpow_le. lia. Qed.
Lemma pow2_m1022 : bpow radix2 (-1022) <= / 2 ^ 200.
Proof. replace (/ 2 ^ 200) with (bpow radix2 (-200)) by (simpl; lra). apply bpow_le. lia. Qed.
Lemma tiny_small : tiny <= / 2 ^ 300.
Proof.
  unfold tiny. replace (/ 2 ^ 300) with (/ 2 * bpow radix2 (-299)) by (simpl; lra).
  apply Rmult_le_compat_l; [lra|]. apply bpow_le. lia.
Qed.

Lemma mul_fd x y : fdouble x -> fdouble y -> Rabs (real x * real y) <= bpow radix2 1023 ->
  fdouble (sf_mul x y) /\ real (sf_mul x y) = rnd (real x * real y) /\
  Rabs (real (sf_mul x y) - real x * real y) <= u * Rabs (real x * real y) + tiny /\
  (bpow radix2 (-1022) <= Rabs (real x * real y) -> Rabs (real (sf_mul x y) - real x * real y) <= u * Rabs (real x * real y)).
Proof.
  intros [Dx Fx] [Dy Fy] H. assert (F := mul_ok x y Dx Dy Fx Fy (rnd_no_overflow _ H)).
  assert (E := mul_val x y Dx Dy F). split; [split; [apply mul_double; assumption|exact F]|]. split; [exact E|].
  rewrite E. split; [apply rnd_err|apply rnd_rel].
Qed.
Lemma div_fd x y : fdouble x -> fdouble y -> real y <> 0 -> Rabs (real x / real y) <= bpow radix2 1023 ->
  fdouble (sf_div x y) /\ real (sf_div x y) = rnd (real x / real y) /\
  Rabs (real (sf_div x y) - real x / real y) <= u * Rabs (real x / real y) + tiny /\
  (bpow radix2 (-1022) <= Rabs (real x / real y) -> Rabs (real (sf_div x y) - real x / real y) <= u * Rabs (real x / real y)).
Proof.
  intros [Dx Fx] [Dy Fy] Z H. assert (F := div_ok x y Dx Dy Z Fx (rnd_no_overflow _ H)).
  assert (E := div_val x y Dx Dy Z F). split; [split; [apply div_double; assumption|exact F]|]. split; [exact E|].
  rewrite E. split; [apply rnd_err|apply rnd_rel].
Qed.
Lemma add_fd x y : fdouble x -> fdouble y -> Rabs (real x + real y) <= bpow radix2 1023 ->
  fdouble (sf_add x y) /\ real (sf_add x y) = rnd (real x + real y) /\
  Rabs (real (sf_add x y) - (real x + real y)) <= u * Rabs (real x + real y).
Proof.
  intros [Dx Fx] [Dy Fy] H. assert (F := add_ok x y Dx Dy Fx Fy (rnd_no_overflow _ H)).
  assert (E := add_val x y Dx Dy F). split; [split; [apply add_double; assumption|exact F]|]. split; [exact E|].
  rewrite E. apply rnd_add_err; assumption.
Qed.
Lemma sub_err_rnd x y : double x -> double y -> Rabs (rnd (real x - real y) - (real x - real y)) <= u * Rabs (real x - real y).
Proof.
  intros Hx Hy. pose proof (rnd_add_err x (SFopp y) Hx (opp_double y Hy)) as H. rewrite opp_val in H. exact H.
Qed.
Lemma sub_fd x y : fdouble x -> fdouble y -> Rabs (real x - real y) <= bpow radix2 1023 ->
  fdouble (sf_sub x y) /\ real (sf_sub x y) = rnd (real x - real y) /\
  Rabs (real (sf_sub x y) - (real x - real y)) <= u * Rabs (real x - real y).
Proof.
  intros [Dx Fx] [Dy Fy] H. assert (F := sub_ok x y Dx Dy Fx Fy (rnd_no_overflow _ H)).
  assert (E := sub_val x y Dx Dy F). split; [split; [apply sub_double; assumption|exact F]|]. split; [exact E|].
  rewrite E. apply sub_err_rnd; assumption.
Qed.
Lemma sqrt_fd x : fdouble x -> 0 <= real x ->
  fdouble (sf_sqrt x) /\ real (sf_sqrt x) = rnd (sqrt (real x)) /\
  (bpow radix2 (-1022) <= sqrt (real x) -> Rabs (real (sf_sqrt x) - sqrt (real x)) <= u * sqrt (real x)).
Proof.
  intros [Dx Fx] P. split; [split; [apply sqrt_double; exact Dx|apply sqrt_ok; assumption]|].
  split; [apply sqrt_val; exact Dx|]. intro H. rewrite (sqrt_val x Dx). pose proof (sqrt_pos (real x)).
  pose proof (rnd_rel (sqrt (real x))) as G. rewrite (Rabs_right (sqrt (real x))) in G by lra. apply G. exact H.
Qed.
Lemma ofZ_fd z : (Z.abs z <= 2 ^ 53)%Z -> fdouble (sf_ofZ z) /\ real (sf_ofZ z) = IZR z.
Proof. intro H. destruct (ofZ_val z H). split; [split; [apply ofZ_double|assumption]|assumption]. Qed.

Lemma sqrt_diff x y : 0 <= x -> 0 < y -> Rabs (sqrt x - sqrt y) <= Rabs (x - y) / sqrt y.
Proof.
  intros Hx Hy. assert (0 < sqrt y) by (apply sqrt_lt_R0; exact Hy). assert (0 <= sqrt x) by apply sqrt_pos.
  apply Rmult_le_reg_r with (sqrt y); [assumption|]. unfold Rdiv. rewrite Rmult_assoc, Rinv_l, Rmult_1_r by lra.
  replace (x - y) with ((sqrt x - sqrt y) * (sqrt x + sqrt y)).
  - rewrite Rabs_mult. apply Rmult_le_compat_l; [apply Rabs_pos|]. rewrite Rabs_right; lra.
  - replace ((sqrt x - sqrt y) * (sqrt x + sqrt y)) with (sqrt x * sqrt x - sqrt y * sqrt y) by ring.
    rewrite !sqrt_sqrt; lra.
Qed.

Lemma abs_le_inv x y : Rabs x <= y -> - y <= x <= y.
Proof. intro H. split; [|eapply Rle_trans; [apply Rle_abs|exact H]]. pose proof (Rle_abs (- x)) as G. rewrite Rabs_Ropp in G. lra. Qed.

Lemma us x : 0 <= x -> 0 <= u * x <= x / 1000000000.
Proof. intro H. pose proof u_bounds as [U1 U2]. split; [apply Rmult_le_pos; lra|]. unfold Rdiv. rewrite (Rmult_comm x). apply Rmult_le_compat_r; lra. Qed.
Lemma us_le x y : x <= y -> u * x <= u * y.
Proof. intro H. pose proof u_bounds as [U1 U2]. apply Rmult_le_compat_l; lra. Qed.

(** ** sqrt(fl(fl(g^2)) - fl(p^2)) for g close to G, when p^2 <= G^2/2 *)
Lemma leg_err (g p : spec_float) (G : R) :
  fdouble g -> fdouble p -> 0 < G -> / 2 ^ 30 <= G <= 2 ^ 45 ->
  Rabs (real g - G) <= u * G -> 2 * (real p * real p) <= G * G ->
  let q := sqrt (G * G - real p * real p) in
  let r := sf_sqrt (sf_sub (sf_mul g g) (sf_mul p p)) in
  fdouble r /\ 0 < q /\ Rabs (real r - q) <= 14 * u * q /\
  fdouble (sf_sub (sf_mul g g) (sf_mul p p)) /\ 0 < real (sf_sub (sf_mul g g) (sf_mul p p)).
Proof.
  intros Fg Fp HG [Gl Gh] Eg Hp q r. pose proof u_bounds as [U1 U2]. pose proof pow2_1023 as P1. pose proof pow2_m1022 as P2.
  pose proof tiny_small as T.
  assert (P3 : 2 ^ 100 = 1267650600228229401496703205376) by lra.
  apply abs_le_inv in Eg.
  set (a := G * G). set (b := real p * real p). fold a b in Hp. assert (Hb : 0 <= b) by (unfold b; apply Rle_0_sqr).
  assert (Ha : / 2 ^ 60 <= a <= 2 ^ 90).
  { unfold a. split.
    - replace (/ 2 ^ 60) with (/ 2 ^ 30 * / 2 ^ 30) by lra. apply Rmult_le_compat; lra.
    - replace (2 ^ 90) with (2 ^ 45 * 2 ^ 45) by lra. apply Rmult_le_compat; lra. }
  assert (Ha0 : 0 < a) by lra.
  assert (Egg : Rabs (real g * real g - a) <= 3 * u * a).
  { unfold a. replace (real g * real g - G * G) with ((real g - G) * (real g + G)) by ring. rewrite Rabs_mult.
    replace (3 * u * (G * G)) with ((u * G) * (3 * G)) by ring.
    apply Rmult_le_compat; try apply Rabs_pos; [apply Rabs_le; lra|]. rewrite Rabs_right; [|nra]. nra. }
  apply abs_le_inv in Egg.
  assert (Hg2 : real g * real g <= 2 * a) by nra. assert (Hg2' : a / 2 <= real g * real g) by nra.
  destruct (mul_fd g g Fg Fg) as (F1 & _ & _ & E1).
  { rewrite Rabs_right by nra. nra. }
  rewrite (Rabs_right (real g * real g)) in E1 by nra. specialize (E1 ltac:(lra)). apply abs_le_inv in E1.
  destruct (mul_fd p p Fp Fp) as (F2 & _ & E2 & _).
  { rewrite Rabs_right by (fold b; lra). fold b. nra. }
  fold b in E2. rewrite (Rabs_right b) in E2 by lra. apply abs_le_inv in E2.
  set (m1 := real (sf_mul g g)) in *. set (m2 := real (sf_mul p p)) in *.
  assert (Hm1 : - (5 * u * a) <= m1 - a <= 5 * u * a) by (pose proof (us_le _ _ Hg2); lra).
  assert (Tu : tiny <= u * a / 2). { rewrite u_val. nra. }
  assert (Hm2 : - (u * a) <= m2 - b <= u * a) by (pose proof (us_le b (a / 2) ltac:(lra)); lra).
  assert (Hd : - (6 * u * a) <= (m1 - m2) - (a - b) <= 6 * u * a) by lra.
  set (y := a - b). assert (Hy : a / 2 <= y) by (unfold y; lra). fold y in Hd.
  assert (Hd' : - (12 * u * y) <= (m1 - m2) - y <= 12 * u * y) by (pose proof (us_le a (2 * y) ltac:(lra)); lra).
  assert (Hpos : y / 2 <= m1 - m2 <= 2 * y) by (pose proof (us y ltac:(lra)); lra).
  destruct (sub_fd _ _ F1 F2) as (F3 & _ & E3).
  { fold m1 m2. rewrite Rabs_right by lra. assert (y <= a) by (unfold y; lra). lra. }
  fold m1 m2 in E3. rewrite (Rabs_right (m1 - m2)) in E3 by lra. apply abs_le_inv in E3.
  set (d := real (sf_sub (sf_mul g g) (sf_mul p p))) in *.
  assert (Hd3 : - (14 * u * y) <= d - y <= 14 * u * y) by (pose proof (us_le (m1 - m2) (2 * y) ltac:(lra)); lra).
  assert (Hdp : y / 2 <= d) by (pose proof (us y ltac:(lra)); lra).
  destruct (sqrt_fd _ F3) as (F4 & _ & E4); [fold d; lra|]. fold d r in E4, F4.
  assert (Hq : 0 < q) by (apply sqrt_lt_R0; fold a b y; lra).
  assert (Hq2 : q * q = y) by (apply sqrt_sqrt; fold a b y; lra).
  (* sharper: |sqrt d - q| <= 12.5 u q *)
  assert (Hs : Rabs (sqrt d - q) <= 14 * u * y / (sqrt d + q)).
  { pose proof (sqrt_pos d). replace (sqrt d - q) with ((d - y) / (sqrt d + q)).
    - unfold Rdiv. rewrite Rabs_mult, (Rabs_right (/ (sqrt d + q))); [|apply Rle_ge, Rlt_le, Rinv_0_lt_compat; lra].
      apply Rmult_le_compat_r; [apply Rlt_le, Rinv_0_lt_compat; lra|]. apply Rabs_le. lra.
    - rewrite <- Hq2. rewrite <- (sqrt_sqrt d) at 1 by lra. field. lra. }
  assert (Hsd : q / 2 <= sqrt d).
  { replace (q / 2) with (sqrt (y / 4)). { apply sqrt_le_1; lra. }
    replace (y / 4) with ((q / 2) * (q / 2)) by (rewrite <- Hq2; field). apply sqrt_square. lra. }
  assert (Hs' : Rabs (sqrt d - q) <= 10 * u * q).
  { eapply Rle_trans; [exact Hs|]. apply Rmult_le_reg_r with (sqrt d + q); [lra|].
    unfold Rdiv. rewrite Rmult_assoc, Rinv_l, Rmult_1_r by lra. rewrite <- Hq2.
    replace (14 * u * (q * q)) with (14 * (u * q) * q) by ring. replace (10 * u * q * (sqrt d + q)) with (10 * (u * q) * (sqrt d + q)) by ring.
    pose proof (us q ltac:(lra)). assert (14 * q <= 10 * (sqrt d + q)) by lra.
    replace (14 * (u * q) * q) with ((u * q) * (14 * q)) by ring. replace (10 * (u * q) * (sqrt d + q)) with ((u * q) * (10 * (sqrt d + q))) by ring.
    apply Rmult_le_compat_l; lra. }
  apply abs_le_inv in Hs'.
  assert (Hql : / 2 ^ 40 <= q).
  { replace (/ 2 ^ 40) with (sqrt (/ 2 ^ 80)).
    - apply sqrt_le_1; [lra|fold a b y; lra|]. fold a b y. lra.
    - replace (/ 2 ^ 80) with (/ 2 ^ 40 * / 2 ^ 40) by lra. apply sqrt_square. lra. }
  specialize (E4 ltac:(lra)). apply abs_le_inv in E4.
  split; [exact F4|]. split; [exact Hq|]. split; [|split; [exact F3|lra]].
  pose proof (us q ltac:(lra)). pose proof (us_le (sqrt d) (2 * q) ltac:(lra)). apply Rabs_le. lra.
Qed.
