(** * FloatHk: the predicted delays, the sample reads and the stack values in binary64. *)

From Coq Require Import ZArith Reals Lra Lia Psatz Floats.SpecFloat.
From Flocq Require Import Core.
From Verif Require Import Base Num NumPy Spec HkModel HkProofs HkReal Float64 FloatErr.

Local Open Scope R_scope.

(** Parameters of geophysical size: velocity, thickness and Vp/Vs far from the limits of
    the format, ray parameter at most 1/sqrt 2 of the P slowness. *)
Record sane (v p h k : R) : Prop := mkSane {
  sane_v : / 2 ^ 20 <= v <= 2 ^ 20;
  sane_h : / 2 ^ 20 <= h <= 2 ^ 20;
  sane_k : 1 <= k <= 2 ^ 20;
  sane_p : 2 * (p * p) <= (1 / v) * (1 / v) }.

Lemma sane_pre v p h k : sane v p h k -> precritical v p.
Proof.
  intros [[v1 v2] _ _ sp]. split; [lra|]. pose proof (Rle_0_sqr p) as Hp. unfold Rsqr in Hp.
  pose proof (Rle_0_sqr (1 / v)) as Hv. unfold Rsqr in Hv. simpl. lra.
Qed.

Theorem hk_times_err (Vp rp H K : B64) k :
  fdouble Vp -> fdouble rp -> fdouble H -> fdouble K -> sane (real Vp) (real rp) (real H) (real K) ->
  let v := real Vp in let p := real rp in let h := real H in let kk := real K in
  exists a b c : B64, @hk_times B64 Vp rp k H K = Ok (TR a, TR b, TR c) /\
    fdouble a /\ fdouble b /\ fdouble c /\ 0 < t_PpPs v p h kk /\
    Rabs (real a - t_Ps v p h kk) <= / 2 ^ 47 * t_PpPs v p h kk /\
    Rabs (real b - t_PpPs v p h kk) <= / 2 ^ 47 * t_PpPs v p h kk /\
    Rabs (real c - t_PsPs v p h kk) <= / 2 ^ 47 * t_PpPs v p h kk.
Proof.
  intros FV Fp FH FK S v p h kk. destruct S as [[v1 v2] [h1 h2] [k1 k2] sp]. fold v in v1, v2, sp. fold p in sp. fold h in h1, h2. fold kk in k1, k2.
  pose proof pow2_1023 as P1. pose proof pow2_m1022 as P2. pose proof tiny_small as T. pose proof u_bounds as [U1 U2].
  assert (V0 : v <> 0) by lra.
  assert (Hiv : / 2 ^ 20 <= 1 / v <= 2 ^ 20).
  { unfold Rdiv. rewrite Rmult_1_l. split; [apply Rinv_le_contravar; lra|].
    replace (2 ^ 20) with (/ / 2 ^ 20) by (apply Rinv_inv). apply Rinv_le_contravar; lra. }
  assert (Hkv : / 2 ^ 20 <= kk / v <= 2 ^ 40).
  { replace (kk / v) with (kk * (1 / v)) by (field; exact V0). split.
    - replace (/ 2 ^ 20) with (1 * / 2 ^ 20) by lra. apply Rmult_le_compat; lra.
    - replace (2 ^ 40) with (2 ^ 20 * 2 ^ 20) by lra. apply Rmult_le_compat; lra. }
  destruct (ofZ_fd 1) as [F1 E1]; [vm_compute; discriminate|]. destruct (ofZ_fd 0) as [F0 E0]; [vm_compute; discriminate|]. destruct (ofZ_fd 2) as [F2 E2]; [vm_compute; discriminate|].
  destruct (div_fd (sf_ofZ 1) Vp F1 FV V0) as (Fi & _ & _ & Ei). { rewrite E1. fold v. rewrite Rabs_right; lra. }
  rewrite E1 in Ei. fold v in Ei. rewrite (Rabs_right (1 / v)) in Ei by lra. specialize (Ei ltac:(lra)).
  destruct (div_fd K Vp FK FV V0) as (Fk & _ & _ & Ek). { fold v kk. rewrite Rabs_right; lra. }
  fold v kk in Ek. rewrite (Rabs_right (kk / v)) in Ek by lra. specialize (Ek ltac:(lra)).
  destruct (leg_err _ rp (1 / v) Fi Fp ltac:(lra) ltac:(lra) Ei sp) as (F4 & Q2 & B2 & F4' & D2).
  assert (sp' : 2 * (p * p) <= kk / v * (kk / v)).
  { eapply Rle_trans; [exact sp|]. assert (1 / v <= kk / v).
    { unfold Rdiv. apply Rmult_le_compat_r; [apply Rlt_le, Rinv_0_lt_compat; lra|lra]. }
    apply Rmult_le_compat; lra. }
  destruct (leg_err _ rp (kk / v) Fk Fp ltac:(lra) ltac:(lra) Ek sp') as (F3 & Q1 & B1 & _ & _).
  fold p in Q1, Q2, B1, B2.
  set (r1 := sf_sqrt (sf_sub (sf_mul (sf_div K Vp) (sf_div K Vp)) (sf_mul rp rp))) in *.
  set (rad := sf_sub (sf_mul (sf_div (sf_ofZ 1) Vp) (sf_div (sf_ofZ 1) Vp)) (sf_mul rp rp)) in *.
  set (r2 := sf_sqrt rad) in *.
  assert (Es : qs v kk p = sqrt (kk / v * (kk / v) - p * p)) by (unfold qs; rewrite !sq_pow2; reflexivity).
  assert (Ep : qp v p = sqrt (1 / v * (1 / v) - p * p)) by (unfold qp; rewrite !sq_pow2; reflexivity).
  set (q1 := sqrt (kk / v * (kk / v) - p * p)) in *. set (q2 := sqrt (1 / v * (1 / v) - p * p)) in *.
  assert (Hle : q2 <= q1).
  { apply sqrt_le_1; try lra. pose proof (Rle_0_sqr (1 / v)). unfold Rsqr in *. lra.
    pose proof (Rle_0_sqr (kk / v)). unfold Rsqr in *. lra.
    assert (1 / v <= kk / v) by (unfold Rdiv; apply Rmult_le_compat_r; [apply Rlt_le, Rinv_0_lt_compat; lra|lra]).
    assert (1 / v * (1 / v) <= kk / v * (kk / v)) by (apply Rmult_le_compat; lra). lra. }
  assert (Hq1 : q1 <= 2 ^ 40).
  { rewrite <- (sqrt_square (2 ^ 40)) by lra. apply sqrt_le_1; try lra.
    - pose proof (Rle_0_sqr (kk / v)). unfold Rsqr in *. lra.
    - assert (kk / v * (kk / v) <= 2 ^ 40 * 2 ^ 40) by (apply Rmult_le_compat; lra). pose proof (Rle_0_sqr p). unfold Rsqr in *. lra. }
  assert (Hq1l : / 2 ^ 30 <= q1).
  { rewrite <- (sqrt_square (/ 2 ^ 30)) by lra. apply sqrt_le_1; try lra.
    - pose proof (Rle_0_sqr (kk / v)). unfold Rsqr in *. lra.
    - assert (/ 2 ^ 20 * / 2 ^ 20 <= kk / v * (kk / v)) by (apply Rmult_le_compat; lra). lra. }
  assert (Etimes : @hk_times B64 Vp rp k H K =
    Ok (TR (sf_mul H (sf_sub r1 r2)), TR (sf_mul H (sf_add r1 r2)), TR (sf_mul (sf_mul H (sf_ofZ 2)) r1))).
  { unfold hk_times, pyinv. cbn [neqb B64 nofZ].
    assert (Eq : SFeqb Vp (sf_ofZ 0) = false).
    { change (@neqb B64 Vp (sf_ofZ 0) = false). rewrite (eqb_leb _ B64_laws). cbn [nleb B64]. destruct FV as [DV FV], F0 as [D0 F0].
      rewrite !leb_val by assumption. rewrite E0. fold v. unfold Rleb. destruct (Rle_dec v 0); [lra|reflexivity]. }
    rewrite Eq. cbn [bind]. unfold proot. cbn [nsub nsq ndiv nltb nofZ nroot B64]. fold rad.
    assert (Lt : SFltb rad (sf_ofZ 0) = false).
    { destruct F4' as [D4 F4']. destruct F0 as [D0 F0]. rewrite ltb_val by assumption. rewrite E0. unfold Rltb. destruct (Rlt_dec _ _); [lra|reflexivity]. }
    rewrite Lt. destruct k; reflexivity. }
  rewrite Etimes.
  apply abs_le_inv in B1, B2. pose proof (us q1 ltac:(lra)) as Uq1. pose proof (us q2 ltac:(lra)) as Uq2.
  set (x1 := real r1) in *. set (x2 := real r2) in *.
  destruct (sub_fd r1 r2 F3 F4) as (F5 & _ & E5). { fold x1 x2. apply Rabs_le. lra. }
  destruct (add_fd r1 r2 F3 F4) as (F6 & _ & E6). { fold x1 x2. apply Rabs_le. lra. }
  fold x1 x2 in E5, E6.
  assert (E5' : Rabs (real (sf_sub r1 r2) - (q1 - q2)) <= 17 * u * (q1 + q2)).
  { apply abs_le_inv in E5. assert (Rabs (x1 - x2) <= 2 * (q1 + q2)) by (apply Rabs_le; lra).
    apply us_le in H0. apply Rabs_le. lra. }
  assert (E6' : Rabs (real (sf_add r1 r2) - (q1 + q2)) <= 17 * u * (q1 + q2)).
  { apply abs_le_inv in E6. assert (Rabs (x1 + x2) <= 2 * (q1 + q2)) by (apply Rabs_le; lra).
    apply us_le in H0. apply Rabs_le. lra. }
  clear E5 E6. set (y5 := real (sf_sub r1 r2)) in *. set (y6 := real (sf_add r1 r2)) in *.
  apply abs_le_inv in E5', E6'.
  assert (Hh : 0 < h) by lra.
  set (t := h * (q1 + q2)). assert (Ht : 0 < t) by (unfold t; apply Rmult_lt_0_compat; lra).
  assert (Htl : / 2 ^ 60 <= t).
  { unfold t. replace (/ 2 ^ 60) with (/ 2 ^ 20 * / 2 ^ 40) by lra. apply Rmult_le_compat; lra. }
  assert (Hth : t <= 2 ^ 70). { unfold t. replace (2 ^ 70) with (2 ^ 20 * 2 ^ 50) by lra. apply Rmult_le_compat; lra. }
  assert (Tt : tiny <= u * t). { rewrite u_val. lra. }
  pose proof (us t ltac:(lra)) as Ut.
  assert (M : forall z Z, - (17 * u * (q1 + q2)) <= z - Z <= 17 * u * (q1 + q2) -> - (17 * (u * t)) <= h * z - h * Z <= 17 * (u * t)).
  { intros z Z [A B]. replace (h * z - h * Z) with (h * (z - Z)) by ring.
    replace (17 * (u * t)) with (h * (17 * u * (q1 + q2))) by (unfold t; ring).
    rewrite (Ropp_mult_distr_r h). split; apply Rmult_le_compat_l; lra. }
  pose proof (M _ _ E5') as M5. pose proof (M _ _ E6') as M6. clear M.
  assert (Zb : - t <= h * (q1 - q2) <= t).
  { unfold t. split; [rewrite Ropp_mult_distr_r|]; apply Rmult_le_compat_l; lra. }
  destruct (mul_fd H _ FH F5) as (F7 & _ & E7 & _). { fold h y5. apply Rabs_le. lra. }
  destruct (mul_fd H _ FH F6) as (F8 & _ & E8 & _). { fold h y6. change (h * (q1 + q2)) with t in M6. apply Rabs_le. lra. }
  fold h y5 in E7. fold h y6 in E8. change (h * (q1 + q2)) with t in M6.
  destruct (mul_fd H (sf_ofZ 2) FH F2) as (F9 & _ & _ & E9). { rewrite E2. fold h. rewrite Rabs_right; lra. }
  rewrite E2 in E9. fold h in E9. rewrite (Rabs_right (h * 2)) in E9 by lra. specialize (E9 ltac:(lra)).
  set (h2' := real (sf_mul H (sf_ofZ 2))) in *. apply abs_le_inv in E9. pose proof (us h ltac:(lra)) as Uh.
  (* third delay *)
  set (w := h * q1). assert (Hw : 0 < w) by (unfold w; apply Rmult_lt_0_compat; lra).
  assert (Hwt : w <= t). { unfold w, t. apply Rmult_le_compat_l; lra. }
  assert (M9 : - (31 * (u * w)) <= h2' * x1 - 2 * w <= 31 * (u * w)).
  { replace (h2' * x1 - 2 * w) with ((h2' - h * 2) * x1 + h * 2 * (x1 - q1)) by (unfold w; ring).
    assert (A1 : - (3 * (u * w)) <= (h2' - h * 2) * x1 <= 3 * (u * w)).
    { apply abs_le_inv. rewrite Rabs_mult. replace (3 * (u * w)) with ((u * (h * 2)) * (3 / 2 * q1)) by (unfold w; field).
      apply Rmult_le_compat; try apply Rabs_pos; apply Rabs_le; lra. }
    assert (A2 : - (28 * (u * w)) <= h * 2 * (x1 - q1) <= 28 * (u * w)).
    { apply abs_le_inv. rewrite Rabs_mult. replace (28 * (u * w)) with ((h * 2) * (14 * u * q1)) by (unfold w; ring).
      apply Rmult_le_compat; try apply Rabs_pos; apply Rabs_le; lra. }
    lra. }
  pose proof (us w ltac:(lra)) as Uw. pose proof (us_le w t Hwt) as Uwt.
  destruct (mul_fd _ _ F9 F3) as (F10 & _ & E10 & _). { fold h2' x1. apply Rabs_le. lra. }
  fold h2' x1 in E10.
  exists (sf_mul H (sf_sub r1 r2)), (sf_mul H (sf_add r1 r2)), (sf_mul (sf_mul H (sf_ofZ 2)) r1).
  split; [reflexivity|]. do 3 (split; [assumption|]).
  unfold t_Ps, t_PpPs, t_PsPs. rewrite Es, Ep. fold q1 q2.
  assert (Et : h * (q1 + q2) = t) by reflexivity. rewrite Et. split; [exact Ht|].
  assert (G : 48 * (u * t) <= / 2 ^ 47 * t).
  { rewrite <- Rmult_assoc. apply Rmult_le_compat_r; [lra|]. rewrite u_val. lra. }
  assert (N7 : Rabs (h * y5) <= 2 * t) by (apply Rabs_le; lra). apply us_le in N7. apply abs_le_inv in E7.
  assert (N8 : Rabs (h * y6) <= 2 * t) by (apply Rabs_le; lra). apply us_le in N8. apply abs_le_inv in E8.
  assert (N10 : Rabs (h2' * x1) <= 3 * t) by (apply Rabs_le; lra). apply us_le in N10. apply abs_le_inv in E10.
  repeat split; apply Rabs_le; fold w; try lra.
  replace (2 * h * q1) with (2 * w) by (unfold w; ring). lra.
Qed.

(** ** The ray parameter is itself a rounded product *)

Lemma qleg_sens (G p P : R) : / 2 ^ 30 <= G <= 2 ^ 45 -> Rabs (p - P) <= u * Rabs P + tiny -> 9 / 4 * (P * P) <= G * G ->
  2 * (p * p) <= G * G /\ 0 < sqrt (G * G - P * P) /\
  Rabs (sqrt (G * G - p * p) - sqrt (G * G - P * P)) <= 8 * (u * sqrt (G * G - P * P)).
Proof.
  intros [G1 G2] Hp HP. pose proof tiny_small as T. pose proof tiny_pos as T0. pose proof u_bounds as [U1 U2].
  assert (Ha : / 2 ^ 60 <= G * G <= 2 ^ 90).
  { split.
    - replace (/ 2 ^ 60) with (/ 2 ^ 30 * / 2 ^ 30) by lra. apply Rmult_le_compat; lra.
    - replace (2 ^ 90) with (2 ^ 45 * 2 ^ 45) by lra. apply Rmult_le_compat; lra. }
  set (a := G * G) in *.
  assert (HPG : Rabs P <= G).
  { apply Rsqr_incr_0_var; [|lra]. unfold Rsqr. rewrite <- Rabs_mult, Rabs_right; [fold a|apply Rle_ge, Rle_0_sqr].
    pose proof (Rle_0_sqr P) as Q. unfold Rsqr in Q. lra. }
  assert (Tg : tiny <= u * G). { rewrite u_val. lra. }
  pose proof (us_le _ _ HPG) as UP. pose proof (us G ltac:(lra)) as UG.
  assert (Hd : Rabs (p - P) <= 2 * (u * G)) by lra.
  assert (Hd2 : Rabs (p * p - P * P) <= 6 * (u * a)).
  { replace (p * p - P * P) with ((p - P) * (p + P)) by ring. rewrite Rabs_mult.
    replace (6 * (u * a)) with (2 * (u * G) * (3 * G)) by (unfold a; ring).
    apply Rmult_le_compat; try apply Rabs_pos; [exact Hd|]. apply abs_le_inv in Hd, HPG. apply Rabs_le. lra. }
  apply abs_le_inv in Hd2. pose proof (us a ltac:(lra)) as Ua. set (b := p * p) in *. set (B := P * P) in *.
  assert (HB : 0 <= B) by apply Rle_0_sqr.
  split; [lra|]. assert (HaB : 5 / 9 * a <= a - B) by lra.
  assert (Hq : 0 < sqrt (a - B)) by (apply sqrt_lt_R0; lra). split; [exact Hq|].
  assert (S2 : sqrt (a - B) * sqrt (a - B) = a - B) by (apply sqrt_sqrt; lra).
  pose proof (sqrt_pos (a - b)) as Hb. assert (S1 : sqrt (a - b) * sqrt (a - b) = a - b) by (apply sqrt_sqrt; lra).
  set (x := sqrt (a - b)) in *. set (q := sqrt (a - B)) in *.
  assert (Hdd : Rabs (B - b) <= 11 * (u * (q * q))).
  { rewrite S2. pose proof (us_le (5 / 9 * a) (a - B) HaB). apply Rabs_le. lra. }
  (* half is enough: x >= q/2 *)
  assert (Hx : q / 2 <= x).
  { replace (q / 2) with (sqrt ((a - B) / 4)). { apply sqrt_le_1; lra. }
    replace ((a - B) / 4) with ((q / 2) * (q / 2)) by (rewrite <- S2; field). apply sqrt_square. lra. }
  assert (E : (x - q) * (x + q) = B - b).
  { replace ((x - q) * (x + q)) with (x * x - q * q) by ring. rewrite S1, S2. ring. }
  apply Rmult_le_reg_r with (x + q); [lra|].
  rewrite <- (Rabs_right (x + q)) at 1 by lra. rewrite <- Rabs_mult, E. eapply Rle_trans; [exact Hdd|].
  replace (11 * (u * (q * q))) with ((u * q) * (11 * q)) by ring. replace (8 * (u * q) * (x + q)) with ((u * q) * (8 * (x + q))) by ring.
  apply Rmult_le_compat_l; [pose proof (us q ltac:(lra)); lra|lra].
Qed.

(** Ray parameter at most two thirds of the P slowness. *)
Record sane_ray (v p h k : R) : Prop := mkSaneRay {
  sr_v : / 2 ^ 20 <= v <= 2 ^ 20;
  sr_h : / 2 ^ 20 <= h <= 2 ^ 20;
  sr_k : 1 <= k <= 2 ^ 20;
  sr_p : 9 / 4 * (p * p) <= (1 / v) * (1 / v) }.

Theorem ray_times_err (Vp rp H K : B64) (P : R) k :
  fdouble Vp -> fdouble rp -> fdouble H -> fdouble K -> Rabs (real rp - P) <= u * Rabs P + tiny ->
  sane_ray (real Vp) P (real H) (real K) ->
  let v := real Vp in let h := real H in let kk := real K in
  exists a b c : B64, @hk_times B64 Vp rp k H K = Ok (TR a, TR b, TR c) /\
    fdouble a /\ fdouble b /\ fdouble c /\ 0 < t_PpPs v P h kk /\
    Rabs (real a - t_Ps v P h kk) <= / 2 ^ 46 * t_PpPs v P h kk /\
    Rabs (real b - t_PpPs v P h kk) <= / 2 ^ 46 * t_PpPs v P h kk /\
    Rabs (real c - t_PsPs v P h kk) <= / 2 ^ 46 * t_PpPs v P h kk.
Proof.
  intros FV Fp FH FK Hrp [[v1 v2] [h1 h2] [k1 k2] sp] v h kk. fold v in v1, v2, sp. fold h in h1, h2. fold kk in k1, k2.
  assert (V0 : v <> 0) by lra.
  assert (Hiv : / 2 ^ 20 <= 1 / v <= 2 ^ 20).
  { unfold Rdiv. rewrite Rmult_1_l. split; [apply Rinv_le_contravar; lra|].
    replace (2 ^ 20) with (/ / 2 ^ 20) by (apply Rinv_inv). apply Rinv_le_contravar; lra. }
  assert (Hkv : / 2 ^ 20 <= kk / v <= 2 ^ 40).
  { replace (kk / v) with (kk * (1 / v)) by (field; exact V0). split.
    - replace (/ 2 ^ 20) with (1 * / 2 ^ 20) by lra. apply Rmult_le_compat; lra.
    - replace (2 ^ 40) with (2 ^ 20 * 2 ^ 20) by lra. apply Rmult_le_compat; lra. }
  assert (Hle : 1 / v <= kk / v).
  { unfold Rdiv. apply Rmult_le_compat_r; [apply Rlt_le, Rinv_0_lt_compat; lra|lra]. }
  assert (sp' : 9 / 4 * (P * P) <= kk / v * (kk / v)).
  { eapply Rle_trans; [exact sp|]. apply Rmult_le_compat; lra. }
  destruct (qleg_sens (1 / v) (real rp) P ltac:(lra) Hrp sp) as (Z2 & Q2 & D2).
  destruct (qleg_sens (kk / v) (real rp) P ltac:(lra) Hrp sp') as (_ & Q1 & D1).
  destruct (hk_times_err Vp rp H K k FV Fp FH FK) as (a & b & c & E & Fa & Fb & Fc & Pt & Ea & Eb & Ec).
  { fold v h kk. constructor; lra. }
  fold v h kk in Pt, Ea, Eb, Ec. exists a, b, c. split; [exact E|]. do 3 (split; [assumption|]).
  assert (Es : forall z, qs v kk z = sqrt (kk / v * (kk / v) - z * z)) by (intro; unfold qs; rewrite !sq_pow2; reflexivity).
  assert (Ep : forall z, qp v z = sqrt (1 / v * (1 / v) - z * z)) by (intro; unfold qp; rewrite !sq_pow2; reflexivity).
  unfold t_Ps, t_PpPs, t_PsPs in *. rewrite !Es, !Ep in *.
  set (q1 := sqrt (kk / v * (kk / v) - P * P)) in *. set (q2 := sqrt (1 / v * (1 / v) - P * P)) in *.
  set (x1 := sqrt (kk / v * (kk / v) - real rp * real rp)) in *. set (x2 := sqrt (1 / v * (1 / v) - real rp * real rp)) in *.
  apply abs_le_inv in D1, D2. pose proof (us q1 ltac:(lra)) as W1. pose proof (us q2 ltac:(lra)) as W2.
  set (t := h * (q1 + q2)). assert (Ht : 0 < t) by (unfold t; apply Rmult_lt_0_compat; lra). split; [exact Ht|].
  pose proof (us t ltac:(lra)) as Wt.
  assert (M : forall z Z, - (16 * u * (q1 + q2)) <= z - Z <= 16 * u * (q1 + q2) -> Rabs (h * z - h * Z) <= 16 * (u * t)).
  { intros z Z [A B]. replace (h * z - h * Z) with (h * (z - Z)) by ring.
    replace (16 * (u * t)) with (h * (16 * u * (q1 + q2))) by (unfold t; ring). rewrite Rabs_mult, (Rabs_right h) by lra.
    apply Rmult_le_compat_l; [lra|]. apply Rabs_le. lra. }
  pose proof (M (x1 - x2) (q1 - q2) ltac:(lra)) as M1. pose proof (M (x1 + x2) (q1 + q2) ltac:(lra)) as M2.
  pose proof (M (2 * x1) (2 * q1) ltac:(lra)) as M3.
  apply abs_le_inv in M1, M2, M3. fold t in M2.
  assert (Tx : h * (x1 + x2) <= 9 / 8 * t) by lra.
  assert (Gx : / 2 ^ 47 * (h * (x1 + x2)) <= 80 * (u * t)).
  { eapply Rle_trans. { apply Rmult_le_compat_l; [lra|exact Tx]. } rewrite u_val. lra. }
  assert (G46 : / 2 ^ 46 * t = 128 * (u * t)) by (rewrite u_val; lra).
  apply abs_le_inv in Ea, Eb, Ec. rewrite G46.
  replace (2 * h * q1) with (h * (2 * q1)) by ring. replace (2 * h * x1) with (h * (2 * x1)) in Ec by ring.
  repeat split; apply Rabs_le; lra.
Qed.

(** ** Reading a sample in binary64 *)

(** Sampling of usual size. *)
Record sane_axis (delta pre : R) (l : nat) : Prop := mkSaneAxis {
  sane_delta : / 2 ^ 20 <= delta <= 2 ^ 20;
  sane_onset : Rabs pre <= 2 ^ 40;
  sane_len : (Z.of_nat l <= 2 ^ 40)%Z }.

Lemma not_nan_abs_sub x y : fdouble x -> fdouble y -> Rabs (real x - real y) <= bpow radix2 1023 ->
  sf_isnan (SFabs (sf_sub x y)) = false.
Proof.
  intros Fx Fy B. destruct (sub_fd x y Fx Fy B) as ([_ F] & _). destruct (sf_sub x y); try reflexivity; destruct F.
Qed.

Lemma abs_sub_val x y : fdouble x -> fdouble y -> Rabs (real x - real y) <= bpow radix2 1023 ->
  fdouble (SFabs (sf_sub x y)) /\ real (SFabs (sf_sub x y)) = rnd (Rabs (real x - real y)).
Proof.
  intros Fx Fy B. destruct (sub_fd x y Fx Fy B) as ([D F] & E & _). split.
  - split; [apply abs_double; exact D|apply abs_finite; exact F].
  - rewrite abs_val, E. apply rnd_abs.
Qed.

(** The sample read is as near as any other, up to one part in 2^51. *)
Theorem getamp_b64 (data axis : list B64) (x : B64) :
  axis <> [] -> fdouble x -> Rabs (real x) <= 2 ^ 80 ->
  (forall t, In t axis -> fdouble t /\ Rabs (real t) <= 2 ^ 80) ->
  exists i ti, nth_error axis i = Some ti /\
    (forall j tj, nth_error axis j = Some tj -> Rabs (real ti - real x) <= (1 + / 2 ^ 51) * Rabs (real tj - real x)) /\
    @getamp B64 data axis (TR x) = match nth_error data i with Some a => Ok a | None => Err IndexError end.
Proof.
  intros Ha Fx Bx Hax. pose proof pow2_1023 as P1. pose proof u_bounds as [U1 U2].
  assert (HB : forall t, In t axis -> Rabs (real t - real x) <= bpow radix2 1023).
  { intros t Ht. destruct (Hax t Ht) as [_ B]. apply abs_le_inv in B, Bx. apply Rabs_le. lra. }
  destruct (getamp_nearest B64_laws data axis x Ha) as (i & Hi & (ti & Hti & Hn & _) & E).
  { intros t Ht. unfold dist. cbn. destruct (Hax t Ht). apply not_nan_abs_sub; auto. }
  exists i, ti. split; [exact Hti|]. split; [|exact E].
  intros j tj Hj. specialize (Hn j tj Hj). unfold dist in Hn.
  assert (Ii : In ti axis) by (eapply nth_error_In; exact Hti). assert (Ij : In tj axis) by (eapply nth_error_In; exact Hj).
  destruct (abs_sub_val ti x (proj1 (Hax ti Ii)) Fx (HB ti Ii)) as ([D1 F1] & V1).
  destruct (abs_sub_val tj x (proj1 (Hax tj Ij)) Fx (HB tj Ij)) as ([D2 F2] & V2).
  cbn [nleb nabs nsub B64] in Hn. apply (leb_iff _ _ D1 D2 F1 F2) in Hn. rewrite V1, V2 in Hn.
  pose proof (sub_err_rnd ti x (proj1 (proj1 (Hax ti Ii))) (proj1 Fx)) as A1.
  pose proof (sub_err_rnd tj x (proj1 (proj1 (Hax tj Ij))) (proj1 Fx)) as A2.
  rewrite <- !rnd_abs in Hn.
  set (a := real ti - real x) in *. set (b := real tj - real x) in *.
  assert (G1 : Rabs a <= Rabs (rnd a) + u * Rabs a).
  { replace a with (rnd a - (rnd a - a)) at 1 by ring. eapply Rle_trans; [apply Rabs_triang|]. rewrite Rabs_Ropp. lra. }
  assert (G2 : Rabs (rnd b) <= Rabs b + u * Rabs b).
  { replace (rnd b) with (b + (rnd b - b)) by ring. eapply Rle_trans; [apply Rabs_triang|]. lra. }
  pose proof (Rabs_pos a) as Pa. pose proof (Rabs_pos b) as Pb. set (y := Rabs a) in *. set (z := Rabs b) in *.
  assert (G : (1 - u) * y <= (1 + u) * z) by lra.
  apply Rmult_le_reg_l with (1 - u); [lra|]. eapply Rle_trans; [exact G|]. rewrite <- Rmult_assoc.
  apply Rmult_le_compat_r; [exact Pb|]. rewrite u_val. lra.
Qed.

Lemma nth_seq n i : (i < n)%nat -> nth_error (seq 0 n) i = Some i.
Proof. intro H. rewrite (nth_error_nth' (seq 0 n) 0%nat) by (rewrite seq_length; exact H). rewrite seq_nth by exact H. reflexivity. Qed.

Lemma axis_err (delta pre : B64) l i :
  fdouble delta -> fdouble pre -> sane_axis (real delta) (real pre) l -> (i < l)%nat ->
  exists ti, nth_error (@taxis B64 delta l pre) i = Some ti /\ fdouble ti /\ Rabs (real ti) <= 2 ^ 70 /\
    Rabs (real ti - (real delta * INR i - real pre)) <= 3 * u * (real delta * INR i + Rabs (real pre)).
Proof.
  intros Fd Fp [[d1 d2] pr ln] Hi. pose proof pow2_1023 as P1. pose proof pow2_m1022 as P2. pose proof u_bounds as [U1 U2].
  exists (sf_sub (sf_mul delta (sf_ofZ (Z.of_nat i))) pre). split.
  { unfold taxis. rewrite nth_error_map, nth_seq by exact Hi. reflexivity. }
  destruct (ofZ_fd (Z.of_nat i)) as [Fi Ei]. { lia. } rewrite <- INR_IZR_INZ in Ei.
  assert (Hn : 0 <= INR i <= 2 ^ 40).
  { split; [apply pos_INR|]. rewrite INR_IZR_INZ. replace (2 ^ 40) with (IZR (2 ^ 40)) by (simpl; lra). apply IZR_le. lia. }
  set (n := INR i) in *. set (d := real delta) in *. set (q := real pre) in *.
  assert (Hdn : 0 <= d * n <= 2 ^ 60).
  { split; [apply Rmult_le_pos; lra|]. replace (2 ^ 60) with (2 ^ 20 * 2 ^ 40) by lra. apply Rmult_le_compat; lra. }
  destruct (mul_fd delta _ Fd Fi) as (Fm & Vm & _ & Em). { rewrite Ei. fold d. rewrite Rabs_right; lra. }
  rewrite Ei in Em, Vm. fold d in Em, Vm. rewrite (Rabs_right (d * n)) in Em by lra.
  assert (Em' : Rabs (real (sf_mul delta (sf_ofZ (Z.of_nat i))) - d * n) <= u * (d * n)).
  { destruct (Nat.eq_dec i 0) as [->|Hnz].
    - unfold n in *. simpl INR in *. rewrite Vm, Rmult_0_r, rnd_0, Rminus_0_r, Rabs_R0. lra.
    - apply Em. assert (1 <= n) by (unfold n; change 1 with (INR 1); apply le_INR; lia).
      assert (/ 2 ^ 20 * 1 <= d * n) by (apply Rmult_le_compat; lra). lra. }
  set (m := real (sf_mul delta (sf_ofZ (Z.of_nat i)))) in *. apply abs_le_inv in Em'.
  pose proof (us (d * n) ltac:(lra)) as Ud. pose proof (Rabs_pos q) as Pq. pose proof (Rle_abs q) as Q1.
  pose proof (Rle_abs (- q)) as Q2. rewrite Rabs_Ropp in Q2.
  destruct (sub_fd _ _ Fm Fp) as (Fs & _ & Es). { fold m q. apply Rabs_le. lra. }
  fold m q in Es. split; [exact Fs|].
  assert (Bm : Rabs (m - q) <= 2 * (d * n + Rabs q)) by (apply Rabs_le; lra).
  apply us_le in Bm. apply abs_le_inv in Es. pose proof (us (Rabs q) Pq) as Uq.
  split; apply Rabs_le; lra.
Qed.

(** The true time of the sample read for a computed time [x] close to [T]. *)
Theorem read_b64 (data : list B64) (delta pre x : B64) l (T tau : R) a :
  fdouble delta -> fdouble pre -> fdouble x -> sane_axis (real delta) (real pre) l -> (1 <= l)%nat ->
  - real pre <= T <= real delta * INR (l - 1) - real pre ->
  Rabs (real x - T) <= tau -> tau <= 2 ^ 40 ->
  @getamp B64 data (@taxis B64 delta l pre) (TR x) = Ok a ->
  exists i, (i < l)%nat /\ nth_error data i = Some a /\
    Rabs (real delta * INR i - real pre - T) <= real delta / 2 + / 2 ^ 49 * (real delta * INR l + Rabs (real pre)) + 3 * tau.
Proof.
  intros Fd Fp Fx S Hl HT Hx Htau E. pose proof u_bounds as [U1 U2]. pose proof S as [[d1 d2] pr ln].
  set (d := real delta) in *. set (q := real pre) in *.
  pose proof (Rle_abs q) as Q1. pose proof (Rle_abs (- q)) as Q2. rewrite Rabs_Ropp in Q2.
  assert (Hnl : forall i, (i < l)%nat -> 0 <= INR i <= INR l) by (intros i Hi; split; [apply pos_INR|apply le_INR; lia]).
  assert (HL : 0 <= INR l <= 2 ^ 40).
  { split; [apply pos_INR|]. rewrite INR_IZR_INZ. replace (2 ^ 40) with (IZR (2 ^ 40)) by (simpl; lra). apply IZR_le. lia. }
  assert (Hdl : 0 <= d * INR l <= 2 ^ 60).
  { split; [apply Rmult_le_pos; lra|]. replace (2 ^ 60) with (2 ^ 20 * 2 ^ 40) by lra. apply Rmult_le_compat; lra. }
  assert (Hd1 : d <= d * INR l). { rewrite <- (Rmult_1_r d) at 1. apply Rmult_le_compat_l; [lra|]. change 1 with (INR 1). apply le_INR. exact Hl. }
  set (L := d * INR l + Rabs q).
  assert (HTL : Rabs T <= L).
  { unfold L. assert (d * INR (l - 1) <= d * INR l) by (apply Rmult_le_compat_l; [lra|apply le_INR; lia]). apply Rabs_le. lra. }
  assert (HA : forall i ti, nth_error (@taxis B64 delta l pre) i = Some ti ->
    (i < l)%nat /\ fdouble ti /\ Rabs (real ti) <= 2 ^ 70 /\ Rabs (real ti - (d * INR i - q)) <= 3 * (u * L)).
  { intros i ti Hti. assert (Hi : (i < l)%nat). { rewrite <- (taxis_length (N := B64) delta l pre). apply nth_error_Some. congruence. }
    destruct (axis_err delta pre l i Fd Fp S Hi) as (ti' & Hti' & F & B & Er). rewrite Hti in Hti'. injection Hti' as <-.
    split; [exact Hi|]. split; [exact F|]. split; [exact B|]. fold d q in Er. eapply Rle_trans; [exact Er|].
    destruct (Hnl i Hi). assert (d * INR i <= d * INR l) by (apply Rmult_le_compat_l; lra).
    assert (d * INR i + Rabs q <= L) by (unfold L; lra). apply us_le in H2. lra. }
  assert (Bx : Rabs (real x) <= 2 ^ 80).
  { apply abs_le_inv in HTL. unfold L in HTL. apply abs_le_inv in Hx. apply Rabs_le. lra. }
  destruct (getamp_b64 data (@taxis B64 delta l pre) x) as (i & ti & Hti & Hn & Eg).
  { apply (taxis_nonempty (N := B64)). exact Hl. } { exact Fx. } { exact Bx. }
  { intros t Ht. apply In_nth_error in Ht. destruct Ht as [j Hj]. destruct (HA j t Hj) as (_ & F & B & _). split; [exact F|lra]. }
  rewrite E in Eg. destruct (HA i ti Hti) as (Hi & _ & _ & Ei).
  exists i. split; [exact Hi|]. split. { destruct (nth_error data i); [injection Eg as ->; reflexivity|discriminate Eg]. }
  (* a sample within half an interval of T *)
  destruct (getamp_nearest RN_laws (@nil RN) (@taxis RN d l q) T) as (j & Hj & Hnj & _).
  { apply (taxis_nonempty (N := RN)). exact Hl. } { reflexivity. }
  assert (Hjl : (j < l)%nat) by (rewrite (taxis_length (N := RN)) in Hj; exact Hj).
  pose proof (near_half d l q T j ltac:(lra) Hl HT Hnj) as Hh.
  destruct (axis_err delta pre l j Fd Fp S Hjl) as (tj & Htj & _). destruct (HA j tj Htj) as (_ & _ & _ & Ej).
  specialize (Hn j tj Htj). apply abs_le_inv in Ei, Ej, Hh, Hx.
  assert (Bj : Rabs (real tj - real x) <= d / 2 + 3 * (u * L) + tau) by (apply Rabs_le; lra).
  assert (U51 : / 2 ^ 51 = 4 * u) by (rewrite u_val; lra). rewrite U51 in Hn.
  assert (0 <= tau) by (destruct Hx; lra).
  pose proof (us L ltac:(unfold L; lra)) as UL. pose proof (us d ltac:(lra)) as Ud. pose proof (us tau ltac:(lra)) as Ut.
  pose proof (us_le d L ltac:(unfold L; lra)) as UdL.
  assert (Hc : (1 + 4 * u) * Rabs (real tj - real x) <= (1 + 4 * u) * (d / 2 + 3 * (u * L) + tau)) by (apply Rmult_le_compat_l; lra).
  assert (Hc2 : 4 * u * (3 * (u * L)) <= u * L / 2).
  { replace (4 * u * (3 * (u * L))) with (12 * u * (u * L)) by ring. replace (u * L / 2) with (1 / 2 * (u * L)) by field.
    apply Rmult_le_compat_r; lra. }
  assert (Bi : Rabs (real ti - real x) <= d / 2 + 2 * (u * d) + 4 * (u * L) + 2 * tau).
  { eapply Rle_trans; [exact Hn|]. eapply Rle_trans; [exact Hc|].
    replace ((1 + 4 * u) * (d / 2 + 3 * (u * L) + tau)) with (d / 2 + 2 * (u * d) + 3 * (u * L) + tau + 4 * u * (3 * (u * L)) + 4 * (u * tau)) by field.
    lra. }
  apply abs_le_inv in Bi. fold L. assert (E49 : / 2 ^ 49 * L = 16 * (u * L)) by (rewrite u_val; lra). rewrite E49.
  apply Rabs_le. lra.
Qed.
