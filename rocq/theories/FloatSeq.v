(** * FloatSeq: two-layer and sediment-shifted delays in binary64; tables of nodes in binary64. *)

From Coq Require Import ZArith Reals Lra Lia Psatz Floats.SpecFloat.
From Flocq Require Import Core.
From Verif Require Import Base Num NumPy Spec HkModel HkProofs HkReal HkFacts HkFacts4 Float64 FloatErr FloatHk FloatStack.

Local Open Scope R_scope.

(** ** Two layers *)

Lemma sf_mul_comm x y : sf_mul x y = sf_mul y x.
Proof.
  unfold sf_mul, SFmul. destruct x as [s|s| |s m e], y as [s'|s'| |s' m' e']; try reflexivity;
    try (rewrite (Bool.xorb_comm s s'); reflexivity).
  rewrite (Bool.xorb_comm s s'), (Pos.mul_comm m m'), (Z.add_comm e e'). reflexivity.
Qed.

Lemma rmult_TR {N : Num} (a : N) t x : rmult a t = TR x -> exists y, t = TR y.
Proof. destruct t as [y|re im]; simpl; [exists y; reflexivity|discriminate]. Qed.
Lemma rsubt_TR {N : Num} (a : N) t x : rsubt a t = TR x -> exists y, t = TR y.
Proof. destruct t as [y|re im]; simpl; [exists y; reflexivity|discriminate]. Qed.

(** The two-layer delays are the rounded sums of the delays of the two layers. *)
Lemma moho_of_legs (H1 K1 V1 V2 rp H K a1 b1 c1 a2 b2 c2 : B64) k :
  @hk_times B64 V1 rp k H1 K1 = Ok (TR a1, TR b1, TR c1) -> @hk_times B64 V2 rp k H K = Ok (TR a2, TR b2, TR c2) ->
  @hkSeqMoho_times B64 H1 K1 V1 (Some V2) rp k H K =
    Ok (TR (@nadd B64 a1 a2), TR (@nadd B64 b1 b2), TR (@nadd B64 c1 c2)).
Proof.
  unfold hk_times, hkSeqMoho_times. cbn [need bind]. destruct (@pyinv B64 V1) as [i1|]; cbn [bind need]; [|discriminate].
  destruct (@pyinv B64 V2) as [i2|]; cbn [bind need]; [|discriminate].
  destruct (@proot B64 k (@nsub B64 (@nsq B64 i1) (@nsq B64 rp))) as [x1|]; [|discriminate].
  destruct (@proot B64 k (@nsub B64 (@nsq B64 i2) (@nsq B64 rp))) as [x2|]; [|discriminate].
  cbn [rsubt raddt rmult taddt]. intros E1 E2. injection E1 as <- <- <-. injection E2 as <- <- <-.
  do 2 f_equal. f_equal. cbn [nadd nmul B64]. rewrite !(sf_mul_comm (@nofZ B64 2)). reflexivity.
Qed.

(** Size of the exact delays. *)
Lemma times_size v p h k : sane_ray v p h k ->
  0 < t_PpPs v p h k <= 2 ^ 62 /\ Rabs (t_Ps v p h k) <= t_PpPs v p h k /\ 0 <= t_PsPs v p h k <= 2 * t_PpPs v p h k.
Proof.
  intros [[v1 v2] [h1 h2] [k1 k2] sp].
  assert (V0 : v <> 0) by lra.
  assert (Hiv : / 2 ^ 20 <= 1 / v <= 2 ^ 20).
  { unfold Rdiv. rewrite Rmult_1_l. split; [apply Rinv_le_contravar; lra|].
    replace (2 ^ 20) with (/ / 2 ^ 20) by (apply Rinv_inv). apply Rinv_le_contravar; lra. }
  assert (Hkv : / 2 ^ 20 <= k / v <= 2 ^ 40).
  { replace (k / v) with (k * (1 / v)) by (field; exact V0). split.
    - replace (/ 2 ^ 20) with (1 * / 2 ^ 20) by lra. apply Rmult_le_compat; lra.
    - replace (2 ^ 40) with (2 ^ 20 * 2 ^ 20) by lra. apply Rmult_le_compat; lra. }
  assert (Hle : 1 / v <= k / v) by (unfold Rdiv; apply Rmult_le_compat_r; [apply Rlt_le, Rinv_0_lt_compat; lra|lra]).
  assert (Hp : 0 <= p * p) by apply Rle_0_sqr.
  assert (Hsq : (1 / v) * (1 / v) <= (k / v) * (k / v)) by (apply Rmult_le_compat; lra).
  assert (Hsq2 : (k / v) * (k / v) <= 2 ^ 40 * 2 ^ 40) by (apply Rmult_le_compat; lra).
  assert (Hsq3 : / 2 ^ 20 * / 2 ^ 20 <= (1 / v) * (1 / v)) by (apply Rmult_le_compat; lra).
  assert (Es : qs v k p = sqrt (k / v * (k / v) - p * p)) by (unfold qs; rewrite !sq_pow2; reflexivity).
  assert (Ep : qp v p = sqrt (1 / v * (1 / v) - p * p)) by (unfold qp; rewrite !sq_pow2; reflexivity).
  unfold t_Ps, t_PpPs, t_PsPs. rewrite Es, Ep.
  assert (Q1 : sqrt (k / v * (k / v) - p * p) <= 2 ^ 40).
  { rewrite <- (sqrt_square (2 ^ 40)) by lra. apply sqrt_le_1; lra. }
  assert (Q2 : sqrt (1 / v * (1 / v) - p * p) <= sqrt (k / v * (k / v) - p * p)) by (apply sqrt_le_1; lra).
  assert (Q3 : 0 < sqrt (1 / v * (1 / v) - p * p)) by (apply sqrt_lt_R0; lra).
  set (q1 := sqrt (k / v * (k / v) - p * p)) in *. set (q2 := sqrt (1 / v * (1 / v) - p * p)) in *.
  assert (Hh : 0 < h) by lra.
  assert (B : h * (q1 + q2) <= 2 ^ 20 * 2 ^ 42) by (apply Rmult_le_compat; lra).
  assert (P1 : 0 < h * q1) by (apply Rmult_lt_0_compat; lra). assert (P2 : 0 < h * q2) by (apply Rmult_lt_0_compat; lra).
  split; [lra|]. split; [apply Rabs_le|]; lra.
Qed.

Lemma add_close (x y : B64) (X Y s t e : R) : fdouble x -> fdouble y -> 0 <= s -> 0 <= t -> 0 <= e <= 1 / 8 -> s + t <= 2 ^ 90 ->
  Rabs (real x - X) <= e * s -> Rabs (real y - Y) <= e * t -> Rabs X <= 2 * s -> Rabs Y <= 2 * t ->
  fdouble (sf_add x y) /\ Rabs (real (sf_add x y) - (X + Y)) <= (e + 3 * u) * (s + t).
Proof.
  intros Fx Fy Hs Ht [He He'] HB Ex Ey BX BY. pose proof pow2_1023 as P1. pose proof u_bounds as [U1 U2].
  assert (0 <= e * s <= s / 8). { split; [apply Rmult_le_pos; lra|]. unfold Rdiv. rewrite (Rmult_comm s). apply Rmult_le_compat_r; lra. }
  assert (0 <= e * t <= t / 8). { split; [apply Rmult_le_pos; lra|]. unfold Rdiv. rewrite (Rmult_comm t). apply Rmult_le_compat_r; lra. }
  apply abs_le_inv in Ex, Ey, BX, BY.
  destruct (add_fd x y Fx Fy) as (F & _ & E). { apply Rabs_le. lra. }
  split; [exact F|]. assert (B : Rabs (real x + real y) <= 3 * (s + t)) by (apply Rabs_le; lra). apply us_le in B.
  apply abs_le_inv in E. apply Rabs_le. lra.
Qed.

Theorem moho_times_err (H1 K1 V1 V2 rp H K : B64) (P : R) k :
  fdouble H1 -> fdouble K1 -> fdouble V1 -> fdouble V2 -> fdouble rp -> fdouble H -> fdouble K ->
  Rabs (real rp - P) <= u * Rabs P + tiny ->
  sane_ray (real V1) P (real H1) (real K1) -> sane_ray (real V2) P (real H) (real K) ->
  let T1 := t2_Ps (real V1) (real H1) (real K1) (real V2) P (real H) (real K) in
  let T2 := t2_PpPs (real V1) (real H1) (real K1) (real V2) P (real H) (real K) in
  let T3 := t2_PsPs (real V1) (real H1) (real K1) (real V2) P (real H) (real K) in
  exists a b c : B64, @hkSeqMoho_times B64 H1 K1 V1 (Some V2) rp k H K = Ok (TR a, TR b, TR c) /\
    fdouble a /\ fdouble b /\ fdouble c /\ 0 < T2 /\
    Rabs (real a - T1) <= / 2 ^ 45 * T2 /\ Rabs (real b - T2) <= / 2 ^ 45 * T2 /\ Rabs (real c - T3) <= / 2 ^ 45 * T2.
Proof.
  intros FH1 FK1 FV1 FV2 Fp FH FK Hp S1 S2 T1 T2 T3.
  destruct (ray_times_err V1 rp H1 K1 P k FV1 Fp FH1 FK1 Hp S1) as (a1 & b1 & c1 & E1 & Fa1 & Fb1 & Fc1 & Pt1 & Ea1 & Eb1 & Ec1).
  destruct (ray_times_err V2 rp H K P k FV2 Fp FH FK Hp S2) as (a2 & b2 & c2 & E2 & Fa2 & Fb2 & Fc2 & Pt2 & Ea2 & Eb2 & Ec2).
  destruct (times_size _ _ _ _ S1) as ([Q1 L1] & A1 & B1). destruct (times_size _ _ _ _ S2) as ([Q2 L2] & A2 & B2).
  unfold T1, T2, T3, t2_Ps, t2_PpPs, t2_PsPs. clear T1 T2 T3.
  set (s := t_PpPs (real V1) P (real H1) (real K1)) in *. set (t := t_PpPs (real V2) P (real H) (real K)) in *.
  exists (sf_add a1 a2), (sf_add b1 b2), (sf_add c1 c2).
  split. { exact (moho_of_legs H1 K1 V1 V2 rp H K a1 b1 c1 a2 b2 c2 k E1 E2). }
  assert (He : 0 <= / 2 ^ 46 <= 1 / 8) by lra.
  assert (Hc : forall x X, Rabs (x - X) <= (/ 2 ^ 46 + 3 * u) * (s + t) -> Rabs (x - X) <= / 2 ^ 45 * (s + t)).
  { intros x X Hx. eapply Rle_trans; [exact Hx|]. apply Rmult_le_compat_r; [lra|]. rewrite u_val. lra. }
  destruct (add_close a1 a2 _ _ s t _ Fa1 Fa2 ltac:(lra) ltac:(lra) He ltac:(lra) Ea1 Ea2 ltac:(lra) ltac:(lra)) as (Fa & Xa).
  destruct (add_close b1 b2 _ _ s t _ Fb1 Fb2 ltac:(lra) ltac:(lra) He ltac:(lra) Eb1 Eb2
     ltac:(rewrite Rabs_right; lra) ltac:(rewrite Rabs_right; lra)) as (Fb & Xb).
  destruct (add_close c1 c2 _ _ s t _ Fc1 Fc2 ltac:(lra) ltac:(lra) He ltac:(lra) Ec1 Ec2
     ltac:(rewrite Rabs_right; lra) ltac:(rewrite Rabs_right; lra)) as (Fc & Xc).
  do 3 (split; [assumption|]). split; [lra|]. repeat split; apply Hc; assumption.
Qed.

(** ** The sediment delay of [hkYu] *)

Record sane_sed (tlag VS vs : R) : Prop := mkSaneSed {
  sd_t : / 2 ^ 20 <= tlag <= 2 ^ 20;
  sd_v : / 2 ^ 20 <= vs;
  sd_V : vs <= VS <= 2 ^ 20 }.

Lemma kdiv_b64 k (a b : B64) : fdouble b -> real b <> 0 -> @kdiv B64 k a b = Ok (sf_div a b).
Proof.
  intros Fb Hb. destruct k; [|reflexivity]. unfold kdiv.
  destruct (ofZ_fd 0) as [[D0 F0] E0]; [vm_compute; discriminate|]. destruct Fb as [Db Fb].
  replace (@neqb B64 b (@nofZ B64 0)) with false; [reflexivity|]. symmetry.
  rewrite (eqb_leb _ B64_laws). cbn [nleb nofZ B64]. rewrite !leb_val by assumption. rewrite E0. unfold Rleb.
  destruct (Rle_dec (real b) 0), (Rle_dec 0 (real b)); try reflexivity. exfalso. lra.
Qed.

Lemma sed_delay (tlag VS vs : B64) k a b :
  fdouble tlag -> fdouble VS -> fdouble vs -> sane_sed (real tlag) (real VS) (real vs) ->
  let SedH := @ndiv B64 (@nmul B64 tlag vs) (@nofZ B64 2) in
  @kdiv B64 k SedH vs = Ok a -> @kdiv B64 k SedH VS = Ok b ->
  let hs := real tlag * real vs / 2 in
  fdouble SedH /\ Rabs (real SedH - hs) <= / 2 ^ 50 * hs /\
  fdouble (@nsub B64 a b) /\ Rabs (real (@nsub B64 a b) - (hs / real vs - hs / real VS)) <= / 2 ^ 48 * real tlag /\
  0 <= hs / real vs - hs / real VS <= real tlag / 2.
Proof.
  intros Ft FV Fv [[t1 t2] v1 [V1 V2]] SedH E1 E2 hs.
  pose proof pow2_1023 as P1. pose proof pow2_m1022 as P2. pose proof u_bounds as [U1 U2].
  set (t := real tlag) in *. set (v := real vs) in *. set (V := real VS) in *.
  rewrite (kdiv_b64 k SedH vs Fv) in E1 by (fold v; lra). injection E1 as <-.
  rewrite (kdiv_b64 k SedH VS FV) in E2 by (fold V; lra). injection E2 as <-.
  assert (Htv : / 2 ^ 40 <= t * v <= 2 ^ 40).
  { split; [replace (/ 2 ^ 40) with (/ 2 ^ 20 * / 2 ^ 20) by lra|replace (2 ^ 40) with (2 ^ 20 * 2 ^ 20) by lra]; apply Rmult_le_compat; lra. }
  destruct (ofZ_fd 2) as [F2 E2]; [vm_compute; discriminate|].
  destruct (mul_fd tlag vs Ft Fv) as (Fm & _ & _ & Em). { fold t v. rewrite Rabs_right; lra. }
  fold t v in Em. rewrite (Rabs_right (t * v)) in Em by lra. specialize (Em ltac:(lra)).
  set (m := real (sf_mul tlag vs)) in *. apply abs_le_inv in Em. pose proof (us (t * v) ltac:(lra)) as Um.
  destruct (div_fd (sf_mul tlag vs) (sf_ofZ 2) Fm F2) as (Fs & _ & _ & Es). { rewrite E2. lra. } { rewrite E2. fold m. rewrite Rabs_right; lra. }
  rewrite E2 in Es. fold m in Es. rewrite (Rabs_right (m / 2)) in Es by lra. specialize (Es ltac:(lra)).
  change (sf_div (sf_mul tlag vs) (sf_ofZ 2)) with SedH in Fs, Es. set (s := real SedH) in *. apply abs_le_inv in Es.
  assert (Hhs : hs = t * v / 2) by reflexivity.
  assert (Es' : - (3 * (u * hs)) <= s - hs <= 3 * (u * hs)).
  { pose proof (us_le (m / 2) (3 / 2 * hs) ltac:(lra)). rewrite Hhs in *. lra. }
  pose proof (us hs ltac:(lra)) as Uh.
  assert (Hsp : 0 < hs) by lra.
  (* the two quotients *)
  assert (D : forall b : spec_float, fdouble b -> v <= real b -> / 2 ^ 20 <= real b <= 2 ^ 20 ->
     fdouble (sf_div SedH b) /\ Rabs (real (sf_div SedH b) - hs / real b) <= 3 * (u * t) /\ 0 < hs / real b <= t / 2).
  { intros b Fb Hvb Hb. set (x := real b) in *.
    assert (Hx : 0 < / x) by (apply Rinv_0_lt_compat; lra).
    assert (Hx20 : / 2 ^ 20 <= / x) by (apply Rinv_le_contravar; lra).
    assert (Hx20' : / x <= 2 ^ 20). { replace (2 ^ 20) with (/ / 2 ^ 20) by (apply Rinv_inv). apply Rinv_le_contravar; lra. }
    assert (Q0 : 0 < hs / x) by (apply Rmult_lt_0_compat; lra).
    assert (Q1 : hs / x <= t / 2).
    { rewrite Hhs. unfold Rdiv. replace (t * v * / 2 * / x) with ((t / 2) * (v * / x)) by (field; lra).
      rewrite <- (Rmult_1_r (t * / 2)) at 1. apply Rmult_le_compat_l; [lra|]. replace 1 with (x * / x) by (field; lra). apply Rmult_le_compat_r; lra. }
    assert (Q2 : / 2 ^ 61 <= hs / x).
    { unfold Rdiv. replace (/ 2 ^ 61) with (/ 2 ^ 41 * / 2 ^ 20) by lra. apply Rmult_le_compat; lra. }
    assert (Ed : - (3 * (u * (hs / x))) <= s / x - hs / x <= 3 * (u * (hs / x))).
    { replace (s / x - hs / x) with ((s - hs) * / x) by (field; lra). replace (3 * (u * (hs / x))) with (3 * (u * hs) * / x) by (field; lra).
      rewrite Ropp_mult_distr_l. split; apply Rmult_le_compat_r; lra. }
    pose proof (us (hs / x) ltac:(lra)) as Uq.
    destruct (div_fd SedH b Fs Fb) as (Fd & _ & _ & Edd). { fold x; lra. } { fold s x. rewrite Rabs_right; lra. }
    fold s x in Edd. rewrite (Rabs_right (s / x)) in Edd by lra. specialize (Edd ltac:(lra)). apply abs_le_inv in Edd.
    pose proof (us_le (s / x) (3 / 2 * (hs / x)) ltac:(lra)). pose proof (us_le _ _ Q1).
    split; [exact Fd|]. split; [apply Rabs_le; lra|lra]. }
  destruct (D vs Fv ltac:(fold v; lra) ltac:(fold v; lra)) as (Fa & Xa & Ra).
  destruct (D VS FV ltac:(fold V; lra) ltac:(fold V; lra)) as (Fb & Xb & Rb). fold v in Xa, Ra. fold V in Xb, Rb. clear D.
  assert (Hab : hs / V <= hs / v).
  { unfold Rdiv. apply Rmult_le_compat_l; [lra|]. apply Rinv_le_contravar; lra. }
  pose proof (us t ltac:(lra)) as Ut. apply abs_le_inv in Xa, Xb.
  set (x := real (sf_div SedH vs)) in *. set (y := real (sf_div SedH VS)) in *.
  destruct (sub_fd _ _ Fa Fb) as (Fd & _ & Ed). { fold x y. apply Rabs_le. lra. } fold x y in Ed.
  assert (B : Rabs (x - y) <= t) by (apply Rabs_le; lra). apply us_le in B. apply abs_le_inv in Ed.
  split; [exact Fs|]. split. { assert (G : / 2 ^ 50 * hs = 8 * (u * hs)) by (rewrite u_val; lra). rewrite G. apply Rabs_le. lra. }
  split; [exact Fd|]. split; [|lra].
  assert (G : / 2 ^ 48 * t = 32 * (u * t)) by (rewrite u_val; lra). rewrite G. cbn [nsub B64]. apply Rabs_le. lra.
Qed.

Lemma yu_of_layer (VM rp tlag Pd H K a b c : B64) k :
  @hk_times B64 VM rp k H K = Ok (TR a, TR b, TR c) ->
  @hkYu_times B64 VM rp k tlag Pd H K = Ok (TR (sf_add a Pd), TR (sf_sub (sf_add b tlag) Pd), TR (sf_add c tlag)).
Proof.
  unfold hk_times, hkYu_times. destruct (@pyinv B64 VM) as [i|]; cbn [bind]; [|discriminate].
  destruct (@proot B64 k (@nsub B64 (@nsq B64 i) (@nsq B64 rp))) as [x|]; [|discriminate].
  cbn [rsubt raddt rmult]. intro E. injection E as <- <- <-. reflexivity.
Qed.

(** The sediment-shifted delays; [D] is the exact sediment delay of Ps. *)
Theorem yu_times_err (VM rp tlag Pd H K : B64) (P D : R) k :
  fdouble VM -> fdouble rp -> fdouble tlag -> fdouble Pd -> fdouble H -> fdouble K ->
  Rabs (real rp - P) <= u * Rabs P + tiny -> sane_ray (real VM) P (real H) (real K) ->
  0 <= real tlag <= 2 ^ 20 -> Rabs (real Pd - D) <= / 2 ^ 48 * real tlag -> 0 <= D <= real tlag / 2 ->
  let T1 := D + t_Ps (real VM) P (real H) (real K) in
  let T2 := real tlag - D + t_PpPs (real VM) P (real H) (real K) in
  let T3 := real tlag + t_PsPs (real VM) P (real H) (real K) in
  exists a b c : B64, @hkYu_times B64 VM rp k tlag Pd H K = Ok (TR a, TR b, TR c) /\
    fdouble a /\ fdouble b /\ fdouble c /\ 0 < T2 /\
    Rabs (real a - T1) <= / 2 ^ 45 * T2 /\ Rabs (real b - T2) <= / 2 ^ 45 * T2 /\ Rabs (real c - T3) <= / 2 ^ 45 * T2.
Proof.
  intros FV Fp Ft FP FH FK Hp S Htl EP HD T1 T2 T3. pose proof pow2_1023 as P1. pose proof u_bounds as [U1 U2].
  destruct (ray_times_err VM rp H K P k FV Fp FH FK Hp S) as (a & b & c & E & Fa & Fb & Fc & Pt & Ea & Eb & Ec).
  destruct (times_size _ _ _ _ S) as ([Q1 L1] & A1 & B1). apply yu_of_layer with (tlag := tlag) (Pd := Pd) in E.
  unfold T1, T2, T3. clear T1 T2 T3. set (t := t_PpPs (real VM) P (real H) (real K)) in *.
  set (x1 := t_Ps (real VM) P (real H) (real K)) in *. set (x3 := t_PsPs (real VM) P (real H) (real K)) in *.
  set (g := real tlag) in *. assert (G46 : / 2 ^ 46 * t = 128 * (u * t)) by (rewrite u_val; lra). rewrite G46 in *.
  assert (G48 : / 2 ^ 48 * g = 32 * (u * g)) by (rewrite u_val; lra). rewrite G48 in EP.
  apply abs_le_inv in Ea, Eb, Ec, A1, EP. pose proof (us t ltac:(lra)) as Ut. pose proof (us g ltac:(lra)) as Ug.
  assert (G45 : / 2 ^ 45 * (g - D + t) = 256 * (u * (g - D + t))) by (rewrite u_val; lra). rewrite G45.
  assert (Lo : u * (g / 2 + t) <= u * (g - D + t)) by (apply us_le; lra).
  destruct (add_fd a Pd Fa FP) as (F1 & _ & E1). { apply Rabs_le. lra. }
  assert (B1' : Rabs (real a + real Pd) <= 2 * t + g) by (apply Rabs_le; lra). apply us_le in B1'. apply abs_le_inv in E1.
  destruct (add_fd b tlag Fb Ft) as (F2 & _ & E2). { fold g. apply Rabs_le. lra. } fold g in E2.
  assert (B2 : Rabs (real b + g) <= 2 * t + g) by (apply Rabs_le; lra). apply us_le in B2. apply abs_le_inv in E2.
  destruct (sub_fd (sf_add b tlag) Pd F2 FP) as (F3 & _ & E3). { apply Rabs_le. lra. }
  assert (B3 : Rabs (real (sf_add b tlag) - real Pd) <= 3 * t + 2 * g) by (apply Rabs_le; lra). apply us_le in B3. apply abs_le_inv in E3.
  destruct (add_fd c tlag Fc Ft) as (F4 & _ & E4). { fold g. apply Rabs_le. lra. } fold g in E4.
  assert (B4 : Rabs (real c + g) <= 3 * t + g) by (apply Rabs_le; lra). apply us_le in B4. apply abs_le_inv in E4.
  exists (sf_add a Pd), (sf_sub (sf_add b tlag) Pd), (sf_add c tlag).
  split; [exact E|]. do 3 (split; [assumption|]). split; [lra|].
  repeat split; apply Rabs_le; lra.
Qed.
