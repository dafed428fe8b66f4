(** * FloatStack: the weighted sum of a node and its accumulation over traces in binary64. *)

From Coq Require Import ZArith Reals Lra Lia Psatz Floats.SpecFloat.
From Flocq Require Import Core.
From Verif Require Import Base Num NumPy Spec HkModel Float64 FloatErr.

Local Open Scope R_scope.

(** Sum of the magnitudes of the three weighted amplitudes. *)
Definition wabs (w1 w2 w3 a1 a2 a3 : R) : R := Rabs (w1 * a1) + Rabs (w2 * a2) + Rabs (w3 * a3).

Lemma wsum_b64 (w1 w2 w3 a1 a2 a3 : B64) :
  fdouble w1 -> fdouble w2 -> fdouble w3 -> fdouble a1 -> fdouble a2 -> fdouble a3 ->
  Rabs (real w1) <= 2 ^ 10 -> Rabs (real w2) <= 2 ^ 10 -> Rabs (real w3) <= 2 ^ 10 ->
  Rabs (real a1) <= 2 ^ 50 -> Rabs (real a2) <= 2 ^ 50 -> Rabs (real a3) <= 2 ^ 50 ->
  let B := wabs (real w1) (real w2) (real w3) (real a1) (real a2) (real a3) in
  let v := @nsub B64 (@nadd B64 (@nmul B64 w1 a1) (@nmul B64 w2 a2)) (@nmul B64 w3 a3) in
  fdouble v /\ 0 <= B <= 2 ^ 62 /\ Rabs (wsum (real w1) (real w2) (real w3) (real a1) (real a2) (real a3)) <= B /\
  Rabs (real v - wsum (real w1) (real w2) (real w3) (real a1) (real a2) (real a3)) <= 4 * u * B + 4 * tiny.
Proof.
  intros W1 W2 W3 A1 A2 A3 w1b w2b w3b a1b a2b a3b B v. cbn in v.
  pose proof pow2_1023 as P1. pose proof tiny_small as T. pose proof tiny_pos as T0. pose proof u_bounds as [U1 U2].
  assert (M : forall x y, Rabs x <= 2 ^ 10 -> Rabs y <= 2 ^ 50 -> Rabs (x * y) <= 2 ^ 60).
  { intros x y Hx Hy. rewrite Rabs_mult. replace (2 ^ 60) with (2 ^ 10 * 2 ^ 50) by lra. apply Rmult_le_compat; auto; apply Rabs_pos. }
  pose proof (M _ _ w1b a1b) as M1. pose proof (M _ _ w2b a2b) as M2. pose proof (M _ _ w3b a3b) as M3. clear M.
  destruct (mul_fd w1 a1 W1 A1) as (F1 & _ & E1 & _); [lra|]. destruct (mul_fd w2 a2 W2 A2) as (F2 & _ & E2 & _); [lra|].
  destruct (mul_fd w3 a3 W3 A3) as (F3 & _ & E3 & _); [lra|].
  unfold wabs in B. unfold wsum.
  set (x1 := real w1 * real a1) in *. set (x2 := real w2 * real a2) in *. set (x3 := real w3 * real a3) in *.
  set (y1 := real (sf_mul w1 a1)) in *. set (y2 := real (sf_mul w2 a2)) in *. set (y3 := real (sf_mul w3 a3)) in *.
  pose proof (Rabs_pos x1) as N1. pose proof (Rabs_pos x2) as N2. pose proof (Rabs_pos x3) as N3.
  pose proof (Rle_abs x1) as L1. pose proof (Rle_abs x2) as L2. pose proof (Rle_abs x3) as L3.
  pose proof (Rle_abs (- x1)) as K1. pose proof (Rle_abs (- x2)) as K2. pose proof (Rle_abs (- x3)) as K3. rewrite !Rabs_Ropp in *.
  pose proof (us _ N1) as V1. pose proof (us _ N2) as V2. pose proof (us _ N3) as V3.
  apply abs_le_inv in E1, E2, E3. set (b1 := Rabs x1) in *. set (b2 := Rabs x2) in *. set (b3 := Rabs x3) in *.
  destruct (add_fd _ _ F1 F2) as (F4 & _ & E4). { fold y1 y2. apply Rabs_le. lra. } fold y1 y2 in E4.
  set (y4 := real (sf_add (sf_mul w1 a1) (sf_mul w2 a2))) in *. apply abs_le_inv in E4.
  assert (H4 : Rabs (y1 + y2) <= 9 / 8 * (b1 + b2) + 2 * tiny) by (apply Rabs_le; lra).
  assert (H4' : u * Rabs (y1 + y2) <= 9 / 8 * (u * b1 + u * b2) + tiny / 8).
  { apply us_le in H4. pose proof (us tiny ltac:(lra)). lra. }
  destruct (sub_fd _ _ F4 F3) as (F5 & _ & E5). { fold y4 y3. apply Rabs_le. lra. } fold y4 y3 in E5.
  change (sf_sub (sf_add (sf_mul w1 a1) (sf_mul w2 a2)) (sf_mul w3 a3)) with v in F5, E5.
  assert (H5 : Rabs (y4 - y3) <= 9 / 8 * (b1 + b2 + b3) + 4 * tiny) by (apply Rabs_le; lra).
  assert (H5' : u * Rabs (y4 - y3) <= 9 / 8 * (u * b1 + u * b2 + u * b3) + tiny / 8).
  { apply us_le in H5. pose proof (us tiny ltac:(lra)). lra. }
  apply abs_le_inv in E5. split; [exact F5|]. split; [unfold B; lra|]. unfold B. split; apply Rabs_le; lra.
Qed.

(** Accumulation [s = v + s] over the traces. *)
Lemma accum_b64 (vs : list B64) : forall (Vs Bs : list R) (s : B64) (S0 B0 : R) (m : nat),
  Forall2 (fun v VB => fdouble v /\ 0 <= snd VB <= 2 ^ 62 /\ Rabs (fst VB) <= snd VB /\
                       Rabs (real v - fst VB) <= 4 * u * snd VB + 4 * tiny) vs (combine Vs Bs) ->
  length Vs = length Bs -> (Z.of_nat (m + length vs) <= 2 ^ 20)%Z ->
  fdouble s -> 0 <= B0 <= 2 ^ 62 * INR m -> Rabs S0 <= B0 ->
  Rabs (real s - S0) <= 2 * (INR m + 3) * u * B0 + 8 * INR m * tiny ->
  let r := fold_left (fun s v => @nadd B64 v s) vs s in
  fdouble r /\ Rabs (real r - (S0 + sumR Vs)) <= 2 * (INR (m + length vs) + 3) * u * (B0 + sumR Bs) + 8 * INR (m + length vs) * tiny.
Proof.
  pose proof pow2_1023 as P1. pose proof tiny_small as T. pose proof tiny_pos as T0. pose proof u_bounds as [U1 U2].
  induction vs as [|v vs IH]; intros Vs Bs s S0 B0 m Hf HL Hm Fs HB HS He; cbn zeta.
  - assert (Vs = [] /\ Bs = []) as [-> ->].
    { inversion Hf as [E1|]. destruct Vs, Bs; try discriminate; auto. }
    cbn [fold_left length]. rewrite Nat.add_0_r. cbn [sumR]. rewrite !Rplus_0_r. auto.
  - destruct Vs as [|V Vs]; [inversion Hf|]. destruct Bs as [|B Bs]; [inversion Hf|]. cbn [combine] in Hf.
    inversion Hf as [|? ? ? ? (Fv & HBv & HVv & Hev) Hf']; subst. cbn [fst snd] in *.
    cbn [length] in *. injection HL as HL. cbn [fold_left]. cbn [sumR].
    assert (Hmb : 0 <= INR m <= 1048576).
    { split; [apply pos_INR|]. rewrite INR_IZR_INZ. apply IZR_le. lia. }
    assert (HB0 : B0 <= 2 ^ 82). { eapply Rle_trans; [apply HB|]. replace (2 ^ 82) with (2 ^ 62 * 1048576) by lra. apply Rmult_le_compat_l; lra. }
    pose proof (us B0 ltac:(lra)) as UB0. pose proof (us B ltac:(lra)) as UB. pose proof (us tiny ltac:(lra)) as UT.
    assert (Hc : 0 <= INR m * (u * B0) <= B0 / 100).
    { split; [apply Rmult_le_pos; lra|]. eapply Rle_trans; [apply Rmult_le_compat; [lra|lra|apply (proj2 Hmb)|apply (proj2 UB0)]|]. lra. }
    assert (Hct : 0 <= INR m * tiny <= 1048576 * tiny). { split; [apply Rmult_le_pos; lra|apply Rmult_le_compat_r; lra]. }
    apply abs_le_inv in He, HS, HVv, Hev.
    destruct (add_fd v s Fv Fs) as (F & _ & E). { apply Rabs_le. lra. }
    assert (Hvs : Rabs (real v + real s) <= 9 / 8 * B + 9 / 8 * B0 + 8 * (INR m * tiny) + 4 * tiny) by (apply Rabs_le; lra).
    apply us_le in Hvs. apply abs_le_inv in E.
    assert (HT : u * (8 * (INR m * tiny)) <= tiny / 8).
    { pose proof (us (8 * (INR m * tiny)) ltac:(lra)). lra. }
    rewrite <- Nat.add_succ_comm. rewrite <- !Rplus_assoc.
    apply (IH Vs Bs (@nadd B64 v s) (S0 + V) (B0 + B) (S m)); auto.
    + lia.
    + rewrite S_INR. lra.
    + apply Rabs_le. lra.
    + rewrite S_INR. change (@nadd B64 v s) with (sf_add v s). clear P1 T.
      assert (0 <= INR m * (u * B)) by (apply Rmult_le_pos; lra).
      apply Rabs_le. lra.
Qed.
