(** * FloatOne: tables built from a single record, in binary64. *)

From Coq Require Import ZArith Reals Lra Lia Psatz Floats.SpecFloat.
From Flocq Require Import Core.
From Verif Require Import Base Num NumPy Spec HkModel HkProofs HkReal HkFacts HkFacts2 HkFacts4 P_Hk P_Hk6 Float64 FloatErr FloatHk FloatStack FloatSeq P_Float P_Float2 FloatTable.

Local Open Scope R_scope.

(** A record of usual size: sampling interval, onset and samples. *)
Record rec64 (data : list B64) (delta pre : B64) (l : nat) : Prop := mkRec64 {
  rc_fd : fdouble delta /\ fdouble pre;
  rc_axis : sane_axis (real delta) (real pre) l;
  rc_len : (1 <= l)%nat;
  rc_data : dsane data }.

(** Rounding error of the value of one record. *)
Definition err1 (w1 w2 w3 a1 a2 a3 : R) : R :=
  / 2 ^ 50 * (Rabs (w1 * a1) + Rabs (w2 * a2) + Rabs (w3 * a3)) + / 2 ^ 1000.

Section One.
Context (data : list B64) (delta pre : B64) (l : nat) (w1 w2 w3 : B64).
Context (times : B64 -> B64 -> res (tval B64 * tval B64 * tval B64)) (T1 T2 T3 : B64 -> B64 -> R) (H K : list B64).
Let d := real delta. Let q := real pre.
Let dummy : trace B64 := @mkTrace B64 data delta delta PyF pre pre pre EmptyString EmptyString None.
Let c (k h : B64) (tr : trace B64) : res B64 := @contrib B64 w1 w2 w3 data (@taxis B64 delta l pre) (times h k).

Definition three (h k : B64) (a1 a2 a3 : R) : Prop :=
  sample_near data (real delta) (real pre) l (T1 h k) a1 /\ sample_near data (real delta) (real pre) l (T2 h k) a2 /\
  sample_near data (real delta) (real pre) l (T3 h k) a3.

Definition accurate (h k : B64) : Prop := exists a b c : B64, times h k = Ok (TR a, TR b, TR c) /\ fdouble a /\ fdouble b /\ fdouble c /\ 0 < T2 h k /\
    Rabs (real a - T1 h k) <= / 2 ^ 45 * T2 h k /\ Rabs (real b - T2 h k) <= / 2 ^ 45 * T2 h k /\ Rabs (real c - T3 h k) <= / 2 ^ 45 * T2 h k.

Context (HR : rec64 data delta pre l) (HW : wsane w1 w2 w3).
Context (Ht : forall h k, In h H -> In k K -> accurate h k).
Context (Cov : forall h k, In h H -> In k K ->
   covered (real delta) l (real pre) (T1 h k) /\ covered (real delta) l (real pre) (T2 h k) /\ covered (real delta) l (real pre) (T3 h k)).

Lemma one_Hc : forall h k tr y, In h H -> In k K -> In tr [dummy] -> c k h tr = Ok y ->
   exists a1 a2 a3, (sample_near data d q l (T1 h k) a1 /\ sample_near data d q l (T2 h k) a2 /\
     sample_near data d q l (T3 h k) a3) /\ fdouble y /\ 0 <= wabs (real w1) (real w2) (real w3) a1 a2 a3 <= 2 ^ 62 /\
     Rabs (wsum (real w1) (real w2) (real w3) a1 a2 a3) <= wabs (real w1) (real w2) (real w3) a1 a2 a3 /\
     Rabs (real y - wsum (real w1) (real w2) (real w3) a1 a2 a3) <= 4 * u * wabs (real w1) (real w2) (real w3) a1 a2 a3 + 4 * tiny.
Proof using HR HW Ht Cov.
  intros h k tr y Hh Hk _ Ey. unfold c in Ey. destruct (Ht h k Hh Hk) as (a & b & e & Et & Fa & Fb & Fc & P2 & Ea & Eb & Ec).
  rewrite Et in Ey. destruct (Cov h k Hh Hk) as (C1 & C2 & C3). destruct HR as [[Fd Fq] Hax Hl HD].
  assert (Hb : T2 h k <= d * INR l + Rabs q).
  { destruct C2 as [_ C2]. destruct Hax as [[d1 _] _ _]. fold d q in C2, d1. pose proof (Rle_abs (- q)) as Q. rewrite Rabs_Ropp in Q.
    assert (d * INR (l - 1) <= d * INR l) by (apply Rmult_le_compat_l; [lra|apply le_INR; lia]). lra. }
  assert (Hc : / 2 ^ 45 * T2 h k <= / 2 ^ 45 * (d * INR l + Rabs q)) by lra.
  destruct (contrib_b64 w1 w2 w3 data delta pre a b e y l _ _ _ HW HD Fd Fq Fa Fb Fc Hax Hl C1 C2 C3
     ltac:(eapply Rle_trans; [exact Ea|exact Hc]) ltac:(eapply Rle_trans; [exact Eb|exact Hc]) ltac:(eapply Rle_trans; [exact Ec|exact Hc]) Ey)
    as (a1 & a2 & a3 & S1 & S2 & S3 & R).
  exists a1, a2, a3. split; [exact (conj S1 (conj S2 S3))|exact R].
Qed.

Context (rows : list (row B64)) (T : is_table (fun k h => one (@contrib B64 w1 w2 w3 data (@taxis B64 delta l pre) (times h k))) K H rows).

Lemma one_T : is_table (fun k h => sumM (c k h) [dummy]) K H rows.
Proof using T. revert T. apply table_ok_mono. intros k h v E. rewrite sumM_single. exact E. Qed.

Lemma one_len : (Z.of_nat (length [dummy]) <= 2 ^ 20)%Z. Proof. vm_compute. discriminate. Qed.

Lemma reads_one h k amps : reads_at [dummy] d q l (fun _ => data) (fun _ => T1) (fun _ => T2) (fun _ => T3) h k amps ->
  exists a1 a2 a3, amps = [(a1, a2, a3)] /\ three h k a1 a2 a3.
Proof.
  intro F. inversion F as [|x [[a1 a2] a3] ls lr HP F']; subst. inversion F'; subst. exists a1, a2, a3. split; [reflexivity|exact HP].
Qed.

Lemma value_one v1 v2 v3 a1 a2 a3 : value3 v1 v2 v3 [(a1, a2, a3)] = wsum v1 v2 v3 a1 a2 a3.
Proof. unfold value3. simpl. ring. Qed.
Lemma error_one v1 v2 v3 a1 a2 a3 : error3 v1 v2 v3 [(a1, a2, a3)] = err1 v1 v2 v3 a1 a2 a3.
Proof. unfold error3, err1, wabs. cbn [length map sumR]. change (INR 1) with 1. rewrite !Rmult_1_l.
  replace ((1 + 3) * / 2 ^ 52) with (/ 2 ^ 50) by lra. rewrite Rplus_0_r. reflexivity. Qed.

Lemma one_row row : In row rows -> exists a1 a2 a3, fdouble (rS row) /\ three (rH row) (rK row) a1 a2 a3 /\
  Rabs (real (rS row) - wsum (real w1) (real w2) (real w3) a1 a2 a3) <= err1 (real w1) (real w2) (real w3) a1 a2 a3.
Proof using HR HW Ht Cov T.
  intro Hr. destruct (row_b64 [dummy] d q l w1 w2 w3 (fun _ => data) c (fun _ => T1) (fun _ => T2) (fun _ => T3) H K one_len one_Hc rows one_T row Hr)
    as (amps & F & _ & _ & R & B).
  destruct (reads_one _ _ _ R) as (a1 & a2 & a3 & -> & S). rewrite value_one, error_one in B. exists a1, a2, a3. auto.
Qed.

Lemma one_node i j k h : nth_error K i = Some k -> nth_error H j = Some h ->
  exists s a1 a2 a3, nth_error rows (i * length H + j) = Some (@mkRow B64 h k s) /\ finite s /\ three h k a1 a2 a3 /\
  Rabs (real s - wsum (real w1) (real w2) (real w3) a1 a2 a3) <= err1 (real w1) (real w2) (real w3) a1 a2 a3.
Proof using HR HW Ht Cov T.
  intros Hk Hh. destruct (table_node _ _ _ _ i j k h T Hk Hh) as [v [Ev _]].
  destruct (one_row _ (nth_error_In _ _ Ev)) as (a1 & a2 & a3 & [_ F] & S & B). cbn [rH rK rS] in *.
  exists v, a1, a2, a3. auto.
Qed.

Context (ib : nat) (Am : argmax (map rS rows) = Ok ib).

(** No node beats the reported one by more than the two rounding errors. *)
Lemma one_best : exists As, Forall2 (fun row '(a1, a2, a3) => In (rH row) H /\ In (rK row) K /\ three (rH row) (rK row) a1 a2 a3 /\
     finite (rS row) /\ Rabs (real (rS row) - wsum (real w1) (real w2) (real w3) a1 a2 a3) <= err1 (real w1) (real w2) (real w3) a1 a2 a3) rows As /\
   exists b1 b2 b3, nth_error As ib = Some (b1, b2, b3) /\ forall a1 a2 a3, In (a1, a2, a3) As ->
     wsum (real w1) (real w2) (real w3) a1 a2 a3 <= wsum (real w1) (real w2) (real w3) b1 b2 b3 +
       err1 (real w1) (real w2) (real w3) b1 b2 b3 + err1 (real w1) (real w2) (real w3) a1 a2 a3.
Proof using HR HW Ht Cov T Am.
  destruct (best_b64 [dummy] d q l w1 w2 w3 (fun _ => data) c (fun _ => T1) (fun _ => T2) (fun _ => T3) H K one_len one_Hc rows ib one_T Am)
    as (As & FA & best & Hb & Hmax).
  assert (G : exists As', As = map (fun t => [t]) As' /\ Forall2 (fun row '(a1, a2, a3) => In (rH row) H /\ In (rK row) K /\ three (rH row) (rK row) a1 a2 a3 /\
     finite (rS row) /\ Rabs (real (rS row) - wsum (real w1) (real w2) (real w3) a1 a2 a3) <= err1 (real w1) (real w2) (real w3) a1 a2 a3) rows As').
  { clear - FA. induction FA as [|row amps rows As (I1 & I2 & F & R & B) FA (As' & -> & IH)]; [exists []; split; [reflexivity|constructor]|].
    destruct (reads_one _ _ _ R) as (a1 & a2 & a3 & -> & S). rewrite value_one, error_one in B.
    exists ((a1, a2, a3) :: As'). split; [reflexivity|]. constructor; [auto|exact IH]. }
  destruct G as (As' & -> & F'). exists As'. split; [exact F'|]. rewrite nth_error_map in Hb.
  destruct (nth_error As' ib) as [[[b1 b2] b3]|] eqn:Eb; [|discriminate]. injection Hb as <-. exists b1, b2, b3. split; [reflexivity|].
  intros a1 a2 a3 Hin. specialize (Hmax [(a1, a2, a3)]). rewrite !value_one, !error_one in Hmax. apply Hmax.
  apply in_map_iff. exists (a1, a2, a3). split; [reflexivity|exact Hin].
Qed.

Lemma one_recovers (H0 K0 : B64) (A B m : R) :
  0 < m -> m <= real w1 -> m <= real w2 -> m <= real w3 -> In H0 H -> In K0 K -> 0 <= B < A ->
  let e := tol (real delta) (real pre) l in let W := real w1 + real w2 + real w3 in
  pulses A B data (real delta) (real pre) l e (T1 H0 K0) (T2 H0 K0) (T3 H0 K0) ->
  (forall h k, In h H -> In k K -> T1 h k + T2 h k = T3 h k /\ T1 h k <= T2 h k) ->
  6 * e < T2 H0 K0 - T1 H0 K0 ->
  (forall h k, In h H -> In k K -> (h, k) <> (H0, K0) ->
     2 * e < Rabs (T1 h k - T1 H0 K0) \/ 2 * e < Rabs (T2 h k - T2 H0 K0) \/ 2 * e < Rabs (T3 h k - T3 H0 K0)) ->
  2 * (/ 2 ^ 50 * (A * W) + / 2 ^ 1000) < m * (A - B) ->
  exists s, nth_error rows ib = Some (@mkRow B64 H0 K0 s) /\ fdouble s /\ Rabs (real s - A * W) <= / 2 ^ 50 * (A * W) + / 2 ^ 1000.
Proof using HR HW Ht Cov T Am.
  intros Hm M1 M2 M3 HH0 HK0 HAB e W HP HT Hsep Hres Hgap.
  assert (Hd : 0 < real delta) by (destruct HR as [_ [[d1 _] _ _] _ _]; lra).
  assert (HI : INR (length [dummy]) = 1) by reflexivity.
  destruct (recovers_b64 [dummy] d q l w1 w2 w3 (fun _ => data) c (fun _ => T1) (fun _ => T2) (fun _ => T3) H K one_len one_Hc rows ib one_T Am
    H0 K0 A B m Hm M1 M2 M3 HH0 HK0 HAB Hd) as (s & Es & Fs & Bs).
  - intros tr _. exact HP.
  - intros tr h k _. apply HT.
  - intros tr _. exact Hsep.
  - intros h k Hh Hk Hne. exists dummy. split; [left; reflexivity|]. apply Hres; assumption.
  - rewrite HI. fold W. replace ((1 + 3) * / 2 ^ 52) with (/ 2 ^ 50) by lra. rewrite !Rmult_1_l. exact Hgap.
  - exists s. split; [exact Es|]. split; [exact Fs|]. rewrite HI in Bs. fold W in Bs.
    replace ((1 + 3) * / 2 ^ 52) with (/ 2 ^ 50) in Bs by lra. rewrite !Rmult_1_l in Bs. exact Bs.
Qed.
End One.
