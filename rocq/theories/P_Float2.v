(** * P_Float2: in IEEE double precision the H-k stack recovers the crust (C86). *)

From Coq Require Import ZArith Reals Lra Lia Psatz Floats.SpecFloat.
From Flocq Require Import Core.
From Verif Require Import Base Num NumPy Spec HkModel HkProofs HkReal HkFacts HkFacts4 P_Hk P_Hk6 Float64 FloatErr FloatHk FloatStack P_Float.

Local Open Scope R_scope.

(** [data] is the receiver function of a layer whose arrivals are [T1], [T2], [T3]: amplitude
    [A] at every sample within [e] of the Ps and the PpPs times, [-A] within [e] of the PpSs+PsPs
    time, at most [B] in magnitude everywhere else. *)
Definition pulses (A B : R) (data : list B64) (delta pre : R) (l : nat) (e T1 T2 T3 : R) : Prop :=
  forall i x, (i < l)%nat -> nth_error data i = Some x ->
    let t := delta * INR i - pre in
    (Rabs (t - T1) <= e -> real x = A) /\ (Rabs (t - T2) <= e -> real x = A) /\ (Rabs (t - T3) <= e -> real x = - A) /\
    (e < Rabs (t - T1) -> e < Rabs (t - T2) -> e < Rabs (t - T3) -> Rabs (real x) <= B).

(** Node (h,k) is distinguishable from (H0,K0) with a time resolution [e]. *)
Definition resolved64 (e Vp p H0 K0 h k : R) : Prop :=
  2 * e < Rabs (h - H0) * qp Vp p \/ e < Rabs (h * qs Vp k p - H0 * qs Vp K0 p).

Lemma Rle_abs_dec x e : {Rabs x <= e} + {e < Rabs x}. Proof. apply Rle_lt_dec. Qed.

Section OneTrace.
Context (A B : R) (data : list B64) (delta pre : R) (l : nat) (T1 T2 T3 : R).
Context (HB : 0 <= B < A) (HI : pulses A B data delta pre l (tol delta pre l) T1 T2 T3).
Notation e := (tol delta pre l).
Notation near := (sample_near data delta pre l).

Lemma near_T1 a : near T1 a -> a = A.
Proof. intros (i & x & Hi & Hx & -> & Ht). exact (proj1 (HI i x Hi Hx) Ht). Qed.
Lemma near_T2 a : near T2 a -> a = A.
Proof. intros (i & x & Hi & Hx & -> & Ht). exact (proj1 (proj2 (HI i x Hi Hx)) Ht). Qed.
Lemma near_T3 a : near T3 a -> a = - A.
Proof. intros (i & x & Hi & Hx & -> & Ht). exact (proj1 (proj2 (proj2 (HI i x Hi Hx))) Ht). Qed.

Lemma near_any U a : near U a ->
  - A <= a <= A /\ (B < a -> Rabs (U - T1) <= 2 * e \/ Rabs (U - T2) <= 2 * e) /\ (a < - B -> Rabs (U - T3) <= 2 * e).
Proof.
  intros (i & x & Hi & Hx & -> & Ht). destruct (HI i x Hi Hx) as (P1 & P2 & P3 & P4).
  set (t := delta * INR i - pre) in *.
  assert (Tr : forall T, Rabs (t - T) <= e -> Rabs (U - T) <= 2 * e).
  { intros T HT. apply abs_le_inv in HT, Ht. apply Rabs_le. lra. }
  destruct (Rle_abs_dec (t - T1) e) as [D1|D1]; [specialize (P1 D1); rewrite P1; split; [lra|split; intro; [left; auto|lra]]|].
  destruct (Rle_abs_dec (t - T2) e) as [D2|D2]; [specialize (P2 D2); rewrite P2; split; [lra|split; intro; [right; auto|lra]]|].
  destruct (Rle_abs_dec (t - T3) e) as [D3|D3]; [specialize (P3 D3); rewrite P3; split; [lra|split; intro; [lra|auto]]|].
  specialize (P4 D1 D2 D3). apply abs_le_inv in P4. split; [lra|]. split; intro; lra.
Qed.

(** Three reads at the times of another model: at least one of them misses. *)
Lemma misses w1 w2 w3 m U1 U2 U3 a1 a2 a3 : 0 < m -> m <= w1 -> m <= w2 -> m <= w3 ->
  near U1 a1 -> near U2 a2 -> near U3 a3 ->
  wsum w1 w2 w3 a1 a2 a3 <= A * (w1 + w2 + w3) /\
  (U1 + U2 = U3 -> T1 + T2 = T3 -> U1 <= U2 -> 6 * e < T2 - T1 ->
   2 * e < Rabs (U1 - T1) \/ 2 * e < Rabs (U2 - T2) \/ 2 * e < Rabs (U3 - T3) ->
   wsum w1 w2 w3 a1 a2 a3 <= A * (w1 + w2 + w3) - m * (A - B)).
Proof.
  intros Hm M1 M2 M3 N1 N2 N3. destruct (near_any _ _ N1) as (R1 & G1 & _). destruct (near_any _ _ N2) as (R2 & G2 & _).
  destruct (near_any _ _ N3) as (R3 & _ & G3). unfold wsum.
  assert (X1 : 0 <= w1 * (A - a1)) by (apply Rmult_le_pos; lra).
  assert (X2 : 0 <= w2 * (A - a2)) by (apply Rmult_le_pos; lra).
  assert (X3 : 0 <= w3 * (A + a3)) by (apply Rmult_le_pos; lra).
  split; [lra|]. intros EU ET Hle Hsep Hd.
  destruct (Rle_lt_dec a1 B) as [L1|L1].
  { assert (m * (A - B) <= w1 * (A - a1)) by (apply Rmult_le_compat; lra). lra. }
  destruct (Rle_lt_dec a2 B) as [L2|L2].
  { assert (m * (A - B) <= w2 * (A - a2)) by (apply Rmult_le_compat; lra). lra. }
  destruct (Rle_lt_dec (- B) a3) as [L3|L3].
  { assert (m * (A - B) <= w3 * (A + a3)) by (apply Rmult_le_compat; lra). lra. }
  exfalso. specialize (G3 L3). pose proof (abs_le_inv _ _ G3) as G3'.
  destruct (G1 L1) as [D1|D1]; destruct (G2 L2) as [D2|D2].
  - apply abs_le_inv in D1, D2. lra.
  - destruct Hd as [Hd|[Hd|Hd]]; lra.
  - apply abs_le_inv in D1, D2. lra.
  - apply abs_le_inv in D1, D2. lra.
Qed.
End OneTrace.

Lemma tol_pos delta pre l : 0 < delta -> 0 < tol delta pre l.
Proof.
  intro H. unfold tol. pose proof (Rabs_pos pre). assert (0 <= delta * INR l) by (apply Rmult_le_pos; [lra|apply pos_INR]).
  assert (0 <= / 2 ^ 43 * (delta * INR l + Rabs pre)) by (apply Rmult_le_pos; lra). lra.
Qed.

Lemma resolved_misses e Vp p H0 K0 h k : 0 <= e -> resolved64 e Vp p H0 K0 h k ->
  2 * e < Rabs (t_Ps Vp p h k - t_Ps Vp p H0 K0) \/ 2 * e < Rabs (t_PpPs Vp p h k - t_PpPs Vp p H0 K0) \/
  2 * e < Rabs (t_PsPs Vp p h k - t_PsPs Vp p H0 K0).
Proof.
  intros He HR. unfold t_Ps, t_PpPs, t_PsPs in *.
  destruct (Rle_abs_dec (h * (qs Vp k p - qp Vp p) - H0 * (qs Vp K0 p - qp Vp p)) (2 * e)) as [D1|D1]; [|left; exact D1].
  destruct (Rle_abs_dec (h * (qs Vp k p + qp Vp p) - H0 * (qs Vp K0 p + qp Vp p)) (2 * e)) as [D2|D2]; [|right; left; exact D2].
  destruct (Rle_abs_dec (2 * h * qs Vp k p - 2 * H0 * qs Vp K0 p) (2 * e)) as [D3|D3]; [|right; right; exact D3].
  exfalso. apply abs_le_inv in D1, D2, D3. pose proof (qp_nonneg Vp p) as Hq.
  destruct HR as [R1|R1].
  - rewrite <- (Rabs_pos_eq (qp Vp p)) in R1 by exact Hq. rewrite <- Rabs_mult in R1.
    revert R1. apply Rle_not_lt. apply Rabs_le. lra.
  - revert R1. apply Rle_not_lt. apply Rabs_le. lra.
Qed.

Lemma Forall2_length' {A B} {P : A -> B -> Prop} {l m} : Forall2 P l m -> length l = length m.
Proof. induction 1; simpl; congruence. Qed.

Lemma sf_eq_dec (x y : spec_float) : {x = y} + {x <> y}.
Proof. repeat decide equality. Qed.

Lemma value_eq (rf : stream B64) (P : trace B64 -> R * R * R -> Prop) w1 w2 w3 amps (c : R) :
  Forall2 P rf amps -> (forall tr a1 a2 a3, In tr rf -> P tr (a1, a2, a3) -> wsum w1 w2 w3 a1 a2 a3 = c) ->
  value3 w1 w2 w3 amps = INR (length rf) * c.
Proof.
  intros F H. unfold value3. induction F as [|tr [[a1 a2] a3] rf amps Ht F IH]; [simpl; ring|].
  change (length (tr :: rf)) with (S (length rf)). rewrite S_INR. cbn [map sumR].
  rewrite IH by (intros; eapply H; [right; eassumption|eassumption]). rewrite (H tr a1 a2 a3 (or_introl eq_refl) Ht). ring.
Qed.
Lemma value_le (rf : stream B64) (P : trace B64 -> R * R * R -> Prop) w1 w2 w3 amps (c : R) :
  Forall2 P rf amps -> (forall tr a1 a2 a3, In tr rf -> P tr (a1, a2, a3) -> wsum w1 w2 w3 a1 a2 a3 <= c) ->
  value3 w1 w2 w3 amps <= INR (length rf) * c.
Proof.
  intros F H. unfold value3. induction F as [|tr [[a1 a2] a3] rf amps Ht F IH]; [simpl; lra|].
  change (length (tr :: rf)) with (S (length rf)). rewrite S_INR. cbn [map sumR].
  assert (IH' : sumR (map (fun '(a1, a2, a3) => wsum w1 w2 w3 a1 a2 a3) amps) <= INR (length rf) * c)
    by (apply IH; intros; eapply H; [right; eassumption|eassumption]).
  pose proof (H tr a1 a2 a3 (or_introl eq_refl) Ht). lra.
Qed.
Lemma value_lt (rf : stream B64) (P : trace B64 -> R * R * R -> Prop) w1 w2 w3 amps (c g : R) tr0 :
  Forall2 P rf amps -> (forall tr a1 a2 a3, In tr rf -> P tr (a1, a2, a3) -> wsum w1 w2 w3 a1 a2 a3 <= c) ->
  In tr0 rf -> (forall a1 a2 a3, P tr0 (a1, a2, a3) -> wsum w1 w2 w3 a1 a2 a3 <= c - g) ->
  value3 w1 w2 w3 amps <= INR (length rf) * c - g.
Proof.
  intros F H Hin H0. induction F as [|tr [[a1 a2] a3] rf amps Ht F IH]; [destruct Hin|].
  change (length (tr :: rf)) with (S (length rf)). rewrite S_INR.
  change (value3 w1 w2 w3 ((a1, a2, a3) :: amps)) with (wsum w1 w2 w3 a1 a2 a3 + value3 w1 w2 w3 amps).
  destruct Hin as [->|Hin].
  - pose proof (H0 _ _ _ Ht). pose proof (value_le rf P w1 w2 w3 amps c F ltac:(intros; eapply H; [right; eassumption|eassumption])). lra.
  - pose proof (H tr a1 a2 a3 (or_introl eq_refl) Ht).
    assert (value3 w1 w2 w3 amps <= INR (length rf) * c - g) by (apply IH; [intros; eapply H; [right; eassumption|eassumption]|exact Hin]). lra.
Qed.

Lemma error_le (rf : stream B64) (P : trace B64 -> R * R * R -> Prop) w1 w2 w3 amps A :
  Forall2 P rf amps -> 0 <= w1 -> 0 <= w2 -> 0 <= w3 ->
  (forall tr a1 a2 a3, In tr rf -> P tr (a1, a2, a3) -> - A <= a1 <= A /\ - A <= a2 <= A /\ - A <= a3 <= A) ->
  error3 w1 w2 w3 amps <= (INR (length rf) + 3) * / 2 ^ 52 * (INR (length rf) * (A * (w1 + w2 + w3))) + INR (length rf) * / 2 ^ 1000.
Proof.
  intros F H1 H2 H3 H. unfold error3. rewrite <- (Forall2_length' F). apply Rplus_le_compat_r.
  apply Rmult_le_compat_l. { apply Rmult_le_pos; [pose proof (pos_INR (length rf)); lra|lra]. }
  induction F as [|tr [[a1 a2] a3] rf amps Ht F IH]; [simpl; lra|].
  change (length (tr :: rf)) with (S (length rf)). rewrite S_INR. cbn [map sumR].
  assert (IH' : sumR (map (fun '(a1, a2, a3) => wabs w1 w2 w3 a1 a2 a3) amps) <= INR (length rf) * (A * (w1 + w2 + w3)))
    by (apply IH; intros; eapply H; [right; eassumption|eassumption]).
  destruct (H tr a1 a2 a3 (or_introl eq_refl) Ht) as (B1 & B2 & B3).
  assert (G : forall w a, 0 <= w -> - A <= a <= A -> Rabs (w * a) <= w * A).
  { intros w a Hw Ha. rewrite Rabs_mult, (Rabs_right w) by lra. apply Rmult_le_compat_l; [exact Hw|]. apply Rabs_le. exact Ha. }
  unfold wabs at 1. pose proof (G w1 a1 H1 B1). pose proof (G w2 a2 H2 B2). pose proof (G w3 a3 H3 B3). lra.
Qed.

(** ** C86 *)

(** Double precision.  Every trace carries the pulses of a crust (H0,K0) that is on the grid; the record
    covers the arrivals of the grid; every other node is resolved on some trace; the pulses stand out of the
    rest of the trace by more than the rounding error.  Then the reported model is (H0,K0). *)
Theorem C86_hk_recovers km1 stackO draw (rf : stream B64) (pre : B64) (H K : list B64) (Vp w1 w2 w3 : B64) layer r tr0
    (H0 K0 : B64) (A B m : R) :
  @hk B64 km1 stackO draw rf pre H K (Some Vp) (Some w1) (Some w2) (Some w3) layer (Some false) = Ok r ->
  nth_error rf 0 = Some tr0 -> wsane w1 w2 w3 -> 0 < m -> m <= real w1 -> m <= real w2 -> m <= real w3 ->
  (forall h k, In h H -> In k K -> node64 km1 Vp pre tr0 rf h k) ->
  In H0 H -> In K0 K -> 0 <= B < A ->
  let delta := real (tr_delta tr0) in let l := length (tr_data tr0) in let e := tol delta (real pre) l in
  let v := real Vp in let ray tr := real km1 * real (tr_slow tr) in let n := INR (length rf) in
  let W := real w1 + real w2 + real w3 in
  (forall tr, In tr rf -> pulses A B (tr_data tr) delta (real pre) l e
     (t_Ps v (ray tr) (real H0) (real K0)) (t_PpPs v (ray tr) (real H0) (real K0)) (t_PsPs v (ray tr) (real H0) (real K0))) ->
  (forall tr, In tr rf -> 3 * e < real H0 * qp v (ray tr)) ->
  (forall h k, In h H -> In k K -> (h, k) <> (H0, K0) -> exists tr, In tr rf /\ resolved64 e v (ray tr) (real H0) (real K0) (real h) (real k)) ->
  2 * ((n + 3) * / 2 ^ 52 * (n * (A * W)) + n * / 2 ^ 1000) < m * (A - B) ->
  exists s, nth_error (hr_stk r) (hr_best r) = Some (@mkRow B64 H0 K0 s) /\
    Rabs (real s - n * (A * W)) <= (n + 3) * / 2 ^ 52 * (n * (A * W)) + n * / 2 ^ 1000.
Proof.
  intros E E0 HW Hm M1 M2 M3 HN HH0 HK0 HAB delta l e v ray n W HP Hsep Hres Hgap.
  pose proof (C05_hk_grid B64 _ _ _ _ _ _ _ _ _ _ _ _ _ _ E) as (Len & Grid).
  destruct (C85_hk_best km1 stackO draw rf pre H K Vp w1 w2 w3 layer r tr0 E E0 HW HN) as (As & FA & best & Hbest & Hmax).
  set (V := value3 (real w1) (real w2) (real w3)) in *. set (Er := error3 (real w1) (real w2) (real w3)) in *.
  destruct (HN H0 K0 HH0 HK0) as [_ Hax Hl _ _]. destruct Hax as [[d1 _] _ _]. fold delta in d1.
  assert (He : 0 < e) by (apply tol_pos; lra).
  (* errors *)
  assert (HE : forall h k amps, reads3 km1 Vp pre tr0 rf h k amps -> Er amps <= (n + 3) * / 2 ^ 52 * (n * (A * W)) + n * / 2 ^ 1000).
  { intros h k amps Hr. eapply (error_le rf _ (real w1) (real w2) (real w3) amps A Hr); try lra.
    intros tr a1 a2 a3 Htr (S1 & S2 & S3). specialize (HP tr Htr).
    repeat split; first [apply (near_any A B _ _ _ _ _ _ _ HAB HP _ _ S1)|apply (near_any A B _ _ _ _ _ _ _ HAB HP _ _ S2)|apply (near_any A B _ _ _ _ _ _ _ HAB HP _ _ S3)]. }
  (* the true node *)
  apply In_nth_error in HK0. destruct HK0 as [i0 Ei0]. apply In_nth_error in HH0. destruct HH0 as [j0 Ej0].
  destruct (Grid i0 j0 K0 H0 Ei0 Ej0) as (s0 & Es0).
  destruct (Forall2_nth _ _ _ _ _ FA Es0) as (amps0 & Ha0 & (_ & _ & R0 & B0)). cbn [rH rK rS] in R0, B0.
  assert (V0 : V amps0 = n * (A * W)).
  { unfold V. apply (value_eq rf _ _ _ _ _ (A * W) R0). intros tr a1 a2 a3 Htr (S1 & S2 & S3). specialize (HP tr Htr).
    rewrite (near_T1 A B _ _ _ _ _ _ _ HP _ S1), (near_T2 A B _ _ _ _ _ _ _ HP _ S2), (near_T3 A B _ _ _ _ _ _ _ HP _ S3). unfold wsum, W. ring. }
  (* the reported node *)
  destruct (Forall2_nth_r _ _ _ _ _ FA Hbest) as (rb & Hrb & (Ih & Ik & Rb & Bb)).
  assert (Eq : rH rb = H0 /\ rK rb = K0).
  { destruct (sf_eq_dec (rH rb) H0) as [Eh|Nh]; [destruct (sf_eq_dec (rK rb) K0) as [Ek|Nk]; [split; assumption|]|].
    all: exfalso; destruct (Hres (rH rb) (rK rb) Ih Ik) as (trx & Hx & Rx); [congruence|].
    all: assert (Hlt : V best <= n * (A * W) - m * (A - B)).
    all: try (eapply (value_lt rf _ _ _ _ best (A * W) (m * (A - B)) trx Rb); [| exact Hx |];
      [ intros tr a1 a2 a3 Htr (S1 & S2 & S3); exact (proj1 (misses A B _ _ _ _ _ _ _ HAB (HP tr Htr) _ _ _ m _ _ _ _ _ _ Hm M1 M2 M3 S1 S2 S3))
      | intros a1 a2 a3 (S1 & S2 & S3);
        apply (proj2 (misses A B _ _ _ _ _ _ _ HAB (HP trx Hx) _ _ _ m _ _ _ _ _ _ Hm M1 M2 M3 S1 S2 S3));
        [ unfold t_Ps, t_PpPs, t_PsPs; ring | unfold t_Ps, t_PpPs, t_PsPs; ring
        | unfold t_Ps, t_PpPs; pose proof (qp_nonneg v (ray trx)) as Hq;
          destruct (HN (rH rb) (rK rb) Ih Ik) as [_ _ _ _ Hn]; destruct (Hn trx Hx) as (_ & _ & [_ [hh1 _] _ _] & _);
          assert (0 <= real (rH rb) * qp v (ray trx)) by (apply Rmult_le_pos; lra); fold (ray trx); fold v; lra
        | pose proof (Hsep trx Hx) as Hs; unfold t_Ps, t_PpPs; fold e; lra
        | exact (resolved_misses e v (ray trx) _ _ _ _ (Rlt_le _ _ He) Rx) ] ]).
    all: pose proof (Hmax amps0 ltac:(eapply nth_error_In; exact Ha0)) as Hm0; pose proof (HE _ _ _ Rb); pose proof (HE _ _ _ R0); lra. }
  destruct Eq as [Eh Ek]. exists (rS rb). split; [rewrite Hrb; destruct rb as [hh kk ss]; cbn in *; subst; reflexivity|].
  rewrite Eh, Ek in Rb.
  assert (Vb : V best = n * (A * W)).
  { unfold V. apply (value_eq rf _ _ _ _ _ (A * W) Rb). intros tr a1 a2 a3 Htr (S1 & S2 & S3). specialize (HP tr Htr).
    rewrite (near_T1 A B _ _ _ _ _ _ _ HP _ S1), (near_T2 A B _ _ _ _ _ _ _ HP _ S2), (near_T3 A B _ _ _ _ _ _ _ HP _ S3). unfold wsum, W. ring. }
  rewrite <- Vb. eapply Rle_trans; [exact Bb|]. rewrite Vb. exact (HE _ _ _ Rb).
Qed.
