(** * P_Float5: in IEEE double precision H-k stacking recovers every crust whose phases stand out (C124).

    The double-precision counterpart of C123: the three pulses may have any sizes and the record may hold
    anything (a larger direct P, other phases, noise) at samples that no model of the grid reads; the pulses
    must stand out by more than the rounding errors. *)

From Coq Require Import ZArith Reals Lra Lia Psatz Floats.SpecFloat.
From Flocq Require Import Core.
From Verif Require Import Base Num NumPy Spec HkModel HkProofs HkReal HkFacts HkFacts2 HkFacts4 P_Hk P_Hk4 P_Hk6 Float64 FloatErr FloatHk FloatStack FloatSeq P_Float P_Float2 FloatTable FloatOne P_Float3 P_Float4.

Local Open Scope R_scope.

(** ** Specification *)
(** One phase with predicted delay [T h k].  Up to the sign [s] (1 for Ps and PpPs, -1 for PpSs+PsPs), every sample within
    the tolerance of the delay of (H0,K0) is [A]; every other sample within the tolerance of the delay of a model of the
    grid is at most [B].  Nothing is asked of the remaining samples. *)
Definition window (s : R) (data : list B64) (delta pre : R) (l : nat) (T : R -> R -> R) (H K : list B64) (H0 K0 : B64) (A B : R) : Prop :=
  forall i x, (i < l)%nat -> nth_error data i = Some x ->
    let t := delta * INR i - pre in let e := tol delta pre l in
    (Rabs (t - T (real H0) (real K0)) <= e -> s * real x = A) /\
    (forall h k, In h H -> In k K -> Rabs (t - T (real h) (real k)) <= e -> e < Rabs (t - T (real H0) (real K0)) -> s * real x <= B).

(** The three phases stand out: missing any one of them costs at least [G]. *)
Definition clear64 (data : list B64) (delta pre : R) (l : nat) (w1 w2 w3 : R) (T1 T2 T3 : R -> R -> R) (H K : list B64) (H0 K0 : B64) (G : R) : Prop :=
  0 <= w1 /\ 0 <= w2 /\ 0 <= w3 /\
  exists A1 B1 A2 B2 A3 B3,
    window 1 data delta pre l T1 H K H0 K0 A1 B1 /\ window 1 data delta pre l T2 H K H0 K0 A2 B2 /\ window (-1) data delta pre l T3 H K H0 K0 A3 B3 /\
    G <= w1 * (A1 - B1) /\ G <= w2 * (A2 - B2) /\ G <= w3 * (A3 - B3).

(** Size of the samples. *)
Definition bounded64 (data : list B64) (M : R) : Prop := forall x, In x data -> Rabs (real x) <= M.

(** ** One trace *)
Lemma window_le s data delta pre l T H K H0 K0 A B h k a a0 : window s data delta pre l T H K H0 K0 A B -> B <= A ->
  In h H -> In k K -> sample_near data delta pre l (T (real h) (real k)) a -> sample_near data delta pre l (T (real H0) (real K0)) a0 ->
  s * a <= s * a0 /\ s * a0 = A /\ (2 * tol delta pre l < Rabs (T (real h) (real k) - T (real H0) (real K0)) -> s * a <= B).
Proof.
  intros Hw HAB Ih Ik (i & x & Hi & Hx & -> & Ht) (i0 & x0 & Hi0 & Hx0 & -> & Ht0).
  pose proof (proj1 (Hw i0 x0 Hi0 Hx0) Ht0) as E0. destruct (Hw i x Hi Hx) as [Q1 Q2]. cbn zeta in Q1, Q2.
  destruct (Rle_abs_dec (delta * INR i - pre - T (real H0) (real K0)) (tol delta pre l)) as [D|D].
  - split; [rewrite (Q1 D), E0; lra|]. split; [exact E0|]. intro X. exfalso. revert X. apply Rle_not_lt.
    apply abs_le_inv in Ht, D. apply Rabs_le. lra.
  - pose proof (Q2 h k Ih Ik Ht D). split; [lra|]. split; [exact E0|]. intros _. assumption.
Qed.

Lemma clear_le data delta pre l w1 w2 w3 T1 T2 T3 H K H0 K0 G h k a1 a2 a3 b1 b2 b3 :
  clear64 data delta pre l w1 w2 w3 T1 T2 T3 H K H0 K0 G -> 0 < G -> In h H -> In k K ->
  sample_near data delta pre l (T1 (real h) (real k)) a1 -> sample_near data delta pre l (T2 (real h) (real k)) a2 -> sample_near data delta pre l (T3 (real h) (real k)) a3 ->
  sample_near data delta pre l (T1 (real H0) (real K0)) b1 -> sample_near data delta pre l (T2 (real H0) (real K0)) b2 -> sample_near data delta pre l (T3 (real H0) (real K0)) b3 ->
  wsum w1 w2 w3 a1 a2 a3 <= wsum w1 w2 w3 b1 b2 b3 /\
  (2 * tol delta pre l < Rabs (T1 (real h) (real k) - T1 (real H0) (real K0)) \/ 2 * tol delta pre l < Rabs (T2 (real h) (real k) - T2 (real H0) (real K0)) \/
   2 * tol delta pre l < Rabs (T3 (real h) (real k) - T3 (real H0) (real K0)) -> wsum w1 w2 w3 a1 a2 a3 <= wsum w1 w2 w3 b1 b2 b3 - G).
Proof.
  intros (W1 & W2 & W3 & A1 & B1 & A2 & B2 & A3 & B3 & X1 & X2 & X3 & G1 & G2 & G3) HG Ih Ik N1 N2 N3 M1 M2 M3.
  assert (Hp : forall w A B, 0 <= w -> G <= w * (A - B) -> B <= A).
  { intros w A B Hw Hg. apply Rnot_lt_le. intro C. assert (0 <= w * (B - A)) by (apply Rmult_le_pos; lra). lra. }
  destruct (window_le 1 _ _ _ _ T1 H K H0 K0 A1 B1 h k a1 b1 X1 (Hp _ _ _ W1 G1) Ih Ik N1 M1) as (L1 & E1 & D1).
  destruct (window_le 1 _ _ _ _ T2 H K H0 K0 A2 B2 h k a2 b2 X2 (Hp _ _ _ W2 G2) Ih Ik N2 M2) as (L2 & E2 & D2).
  destruct (window_le (-1) _ _ _ _ T3 H K H0 K0 A3 B3 h k a3 b3 X3 (Hp _ _ _ W3 G3) Ih Ik N3 M3) as (L3 & E3 & D3).
  unfold wsum.
  assert (Y1 : 0 <= w1 * (b1 - a1)) by (apply Rmult_le_pos; lra).
  assert (Y2 : 0 <= w2 * (b2 - a2)) by (apply Rmult_le_pos; lra).
  assert (Y3 : 0 <= w3 * (a3 - b3)) by (apply Rmult_le_pos; lra).
  split; [lra|]. intros [D|[D|D]].
  - specialize (D1 D). assert (w1 * (A1 - B1) <= w1 * (b1 - a1)) by (apply Rmult_le_compat_l; lra). lra.
  - specialize (D2 D). assert (w2 * (A2 - B2) <= w2 * (b2 - a2)) by (apply Rmult_le_compat_l; lra). lra.
  - specialize (D3 D). assert (w3 * (A3 - B3) <= w3 * (a3 - b3)) by (apply Rmult_le_compat_l; lra). lra.
Qed.

Lemma near_bounded data delta pre l M T a : bounded64 data M -> sample_near data delta pre l T a -> - M <= a <= M.
Proof. intros Hb (i & x & _ & Hx & -> & _). apply abs_le_inv. apply Hb. eapply nth_error_In. exact Hx. Qed.

(** ** Several traces *)
Lemma value_pair (rf : stream B64) (P P0 : trace B64 -> R * R * R -> Prop) w1 w2 w3 amps amps0 (g : R) trx :
  Forall2 P rf amps -> Forall2 P0 rf amps0 ->
  (forall tr a1 a2 a3 b1 b2 b3, In tr rf -> P tr (a1, a2, a3) -> P0 tr (b1, b2, b3) -> wsum w1 w2 w3 a1 a2 a3 <= wsum w1 w2 w3 b1 b2 b3) ->
  In trx rf -> (forall a1 a2 a3 b1 b2 b3, P trx (a1, a2, a3) -> P0 trx (b1, b2, b3) -> wsum w1 w2 w3 a1 a2 a3 <= wsum w1 w2 w3 b1 b2 b3 - g) ->
  value3 w1 w2 w3 amps <= value3 w1 w2 w3 amps0 - g.
Proof.
  assert (Le : forall rf (amps amps0 : list (R * R * R)), Forall2 P rf amps -> Forall2 P0 rf amps0 ->
    (forall tr a1 a2 a3 b1 b2 b3, In tr rf -> P tr (a1, a2, a3) -> P0 tr (b1, b2, b3) -> wsum w1 w2 w3 a1 a2 a3 <= wsum w1 w2 w3 b1 b2 b3) ->
    value3 w1 w2 w3 amps <= value3 w1 w2 w3 amps0).
  { clear. intros rf. induction rf as [|tr rf IH]; intros amps amps0 F F0 Hl; inversion F as [|? [[a1 a2] a3] ? amps' Pa F']; inversion F0 as [|? [[b1 b2] b3] ? amps0' Pb F0']; subst; [lra|].
    change (value3 w1 w2 w3 ((a1, a2, a3) :: amps')) with (wsum w1 w2 w3 a1 a2 a3 + value3 w1 w2 w3 amps').
    change (value3 w1 w2 w3 ((b1, b2, b3) :: amps0')) with (wsum w1 w2 w3 b1 b2 b3 + value3 w1 w2 w3 amps0').
    pose proof (Hl tr _ _ _ _ _ _ (or_introl eq_refl) Pa Pb).
    pose proof (IH amps' amps0' F' F0' ltac:(intros; eapply Hl; [right; eassumption|eassumption|eassumption])). lra. }
  revert amps amps0. induction rf as [|tr rf IH]; intros amps amps0 F F0 Hl Hin Hx; [destruct Hin|].
  inversion F as [|? [[a1 a2] a3] ? amps' Pa F']; inversion F0 as [|? [[b1 b2] b3] ? amps0' Pb F0']; subst.
  change (value3 w1 w2 w3 ((a1, a2, a3) :: amps')) with (wsum w1 w2 w3 a1 a2 a3 + value3 w1 w2 w3 amps').
  change (value3 w1 w2 w3 ((b1, b2, b3) :: amps0')) with (wsum w1 w2 w3 b1 b2 b3 + value3 w1 w2 w3 amps0').
  assert (Hl' : forall tr a1 a2 a3 b1 b2 b3, In tr rf -> P tr (a1, a2, a3) -> P0 tr (b1, b2, b3) -> wsum w1 w2 w3 a1 a2 a3 <= wsum w1 w2 w3 b1 b2 b3)
    by (intros; eapply Hl; [right; eassumption|eassumption|eassumption]).
  destruct Hin as [->|Hin].
  - pose proof (Hx _ _ _ _ _ _ Pa Pb). pose proof (Le rf amps' amps0' F' F0' Hl'). lra.
  - pose proof (Hl tr _ _ _ _ _ _ (or_introl eq_refl) Pa Pb). pose proof (IH amps' amps0' F' F0' Hl' Hin Hx). lra.
Qed.

(** A table best up to rounding, over any number of traces. *)
Lemma clear_best (rf : stream B64) (d q : R) l (w1 w2 w3 : R) (dat : trace B64 -> list B64) (T1 T2 T3 : trace B64 -> R -> R -> R) (H K : list B64)
    (rows : list (row B64)) (As : list (list (R * R * R))) ib best (H0 K0 : B64) s0 (M G : R) :
  let n := INR (length rf) in let V := value3 w1 w2 w3 in let E := error3 w1 w2 w3 in
  Forall2 (fun row amps => In (rH row) H /\ In (rK row) K /\
     reads_at rf d q l dat (fun tr h k => T1 tr (real h) (real k)) (fun tr h k => T2 tr (real h) (real k)) (fun tr h k => T3 tr (real h) (real k)) (rH row) (rK row) amps) rows As ->
  nth_error As ib = Some best -> (forall amps, In amps As -> V amps <= V best + E best + E amps) ->
  In (@mkRow B64 H0 K0 s0) rows ->
  (forall tr, In tr rf -> bounded64 (dat tr) M /\ clear64 (dat tr) d q l w1 w2 w3 (T1 tr) (T2 tr) (T3 tr) H K H0 K0 G) ->
  rf <> [] -> 0 < G ->
  (forall h k, In h H -> In k K -> (h, k) <> (H0, K0) -> exists tr, In tr rf /\
     (2 * tol d q l < Rabs (T1 tr (real h) (real k) - T1 tr (real H0) (real K0)) \/ 2 * tol d q l < Rabs (T2 tr (real h) (real k) - T2 tr (real H0) (real K0)) \/
      2 * tol d q l < Rabs (T3 tr (real h) (real k) - T3 tr (real H0) (real K0)))) ->
  2 * ((n + 3) * / 2 ^ 52 * (n * (M * (w1 + w2 + w3))) + n * / 2 ^ 1000) < G ->
  exists s, nth_error rows ib = Some (@mkRow B64 H0 K0 s).
Proof.
  intros n V E FA Hb Hmax Hin0 HT Hne HG Hres Hgap.
  assert (exists t0, In t0 rf) as [t0 I0] by (destruct rf as [|t0 rf0]; [congruence|exists t0; left; reflexivity]).
  destruct (HT t0 I0) as (_ & W1 & W2 & W3 & _). clear Hne.
  apply In_nth_error in Hin0. destruct Hin0 as [i0 Ei0]. destruct (Forall2_nth _ _ _ _ _ FA Ei0) as (amps0 & Ha0 & (I1 & I2 & R0)). cbn [rH rK] in I1, I2, R0.
  destruct (Forall2_nth_r _ _ _ _ _ FA Hb) as (rb & Hrb & (Ih & Ik & Rb)).
  assert (HE : forall h k amps, reads_at rf d q l dat (fun tr h k => T1 tr (real h) (real k)) (fun tr h k => T2 tr (real h) (real k)) (fun tr h k => T3 tr (real h) (real k)) h k amps ->
     E amps <= (n + 3) * / 2 ^ 52 * (n * (M * (w1 + w2 + w3))) + n * / 2 ^ 1000).
  { intros h k amps Hr. eapply (error_le rf _ w1 w2 w3 amps M Hr W1 W2 W3). intros tr a1 a2 a3 Htr (S1 & S2 & S3). destruct (HT tr Htr) as [HB _].
    split; [|split]; eapply near_bounded; eassumption. }
  assert (Eq : (rH rb, rK rb) = (H0, K0)).
  { destruct (sf_eq_dec (rH rb) H0) as [Eh|Nh]; [destruct (sf_eq_dec (rK rb) K0) as [Ek|Nk]; [rewrite Eh, Ek; reflexivity|]|].
    all: exfalso; destruct (Hres (rH rb) (rK rb) Ih Ik) as (trx & Hx & Rx); [congruence|].
    all: assert (Hlt : V best <= V amps0 - G).
    all: try (eapply (value_pair rf _ _ w1 w2 w3 best amps0 G trx Rb R0); [|exact Hx|];
      [ intros tr a1 a2 a3 b1 b2 b3 Htr (S1 & S2 & S3) (U1 & U2 & U3); destruct (HT tr Htr) as [_ HC];
        exact (proj1 (clear_le _ _ _ _ _ _ _ _ _ _ _ _ _ _ _ _ _ _ _ _ _ _ _ HC HG Ih Ik S1 S2 S3 U1 U2 U3))
      | intros a1 a2 a3 b1 b2 b3 (S1 & S2 & S3) (U1 & U2 & U3); destruct (HT trx Hx) as [_ HC];
        exact (proj2 (clear_le _ _ _ _ _ _ _ _ _ _ _ _ _ _ _ _ _ _ _ _ _ _ _ HC HG Ih Ik S1 S2 S3 U1 U2 U3) Rx) ]).
    all: pose proof (Hmax amps0 ltac:(eapply nth_error_In; exact Ha0)) as Hm0; pose proof (HE _ _ _ Rb); pose proof (HE _ _ _ R0); lra. }
  injection Eq as Eh Ek. exists (rS rb). rewrite Hrb. destruct rb as [hh kk ss]. cbn in *. subst. reflexivity.
Qed.

(** The same for the tables of C90, decided by one record. *)
Lemma clear_table data delta pre l w1 w2 w3 T1 T2 T3 show H K stk ib (H0 K0 : B64) (M G : R) :
  double_table data delta pre l w1 w2 w3 T1 T2 T3 show H K stk ib ->
  In H0 H -> In K0 K -> bounded64 data M ->
  clear64 data (real delta) (real pre) l (real w1) (real w2) (real w3) T1 T2 T3 H K H0 K0 G ->
  0 < G ->
  (forall h k, In h H -> In k K -> (h, k) <> (H0, K0) ->
     2 * tol (real delta) (real pre) l < Rabs (T1 (real h) (real k) - T1 (real H0) (real K0)) \/ 2 * tol (real delta) (real pre) l < Rabs (T2 (real h) (real k) - T2 (real H0) (real K0)) \/
     2 * tol (real delta) (real pre) l < Rabs (T3 (real h) (real k) - T3 (real H0) (real K0))) ->
  2 * (/ 2 ^ 50 * (M * (real w1 + real w2 + real w3)) + / 2 ^ 1000) < G ->
  exists s, nth_error stk ib = Some (@mkRow B64 H0 K0 s).
Proof.
  intros (Len & Grid & As & FA & b1 & b2 & b3 & Hb & Hm) IH IK HB HC HG Hres Hgap.
  set (dummy := @mkTrace B64 data delta delta PyF pre pre pre EmptyString EmptyString None).
  assert (Hrow : forall row, In row stk -> In (rH row) H /\ In (rK row) K).
  { intros row Hr. apply In_nth_error in Hr. destruct Hr as [m Em]. assert (Hm' : (m < length K * length H)%nat) by (rewrite <- Len; apply nth_error_Some; congruence).
    assert (HL : length H <> 0%nat) by (intro Z; rewrite Z in Hm'; lia).
    assert (D1 : (m / length H < length K)%nat) by (apply Nat.div_lt_upper_bound; [exact HL|lia]).
    assert (D2 : (m mod length H < length H)%nat) by (apply Nat.mod_upper_bound; exact HL).
    destruct (nth_error K (m / length H)) as [k|] eqn:Ek; [|apply nth_error_None in Ek; lia].
    destruct (nth_error H (m mod length H)) as [h|] eqn:Eh; [|apply nth_error_None in Eh; lia].
    destruct (Grid _ _ k h Ek Eh) as [s Es]. replace (m / length H * length H + m mod length H)%nat with m in Es by (rewrite Nat.mul_comm; apply Nat.div_mod; exact HL).
    rewrite Em in Es. injection Es as ->. cbn [rH rK]. split; eapply nth_error_In; eassumption. }
  apply In_nth_error in IH as IH'. destruct IH' as [j Ej]. apply In_nth_error in IK as IK'. destruct IK' as [i Ei].
  destruct (Grid i j K0 H0 Ei Ej) as [s0 Es0].
  refine (clear_best [dummy] (real delta) (real pre) l (real w1) (real w2) (real w3) (fun _ => data) (fun _ => T1) (fun _ => T2) (fun _ => T3) H K
     stk (map (fun t => [t]) As) ib [(b1, b2, b3)] H0 K0 s0 M G _ _ _ (nth_error_In _ _ Es0) _ _ HG _ _).
  - clear - FA Hrow. induction FA as [|row [[a1 a2] a3] stk As (S & _ & _) FA IH]; [constructor|]. cbn [map]. constructor.
    + destruct (Hrow row (or_introl eq_refl)) as [I1 I2]. split; [exact I1|]. split; [exact I2|]. constructor; [exact S|constructor].
    + apply IH. intros; apply Hrow; right; assumption.
  - rewrite nth_error_map, Hb. reflexivity.
  - intros amps Hin. apply in_map_iff in Hin. destruct Hin as ([[a1 a2] a3] & <- & Hin). rewrite !value_one, !error_one. exact (Hm a1 a2 a3 Hin).
  - intros tr _. split; [exact HB|exact HC].
  - discriminate.
  - intros h k Hh Hk Hne. exists dummy. split; [left; reflexivity|]. exact (Hres h k Hh Hk Hne).
  - change (INR (length [dummy])) with 1. replace ((1 + 3) * / 2 ^ 52) with (/ 2 ^ 50) by lra. rewrite !Rmult_1_l. exact Hgap.
Qed.

Lemma shift_resolved e (S1 S2 S3 : R) (V : B64) p (T1 T2 T3 : R -> R -> R) (H K : list B64) (H0 K0 : B64) :
  0 <= e -> (forall h k, T1 h k = S1 + t_Ps (real V) p h k) -> (forall h k, T2 h k = S2 + t_PpPs (real V) p h k) -> (forall h k, T3 h k = S3 + t_PsPs (real V) p h k) ->
  all_resolved e V p H0 K0 H K ->
  forall h k, In h H -> In k K -> (h, k) <> (H0, K0) ->
     2 * e < Rabs (T1 (real h) (real k) - T1 (real H0) (real K0)) \/ 2 * e < Rabs (T2 (real h) (real k) - T2 (real H0) (real K0)) \/ 2 * e < Rabs (T3 (real h) (real k) - T3 (real H0) (real K0)).
Proof.
  intros He E1 E2 E3 Hres h k Hh Hk Hne. rewrite !E1, !E2, !E3.
  destruct (resolved_misses e (real V) p (real H0) (real K0) (real h) (real k) He (Hres h k Hh Hk Hne)) as [X|[X|X]];
    [left|right; left|right; right]; (eapply Rlt_le_trans; [exact X|]; apply Req_le; f_equal; ring).
Qed.
Lemma rec_tol data delta pre l : rec64 data delta pre l -> 0 <= tol (real delta) (real pre) l.
Proof. intros [_ [[d1 _] _ _] _ _]. apply Rlt_le, tol_pos. lra. Qed.

(** ** C124 *)
(** [G] exceeds the rounding errors of two values of a record with samples up to [M]. *)
Definition gap64 (w1 w2 w3 : B64) (M G : R) : Prop :=
  0 < G /\ 2 * (/ 2 ^ 50 * (M * (real w1 + real w2 + real w3)) + / 2 ^ 1000) < G.

Theorem C124_hkSynth draw (data : list B64) (delta pre : B64) l (p : B64) pk (H K : list B64) (Vp w1 w2 w3 : B64) layer r (H0 K0 : B64) (M G : R) :
  @hkSynth B64 draw data (@uniform_axis B64 delta l pre) p pk H K (Some Vp) (Some w1) (Some w2) (Some w3) layer = Ok r ->
  rec64 data delta pre l -> wsane w1 w2 w3 -> fdouble p -> grid64 Vp (real p) H K ->
  let T1 := t_Ps (real Vp) (real p) in let T2 := t_PpPs (real Vp) (real p) in let T3 := t_PsPs (real Vp) (real p) in
  covers delta pre l T1 T2 T3 H K -> In H0 H -> In K0 K ->
  bounded64 data M -> clear64 data (real delta) (real pre) l (real w1) (real w2) (real w3) T1 T2 T3 H K H0 K0 G -> gap64 w1 w2 w3 M G ->
  all_resolved (tol (real delta) (real pre) l) Vp (real p) H0 K0 H K ->
  exists s, nth_error (hs_stk r) (hs_best r) = Some (@mkRow B64 H0 K0 s).
Proof.
  intros E HR HW Fp HG T1 T2 T3 Cov IH IK HB HC [G0 Hgap] Hres.
  eapply (clear_table data delta pre l w1 w2 w3 T1 T2 T3 shown H K _ _ H0 K0 M G (C90_hkSynth _ _ _ _ _ _ _ _ _ _ _ _ _ _ _ E HR HW Fp HG Cov)); try assumption.
  apply (shift_resolved _ 0 0 0 Vp (real p)); [exact (rec_tol _ _ _ _ HR)|intros; unfold T1; ring|intros; unfold T2; ring|intros; unfold T3; ring|exact Hres].
Qed.

Theorem C124_hkYu draw (data : list B64) (delta pre : B64) l (tlag : B64) tk (p : B64) pk (H K : list B64) (VM VS vs w1 w2 w3 : B64) r (H0 K0 : B64) (M G : R) :
  @hkYu B64 draw data (@uniform_axis B64 delta l pre) tlag tk p pk H K (Some VM) (Some VS) (Some vs) (Some w1) (Some w2) (Some w3) = Ok r ->
  rec64 data delta pre l -> wsane w1 w2 w3 -> fdouble p -> fdouble tlag -> fdouble VS -> fdouble vs ->
  sane_sed (real tlag) (real VS) (real vs) -> grid64 VM (real p) H K ->
  let hs := real tlag * real vs / 2 in
  let T1 h k := t_Ps (real VS) 0 hs (real VS / real vs) + t_Ps (real VM) (real p) h k in
  let T2 h k := t_PpPs (real VS) 0 hs (real VS / real vs) + t_PpPs (real VM) (real p) h k in
  let T3 h k := t_PsPs (real VS) 0 hs (real VS / real vs) + t_PsPs (real VM) (real p) h k in
  covers delta pre l T1 T2 T3 H K -> In H0 H -> In K0 K ->
  bounded64 data M -> clear64 data (real delta) (real pre) l (real w1) (real w2) (real w3) T1 T2 T3 H K H0 K0 G -> gap64 w1 w2 w3 M G ->
  all_resolved (tol (real delta) (real pre) l) VM (real p) H0 K0 H K ->
  exists s, nth_error (yr_stk r) (yr_best r) = Some (@mkRow B64 H0 K0 s).
Proof.
  intros E HR HW Fp Ft FS Fv SS HG hs T1 T2 T3 Cov IH IK HB HC [G0 Hgap] Hres.
  eapply (clear_table data delta pre l w1 w2 w3 T1 T2 T3 shown H K _ _ H0 K0 M G (C90_hkYu _ _ _ _ _ _ _ _ _ _ _ _ _ _ _ _ _ _ E HR HW Fp Ft FS Fv SS HG Cov)); try assumption.
  apply (shift_resolved _ (t_Ps (real VS) 0 hs (real VS / real vs)) (t_PpPs (real VS) 0 hs (real VS / real vs)) (t_PsPs (real VS) 0 hs (real VS / real vs)) VM (real p));
    [exact (rec_tol _ _ _ _ HR)|reflexivity|reflexivity|reflexivity|exact Hres].
Qed.

(** Both stages of hkSeqSynth. *)
Theorem C124_hkSeqSynth draw (dS dM : list B64) (delta pre : B64) l (p : B64) pk
    (HS KS : list B64) (VS a b c : B64) (HM KM : list B64) (VM d e f : B64) r (H1 K1 H0 K0 : B64) (M G M' G' : R) :
  @hkSeqSynth B64 draw dS dM (@uniform_axis B64 delta l pre) p pk HS KS (Some VS) (Some a) (Some b) (Some c)
     HM KM (Some VM) (Some d) (Some e) (Some f) = Ok r ->
  rec64 dS delta pre l -> rec64 dM delta pre l -> wsane a b c -> wsane d e f -> fdouble p ->
  grid64 VS (real p) HS KS -> grid64 VM (real p) HM KM -> In H1 HS -> In K1 KS -> In H0 HM -> In K0 KM ->
  let eps := tol (real delta) (real pre) l in
  let S1 := t_Ps (real VS) (real p) in let S2 := t_PpPs (real VS) (real p) in let S3 := t_PsPs (real VS) (real p) in
  let M1 := t2_Ps (real VS) (real H1) (real K1) (real VM) (real p) in
  let M2 := t2_PpPs (real VS) (real H1) (real K1) (real VM) (real p) in
  let M3 := t2_PsPs (real VS) (real H1) (real K1) (real VM) (real p) in
  covers delta pre l S1 S2 S3 HS KS -> covers delta pre l M1 M2 M3 HM KM ->
  bounded64 dS M -> clear64 dS (real delta) (real pre) l (real a) (real b) (real c) S1 S2 S3 HS KS H1 K1 G -> gap64 a b c M G ->
  bounded64 dM M' -> clear64 dM (real delta) (real pre) l (real d) (real e) (real f) M1 M2 M3 HM KM H0 K0 G' -> gap64 d e f M' G' ->
  all_resolved eps VS (real p) H1 K1 HS KS -> all_resolved eps VM (real p) H0 K0 HM KM ->
  (exists s, nth_error (ss_stkSed r) (ss_bestSed r) = Some (@mkRow B64 H1 K1 s)) /\
  (exists s, nth_error (ss_stkMoho r) (ss_bestMoho r) = Some (@mkRow B64 H0 K0 s)).
Proof.
  intros E RS RM WS WM Fp GS GM IH1 IK1 IH0 IK0 eps S1 S2 S3 M1 M2 M3 CS CM BS KS' [GS0 GS1] BM KM' [GM0 GM1] AS AM.
  destruct (C90_hkSeqSynth _ _ _ _ _ _ _ _ _ _ _ _ _ _ _ _ _ _ _ _ _ E RS RM WS WM Fp GS GM CS) as (DS & bm & Eb & DM).
  assert (X : exists s, nth_error (ss_stkSed r) (ss_bestSed r) = Some (@mkRow B64 H1 K1 s)).
  { eapply (clear_table dS delta pre l a b c S1 S2 S3 shown HS KS _ _ H1 K1 M G DS); try assumption.
    apply (shift_resolved _ 0 0 0 VS (real p)); [exact (rec_tol _ _ _ _ RS)|intros; unfold S1; ring|intros; unfold S2; ring|intros; unfold S3; ring|exact AS]. }
  split; [exact X|]. destruct X as [s1 X]. rewrite X in Eb. injection Eb as <-. cbn [rH rK] in DM. cbn zeta in DM. specialize (DM CM).
  eapply (clear_table dM delta pre l d e f M1 M2 M3 clipped0 HM KM _ _ H0 K0 M' G' DM); try assumption.
  apply (shift_resolved _ (S1 (real H1) (real K1)) (S2 (real H1) (real K1)) (S3 (real H1) (real K1)) VM (real p)); [exact (rec_tol _ _ _ _ RM)|reflexivity|reflexivity|reflexivity|exact AM].
Qed.

(** Both stages of hkSeq. *)
Theorem C124_hkSeq km1 stackO draw (rfS rfM : stream B64) trS trM tr0 (pre : B64)
    (HS KS : list B64) (VS a b c : B64) (HM KM : list B64) (VM d e f : B64) (stack : bool) r (H1 K1 H0 K0 : B64) (M G M' G' : R) :
  @hkSeq B64 km1 stackO draw (rfS ++ [trS]) (rfM ++ [trM]) pre HS KS (Some VS) (Some a) (Some b) (Some c)
     HM KM (Some VM) (Some d) (Some e) (Some f) (Some stack) = Ok r ->
  nth_error (rfS ++ [trS]) 0 = Some tr0 ->
  let delta := tr_delta tr0 in let l := length (tr_data tr0) in
  let dS := seen_data stack (sr_RFSedStack r) trS in let dM := seen_data stack (sr_RFMohoStack r) trM in
  let sS := seen_slow stack (sr_AvgSlow r) trS in let sM := seen_slow stack (sr_AvgSlow r) trM in
  let pS := real km1 * real sS in let pM := real km1 * real sM in
  rec64 dS delta pre l -> rec64 dM delta pre l -> wsane a b c -> wsane d e f -> fdouble km1 -> fdouble sS -> fdouble sM ->
  grid64 VS pS HS KS -> grid64 VS pM HS KS -> grid64 VM pM HM KM -> In H1 HS -> In K1 KS -> In H0 HM -> In K0 KM ->
  let eps := tol (real delta) (real pre) l in
  let S1 := t_Ps (real VS) pS in let S2 := t_PpPs (real VS) pS in let S3 := t_PsPs (real VS) pS in
  let M1 := t2_Ps (real VS) (real H1) (real K1) (real VM) pM in
  let M2 := t2_PpPs (real VS) (real H1) (real K1) (real VM) pM in
  let M3 := t2_PsPs (real VS) (real H1) (real K1) (real VM) pM in
  covers delta pre l S1 S2 S3 HS KS -> covers delta pre l M1 M2 M3 HM KM ->
  bounded64 dS M -> clear64 dS (real delta) (real pre) l (real a) (real b) (real c) S1 S2 S3 HS KS H1 K1 G -> gap64 a b c M G ->
  bounded64 dM M' -> clear64 dM (real delta) (real pre) l (real d) (real e) (real f) M1 M2 M3 HM KM H0 K0 G' -> gap64 d e f M' G' ->
  all_resolved eps VS pS H1 K1 HS KS -> all_resolved eps VM pM H0 K0 HM KM ->
  (exists s, nth_error (sr_stkSed r) (sr_bestSed r) = Some (@mkRow B64 H1 K1 s)) /\
  (exists s, nth_error (sr_stkMoho r) (sr_bestMoho r) = Some (@mkRow B64 H0 K0 s)).
Proof.
  intros E E0 delta l dS dM sS sM pS pM RS RM WS WM Fk FsS FsM GS GS' GM IH1 IK1 IH0 IK0 eps S1 S2 S3 M1 M2 M3 CS CM BS KS' [GS0 GS1] BM KM' [GM0 GM1] AS AM.
  destruct (C90_hkSeq _ _ _ _ _ _ _ _ _ _ _ _ _ _ _ _ _ _ _ _ _ _ _ E E0 RS RM WS WM Fk FsS FsM GS GS' GM CS) as (DS & bm & Eb & DM).
  assert (X : exists s, nth_error (sr_stkSed r) (sr_bestSed r) = Some (@mkRow B64 H1 K1 s)).
  { eapply (clear_table dS delta pre l a b c S1 S2 S3 shown HS KS _ _ H1 K1 M G DS); try assumption.
    apply (shift_resolved _ 0 0 0 VS pS); [exact (rec_tol _ _ _ _ RS)|intros; unfold S1; ring|intros; unfold S2; ring|intros; unfold S3; ring|exact AS]. }
  split; [exact X|]. destruct X as [s1 X]. rewrite X in Eb. injection Eb as <-. cbn [rH rK] in DM. cbn zeta in DM. specialize (DM CM).
  eapply (clear_table dM delta pre l d e f M1 M2 M3 clipped0 HM KM _ _ H0 K0 M' G' DM); try assumption.
  apply (shift_resolved _ (t_Ps (real VS) pM (real H1) (real K1)) (t_PpPs (real VS) pM (real H1) (real K1)) (t_PsPs (real VS) pM (real H1) (real K1)) VM pM); [exact (rec_tol _ _ _ _ RM)|reflexivity|reflexivity|reflexivity|exact AM].
Qed.

(** hk, stack=False: any number of traces, every other model resolved by one of them. *)
Theorem C124_hk km1 stackO draw (rf : stream B64) (pre : B64) (H K : list B64) (Vp w1 w2 w3 : B64) layer r tr0 (H0 K0 : B64) (M G : R) :
  @hk B64 km1 stackO draw rf pre H K (Some Vp) (Some w1) (Some w2) (Some w3) layer (Some false) = Ok r ->
  nth_error rf 0 = Some tr0 -> wsane w1 w2 w3 ->
  (forall h k, In h H -> In k K -> node64 km1 Vp pre tr0 rf h k) -> In H0 H -> In K0 K ->
  let delta := real (tr_delta tr0) in let l := length (tr_data tr0) in let e := tol delta (real pre) l in
  let v := real Vp in let ray tr := real km1 * real (tr_slow tr) in let n := INR (length rf) in
  (forall tr, In tr rf -> bounded64 (tr_data tr) M /\
     clear64 (tr_data tr) delta (real pre) l (real w1) (real w2) (real w3) (t_Ps v (ray tr)) (t_PpPs v (ray tr)) (t_PsPs v (ray tr)) H K H0 K0 G) ->
  (forall h k, In h H -> In k K -> (h, k) <> (H0, K0) -> exists tr, In tr rf /\ resolved64 e v (ray tr) (real H0) (real K0) (real h) (real k)) ->
  0 < G -> 2 * ((n + 3) * / 2 ^ 52 * (n * (M * (real w1 + real w2 + real w3))) + n * / 2 ^ 1000) < G ->
  exists s, nth_error (hr_stk r) (hr_best r) = Some (@mkRow B64 H0 K0 s).
Proof.
  intros E E0 HW HN IH IK delta l e v ray n HT Hres G0 Hgap.
  pose proof (C05_hk_grid B64 _ _ _ _ _ _ _ _ _ _ _ _ _ _ E) as (_ & Grid).
  destruct (C85_hk_best km1 stackO draw rf pre H K Vp w1 w2 w3 layer r tr0 E E0 HW HN) as (As & FA & best & Hbest & Hmax).
  assert (He : 0 < e). { destruct (HN H0 K0 IH IK) as [_ Hax _ _ _]. destruct Hax as [[d1 _] _ _]. apply tol_pos. unfold delta. lra. }
  apply In_nth_error in IH as IH'. destruct IH' as [j Ej]. apply In_nth_error in IK as IK'. destruct IK' as [i Ei]. destruct (Grid i j K0 H0 Ei Ej) as (s0 & Es0).
  refine (clear_best rf delta (real pre) l (real w1) (real w2) (real w3) (fun tr => tr_data tr) (fun tr => t_Ps v (ray tr)) (fun tr => t_PpPs v (ray tr)) (fun tr => t_PsPs v (ray tr)) H K
     (hr_stk r) As (hr_best r) best H0 K0 s0 M G _ Hbest Hmax (nth_error_In _ _ Es0) HT _ G0 _ Hgap).
  - eapply Forall2_imp; [|exact FA]. intros row amps (I1 & I2 & R & _). split; [exact I1|]. split; [exact I2|exact R].
  - intro Z. rewrite Z in E0. discriminate.
  - intros h k Hh Hk Hne. destruct (Hres h k Hh Hk Hne) as (tr & Htr & R). exists tr. split; [exact Htr|].
    exact (resolved_misses e v (ray tr) (real H0) (real K0) (real h) (real k) (Rlt_le _ _ He) R).
Qed.

(** hk, stack=True: the stacked record at the average slowness. *)
Theorem C124_hk_stacked km1 stackO draw (rf : stream B64) (pre : B64) (H K : list B64) (Vp w1 w2 w3 : B64) layer r tr0 (H0 K0 : B64) (M G : R) :
  @hk B64 km1 stackO draw rf pre H K (Some Vp) (Some w1) (Some w2) (Some w3) layer (Some true) = Ok r ->
  nth_error rf 0 = Some tr0 ->
  let delta := tr_delta tr0 in let l := length (tr_data tr0) in let data := hr_RFStack r in let p := real km1 * real (hr_AvgSlow r) in
  let T1 := t_Ps (real Vp) p in let T2 := t_PpPs (real Vp) p in let T3 := t_PsPs (real Vp) p in let n := INR (length rf) in
  rec64 data delta pre l -> wsane w1 w2 w3 -> fdouble km1 -> fdouble (hr_AvgSlow r) -> (Z.of_nat (length rf) <= 2 ^ 20)%Z ->
  grid64 Vp p H K -> covers delta pre l T1 T2 T3 H K -> In H0 H -> In K0 K ->
  bounded64 data M -> clear64 data (real delta) (real pre) l (real w1) (real w2) (real w3) T1 T2 T3 H K H0 K0 G ->
  all_resolved (tol (real delta) (real pre) l) Vp p H0 K0 H K ->
  0 < G -> 2 * ((n + 3) * / 2 ^ 52 * (n * (M * (real w1 + real w2 + real w3))) + n * / 2 ^ 1000) < G ->
  exists s, nth_error (hr_stk r) (hr_best r) = Some (@mkRow B64 H0 K0 s).
Proof.
  intros E E0 delta l data p T1 T2 T3 n HR HW Fk Fs Hn HG Cov IH IK HB HC Hres G0 Hgap.
  destruct (stacked_table km1 stackO draw rf pre H K Vp w1 w2 w3 layer r tr0 E E0) as [T Am].
  pose proof (stacked_c km1 rf pre H K Vp w1 w2 w3 r tr0 HR HW Fk Fs HG Cov) as SC.
  destruct (best_b64 rf (real delta) (real pre) l w1 w2 w3 (fun _ => data) _ (fun _ h k => T1 (real h) (real k)) (fun _ h k => T2 (real h) (real k)) (fun _ h k => T3 (real h) (real k))
     H K Hn SC (hr_stk r) (hr_best r) T Am) as (As & FA & best & Hbest & Hmax).
  apply In_nth_error in IH as IH'. destruct IH' as [j Ej]. apply In_nth_error in IK as IK'. destruct IK' as [i Ei].
  destruct (table_node _ _ _ _ i j K0 H0 T Ei Ej) as (s0 & Es0 & _).
  refine (clear_best rf (real delta) (real pre) l (real w1) (real w2) (real w3) (fun _ => data) (fun _ => T1) (fun _ => T2) (fun _ => T3) H K
     (hr_stk r) As (hr_best r) best H0 K0 s0 M G _ Hbest Hmax (nth_error_In _ _ Es0) (fun _ _ => conj HB HC) _ G0 _ Hgap).
  - eapply Forall2_imp; [|exact FA]. intros row amps (I1 & I2 & _ & R & _). split; [exact I1|]. split; [exact I2|exact R].
  - intro Z. rewrite Z in E0. discriminate.
  - intros h k Hh Hk Hne. exists tr0. split; [eapply nth_error_In; exact E0|].
    exact (resolved_misses _ (real Vp) p (real H0) (real K0) (real h) (real k) (rec_tol _ _ _ _ HR) (Hres h k Hh Hk Hne)).
Qed.
