(** * P_Hk6: H-k stacking recovers the crust that produced the receiver functions (C78). *)

From Coq Require Import Reals Lra Psatz.
From Verif Require Import Base Num NumPy Spec HkModel HkProofs HkReal HkFacts HkFacts2 HkFacts4 P_Hk P_Hk2 P_Hk3 P_Hk4 P_Hk5.

Local Open Scope R_scope.

(** ** Vocabulary *)

(** [data] is an ideal receiver function on [axis]: amplitude [A] at the samples
    nearest to the Ps and PpPs times, [-A] at the one nearest to the PpSs+PsPs
    time, and smaller amplitudes everywhere else. *)
Definition ideal_rf (A : R) (data axis : list R) (T1 T2 T3 : R) : Prop :=
  exists i1 i2 i3,
    @nearest_first RN axis T1 i1 /\ @nearest_first RN axis T2 i2 /\ @nearest_first RN axis T3 i3 /\
    nth_error data i1 = Some A /\ nth_error data i2 = Some A /\ nth_error data i3 = Some (- A) /\
    forall i a, nth_error data i = Some a -> i <> i1 -> i <> i2 -> i <> i3 -> Rabs a < A.

(** [x] lies within an axis of [l] samples. *)
Definition covered (delta : R) (l : nat) (pre x : R) : Prop :=
  - pre <= x <= delta * INR (l - 1) - pre.

(** Node (h,k) is distinguishable from (H0,K0) with a sampling step [delta]: the
    depth differs by more than delta/qp, or the S delay by more than delta/2. *)
Definition resolved (delta Vp p H0 K0 h k : R) : Prop :=
  delta < Rabs (h - H0) * qp Vp p \/ delta / 2 < Rabs (h * qs Vp k p - H0 * qs Vp K0 p).

Lemma Rabs_def2b x a : Rabs x <= a -> - a <= x <= a.
Proof. intro H. pose proof (Rle_abs x). pose proof (Rle_abs (- x)) as B. rewrite Rabs_Ropp in B. lra. Qed.

(** ** Reads of an ideal receiver function *)

Lemma same_sample (delta : R) l (pre x y : R) i : 0 < delta -> (1 <= l)%nat ->
  covered delta l pre x -> covered delta l pre y ->
  @nearest_first RN (@uniform_axis RN delta l pre) x i -> @nearest_first RN (@uniform_axis RN delta l pre) y i ->
  Rabs (y - x) <= delta.
Proof.
  intros Hd Hl Hx Hy Nx Ny.
  pose proof (near_half delta l pre x i Hd Hl Hx Nx) as A.
  pose proof (near_half delta l pre y i Hd Hl Hy Ny) as B.
  apply Rabs_def2b in A. apply Rabs_def2b in B. apply Rabs_le. lra.
Qed.

Lemma ideal_bound A data axis T1 T2 T3 i a : 0 < A -> ideal_rf A data axis T1 T2 T3 ->
  nth_error data i = Some a -> - A <= a <= A.
Proof.
  intros HA (i1 & i2 & i3 & _ & _ & _ & D1 & D2 & D3 & Hs) Hi.
  destruct (Nat.eq_dec i i1) as [->|N1]; [rewrite D1 in Hi; injection Hi as <-; lra|].
  destruct (Nat.eq_dec i i2) as [->|N2]; [rewrite D2 in Hi; injection Hi as <-; lra|].
  destruct (Nat.eq_dec i i3) as [->|N3]; [rewrite D3 in Hi; injection Hi as <-; lra|].
  pose proof (Hs i a Hi N1 N2 N3) as B. apply Rabs_def2 in B. lra.
Qed.

Lemma hits A data delta l pre T1 T2 T3 U1 U2 U3 :
  let axis := @uniform_axis RN delta l pre in
  0 < A -> 0 < delta -> (1 <= l)%nat ->
  ideal_rf A data axis T1 T2 T3 ->
  covered delta l pre T1 -> covered delta l pre T2 -> covered delta l pre T3 ->
  covered delta l pre U1 -> covered delta l pre U2 -> covered delta l pre U3 ->
  T1 + T2 = T3 -> U1 + U2 = U3 -> U1 <= U2 -> 3 * delta < T2 - T1 ->
  @amp_near RN data axis U1 A -> @amp_near RN data axis U2 A -> @amp_near RN data axis U3 (- A) ->
  Rabs (U1 - T1) <= delta /\ Rabs (U2 - T2) <= delta /\ Rabs (U3 - T3) <= delta.
Proof.
  intros axis HA Hd Hl (i1 & i2 & i3 & N1 & N2 & N3 & D1 & D2 & D3 & Hs) C1 C2 C3 B1 B2 B3 HT HU Hle Hsep
    (j1 & M1 & E1) (j2 & M2 & E2) (j3 & M3 & E3).
  change (F RN) with R in *.
  assert (P3 : j3 = i3).
  { destruct (Nat.eq_dec j3 i1) as [->|X1]; [rewrite D1 in E3; injection E3 as E3; lra|].
    destruct (Nat.eq_dec j3 i2) as [->|X2]; [rewrite D2 in E3; injection E3 as E3; lra|].
    destruct (Nat.eq_dec j3 i3) as [->|X3]; [reflexivity|exfalso].
    pose proof (Hs j3 _ E3 X1 X2 X3) as B. apply Rabs_def2 in B. lra. }
  assert (G : forall j, nth_error data j = Some A -> j = i1 \/ j = i2).
  { intros j Ej. destruct (Nat.eq_dec j i1) as [->|X1]; [now left|].
    destruct (Nat.eq_dec j i2) as [->|X2]; [now right|exfalso].
    destruct (Nat.eq_dec j i3) as [->|X3]; [rewrite D3 in Ej; injection Ej as Ej; lra|].
    pose proof (Hs j _ Ej X1 X2 X3) as B. apply Rabs_def2 in B. lra. }
  subst j3. pose proof (same_sample delta l pre T3 U3 i3 Hd Hl C3 B3 N3 M3) as Q3.
  apply Rabs_def2b in Q3.
  destruct (G j1 E1) as [->| ->]; destruct (G j2 E2) as [->| ->].
  - pose proof (same_sample delta l pre T1 U1 i1 Hd Hl C1 B1 N1 M1) as Q1.
    pose proof (same_sample delta l pre T1 U2 i1 Hd Hl C1 B2 N1 M2) as Q2.
    apply Rabs_def2b in Q1. apply Rabs_def2b in Q2. lra.
  - pose proof (same_sample delta l pre T1 U1 i1 Hd Hl C1 B1 N1 M1) as Q1.
    pose proof (same_sample delta l pre T2 U2 i2 Hd Hl C2 B2 N2 M2) as Q2.
    repeat split; try assumption. apply Rabs_le. exact Q3.
  - pose proof (same_sample delta l pre T2 U1 i2 Hd Hl C2 B1 N2 M1) as Q1.
    pose proof (same_sample delta l pre T1 U2 i1 Hd Hl C1 B2 N1 M2) as Q2.
    apply Rabs_def2b in Q1. apply Rabs_def2b in Q2. lra.
  - pose proof (same_sample delta l pre T2 U1 i2 Hd Hl C2 B1 N2 M1) as Q1.
    pose proof (same_sample delta l pre T2 U2 i2 Hd Hl C2 B2 N2 M2) as Q2.
    apply Rabs_def2b in Q1. apply Rabs_def2b in Q2. lra.
Qed.

(** The contribution of an ideal trace. *)
Lemma ideal_contrib A (w1 w2 w3 : R) (data axis : list RN) T1 T2 T3 : ideal_rf A data axis T1 T2 T3 ->
  @contrib RN w1 w2 w3 data axis (Ok (TR T1, TR T2, TR T3)) = Ok (A * (w1 + w2 + w3)).
Proof.
  intros (i1 & i2 & i3 & N1 & N2 & N3 & D1 & D2 & D3 & _).
  unfold contrib. cbn [bind].
  rewrite (proj2 (getamp_R data axis T1 A)) by (exists i1; auto). cbn [bind].
  rewrite (proj2 (getamp_R data axis T2 A)) by (exists i2; auto). cbn [bind].
  rewrite (proj2 (getamp_R data axis T3 (- A))) by (exists i3; auto). cbn [bind].
  f_equal. simpl. ring.
Qed.

Lemma contrib_le A (w1 w2 w3 : R) (data axis : list RN) T1 T2 T3 U1 U2 U3 v :
  0 < A -> 0 < w1 -> 0 < w2 -> 0 < w3 -> ideal_rf A data axis T1 T2 T3 ->
  @contrib RN w1 w2 w3 data axis (Ok (TR U1, TR U2, TR U3)) = Ok v ->
  v <= A * (w1 + w2 + w3) /\
  (v = A * (w1 + w2 + w3) ->
     @amp_near RN data axis U1 A /\ @amp_near RN data axis U2 A /\ @amp_near RN data axis U3 (- A)).
Proof.
  intros HA H1 H2 H3 HI E. apply contrib_inv in E. destruct E as (a1 & a2 & a3 & E1 & E2 & E3 & ->).
  simpl in E1, E2, E3. apply getamp_R in E1, E2, E3.
  assert (B1 : - A <= a1 <= A) by (destruct E1 as (i & _ & D); exact (ideal_bound _ _ _ _ _ _ _ _ HA HI D)).
  assert (B2 : - A <= a2 <= A) by (destruct E2 as (i & _ & D); exact (ideal_bound _ _ _ _ _ _ _ _ HA HI D)).
  assert (B3 : - A <= a3 <= A) by (destruct E3 as (i & _ & D); exact (ideal_bound _ _ _ _ _ _ _ _ HA HI D)).
  simpl. change (F RN) with R in *.
  assert (X1 : 0 <= w1 * (A - a1)) by (apply Rmult_le_pos; lra).
  assert (X2 : 0 <= w2 * (A - a2)) by (apply Rmult_le_pos; lra).
  assert (X3 : 0 <= w3 * (A + a3)) by (apply Rmult_le_pos; lra).
  split; [lra|]. intro Ev.
  assert (Z1 : w1 * (A - a1) = 0) by lra. assert (Z2 : w2 * (A - a2) = 0) by lra. assert (Z3 : w3 * (A + a3) = 0) by lra.
  apply Rmult_integral in Z1. apply Rmult_integral in Z2. apply Rmult_integral in Z3.
  assert (a1 = A) by lra. assert (a2 = A) by lra. assert (a3 = - A) by lra. subst. auto.
Qed.

(** A one-layer node that is resolved, read on an ideal trace of another node with
    the same constant shifts (s1,s2,s1+s2), scores less. *)
Lemma resolved_lt A (w1 w2 w3 : R) (data : list RN) delta l pre Vp p H0 K0 h k s1 s2 v :
  let axis := @uniform_axis RN delta l pre in
  0 < A -> 0 < w1 -> 0 < w2 -> 0 < w3 -> 0 < delta -> (1 <= l)%nat ->
  ideal_rf A data axis (s1 + t_Ps Vp p H0 K0) (s2 + t_PpPs Vp p H0 K0) (s1 + s2 + t_PsPs Vp p H0 K0) ->
  covered delta l pre (s1 + t_Ps Vp p H0 K0) -> covered delta l pre (s2 + t_PpPs Vp p H0 K0) ->
  covered delta l pre (s1 + s2 + t_PsPs Vp p H0 K0) ->
  covered delta l pre (s1 + t_Ps Vp p h k) -> covered delta l pre (s2 + t_PpPs Vp p h k) ->
  covered delta l pre (s1 + s2 + t_PsPs Vp p h k) ->
  0 <= h -> s1 <= s2 -> 3 * delta < s2 - s1 + 2 * H0 * qp Vp p ->
  resolved delta Vp p H0 K0 h k ->
  @contrib RN w1 w2 w3 data axis
    (Ok (TR (s1 + t_Ps Vp p h k), TR (s2 + t_PpPs Vp p h k), TR (s1 + s2 + t_PsPs Vp p h k))) = Ok v ->
  v < A * (w1 + w2 + w3).
Proof.
  intros axis HA H1 H2 H3 Hd Hl HI C1 C2 C3 B1 B2 B3 Hh Hs Hsep Hres E.
  destruct (contrib_le A w1 w2 w3 data axis _ _ _ _ _ _ v HA H1 H2 H3 HI E) as [Hle Heq].
  destruct (Rle_lt_or_eq_dec _ _ Hle) as [?|Ev]; [assumption|exfalso].
  destruct (Heq Ev) as (G1 & G2 & G3).
  pose proof (qp_nonneg Vp p) as Hq.
  assert (Hhq : 0 <= h * qp Vp p) by (apply Rmult_le_pos; assumption).
  destruct (hits A data delta l pre _ _ _ _ _ _ HA Hd Hl HI C1 C2 C3 B1 B2 B3) as (Q1 & Q2 & Q3);
    try assumption; unfold t_Ps, t_PpPs, t_PsPs in *; try lra.
  apply Rabs_def2b in Q1. apply Rabs_def2b in Q2. apply Rabs_def2b in Q3.
  destruct Hres as [R1|R1].
  - rewrite <- (Rabs_pos_eq (qp Vp p)) in R1 by exact Hq. rewrite <- Rabs_mult in R1.
    revert R1. apply Rle_not_lt. apply Rabs_le. lra.
  - revert R1. apply Rle_not_lt. apply Rabs_le. lra.
Qed.

(** ** The best row of a table with a strict winner *)

Lemma winner (f : RN -> RN -> res RN) (K H : list RN) rows ib (H0 K0 v0 : R) :
  is_table f K H rows -> argmax (map rS rows) = Ok ib ->
  In K0 K -> In H0 H -> f K0 H0 = Ok v0 ->
  (forall k h v, In k K -> In h H -> (h, k) <> (H0, K0) -> f k h = Ok v -> v < v0) ->
  nth_error rows ib = Some (@mkRow RN H0 K0 v0).
Proof.
  intros T A HK HH E0 Hlt.
  pose proof (best_first_of RN_laws _ _ A) as (v & Hv & Hb).
  rewrite nth_error_map in Hv. destruct (nth_error rows ib) as [r|] eqn:Er; [|discriminate].
  simpl in Hv. injection Hv as Hv.
  destruct (table_row f K H rows ib r T Er) as (i & j & _ & _ & Ek & Eh & Ef).
  apply In_nth_error in HK. destruct HK as [i0 Ei0]. apply In_nth_error in HH. destruct HH as [j0 Ej0].
  destruct (table_node f K H rows i0 j0 K0 H0 T Ei0 Ej0) as (v1 & Ev1 & Ef1).
  rewrite E0 in Ef1. injection Ef1 as <-.
  destruct Hb as [[C _]|(_ & Hmax & _)]; [discriminate|].
  assert (Hge : v0 <= rS r).
  { apply Rleb_true. specialize (Hmax (i0 * length H + j0)%nat v0). rewrite nth_error_map, Ev1 in Hmax.
    rewrite Hv. apply Hmax. reflexivity. }
  destruct r as [h k s]. cbn [rH rK rS] in *.
  assert (Eq : (h, k) = (H0, K0)).
  { destruct (Req_dec h H0) as [->|Nh]; [destruct (Req_dec k K0) as [->|Nk]|].
    - reflexivity.
    - exfalso. assert (s < v0); [|simpl in *; lra].
      apply (Hlt k H0 s); auto; [eapply nth_error_In; eassumption|eapply nth_error_In; eassumption|congruence].
    - exfalso. assert (s < v0); [|simpl in *; lra].
      apply (Hlt k h s); auto; [eapply nth_error_In; eassumption|eapply nth_error_In; eassumption|congruence]. }
  injection Eq as -> ->. rewrite E0 in Ef. injection Ef as ->. reflexivity.
Qed.

(** ** Sums over the traces *)

Lemma sum_all (c : trace RN -> res RN) (rf : stream RN) (m : R) :
  (forall tr, In tr rf -> c tr = Ok m) -> @sumM RN _ c rf = Ok (INR (length rf) * m).
Proof.
  intro H. apply sumM_R. exists (map (fun _ => m) rf). split.
  - induction rf as [|tr rf IH]; simpl; constructor; [apply H; now left|apply IH; intros; apply H; now right].
  - clear H. induction rf as [|tr rf IH]; [simpl; lra|].
    change (length (tr :: rf)) with (S (length rf)). rewrite S_INR. simpl. rewrite <- IH. ring.
Qed.

Lemma sum_le_aux (c : trace RN -> res RN) (rf : stream RN) (m : R) vs :
  (forall tr v, In tr rf -> c tr = Ok v -> v <= m) ->
  Forall2 (fun x y => c x = Ok y) rf vs -> sumR vs <= INR (length rf) * m.
Proof.
  intros H F. induction F as [|x y l vs E F IH]; [simpl; lra|].
  change (length (x :: l)) with (S (length l)). rewrite S_INR. simpl.
  assert (y <= m) by (apply (H x); [now left|exact E]).
  assert (sumR vs <= INR (length l) * m) by (apply IH; intros tr v Ht; apply H; now right). lra.
Qed.

Lemma sum_lt (c : trace RN -> res RN) (rf : stream RN) (m v : R) tr0 :
  (forall tr v, In tr rf -> c tr = Ok v -> v <= m) ->
  In tr0 rf -> (forall v, c tr0 = Ok v -> v < m) ->
  @sumM RN _ c rf = Ok v -> v < INR (length rf) * m.
Proof.
  intros Hle Hin Hlt E. apply sumM_R in E. destruct E as (vs & F & ->).
  induction F as [|x y l vs E F IH]; [destruct Hin|].
  change (length (x :: l)) with (S (length l)). rewrite S_INR. simpl.
  destruct Hin as [->|Hin].
  - assert (y < m) by (apply Hlt; exact E).
    assert (sumR vs <= INR (length l) * m) by (eapply sum_le_aux; [|exact F]; intros tr w Ht; apply Hle; now right). lra.
  - assert (y <= m) by (apply (Hle x); [now left|exact E]).
    assert (sumR vs < INR (length l) * m) by (apply IH; [intros tr w Ht; apply Hle; now right|exact Hin]). lra.
Qed.

(** ** C78 *)

(** Every trace of the stream is the ideal response of a crust (H0,K0) that is on
    the grid; the record covers the predicted arrivals of the grid; every other
    node is resolved on some trace.  Then the best model is (H0,K0). *)
Theorem C78_hk_recovers km1 stackO draw (rf : stream RN) (pre : R) (H K : list R) (Vp w1 w2 w3 : R) layer r tr0
    (H0 K0 A : R) :
  @hk RN km1 stackO draw rf pre H K (Some Vp) (Some w1) (Some w2) (Some w3) layer (Some false) = Ok r ->
  nth_error rf 0 = Some tr0 ->
  let delta := tr_delta tr0 in let l := length (tr_data tr0) in
  0 < delta -> (1 <= l)%nat -> 0 < A -> 0 < w1 -> 0 < w2 -> 0 < w3 ->
  In H0 H -> In K0 K -> (forall h, In h H -> 0 <= h) -> (forall k, In k K -> 1 <= k) ->
  (forall tr, In tr rf -> precritical Vp (km1 * tr_slow tr)) ->
  (forall tr, In tr rf -> let p := km1 * tr_slow tr in
     ideal_rf A (tr_data tr) (@uniform_axis RN delta l pre) (t_Ps Vp p H0 K0) (t_PpPs Vp p H0 K0) (t_PsPs Vp p H0 K0)) ->
  (forall tr h k, In tr rf -> In h H -> In k K -> let p := km1 * tr_slow tr in
     covered delta l pre (t_Ps Vp p h k) /\ covered delta l pre (t_PpPs Vp p h k) /\ covered delta l pre (t_PsPs Vp p h k)) ->
  (forall tr, In tr rf -> 3 * delta < 2 * H0 * qp Vp (km1 * tr_slow tr)) ->
  (forall h k, In h H -> In k K -> (h, k) <> (H0, K0) ->
     exists tr, In tr rf /\ resolved delta Vp (km1 * tr_slow tr) H0 K0 h k) ->
  nth_error (hr_stk r) (hr_best r) = Some (@mkRow RN H0 K0 (INR (length rf) * (A * (w1 + w2 + w3)))).
Proof.
  intros E E0 delta l Hd Hl HA H1 H2 H3 HH0 HK0 HH _ HP HI HC Hsep Hres.
  apply hk_inv in E. destruct E as (SR & st0 & tr0' & u & _ & _ & Et & T & Am & _).
  rewrite E0 in Et. injection Et as <-. cbn [dflt] in T.
  fold l in T. change (@taxis RN (tr_delta tr0) l pre) with (@uniform_axis RN delta l pre) in T.
  set (axis := @uniform_axis RN delta l pre) in *.
  assert (Ec : forall k h tr, In tr rf -> @hk_c RN km1 false st0 (@avgslow RN rf) axis Vp w1 w2 w3 k h tr =
     @contrib RN w1 w2 w3 (tr_data tr) axis (Ok (TR (t_Ps Vp (km1 * tr_slow tr) h k),
        TR (t_PpPs Vp (km1 * tr_slow tr) h k), TR (t_PsPs Vp (km1 * tr_slow tr) h k)))).
  { intros k h tr Htr. unfold hk_c, hk_data, hk_rp, hk_rpk.
    change (@nmul RN km1 (tr_slow tr)) with (km1 * tr_slow tr)%R.
    rewrite hk_times_R by (apply HP; exact Htr). reflexivity. }
  eapply winner; try eassumption.
  - apply sum_all. intros tr Htr. rewrite Ec by exact Htr. apply ideal_contrib. apply HI. exact Htr.
  - intros k h v Hk Hh Hne Ev. destruct (Hres h k Hh Hk Hne) as (trx & Hx & Rx).
    eapply (sum_lt _ rf _ v trx); [|exact Hx| |exact Ev].
    + intros tr w Htr Ew. rewrite Ec in Ew by exact Htr.
      exact (proj1 (contrib_le A w1 w2 w3 (tr_data tr) axis _ _ _ _ _ _ w HA H1 H2 H3 (HI tr Htr) Ew)).
    + intros w Ew. rewrite Ec in Ew by exact Hx.
      destruct (HC trx H0 K0 Hx HH0 HK0) as (C1 & C2 & C3).
      destruct (HC trx h k Hx Hh Hk) as (B1 & B2 & B3).
      pose proof (HI trx Hx) as I. cbn zeta in I.
      set (p := km1 * tr_slow trx) in *.
      assert (Z : forall x, 0 + x = x) by (intro; ring). assert (Z' : forall x, 0 + 0 + x = x) by (intro; ring).
      eapply (resolved_lt A w1 w2 w3 (tr_data trx) delta l pre Vp p H0 K0 h k 0 0); rewrite ?Z, ?Z'; try assumption.
      * apply HH; exact Hh.
      * lra.
      * specialize (Hsep trx Hx). fold p in Hsep. lra.
Qed.

Theorem C78_hkSynth_recovers draw (data : list R) (delta pre : R) l (p : R) pk (H K : list R) (Vp w1 w2 w3 : R) layer r
    (H0 K0 A : R) :
  @hkSynth RN draw data (@uniform_axis RN delta l pre) p pk H K (Some Vp) (Some w1) (Some w2) (Some w3) layer = Ok r ->
  0 < delta -> (1 <= l)%nat -> 0 < A -> 0 < w1 -> 0 < w2 -> 0 < w3 ->
  In H0 H -> In K0 K -> (forall h, In h H -> 0 <= h) -> (forall k, In k K -> 1 <= k) ->
  precritical Vp p ->
  ideal_rf A data (@uniform_axis RN delta l pre) (t_Ps Vp p H0 K0) (t_PpPs Vp p H0 K0) (t_PsPs Vp p H0 K0) ->
  (forall h k, In h H -> In k K ->
     covered delta l pre (t_Ps Vp p h k) /\ covered delta l pre (t_PpPs Vp p h k) /\ covered delta l pre (t_PsPs Vp p h k)) ->
  3 * delta < 2 * H0 * qp Vp p ->
  (forall h k, In h H -> In k K -> (h, k) <> (H0, K0) -> resolved delta Vp p H0 K0 h k) ->
  nth_error (hs_stk r) (hs_best r) = Some (@mkRow RN H0 K0 (A * (w1 + w2 + w3))).
Proof.
  intros E Hd Hl HA H1 H2 H3 HH0 HK0 HH _ HP HI HC Hsep Hres.
  apply hkSynth_inv in E. destruct E as (u & T & Am & _). cbn [dflt] in T.
  set (axis := @uniform_axis RN delta l pre) in *.
  eapply winner; try eassumption.
  - cbv beta. rewrite hkSynth_times_eq, hk_times_R by exact HP.
    unfold one. rewrite (ideal_contrib A) by exact HI. cbn [bind]. f_equal. simpl. ring.
  - intros k h v Hk Hh Hne Ev. cbv beta in Ev. rewrite hkSynth_times_eq, hk_times_R in Ev by exact HP.
    apply one_inv in Ev. destruct Ev as (y & Ey & ->).
    destruct (HC H0 K0 HH0 HK0) as (C1 & C2 & C3). destruct (HC h k Hh Hk) as (B1 & B2 & B3).
    assert (Z : forall x, 0 + x = x) by (intro; ring). assert (Z' : forall x, 0 + 0 + x = x) by (intro; ring).
    assert (y < A * (w1 + w2 + w3)); [|simpl; change (F RN) with R in *; lra].
    eapply (resolved_lt A w1 w2 w3 data delta l pre Vp p H0 K0 h k 0 0); rewrite ?Z, ?Z'; try assumption.
    + apply HH; exact Hh.
    + lra.
    + lra.
    + apply Hres; assumption.
Qed.

(** hkYu on the filtered trace: the arrivals delayed by the sediment (C22). *)
Theorem C78_hkYu_recovers draw (data : list R) (delta pre : R) l (tlag : R) tk (p : R) pk (H K : list R)
    (VM VS vs w1 w2 w3 : R) r (H0 K0 A : R) :
  @hkYu RN draw data (@uniform_axis RN delta l pre) tlag tk p pk H K (Some VM) (Some VS) (Some vs)
    (Some w1) (Some w2) (Some w3) = Ok r ->
  0 < delta -> (1 <= l)%nat -> 0 < A -> 0 < w1 -> 0 < w2 -> 0 < w3 ->
  In H0 H -> In K0 K -> (forall h, In h H -> 0 <= h) -> (forall k, In k K -> 1 <= k) ->
  precritical VM p -> 0 < vs -> vs <= VS -> 0 <= tlag ->
  let hs := tlag * vs / 2 in
  let T1 h k := t_Ps VS 0 hs (VS / vs) + t_Ps VM p h k in
  let T2 h k := t_PpPs VS 0 hs (VS / vs) + t_PpPs VM p h k in
  let T3 h k := t_PsPs VS 0 hs (VS / vs) + t_PsPs VM p h k in
  ideal_rf A data (@uniform_axis RN delta l pre) (T1 H0 K0) (T2 H0 K0) (T3 H0 K0) ->
  (forall h k, In h H -> In k K ->
     covered delta l pre (T1 h k) /\ covered delta l pre (T2 h k) /\ covered delta l pre (T3 h k)) ->
  3 * delta < 2 * H0 * qp VM p ->
  (forall h k, In h H -> In k K -> (h, k) <> (H0, K0) -> resolved delta VM p H0 K0 h k) ->
  nth_error (yr_stk r) (yr_best r) = Some (@mkRow RN H0 K0 (A * (w1 + w2 + w3))).
Proof.
  intros E Hd Hl HA H1 H2 H3 HH0 HK0 HH HK1 HP Hv HvS Ht hs T1 T2 T3 HI HC Hsep Hres.
  apply hkYu_inv in E. destruct E as (vs' & q1 & q2 & u & Ev & ESed & Eq1 & Eq2 & EP & T & Am & _).
  injection Ev as <-. cbn [dflt] in *.
  set (axis := @uniform_axis RN delta l pre) in *.
  assert (EPd : yr_Pdelay r = hs / vs - hs / VS).
  { rewrite EP. rewrite ESed in Eq1, Eq2.
    assert (D : forall a b q : R, b <> 0 -> @kdiv RN tk a b = Ok q -> q = a / b).
    { intros a b q Hb. unfold kdiv. destruct tk; simpl.
      - unfold Reqb. destruct (Req_EM_T b 0); [contradiction|]. intro X; injection X as <-; reflexivity.
      - intro X; injection X as <-; reflexivity. }
    apply D in Eq1; [|lra]. apply D in Eq2; [|lra]. rewrite Eq1, Eq2. reflexivity. }
  rewrite EPd in T.
  assert (Et : forall h k, In k K -> @hkYu_times RN VM p pk tlag (hs / vs - hs / VS) h k = Ok (TR (T1 h k), TR (T2 h k), TR (T3 h k))).
  { intros h k Hk. apply C22_hkYu_times_two_layer; try assumption; [apply HK1; exact Hk|lra]. }
  assert (Hord : t_Ps VS 0 hs (VS / vs) <= t_PpPs VS 0 hs (VS / vs)).
  { unfold t_Ps, t_PpPs. assert (0 <= hs) by (unfold hs; apply Rmult_le_pos; [apply Rmult_le_pos; lra|lra]).
    pose proof (qp_nonneg VS 0). assert (0 <= hs * qp VS 0) by (apply Rmult_le_pos; assumption). lra. }
  assert (Hsum : t_PsPs VS 0 hs (VS / vs) = t_Ps VS 0 hs (VS / vs) + t_PpPs VS 0 hs (VS / vs))
    by (unfold t_Ps, t_PpPs, t_PsPs; ring).
  eapply winner; try eassumption.
  - cbv beta. rewrite (Et H0 K0 HK0), contribO_Some. unfold one.
    rewrite (ideal_contrib A) by exact HI. cbn [bind]. f_equal. simpl. ring.
  - intros k h v Hk Hh Hne Ev. cbv beta in Ev. rewrite (Et h k Hk), contribO_Some in Ev.
    apply one_inv in Ev. destruct Ev as (y & Ey & ->).
    destruct (HC H0 K0 HH0 HK0) as (C1 & C2 & C3). destruct (HC h k Hh Hk) as (B1 & B2 & B3).
    unfold T1, T2, T3 in *. rewrite Hsum in *.
    assert (y < A * (w1 + w2 + w3)); [|simpl; change (F RN) with R in *; lra].
    eapply (resolved_lt A w1 w2 w3 data delta l pre VM p H0 K0 h k); try eassumption.
    + apply HH; exact Hh.
    + lra.
    + apply Hres; assumption.
Qed.

(** Both stages of the synthetic sequential programme: the sediment is recovered
    first, then the crust below it with the two-layer times. *)
Theorem C78_hkSeqSynth_recovers draw (dS dM : list R) (delta pre : R) l (p : R) pk
    (HS KS : list R) (VS a b c : R) (HM KM : list R) (VM d e f : R) r (H1 K1 H0 K0 A B : R) :
  @hkSeqSynth RN draw dS dM (@uniform_axis RN delta l pre) p pk HS KS (Some VS) (Some a) (Some b) (Some c)
     HM KM (Some VM) (Some d) (Some e) (Some f) = Ok r ->
  0 < delta -> (1 <= l)%nat -> 0 < A -> 0 < B -> 0 < a -> 0 < b -> 0 < c -> 0 < d -> 0 < e -> 0 < f ->
  In H1 HS -> In K1 KS -> In H0 HM -> In K0 KM ->
  (forall h, In h HS \/ In h HM -> 0 <= h) -> (forall k, In k KS \/ In k KM -> 1 <= k) ->
  precritical VS p -> precritical VM p ->
  ideal_rf A dS (@uniform_axis RN delta l pre) (t_Ps VS p H1 K1) (t_PpPs VS p H1 K1) (t_PsPs VS p H1 K1) ->
  (forall h k, In h HS -> In k KS ->
     covered delta l pre (t_Ps VS p h k) /\ covered delta l pre (t_PpPs VS p h k) /\ covered delta l pre (t_PsPs VS p h k)) ->
  3 * delta < 2 * H1 * qp VS p ->
  (forall h k, In h HS -> In k KS -> (h, k) <> (H1, K1) -> resolved delta VS p H1 K1 h k) ->
  ideal_rf B dM (@uniform_axis RN delta l pre) (t2_Ps VS H1 K1 VM p H0 K0) (t2_PpPs VS H1 K1 VM p H0 K0)
     (t2_PsPs VS H1 K1 VM p H0 K0) ->
  (forall h k, In h HM -> In k KM ->
     covered delta l pre (t2_Ps VS H1 K1 VM p h k) /\ covered delta l pre (t2_PpPs VS H1 K1 VM p h k) /\
     covered delta l pre (t2_PsPs VS H1 K1 VM p h k)) ->
  3 * delta < 2 * H0 * qp VM p ->
  (forall h k, In h HM -> In k KM -> (h, k) <> (H0, K0) -> resolved delta VM p H0 K0 h k) ->
  nth_error (ss_stkSed r) (ss_bestSed r) = Some (@mkRow RN H1 K1 (A * (a + b + c))) /\
  nth_error (ss_stkMoho r) (ss_bestMoho r) = Some (@mkRow RN H0 K0 (B * (d + e + f))).
Proof.
  intros E Hd Hl HA HB Pa Pb Pc Pd Pe Pf HH1 HK1 HH0 HK0 HH _ HPS HPM HI HC Hsep Hres HI' HC' Hsep' Hres'.
  apply hkSeqSynth_inv in E. destruct E as (u & u' & bm & rowsM & T & Am & _ & Eb & T' & Am' & _ & Em & _). cbn [dflt] in *.
  set (axis := @uniform_axis RN delta l pre) in *.
  assert (G : nth_error (ss_stkSed r) (ss_bestSed r) = Some (@mkRow RN H1 K1 (A * (a + b + c)))).
  { eapply winner; try eassumption.
    - cbv beta. rewrite hkSeqSynthSed_times_eq, hk_times_R by exact HPS.
      unfold one. rewrite (ideal_contrib A) by exact HI. cbn [bind]. f_equal. simpl. ring.
    - intros k h v Hk Hh Hne Ev. cbv beta in Ev. rewrite hkSeqSynthSed_times_eq, hk_times_R in Ev by exact HPS.
      apply one_inv in Ev. destruct Ev as (y & Ey & ->).
      destruct (HC H1 K1 HH1 HK1) as (C1 & C2 & C3). destruct (HC h k Hh Hk) as (B1 & B2 & B3).
      assert (Z : forall x, 0 + x = x) by (intro; ring). assert (Z' : forall x, 0 + 0 + x = x) by (intro; ring).
      assert (y < A * (a + b + c)); [|simpl; change (F RN) with R in *; lra].
      eapply (resolved_lt A a b c dS delta l pre VS p H1 K1 h k 0 0); rewrite ?Z, ?Z'; try assumption.
      + apply HH; left; exact Hh.
      + lra.
      + lra.
      + apply Hres; assumption. }
  split; [exact G|]. rewrite G in Eb. injection Eb as <-. cbn [rH rK] in T'.
  assert (Hh1 : 0 <= H1) by (apply HH; left; exact HH1).
  pose proof (qp_nonneg VS p) as Hq. assert (Hhq : 0 <= H1 * qp VS p) by (apply Rmult_le_pos; assumption).
  assert (Hsum : t_PsPs VS p H1 K1 = t_Ps VS p H1 K1 + t_PpPs VS p H1 K1) by (unfold t_Ps, t_PpPs, t_PsPs; ring).
  assert (Hord : t_Ps VS p H1 K1 <= t_PpPs VS p H1 K1) by (unfold t_Ps, t_PpPs; lra).
  assert (W : nth_error rowsM (ss_bestMoho r) = Some (@mkRow RN H0 K0 (B * (d + e + f)))).
  { eapply winner; try eassumption.
    - cbv beta. rewrite hkSeqSynthMoho_times_eq, contribO_Some, hkSeqMoho_times_R by assumption.
      unfold one. rewrite (ideal_contrib B) by exact HI'. cbn [bind]. f_equal. simpl. ring.
    - intros k h v Hk Hh Hne Ev. cbv beta in Ev.
      rewrite hkSeqSynthMoho_times_eq, contribO_Some, hkSeqMoho_times_R in Ev by assumption.
      apply one_inv in Ev. destruct Ev as (y & Ey & ->).
      destruct (HC' H0 K0 HH0 HK0) as (C1 & C2 & C3). destruct (HC' h k Hh Hk) as (B1 & B2 & B3).
      unfold t2_Ps, t2_PpPs, t2_PsPs in *. rewrite Hsum in *.
      assert (y < B * (d + e + f)); [|simpl; change (F RN) with R in *; lra].
      eapply (resolved_lt B d e f dM delta l pre VM p H0 K0 h k); try eassumption.
      + apply HH; right; exact Hh.
      + lra.
      + apply Hres'; assumption. }
  rewrite Em, nth_error_map, W. simpl option_map. rewrite clip_row_R. cbn [rH rK rS].
  rewrite Rmax_right; [reflexivity|]. apply Rmult_le_pos; lra.
Qed.

(** [hkSeq]: the last trace of each stream decides (C16); the axis is that of the
    first sediment trace (C18). *)
Theorem C78_hkSeq_recovers km1 stackO draw (rfS rfM : stream RN) trS trM tr0 (pre : R)
    (HS KS : list R) (VS a b c : R) (HM KM : list R) (VM d e f : R) r (H1 K1 H0 K0 A B : R) :
  @hkSeq RN km1 stackO draw (rfS ++ [trS]) (rfM ++ [trM]) pre HS KS (Some VS) (Some a) (Some b) (Some c)
     HM KM (Some VM) (Some d) (Some e) (Some f) (Some false) = Ok r ->
  nth_error (rfS ++ [trS]) 0 = Some tr0 ->
  let delta := tr_delta tr0 in let l := length (tr_data tr0) in
  let pS := km1 * tr_slow trS in let pM := km1 * tr_slow trM in
  let axis := @uniform_axis RN delta l pre in
  0 < delta -> (1 <= l)%nat -> 0 < A -> 0 < B -> 0 < a -> 0 < b -> 0 < c -> 0 < d -> 0 < e -> 0 < f ->
  In H1 HS -> In K1 KS -> In H0 HM -> In K0 KM ->
  (forall h, In h HS \/ In h HM -> 0 <= h) -> (forall k, In k KS \/ In k KM -> 1 <= k) ->
  precritical VS pS -> precritical VS pM -> precritical VM pM ->
  ideal_rf A (tr_data trS) axis (t_Ps VS pS H1 K1) (t_PpPs VS pS H1 K1) (t_PsPs VS pS H1 K1) ->
  (forall h k, In h HS -> In k KS ->
     covered delta l pre (t_Ps VS pS h k) /\ covered delta l pre (t_PpPs VS pS h k) /\ covered delta l pre (t_PsPs VS pS h k)) ->
  3 * delta < 2 * H1 * qp VS pS ->
  (forall h k, In h HS -> In k KS -> (h, k) <> (H1, K1) -> resolved delta VS pS H1 K1 h k) ->
  ideal_rf B (tr_data trM) axis (t2_Ps VS H1 K1 VM pM H0 K0) (t2_PpPs VS H1 K1 VM pM H0 K0)
     (t2_PsPs VS H1 K1 VM pM H0 K0) ->
  (forall h k, In h HM -> In k KM ->
     covered delta l pre (t2_Ps VS H1 K1 VM pM h k) /\ covered delta l pre (t2_PpPs VS H1 K1 VM pM h k) /\
     covered delta l pre (t2_PsPs VS H1 K1 VM pM h k)) ->
  3 * delta < 2 * H0 * qp VM pM ->
  (forall h k, In h HM -> In k KM -> (h, k) <> (H0, K0) -> resolved delta VM pM H0 K0 h k) ->
  nth_error (sr_stkSed r) (sr_bestSed r) = Some (@mkRow RN H1 K1 (A * (a + b + c))) /\
  nth_error (sr_stkMoho r) (sr_bestMoho r) = Some (@mkRow RN H0 K0 (B * (d + e + f))).
Proof.
  intros E E0 delta l pS pM axis Hd Hl HA HB Pa Pb Pc Pd Pe Pf HH1 HK1 HH0 HK0 HH _ HPS HPS' HPM HI HC Hsep Hres HI' HC' Hsep' Hres'.
  apply hkSeq_inv in E. cbn zeta in E.
  destruct E as (SS&stS0&SM&stM0&tr0'&u&u'&bm&rowsM&_&_&_&_&Et&T&Am&_&Eb&T'&Am'&_&Em&_).
  rewrite E0 in Et. injection Et as <-. cbn [dflt] in T, T'.
  change (@taxis RN (tr_delta tr0) (length (tr_data tr0)) pre) with axis in T, T'.
  assert (Hin : forall {X : Type} (g : trace RN -> res RN) (rs : stream RN) t (m : R) v,
     @lastv RN _ g (rs ++ [t]) = Ok v -> (forall y, g t = Ok y -> y < m) -> v < m).
  { intros X g rs t m v Ev Hy. apply lastv_last in Ev. destruct Ev as (y & Ey & ->).
    specialize (Hy y Ey). simpl. change (F RN) with R in *. lra. }
  assert (Hval : forall (g : trace RN -> res RN) (rs : stream RN) t (m v : R),
     @lastv RN _ g (rs ++ [t]) = Ok v -> g t = Ok m -> v = m).
  { intros g rs t m v Ev Eg. apply lastv_last in Ev. destruct Ev as (y & Ey & ->). rewrite Eg in Ey. injection Ey as <-. simpl. ring. }
  assert (G : nth_error (sr_stkSed r) (sr_bestSed r) = Some (@mkRow RN H1 K1 (A * (a + b + c)))).
  { eapply winner; try eassumption.
    - pose proof HK1 as HK1'. pose proof HH1 as HH1'.
      apply In_nth_error in HK1'. destruct HK1' as [i1 Ei1]. apply In_nth_error in HH1'. destruct HH1' as [j1 Ej1].
      destruct (table_node _ _ _ _ i1 j1 K1 H1 T Ei1 Ej1) as (v1 & _ & Ef1). cbv beta in Ef1. rewrite Ef1. f_equal.
      eapply Hval; [exact Ef1|]. unfold seqSed_c, hk_data, hk_rp, hk_rpk.
      change (@nmul RN km1 (tr_slow trS)) with pS.
      rewrite hkSeqSed_times_eq, hk_times_R by exact HPS. apply ideal_contrib. exact HI.
    - intros k h v Hk Hh Hne Ev. cbv beta in Ev. eapply (Hin unit); [exact Ev|]. intros y Ey.
      unfold seqSed_c, hk_data, hk_rp, hk_rpk in Ey. change (@nmul RN km1 (tr_slow trS)) with pS in Ey.
      rewrite hkSeqSed_times_eq, hk_times_R in Ey by exact HPS.
      destruct (HC H1 K1 HH1 HK1) as (C1 & C2 & C3). destruct (HC h k Hh Hk) as (B1 & B2 & B3).
      assert (Z : forall x, 0 + x = x) by (intro; ring). assert (Z' : forall x, 0 + 0 + x = x) by (intro; ring).
      eapply (resolved_lt A a b c (tr_data trS) delta l pre VS pS H1 K1 h k 0 0); rewrite ?Z, ?Z'; try assumption.
      + apply HH; left; exact Hh.
      + lra.
      + lra.
      + apply Hres; assumption. }
  split; [exact G|]. rewrite G in Eb. injection Eb as <-. cbn [rH rK] in T'.
  assert (Hh1 : 0 <= H1) by (apply HH; left; exact HH1).
  pose proof (qp_nonneg VS pM) as Hq. assert (Hhq : 0 <= H1 * qp VS pM) by (apply Rmult_le_pos; assumption).
  assert (Hsum : t_PsPs VS pM H1 K1 = t_Ps VS pM H1 K1 + t_PpPs VS pM H1 K1) by (unfold t_Ps, t_PpPs, t_PsPs; ring).
  assert (Hord : t_Ps VS pM H1 K1 <= t_PpPs VS pM H1 K1) by (unfold t_Ps, t_PpPs; lra).
  assert (W : nth_error rowsM (sr_bestMoho r) = Some (@mkRow RN H0 K0 (B * (d + e + f)))).
  { eapply winner; try eassumption.
    - pose proof HK0 as HK1'. pose proof HH0 as HH1'.
      apply In_nth_error in HK1'. destruct HK1' as [i1 Ei1]. apply In_nth_error in HH1'. destruct HH1' as [j1 Ej1].
      destruct (table_node _ _ _ _ i1 j1 K0 H0 T' Ei1 Ej1) as (v1 & _ & Ef1). cbv beta in Ef1. rewrite Ef1. f_equal.
      eapply Hval; [exact Ef1|]. unfold seqMoho_c, hk_data, hk_rp, hk_rpk.
      change (@nmul RN km1 (tr_slow trM)) with pM.
      rewrite contribO_Some, hkSeqMoho_times_R by assumption. apply ideal_contrib. exact HI'.
    - intros k h v Hk Hh Hne Ev. cbv beta in Ev. eapply (Hin unit); [exact Ev|]. intros y Ey.
      unfold seqMoho_c, hk_data, hk_rp, hk_rpk in Ey. change (@nmul RN km1 (tr_slow trM)) with pM in Ey.
      rewrite contribO_Some, hkSeqMoho_times_R in Ey by assumption.
      destruct (HC' H0 K0 HH0 HK0) as (C1 & C2 & C3). destruct (HC' h k Hh Hk) as (B1 & B2 & B3).
      unfold t2_Ps, t2_PpPs, t2_PsPs in *. rewrite Hsum in *.
      eapply (resolved_lt B d e f (tr_data trM) delta l pre VM pM H0 K0 h k); try eassumption.
      + apply HH; right; exact Hh.
      + lra.
      + apply Hres'; assumption. }
  rewrite Em, nth_error_map, W. simpl option_map. rewrite clip_row_R. cbn [rH rK rS].
  rewrite Rmax_right; [reflexivity|]. apply Rmult_le_pos; lra.
Qed.
