(** * P_Hk7: H-k stacking recovers every crust whose phases stand out where they are looked for (C123).

    C78 asks for an ideal receiver function (pulses of one size, everything else smaller).
    Here the three pulses may have any sizes, and the record may hold anything - a larger
    direct P, other phases, noise - at samples that no model of the grid reads. *)
From Coq Require Import Reals Lra Psatz.
From Verif Require Import Base Num NumPy Spec HkModel HkProofs HkReal HkFacts HkFacts2 HkFacts4 P_Hk DrawSpec P_Hk2 P_Hk3 P_Hk4 P_Hk5 P_Hk6 P_HkEx.

Local Open Scope R_scope.

(** ** Specification *)
(** Of all samples that a model (h,k) of the grid reads for a phase with predicted delay
    [T h k], the one read for (H0,K0) is the largest ([s] = 1) or the smallest ([s] = -1). *)
Definition stands_out (s : R) (data axis : list R) (T : R -> R -> R) (H K : list R) (H0 K0 : R) : Prop :=
  forall h k i i0 a a0, In h H -> In k K ->
    @nearest_first RN axis (T h k) i -> @nearest_first RN axis (T H0 K0) i0 ->
    nth_error data i = Some a -> nth_error data i0 = Some a0 -> i <> i0 -> s * a < s * a0.
(** The three phases: Ps and PpPs positive, PpSs+PsPs negative. *)
Definition clear_phases (data axis : list R) (T1 T2 T3 : R -> R -> R) (H K : list R) (H0 K0 : R) : Prop :=
  stands_out 1 data axis T1 H K H0 K0 /\ stands_out 1 data axis T2 H K H0 K0 /\ stands_out (-1) data axis T3 H K H0 K0.

(** ** One trace *)
Lemma read_le s data axis T H K H0 K0 h k a a0 : stands_out s data axis T H K H0 K0 -> In h H -> In k K ->
  @getamp RN data axis (TR (T h k)) = Ok a -> @getamp RN data axis (TR (T H0 K0)) = Ok a0 ->
  s * a <= s * a0 /\ (s * a = s * a0 -> exists i, @nearest_first RN axis (T h k) i /\ @nearest_first RN axis (T H0 K0) i).
Proof.
  intros Hs Ih Ik E E0. apply getamp_R in E as (i & N & D). apply getamp_R in E0 as (i0 & N0 & D0).
  destruct (Nat.eq_dec i i0) as [->|Ne].
  - rewrite D in D0. injection D0 as ->. split; [lra|]. intros _. exists i0. auto.
  - pose proof (Hs h k i i0 a a0 Ih Ik N N0 D D0 Ne) as B. split; [change (F RN) with R in *; lra|]. intro Q. change (F RN) with R in *. lra.
Qed.

Lemma trace_le (w1 w2 w3 : R) data axis T1 T2 T3 H K H0 K0 h k v v0 : 0 < w1 -> 0 < w2 -> 0 < w3 ->
  clear_phases data axis T1 T2 T3 H K H0 K0 -> In h H -> In k K ->
  @contrib RN w1 w2 w3 data axis (Ok (TR (T1 h k), TR (T2 h k), TR (T3 h k))) = Ok v ->
  @contrib RN w1 w2 w3 data axis (Ok (TR (T1 H0 K0), TR (T2 H0 K0), TR (T3 H0 K0))) = Ok v0 ->
  v <= v0 /\ (v = v0 -> (exists i, @nearest_first RN axis (T1 h k) i /\ @nearest_first RN axis (T1 H0 K0) i) /\
                        (exists i, @nearest_first RN axis (T2 h k) i /\ @nearest_first RN axis (T2 H0 K0) i) /\
                        (exists i, @nearest_first RN axis (T3 h k) i /\ @nearest_first RN axis (T3 H0 K0) i)).
Proof.
  intros W1 W2 W3 (S1 & S2 & S3) Ih Ik E E0.
  apply contrib_inv in E as (a1 & a2 & a3 & E1 & E2 & E3 & ->). apply contrib_inv in E0 as (b1 & b2 & b3 & F1 & F2 & F3 & ->).
  simpl in E1, E2, E3, F1, F2, F3.
  destruct (read_le 1 data axis T1 H K H0 K0 h k a1 b1 S1 Ih Ik E1 F1) as [L1 Q1].
  destruct (read_le 1 data axis T2 H K H0 K0 h k a2 b2 S2 Ih Ik E2 F2) as [L2 Q2].
  destruct (read_le (-1) data axis T3 H K H0 K0 h k a3 b3 S3 Ih Ik E3 F3) as [L3 Q3].
  simpl. change (F RN) with R in *.
  assert (X1 : 0 <= w1 * (b1 - a1)) by (apply Rmult_le_pos; lra).
  assert (X2 : 0 <= w2 * (b2 - a2)) by (apply Rmult_le_pos; lra).
  assert (X3 : 0 <= w3 * (a3 - b3)) by (apply Rmult_le_pos; lra).
  split; [lra|]. intro Ev.
  assert (Z1 : w1 * (b1 - a1) = 0) by lra. assert (Z2 : w2 * (b2 - a2) = 0) by lra. assert (Z3 : w3 * (a3 - b3) = 0) by lra.
  apply Rmult_integral in Z1. apply Rmult_integral in Z2. apply Rmult_integral in Z3.
  split; [apply Q1; lra|]. split; [apply Q2; lra|apply Q3; lra].
Qed.

(** A resolved node scores less, the arrivals being those of one layer up to constant shifts. *)
Lemma trace_lt (w1 w2 w3 : R) data (delta : R) l (pre : R) (T1 T2 T3 : R -> R -> R) s1 s2 s3 Vp p H K H0 K0 h k v v0 :
  let axis := @uniform_axis RN delta l pre in
  0 < w1 -> 0 < w2 -> 0 < w3 -> 0 < delta -> (1 <= l)%nat ->
  (forall h k, T1 h k = s1 + t_Ps Vp p h k) -> (forall h k, T2 h k = s2 + t_PpPs Vp p h k) -> (forall h k, T3 h k = s3 + t_PsPs Vp p h k) ->
  clear_phases data axis T1 T2 T3 H K H0 K0 ->
  (forall h k, In h H -> In k K -> covered delta l pre (T1 h k) /\ covered delta l pre (T2 h k) /\ covered delta l pre (T3 h k)) ->
  In H0 H -> In K0 K -> In h H -> In k K -> resolved delta Vp p H0 K0 h k ->
  @contrib RN w1 w2 w3 data axis (Ok (TR (T1 h k), TR (T2 h k), TR (T3 h k))) = Ok v ->
  @contrib RN w1 w2 w3 data axis (Ok (TR (T1 H0 K0), TR (T2 H0 K0), TR (T3 H0 K0))) = Ok v0 -> v < v0.
Proof.
  intros axis W1 W2 W3 Hd Hl G1 G2 G3 HS HC IH0 IK0 Ih Ik Hres E E0.
  destruct (trace_le w1 w2 w3 data axis T1 T2 T3 H K H0 K0 h k v v0 W1 W2 W3 HS Ih Ik E E0) as [Hle Heq].
  destruct (Rle_lt_or_eq_dec _ _ Hle) as [?|Ev]; [assumption|exfalso].
  destruct (Heq Ev) as ((i1 & M1 & N1) & (i2 & M2 & N2) & (i3 & M3 & N3)).
  destruct (HC H0 K0 IH0 IK0) as (C1 & C2 & C3). destruct (HC h k Ih Ik) as (B1 & B2 & B3).
  pose proof (same_sample delta l pre _ _ i1 Hd Hl C1 B1 N1 M1) as Q1.
  pose proof (same_sample delta l pre _ _ i2 Hd Hl C2 B2 N2 M2) as Q2.
  pose proof (same_sample delta l pre _ _ i3 Hd Hl C3 B3 N3 M3) as Q3.
  rewrite !G1 in Q1. rewrite !G2 in Q2. rewrite !G3 in Q3.
  apply Rabs_def2b in Q1. apply Rabs_def2b in Q2. apply Rabs_def2b in Q3.
  unfold t_Ps, t_PpPs, t_PsPs in *. pose proof (qp_nonneg Vp p) as Hq.
  destruct Hres as [R1|R1].
  - rewrite <- (Rabs_pos_eq (qp Vp p)) in R1 by exact Hq. rewrite <- Rabs_mult in R1.
    revert R1. apply Rle_not_lt. apply Rabs_le. lra.
  - revert R1. apply Rle_not_lt. apply Rabs_le. lra.
Qed.

(** ** Several traces *)
Lemma sums_lt (c c0 : trace RN -> res RN) (rf : stream RN) (v v0 : R) trx :
  (forall tr y y0, In tr rf -> c tr = Ok y -> c0 tr = Ok y0 -> (y <= y0)%R) ->
  In trx rf -> (forall y y0, c trx = Ok y -> c0 trx = Ok y0 -> (y < y0)%R) ->
  @sumM RN _ c rf = Ok v -> @sumM RN _ c0 rf = Ok v0 -> v < v0.
Proof.
  intros Hle Hin Hlt E E0. apply sumM_R in E as (vs & G & ->). apply sumM_R in E0 as (us & G0 & ->).
  assert (Le : forall l vs us, (forall x, In x l -> In x rf) -> Forall2 (fun x y => c x = Ok y) l vs -> Forall2 (fun x y => c0 x = Ok y) l us -> sumR vs <= sumR us).
  { clear -Hle. induction l as [|x l IH]; intros vs us Hs G G0; inversion G; inversion G0; subst; [simpl; lra|]. simpl.
    pose proof (Hle x y y0 (Hs x (or_introl eq_refl)) H1 H6). specialize (IH l' l'0 (fun z Hz => Hs z (or_intror Hz)) H3 H8). change (F RN) with R in *. lra. }
  revert vs us G G0. assert (Hs : forall x, In x rf -> In x rf) by auto. revert Hs Hin. generalize rf at 1 3 4 5 as l.
  induction l as [|x l IH]; intros Hs Hin vs us G G0; [destruct Hin|]. inversion G; inversion G0; subst. simpl.
  destruct Hin as [->|Hin].
  - pose proof (Hlt y y0 H1 H6). pose proof (Le l l' l'0 (fun z Hz => Hs z (or_intror Hz)) H3 H8). change (F RN) with R in *. lra.
  - pose proof (Hle x y y0 (Hs x (or_introl eq_refl)) H1 H6). specialize (IH (fun z Hz => Hs z (or_intror Hz)) Hin l' l'0 H3 H8). change (F RN) with R in *. lra.
Qed.

(** A table whose value at (H0,K0) exceeds all others. *)
Lemma winner_ex (f : RN -> RN -> res RN) (K H : list RN) rows ib (H0 K0 : R) :
  is_table f K H rows -> argmax (map rS rows) = Ok ib -> In K0 K -> In H0 H ->
  (forall k h v v0, In k K -> In h H -> (h, k) <> (H0, K0) -> f k h = Ok v -> f K0 H0 = Ok v0 -> (v < v0)%R) ->
  exists v0, f K0 H0 = Ok v0 /\ nth_error rows ib = Some (@mkRow RN H0 K0 v0).
Proof.
  intros T Am IK IH Hlt. pose proof IK as IK'. pose proof IH as IH'.
  apply In_nth_error in IK' as [i Ei]. apply In_nth_error in IH' as [j Ej].
  destruct (table_node f K H rows i j K0 H0 T Ei Ej) as (v0 & _ & Ef). exists v0. split; [exact Ef|].
  eapply winner; try eassumption. intros k h v Ik Ih Ne E. exact (Hlt k h v v0 Ik Ih Ne E Ef).
Qed.

(** ** C123 *)
Section One.
Context (delta : R) (l : nat) (pre : R) (Hd : 0 < delta) (Hl : (1 <= l)%nat).
Let axis := @uniform_axis RN delta l pre.

(** hk, stack=False: any number of traces, every other model resolved by one of them. *)
Theorem C123_hk km1 stackO draw (rf : stream RN) (H K : list R) (Vp w1 w2 w3 : R) layer r tr0 (H0 K0 : R) :
  @hk RN km1 stackO draw rf pre H K (Some Vp) (Some w1) (Some w2) (Some w3) layer (Some false) = Ok r ->
  nth_error rf 0 = Some tr0 -> delta = tr_delta tr0 -> l = length (tr_data tr0) ->
  0 < w1 -> 0 < w2 -> 0 < w3 -> In H0 H -> In K0 K ->
  (forall tr, In tr rf -> let p := km1 * tr_slow tr in
     precritical Vp p /\
     clear_phases (tr_data tr) axis (t_Ps Vp p) (t_PpPs Vp p) (t_PsPs Vp p) H K H0 K0 /\
     forall h k, In h H -> In k K -> covered delta l pre (t_Ps Vp p h k) /\ covered delta l pre (t_PpPs Vp p h k) /\ covered delta l pre (t_PsPs Vp p h k)) ->
  (forall h k, In h H -> In k K -> (h, k) <> (H0, K0) -> exists tr, In tr rf /\ resolved delta Vp (km1 * tr_slow tr) H0 K0 h k) ->
  exists v, nth_error (hr_stk r) (hr_best r) = Some (@mkRow RN H0 K0 v).
Proof.
  intros E E0 Ed El H1 H2 H3 HH0 HK0 HT Hres.
  apply hk_inv in E. destruct E as (SR & st0 & tr0' & u & _ & _ & Et & T & Am & _).
  rewrite E0 in Et. injection Et as <-. cbn [dflt] in T. rewrite <- El, <- Ed in T.
  change (@taxis RN delta l pre) with axis in T.
  assert (Ec : forall k h tr, In tr rf -> @hk_c RN km1 false st0 (@avgslow RN rf) axis Vp w1 w2 w3 k h tr =
     @contrib RN w1 w2 w3 (tr_data tr) axis (Ok (TR (t_Ps Vp (km1 * tr_slow tr) h k),
        TR (t_PpPs Vp (km1 * tr_slow tr) h k), TR (t_PsPs Vp (km1 * tr_slow tr) h k)))).
  { intros k h tr Htr. unfold hk_c, hk_data, hk_rp, hk_rpk.
    change (@nmul RN km1 (tr_slow tr)) with (km1 * tr_slow tr)%R.
    rewrite hk_times_R by (apply (HT tr Htr)). reflexivity. }
  destruct (winner_ex _ K H _ _ H0 K0 T Am HK0 HH0) as (v0 & _ & G); [|exists v0; exact G].
  intros k h v v0 Hk Hh Hne Ev Ev0. destruct (Hres h k Hh Hk Hne) as (trx & Hx & Rx).
  eapply (sums_lt _ _ rf v v0 trx); [|exact Hx| |exact Ev|exact Ev0].
  - intros tr y y0 Htr Ey Ey0. rewrite Ec in Ey, Ey0 by exact Htr. destruct (HT tr Htr) as (_ & S & _).
    exact (proj1 (trace_le w1 w2 w3 _ axis (t_Ps Vp _) (t_PpPs Vp _) (t_PsPs Vp _) H K H0 K0 h k y y0 H1 H2 H3 S Hh Hk Ey Ey0)).
  - intros y y0 Ey Ey0. rewrite Ec in Ey, Ey0 by exact Hx. destruct (HT trx Hx) as (_ & S & HC).
    eapply (trace_lt w1 w2 w3 _ delta l pre (t_Ps Vp _) (t_PpPs Vp _) (t_PsPs Vp _) 0 0 0 Vp _ H K H0 K0 h k); eauto; intros; ring.
Qed.

(** hk, stack=True: the stacked trace, at the average slowness. *)
Theorem C123_hk_stacked km1 stackO draw (rf : stream RN) (H K : list R) (Vp w1 w2 w3 : R) layer r tr0 st SR (H0 K0 : R) :
  @hk RN km1 stackO draw rf pre H K (Some Vp) (Some w1) (Some w2) (Some w3) layer (Some true) = Ok r ->
  stackO rf = Ok (st :: SR) ->
  nth_error rf 0 = Some tr0 -> delta = tr_delta tr0 -> l = length (tr_data tr0) ->
  0 < w1 -> 0 < w2 -> 0 < w3 -> In H0 H -> In K0 K ->
  let p := km1 * @avgslow RN rf in
  precritical Vp p ->
  clear_phases (tr_data st) axis (t_Ps Vp p) (t_PpPs Vp p) (t_PsPs Vp p) H K H0 K0 ->
  (forall h k, In h H -> In k K -> covered delta l pre (t_Ps Vp p h k) /\ covered delta l pre (t_PpPs Vp p h k) /\ covered delta l pre (t_PsPs Vp p h k)) ->
  (forall h k, In h H -> In k K -> (h, k) <> (H0, K0) -> resolved delta Vp p H0 K0 h k) ->
  exists v, nth_error (hr_stk r) (hr_best r) = Some (@mkRow RN H0 K0 v).
Proof.
  intros E ES E0 Ed El H1 H2 H3 HH0 HK0 p HP HS HC Hres.
  apply hk_inv in E. destruct E as (SR' & st0 & tr0' & u & ES' & E1 & Et & T & Am & _).
  rewrite ES in ES'. injection ES' as <-. cbn in E1. injection E1 as <-.
  rewrite E0 in Et. injection Et as <-. cbn [dflt] in T. rewrite <- El, <- Ed in T.
  change (@taxis RN delta l pre) with axis in T.
  assert (Ec : forall k h tr, @hk_c RN km1 true st (@avgslow RN rf) axis Vp w1 w2 w3 k h tr =
     @contrib RN w1 w2 w3 (tr_data st) axis (Ok (TR (t_Ps Vp p h k), TR (t_PpPs Vp p h k), TR (t_PsPs Vp p h k)))).
  { intros k h tr. unfold hk_c, hk_data, hk_rp, hk_rpk.
    change (@nmul RN km1 (@avgslow RN rf)) with p. rewrite hk_times_R by exact HP. reflexivity. }
  destruct (winner_ex _ K H _ _ H0 K0 T Am HK0 HH0) as (v0 & _ & G); [|exists v0; exact G].
  intros k h v v0 Hk Hh Hne Ev Ev0.
  eapply (sums_lt _ _ rf v v0 tr0); [|exact (nth_error_In _ _ E0)| |exact Ev|exact Ev0].
  - intros tr y y0 Htr Ey Ey0. rewrite Ec in Ey, Ey0.
    exact (proj1 (trace_le w1 w2 w3 _ axis (t_Ps Vp _) (t_PpPs Vp _) (t_PsPs Vp _) H K H0 K0 h k y y0 H1 H2 H3 HS Hh Hk Ey Ey0)).
  - intros y y0 Ey Ey0. rewrite Ec in Ey, Ey0.
    eapply (trace_lt w1 w2 w3 _ delta l pre (t_Ps Vp _) (t_PpPs Vp _) (t_PsPs Vp _) 0 0 0 Vp _ H K H0 K0 h k); eauto; intros; ring.
Qed.

Lemma one_lt (c c0 : res RN) (v v0 : R) : @one RN c = Ok v -> @one RN c0 = Ok v0 -> (forall y y0, c = Ok y -> c0 = Ok y0 -> (y < y0)%R) -> v < v0.
Proof.
  intros E E0 Hy. apply one_inv in E as (y & Ey & ->). apply one_inv in E0 as (y0 & Ey0 & ->). specialize (Hy y y0 Ey Ey0). simpl. change (F RN) with R in *. lra.
Qed.

Theorem C123_hkSynth draw (data : list R) (p : R) pk (H K : list R) (Vp w1 w2 w3 : R) layer r (H0 K0 : R) :
  @hkSynth RN draw data axis p pk H K (Some Vp) (Some w1) (Some w2) (Some w3) layer = Ok r ->
  0 < w1 -> 0 < w2 -> 0 < w3 -> In H0 H -> In K0 K -> precritical Vp p ->
  clear_phases data axis (t_Ps Vp p) (t_PpPs Vp p) (t_PsPs Vp p) H K H0 K0 ->
  (forall h k, In h H -> In k K -> covered delta l pre (t_Ps Vp p h k) /\ covered delta l pre (t_PpPs Vp p h k) /\ covered delta l pre (t_PsPs Vp p h k)) ->
  (forall h k, In h H -> In k K -> (h, k) <> (H0, K0) -> resolved delta Vp p H0 K0 h k) ->
  exists v, nth_error (hs_stk r) (hs_best r) = Some (@mkRow RN H0 K0 v).
Proof.
  intros E H1 H2 H3 HH0 HK0 HP HS HC Hres.
  apply hkSynth_inv in E. destruct E as (u & T & Am & _). cbn [dflt] in T.
  destruct (winner_ex _ K H _ _ H0 K0 T Am HK0 HH0) as (v0 & _ & G); [|exists v0; exact G].
  intros k h v v0 Hk Hh Hne Ev Ev0. cbv beta in Ev, Ev0. rewrite hkSynth_times_eq, hk_times_R in Ev, Ev0 by exact HP.
  eapply one_lt; [exact Ev|exact Ev0|]. intros y y0 Ey Ey0.
  eapply (trace_lt w1 w2 w3 _ delta l pre (t_Ps Vp _) (t_PpPs Vp _) (t_PsPs Vp _) 0 0 0 Vp _ H K H0 K0 h k); eauto; intros; ring.
Qed.

(** hkYu: the arrivals delayed by the sediment (C22). *)
Theorem C123_hkYu draw (data : list R) (tlag : R) tk (p : R) pk (H K : list R) (VM VS vs w1 w2 w3 : R) r (H0 K0 : R) :
  @hkYu RN draw data axis tlag tk p pk H K (Some VM) (Some VS) (Some vs) (Some w1) (Some w2) (Some w3) = Ok r ->
  0 < w1 -> 0 < w2 -> 0 < w3 -> In H0 H -> In K0 K -> (forall k, In k K -> 1 <= k) ->
  precritical VM p -> 0 < vs -> vs <= VS -> 0 <= tlag ->
  let hs := tlag * vs / 2 in
  let T1 h k := t_Ps VS 0 hs (VS / vs) + t_Ps VM p h k in
  let T2 h k := t_PpPs VS 0 hs (VS / vs) + t_PpPs VM p h k in
  let T3 h k := t_PsPs VS 0 hs (VS / vs) + t_PsPs VM p h k in
  clear_phases data axis T1 T2 T3 H K H0 K0 ->
  (forall h k, In h H -> In k K -> covered delta l pre (T1 h k) /\ covered delta l pre (T2 h k) /\ covered delta l pre (T3 h k)) ->
  (forall h k, In h H -> In k K -> (h, k) <> (H0, K0) -> resolved delta VM p H0 K0 h k) ->
  exists v, nth_error (yr_stk r) (yr_best r) = Some (@mkRow RN H0 K0 v).
Proof.
  intros E H1 H2 H3 HH0 HK0 HK1 HP Hv HvS Ht hs T1 T2 T3 HS HC Hres.
  apply hkYu_inv in E. destruct E as (vs' & q1 & q2 & u & Ev & ESed & Eq1 & Eq2 & EP & T & Am & _).
  injection Ev as <-. cbn [dflt] in *.
  assert (EPd : yr_Pdelay r = hs / vs - hs / VS).
  { rewrite EP. rewrite ESed in Eq1, Eq2.
    assert (D : forall a b q : R, b <> 0 -> @kdiv RN tk a b = Ok q -> q = a / b).
    { intros a b q Hb. unfold kdiv. destruct tk; simpl.
      - unfold Reqb. destruct (Req_EM_T b 0); [contradiction|]. intro X; injection X as <-; reflexivity.
      - intro X; injection X as <-; reflexivity. }
    apply D in Eq1; [|lra]. apply D in Eq2; [|lra]. rewrite Eq1, Eq2. reflexivity. }
  rewrite EPd in T.
  assert (Et : forall h k, In k K -> @hkYu_times RN VM p pk tlag (hs / vs - hs / VS) h k = Ok (TR (T1 h k), TR (T2 h k), TR (T3 h k))).
  { intros h k Hk. apply C22_hkYu_times_two_layer; try assumption; [apply HK1; exact Hk|lra]. }
  destruct (winner_ex _ K H _ _ H0 K0 T Am HK0 HH0) as (v0 & _ & G); [|exists v0; exact G].
  intros k h v v0 Hk Hh Hne Ev Ev0. cbv beta in Ev, Ev0. rewrite (Et h k Hk), contribO_Some in Ev. rewrite (Et H0 K0 HK0), contribO_Some in Ev0.
  eapply one_lt; [exact Ev|exact Ev0|]. intros y y0 Ey Ey0.
  eapply (trace_lt w1 w2 w3 data delta l pre T1 T2 T3 _ _ _ VM p H K H0 K0 h k); eauto; intros; reflexivity.
Qed.

(** Both stages of hkSeqSynth. *)
Theorem C123_hkSeqSynth draw (dS dM : list R) (p : R) pk (HS KS : list R) (VS a b c : R) (HM KM : list R) (VM d e f : R) r (H1 K1 H0 K0 : R) :
  @hkSeqSynth RN draw dS dM axis p pk HS KS (Some VS) (Some a) (Some b) (Some c) HM KM (Some VM) (Some d) (Some e) (Some f) = Ok r ->
  0 < a -> 0 < b -> 0 < c -> 0 < d -> 0 < e -> 0 < f ->
  In H1 HS -> In K1 KS -> In H0 HM -> In K0 KM -> precritical VS p -> precritical VM p ->
  clear_phases dS axis (t_Ps VS p) (t_PpPs VS p) (t_PsPs VS p) HS KS H1 K1 ->
  (forall h k, In h HS -> In k KS -> covered delta l pre (t_Ps VS p h k) /\ covered delta l pre (t_PpPs VS p h k) /\ covered delta l pre (t_PsPs VS p h k)) ->
  (forall h k, In h HS -> In k KS -> (h, k) <> (H1, K1) -> resolved delta VS p H1 K1 h k) ->
  clear_phases dM axis (t2_Ps VS H1 K1 VM p) (t2_PpPs VS H1 K1 VM p) (t2_PsPs VS H1 K1 VM p) HM KM H0 K0 ->
  (forall h k, In h HM -> In k KM -> covered delta l pre (t2_Ps VS H1 K1 VM p h k) /\ covered delta l pre (t2_PpPs VS H1 K1 VM p h k) /\
     covered delta l pre (t2_PsPs VS H1 K1 VM p h k)) ->
  (forall h k, In h HM -> In k KM -> (h, k) <> (H0, K0) -> resolved delta VM p H0 K0 h k) ->
  (exists v, nth_error (ss_stkSed r) (ss_bestSed r) = Some (@mkRow RN H1 K1 v)) /\
  (exists v, nth_error (ss_stkMoho r) (ss_bestMoho r) = Some (@mkRow RN H0 K0 v)).
Proof.
  intros E Pa Pb Pc Pd Pe Pf HH1 HK1 HH0 HK0 HPS HPM S1 C1 R1 S2 C2 R2.
  apply hkSeqSynth_inv in E. destruct E as (u & u' & bm & rowsM & T & Am & _ & Eb & T' & Am' & _ & Em & _). cbn [dflt] in *.
  assert (G : exists v, nth_error (ss_stkSed r) (ss_bestSed r) = Some (@mkRow RN H1 K1 v)).
  { destruct (winner_ex _ KS HS _ _ H1 K1 T Am HK1 HH1) as (v0 & _ & G); [|exists v0; exact G].
    intros k h v v0 Hk Hh Hne Ev Ev0. cbv beta in Ev, Ev0. rewrite hkSeqSynthSed_times_eq, hk_times_R in Ev, Ev0 by exact HPS.
    eapply one_lt; [exact Ev|exact Ev0|]. intros y y0 Ey Ey0.
    eapply (trace_lt a b c _ delta l pre (t_Ps VS _) (t_PpPs VS _) (t_PsPs VS _) 0 0 0 VS _ HS KS H1 K1 h k); eauto; intros; ring. }
  split; [exact G|]. destruct G as [v1 G]. rewrite G in Eb. injection Eb as <-. cbn [rH rK] in T'.
  destruct (winner_ex _ KM HM _ _ H0 K0 T' Am' HK0 HH0) as (v0 & _ & W).
  - intros k h v v0 Hk Hh Hne Ev Ev0. cbv beta in Ev, Ev0. rewrite hkSeqSynthMoho_times_eq, contribO_Some, hkSeqMoho_times_R in Ev, Ev0 by assumption.
    eapply one_lt; [exact Ev|exact Ev0|]. intros y y0 Ey Ey0.
    eapply (trace_lt d e f _ delta l pre (t2_Ps VS H1 K1 VM p) (t2_PpPs VS H1 K1 VM p) (t2_PsPs VS H1 K1 VM p) _ _ _ VM _ HM KM H0 K0 h k); eauto; intros; reflexivity.
  - rewrite Em, nth_error_map, W. cbn [option_map]. rewrite clip_row_R. cbn [rH rK rS]. eexists. reflexivity.
Qed.

(** hkSeq: the last trace of each stream decides (C16), on the axis of the first sediment trace (C18). *)
Theorem C123_hkSeq km1 stackO draw (rfS rfM : stream RN) trS trM tr0
    (HS KS : list R) (VS a b c : R) (HM KM : list R) (VM d e f : R) r (H1 K1 H0 K0 : R) :
  @hkSeq RN km1 stackO draw (rfS ++ [trS]) (rfM ++ [trM]) pre HS KS (Some VS) (Some a) (Some b) (Some c)
     HM KM (Some VM) (Some d) (Some e) (Some f) (Some false) = Ok r ->
  nth_error (rfS ++ [trS]) 0 = Some tr0 -> delta = tr_delta tr0 -> l = length (tr_data tr0) ->
  let pS := km1 * tr_slow trS in let pM := km1 * tr_slow trM in
  0 < a -> 0 < b -> 0 < c -> 0 < d -> 0 < e -> 0 < f ->
  In H1 HS -> In K1 KS -> In H0 HM -> In K0 KM -> precritical VS pS -> precritical VS pM -> precritical VM pM ->
  clear_phases (tr_data trS) axis (t_Ps VS pS) (t_PpPs VS pS) (t_PsPs VS pS) HS KS H1 K1 ->
  (forall h k, In h HS -> In k KS -> covered delta l pre (t_Ps VS pS h k) /\ covered delta l pre (t_PpPs VS pS h k) /\ covered delta l pre (t_PsPs VS pS h k)) ->
  (forall h k, In h HS -> In k KS -> (h, k) <> (H1, K1) -> resolved delta VS pS H1 K1 h k) ->
  clear_phases (tr_data trM) axis (t2_Ps VS H1 K1 VM pM) (t2_PpPs VS H1 K1 VM pM) (t2_PsPs VS H1 K1 VM pM) HM KM H0 K0 ->
  (forall h k, In h HM -> In k KM -> covered delta l pre (t2_Ps VS H1 K1 VM pM h k) /\ covered delta l pre (t2_PpPs VS H1 K1 VM pM h k) /\
     covered delta l pre (t2_PsPs VS H1 K1 VM pM h k)) ->
  (forall h k, In h HM -> In k KM -> (h, k) <> (H0, K0) -> resolved delta VM pM H0 K0 h k) ->
  (exists v, nth_error (sr_stkSed r) (sr_bestSed r) = Some (@mkRow RN H1 K1 v)) /\
  (exists v, nth_error (sr_stkMoho r) (sr_bestMoho r) = Some (@mkRow RN H0 K0 v)).
Proof.
  intros E E0 Ed El pS pM Pa Pb Pc Pd Pe Pf HH1 HK1 HH0 HK0 HPS HPS' HPM S1 C1 R1 S2 C2 R2.
  apply hkSeq_inv in E. cbn zeta in E.
  destruct E as (SS&stS0&SM&stM0&tr0'&u&u'&bm&rowsM&_&_&_&_&Et&T&Am&_&Eb&T'&Am'&_&Em&_).
  rewrite E0 in Et. injection Et as <-. cbn [dflt] in T, T'. rewrite <- El, <- Ed in T, T'.
  change (@taxis RN delta l pre) with axis in T, T'.
  assert (Hin : forall (g g0 : trace RN -> res RN) (rs : stream RN) t (v v0 : R),
     @lastv RN _ g (rs ++ [t]) = Ok v -> @lastv RN _ g0 (rs ++ [t]) = Ok v0 -> (forall y y0, g t = Ok y -> g0 t = Ok y0 -> (y < y0)%R) -> v < v0).
  { intros g g0 rs t v v0 Ev Ev0 Hy. apply lastv_last in Ev as (y & Ey & ->). apply lastv_last in Ev0 as (y0 & Ey0 & ->).
    specialize (Hy y y0 Ey Ey0). simpl. change (F RN) with R in *. lra. }
  assert (G : exists v, nth_error (sr_stkSed r) (sr_bestSed r) = Some (@mkRow RN H1 K1 v)).
  { destruct (winner_ex _ KS HS _ _ H1 K1 T Am HK1 HH1) as (v0 & _ & G); [|exists v0; exact G].
    intros k h v v0 Hk Hh Hne Ev Ev0. cbv beta in Ev, Ev0. eapply Hin; [exact Ev|exact Ev0|]. intros y y0 Ey Ey0.
    unfold seqSed_c, hk_data, hk_rp, hk_rpk in Ey, Ey0. change (@nmul RN km1 (tr_slow trS)) with pS in Ey, Ey0.
    rewrite hkSeqSed_times_eq, hk_times_R in Ey, Ey0 by exact HPS.
    eapply (trace_lt a b c _ delta l pre (t_Ps VS _) (t_PpPs VS _) (t_PsPs VS _) 0 0 0 VS _ HS KS H1 K1 h k); eauto; intros; ring. }
  split; [exact G|]. destruct G as [v1 G]. rewrite G in Eb. injection Eb as <-. cbn [rH rK] in T'.
  destruct (winner_ex _ KM HM _ _ H0 K0 T' Am' HK0 HH0) as (v0 & _ & W).
  - intros k h v v0 Hk Hh Hne Ev Ev0. cbv beta in Ev, Ev0. eapply Hin; [exact Ev|exact Ev0|]. intros y y0 Ey Ey0.
    unfold seqMoho_c, hk_data, hk_rp, hk_rpk in Ey, Ey0. change (@nmul RN km1 (tr_slow trM)) with pM in Ey, Ey0.
    rewrite contribO_Some, hkSeqMoho_times_R in Ey, Ey0 by assumption.
    eapply (trace_lt d e f _ delta l pre (t2_Ps VS H1 K1 VM pM) (t2_PpPs VS H1 K1 VM pM) (t2_PsPs VS H1 K1 VM pM) _ _ _ VM _ HM KM H0 K0 h k); eauto; intros; reflexivity.
  - rewrite Em, nth_error_map, W. cbn [option_map]. rewrite clip_row_R. cbn [rH rK rS]. eexists. reflexivity.
Qed.
End One.

(** ** A concrete case: a direct P six times the Ps pulse, pulses of different sizes, noise *)
Definition rfsample (i : nat) : R :=
  if Nat.eqb i 10 then 3 else if Nat.eqb i 37 then 1 / 2 else if Nat.eqb i 73 then 3 / 10 else if Nat.eqb i 100 then - (1 / 5)
  else if Nat.even i then 1 / 10 else - (1 / 10).
Definition rfdata : list R := map rfsample (seq 0 160).
Definition rftr (sta : string) : trace RN := @mkTrace RN rfdata (1 / 5) exp_ PyF (-2) 0 60 sta "Q" None.
Lemma rf_nth i a : nth_error rfdata i = Some a -> a = rfsample i.
Proof.
  intro E. assert (Hi : (i < 160)%nat).
  { replace 160%nat with (length rfdata) by (unfold rfdata; rewrite map_length, seq_length; reflexivity). apply nth_error_Some. congruence. }
  unfold rfdata in E. rewrite nth_error_map, (nth_error_nth' (seq 0 160) 0%nat) in E by (rewrite seq_length; exact Hi). rewrite seq_nth in E by exact Hi.
  injection E as <-. reflexivity.
Qed.
Lemma rf_index x i n : covered (1 / 5) 160 2 x -> @nearest_first RN (@uniform_axis RN (1 / 5) 160 2) x i -> i = n -> Rabs (1 / 5 * INR n - 2 - x) <= 1 / 10.
Proof.
  intros C N <-. pose proof (near_half (1 / 5) 160 2 x i ltac:(lra) ltac:(lia) C N) as B. apply Rabs_def2b in B. apply Rabs_le. lra.
Qed.
Lemma rf_clear : clear_phases rfdata (@uniform_axis RN (1 / 5) 160 2) (t_Ps exVp exp_) (t_PpPs exVp exp_) (t_PsPs exVp exp_) exH exK 40 (17 / 10).
Proof.
  destruct ex_times as (X1 & X2 & X3).
  assert (U : forall T i0 n, T exVp exp_ 40 (17 / 10) = 1 / 5 * INR n - 2 -> (n < 160)%nat ->
     @nearest_first RN (@uniform_axis RN (1 / 5) 160 2) (T exVp exp_ 40 (17 / 10)) i0 -> i0 = n).
  { intros T i0 n Et Hn N. apply (nearest_first_unique RN_laws _ _ i0 n N). apply ex_nearest; [exact Hn|exact Et]. }
  assert (N10 : INR 10 = 10) by (rewrite INR_IZR_INZ; reflexivity). assert (N37 : INR 37 = 37) by (rewrite INR_IZR_INZ; reflexivity).
  split; [|split]; intros h k i i0 a a0 Ih Ik N N0 Ea Ea0 Ne; apply rf_nth in Ea; apply rf_nth in Ea0;
    destruct (ex_covered h k Ih Ik) as (C1 & C2 & C3).
  - apply (U t_Ps i0 37%nat) in N0; [|rewrite X1, INR_IZR_INZ; simpl; lra|lia]. subst. change (rfsample 37) with (1 / 2).
    assert (i <> 10%nat).
    { intro Q. apply (rf_index _ _ 10%nat C1 N) in Q. rewrite N10 in Q. apply Rabs_def2b in Q.
      assert (1 < t_Ps exVp exp_ h k); [|lra]. unfold t_Ps. rewrite ex_qp.
      destruct Ih as [<-|[<-|[<-|[]]]]; destruct Ik as [<-|[<-|[<-|[]]]]; rewrite ?ex_qs1, ?ex_qs2, ?ex_qs3; lra. }
    unfold rfsample. rewrite (proj2 (Nat.eqb_neq i 10)), (proj2 (Nat.eqb_neq i 37)) by assumption.
    destruct (Nat.eqb i 73), (Nat.eqb i 100), (Nat.even i); lra.
  - apply (U t_PpPs i0 73%nat) in N0; [|rewrite X2, INR_IZR_INZ; simpl; lra|lia]. subst. change (rfsample 73) with (3 / 10).
    assert (B : 6 < t_PpPs exVp exp_ h k).
    { unfold t_PpPs. rewrite ex_qp. destruct Ih as [<-|[<-|[<-|[]]]]; destruct Ik as [<-|[<-|[<-|[]]]]; rewrite ?ex_qs1, ?ex_qs2, ?ex_qs3; lra. }
    assert (i <> 10%nat) by (intro Q; apply (rf_index _ _ 10%nat C2 N) in Q; rewrite N10 in Q; apply Rabs_def2b in Q; lra).
    assert (i <> 37%nat) by (intro Q; apply (rf_index _ _ 37%nat C2 N) in Q; rewrite N37 in Q; apply Rabs_def2b in Q; lra).
    unfold rfsample. rewrite (proj2 (Nat.eqb_neq i 10)), (proj2 (Nat.eqb_neq i 37)), (proj2 (Nat.eqb_neq i 73)) by assumption.
    destruct (Nat.eqb i 100), (Nat.even i); lra.
  - apply (U t_PsPs i0 100%nat) in N0; [|rewrite X3, INR_IZR_INZ; simpl; lra|lia]. subst. change (rfsample 100) with (- (1 / 5)).
    unfold rfsample. rewrite (proj2 (Nat.eqb_neq i 100)) by assumption.
    destruct (Nat.eqb i 10), (Nat.eqb i 37), (Nat.eqb i 73), (Nat.even i); lra.
Qed.

(** Not ideal in the sense of C78, whatever the amplitude: the largest sample is the direct P. *)
Theorem C123_not_ideal A : ~ ideal_rf A rfdata (@uniform_axis RN (1 / 5) 160 2)
   (t_Ps exVp exp_ 40 (17 / 10)) (t_PpPs exVp exp_ 40 (17 / 10)) (t_PsPs exVp exp_ 40 (17 / 10)).
Proof.
  intros (i1 & i2 & i3 & _ & _ & _ & D1 & D2 & D3 & Hs). apply rf_nth in D1. apply rf_nth in D2. apply rf_nth in D3.
  assert (B : forall i, - (1 / 5) <= rfsample i).
  { intro i. unfold rfsample. destruct (Nat.eqb i 10), (Nat.eqb i 37), (Nat.eqb i 73), (Nat.eqb i 100), (Nat.even i); lra. }
  pose proof (B i1). pose proof (B i3).
  destruct (Nat.eq_dec 10 i1) as [<-|N1]; [change (rfsample 10) with 3 in D1; lra|].
  destruct (Nat.eq_dec 10 i2) as [<-|N2]; [change (rfsample 10) with 3 in D2; lra|].
  destruct (Nat.eq_dec 10 i3) as [<-|N3]; [change (rfsample 10) with 3 in D3; lra|].
  specialize (Hs 10%nat 3 eq_refl N1 N2 N3). rewrite Rabs_right in Hs by lra. lra.
Qed.

Theorem C123_example : exists r,
  @hk RN 1 exstack exdraw [rftr "A"; rftr "B"] 2 exH exK (Some exVp) (Some (6 / 10)) (Some (3 / 10)) (Some (1 / 10)) None (Some false) = Ok r /\
  exists v, nth_error (hr_stk r) (hr_best r) = Some (@mkRow RN 40 (17 / 10) v).
Proof.
  assert (Hp : forall tr, In tr [rftr "A"; rftr "B"] -> 1 * tr_slow tr = exp_) by (intros tr [<-|[<-|[]]]; simpl; ring).
  assert (HD : forall tr, In tr [rftr "A"; rftr "B"] -> tr_data tr = rfdata) by (intros tr [<-|[<-|[]]]; reflexivity).
  assert (Len : length rfdata = 160%nat) by (unfold rfdata; rewrite map_length, seq_length; reflexivity).
  match goal with |- exists r, ?c = Ok r /\ _ => assert (exists r, c = Ok r) as [r E] end.
  { eapply (drawn_R exdraw exK exH _ hr_stk ex_draws). eapply (C77_hk_completes RN 1 exstack exdraw [rftr "A"; rftr "B"] 2 exH exK (Some exVp) (Some (6 / 10)) (Some (3 / 10)) (Some (1 / 10)) None (Some false)
     (rftr "A") [rftr "B"%string] (rftr "A")); try reflexivity; try discriminate.
    - change (1 <= length rfdata)%nat. rewrite Len. lia.
    - intros _ tr Htr. rewrite (HD tr Htr). apply le_n.
    - cbn [dflt]. simpl. unfold Reqb. destruct (Req_EM_T exVp 0) as [C|]; [unfold exVp in C; lra|reflexivity]. }
  exists r. split; [exact E|].
  eapply (C123_hk (1 / 5) 160 2 ltac:(lra) ltac:(lia) 1 exstack exdraw [rftr "A"; rftr "B"] exH exK exVp (6 / 10) (3 / 10) (1 / 10) None r (rftr "A") 40 (17 / 10) E eq_refl);
    [reflexivity|symmetry; exact Len|lra|lra|lra|right; left; reflexivity|right; left; reflexivity| |].
  - intros tr Htr. cbv zeta. rewrite (Hp tr Htr), (HD tr Htr). split; [apply ex_precritical|]. split; [apply rf_clear|]. intros h k Hh Hk. apply ex_covered; assumption.
  - intros h k Hh Hk Hne. exists (rftr "A"). split; [now left|]. rewrite (Hp (rftr "A")) by now left. apply ex_resolved; assumption.
Qed.
