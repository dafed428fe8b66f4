(** * P_Missing: samples that are not numbers, and grids that cannot be drawn (C121, C122).

    Every H-k program draws its table with [tricontourf] before it returns (hkZhu.py:173,
    hkSeqYeck.py:201, 265, hkYu.py:171, SynthAnalysis.py:170, 323, 381).  matplotlib refuses a
    table with a value that is not finite and a grid whose points lie on one line. *)
From Coq Require Import Reals Lra Floats.SpecFloat.
From Verif Require Import Base Num NumPy Spec HkModel HkProofs HkReal HkFacts HkFacts2 HkFacts4 P_Hk DrawSpec P_Hk2 P_Hk3 P_Hk4 P_Hk5 Float64.

(** ** What is assumed of pyplot *)
(** It accepts only tables of finite values ... *)
Definition refuses_nonfinite (draw : list (row B64) -> res unit) : Prop :=
  forall tb u, draw tb = Ok u -> forall r, In r tb -> @isfinite B64 (rS r) = true.
(** ... and only grids with two different depths and two different ratios. *)
Definition refuses_lines {N : Num} (draw : list (row N) -> res unit) : Prop :=
  forall tb u, draw tb = Ok u ->
    (exists r r', In r tb /\ In r' tb /\ neqb (rH r) (rH r') = false) /\
    (exists r r', In r tb /\ In r' tb /\ neqb (rK r) (rK r') = false).

Lemma isfinite_finite (x : spec_float) : @isfinite B64 x = true -> finite x.
Proof. destruct x as [[|]|[|]| |[|] m e]; cbn; auto; discriminate. Qed.
Lemma pyplot_refuses : refuses_nonfinite (@pyplot B64).
Proof.
  intros tb u E r Ir. unfold pyplot in E. destruct (drawable tb) eqn:D; [|discriminate]. unfold drawable in D.
  apply andb_prop in D as [D _]. apply andb_prop in D as [D _]. rewrite forallb_forall in D. specialize (D r Ir).
  apply andb_prop in D as [_ D]. exact D.
Qed.
Lemma varied_inv {N : Num} (f : row N -> N) tb : varied f tb = true -> exists r r', In r tb /\ In r' tb /\ neqb (f r) (f r') = false.
Proof.
  unfold varied. intro E. apply existsb_exists in E as (r & I & E). apply existsb_exists in E as (r' & I' & E).
  exists r, r'. split; [exact I|]. split; [exact I'|]. destruct (neqb (f r) (f r')); [discriminate|reflexivity].
Qed.
Lemma pyplot_refuses_lines {N : Num} : refuses_lines (@pyplot N).
Proof.
  intros tb u E. unfold pyplot in E. destruct (drawable tb) eqn:D; [|discriminate]. unfold drawable in D.
  apply andb_prop in D as [D D2]. apply andb_prop in D as [_ D1]. split; apply varied_inv; assumption.
Qed.

(** ** Specification *)
(** NaN: numpy's missing value. *)
Definition missing (x : spec_float) : Prop := x = S754_nan.
(** The three phases are read, each at the sample its delay points at, and every sample
    read satisfies [good]. *)
Definition reads (good : spec_float -> Prop) (data axis : list B64) (ts : res (tval B64 * tval B64 * tval B64)) : Prop :=
  exists t1 t2 t3, ts = Ok (t1, t2, t3) /\
    forall t, t = t1 \/ t = t2 \/ t = t3 -> exists a, getamp data axis t = Ok a /\ good a.
(** What [getamp] reads at a (real) delay: the nearest sample, the first of two. *)
Lemma reads_nearest good data axis x1 x2 x3 x i :
  reads good data axis (Ok (TR x1, TR x2, TR x3)) -> x = x1 \/ x = x2 \/ x = x3 -> nearest_first axis x i ->
  exists a, nth_error data i = Some a /\ good a.
Proof.
  intros (t1 & t2 & t3 & E & G) Hx Hn. injection E as <- <- <-.
  destruct (G (TR x)) as (a & Ea & Ga); [destruct Hx as [->|[->| ->]]; auto|].
  assert (An : axis <> []). { destruct Hn as (ti & Hi & _). destruct axis; [destruct i; discriminate|discriminate]. }
  destruct (getamp_nearest B64_laws data axis x An) as (j & _ & Hj & Eg).
  { intros tj Ij. apply In_nth_error in Ij as [j Ej]. destruct Hn as (ti & _ & Ha & _). specialize (Ha j tj Ej).
    destruct (nisnan (dist tj x)) eqn:Nn; [|reflexivity]. rewrite (leb_nan_r _ B64_laws _ _ Nn) in Ha. discriminate. }
  assert (j = i) by exact (nearest_first_unique B64_laws axis x j i Hj Hn). subst j.
  rewrite Ea in Eg. symmetry in Eg. apply getitem_Ok in Eg. exists a. auto.
Qed.

(** ** Values built from finite (not missing) values only *)
Record spreads (P : spec_float -> Prop) : Prop := {
  sp_add : forall x y, P (sf_add x y) -> P x /\ P y;
  sp_sub : forall x y, P (sf_sub x y) -> P x /\ P y;
  sp_mul : forall x y, P (sf_mul x y) -> P x /\ P y }.
Lemma finite_spreads : spreads finite.
Proof. split; [exact add_finite_inv|exact sub_finite_inv|exact mul_finite_inv]. Qed.
Lemma missing_spreads : spreads (fun x => ~ missing x).
Proof.
  unfold missing. split; intros x y E; split; intro Q; subst; apply E; try reflexivity;
    destruct x as [s|s| |s m e]; reflexivity.
Qed.

Section Spread.
Context (P : spec_float -> Prop) (SP : spreads P).
Lemma contrib_spread (w1 w2 w3 : B64) data axis ts v :
  @contrib B64 w1 w2 w3 data axis ts = Ok v -> P v -> (P w1 /\ P w2 /\ P w3) /\ reads P data axis ts.
Proof.
  intros E Pv. destruct ts as [[[t1 t2] t3]|e]; [|discriminate]. apply contrib_inv in E as (a1 & a2 & a3 & E1 & E2 & E3 & ->). cbn [fst snd] in *.
  apply (sp_sub _ SP) in Pv as [Pv P3]. apply (sp_add _ SP) in Pv as [P1 P2].
  apply (sp_mul _ SP) in P1 as [W1 P1]. apply (sp_mul _ SP) in P2 as [W2 P2]. apply (sp_mul _ SP) in P3 as [W3 P3].
  split; [auto|]. exists t1, t2, t3. split; [reflexivity|]. intros t [->|[->| ->]]; eauto.
Qed.
Lemma one_spread c v : @one B64 c = Ok v -> P v -> exists y, c = Ok y /\ P y.
Proof. unfold one. destruct c as [y|]; [|discriminate]. cbn [bind]. intros E Pv. injection E as <-. apply (sp_add _ SP) in Pv as [Py _]. eauto. Qed.
Lemma sum_spread {A} (c : A -> res B64) l v : sumM c l = Ok v -> P v -> forall x, In x l -> exists y, c x = Ok y /\ P y.
Proof.
  unfold sumM. generalize (@nofZ B64 0). intros s E Pv x Ix. apply sumM_inv in E as (vs & FF & ->).
  assert (G : forall vs s, P (fold_left (fun s y => @nadd B64 y s) vs s) -> P s /\ forall y, In y vs -> P y).
  { clear -SP. induction vs as [|y vs IH]; intros s Q; [split; [exact Q|intros y []]|]. cbn [fold_left] in Q. apply IH in Q as [Q1 Q2].
    apply (sp_add _ SP) in Q1 as [Q1 Qs]. split; [exact Qs|]. intros z [<-|I]; auto. }
  apply G in Pv as [_ Pv]. clear G. induction FF as [|a y l vs Ea FF IH]; [destruct Ix|]. destruct Ix as [->|Ix].
  - exists y. split; [exact Ea|]. apply Pv. left. reflexivity.
  - apply IH; [|exact Ix]. intros z Iz. apply Pv. right. exact Iz.
Qed.
Lemma last_spread {A} (c : A -> res B64) l x v : lastv c (l ++ [x]) = Ok v -> P v -> exists y, c x = Ok y /\ P y.
Proof. intros E Pv. apply lastv_last in E as (y & Ey & ->). apply (sp_add _ SP) in Pv as [Py _]. eauto. Qed.
Lemma node_spread (f : B64 -> B64 -> res B64) K H rows k h :
  is_table f K H rows -> (forall r, In r rows -> P (rS r)) -> In k K -> In h H -> exists v, f k h = Ok v /\ P v.
Proof.
  intros T Pr Ik Ih. apply In_nth_error in Ik as [i Ei]. apply In_nth_error in Ih as [j Ej].
  destruct (table_node f K H rows i j k h T Ei Ej) as (v & Ev & Ef). exists v. split; [exact Ef|]. apply nth_error_In in Ev. exact (Pr _ Ev).
Qed.
End Spread.
Lemma drawn_finite draw tb u : refuses_nonfinite draw -> draw tb = Ok u -> forall r, In r tb -> finite (rS r).
Proof. intros R D r Ir. apply isfinite_finite. exact (R tb u D r Ir). Qed.
Lemma clipped_drawn draw (tb : list (row B64)) u : refuses_nonfinite draw -> draw (map clip_row tb) = Ok u -> forall r, In r tb -> ~ missing (rS r).
Proof.
  intros R D r Ir Q. pose proof (drawn_finite _ _ _ R D (clip_row r) (in_map _ _ _ Ir)) as G. unfold clip_row in G. rewrite Q in G. cbn in G. rewrite Q in G. exact G.
Qed.

(** ** C121: a returned result used no sample that is not a number *)

(** hk, stack=False: at every node, every trace is read at finite samples only; the weights are finite. *)
Theorem C121_hk km1 stackO draw (rf : stream B64) pre H K Vp w1 w2 w3 layer r :
  refuses_nonfinite draw -> @hk B64 km1 stackO draw rf pre H K Vp w1 w2 w3 layer (Some false) = Ok r ->
  forall tr k h, In tr rf -> In k K -> In h H ->
    (finite (dflt w1 (nlit 6 10)) /\ finite (dflt w2 (nlit 3 10)) /\ finite (dflt w3 (nlit 1 10))) /\
    reads finite (tr_data tr) (hr_time r) (hk_times (dflt Vp (nlit 65 10)) (nmul km1 (tr_slow tr)) (tr_slowk tr) h k).
Proof.
  intros R E tr k h It Ik Ih. apply hk_inv in E as (SR & st0 & tr0 & u & _ & _ & _ & T & _ & D & Er).
  destruct (node_spread finite _ K H _ k h T (drawn_finite _ _ _ R D) Ik Ih) as (v & Ev & Pv).
  destruct (sum_spread finite finite_spreads _ _ _ Ev Pv tr It) as (y & Ey & Py).
  apply (contrib_spread finite finite_spreads _ _ _ _ _ _ _ Ey) in Py. rewrite Er. cbn [hr_time]. exact Py.
Qed.
(** hk, stack=True: the same of the stacked trace. *)
Theorem C121_hk_stacked km1 stackO draw (rf : stream B64) pre H K Vp w1 w2 w3 layer r st SR :
  refuses_nonfinite draw -> @hk B64 km1 stackO draw rf pre H K Vp w1 w2 w3 layer (Some true) = Ok r ->
  stackO rf = Ok (st :: SR) ->
  forall k h, In k K -> In h H ->
    reads finite (tr_data st) (hr_time r) (hk_times (dflt Vp (nlit 65 10)) (nmul km1 (avgslow rf)) NpF h k).
Proof.
  intros R E ES k h Ik Ih. apply hk_inv in E as (SR0 & st0 & tr0 & u & ES0 & E1 & E0 & T & _ & D & Er).
  rewrite ES in ES0. injection ES0 as <-. cbn in E1. injection E1 as ->.
  destruct (node_spread finite _ K H _ k h T (drawn_finite _ _ _ R D) Ik Ih) as (v & Ev & Pv).
  destruct (sum_spread finite finite_spreads _ _ _ Ev Pv tr0 (nth_error_In _ _ E0)) as (y & Ey & Py).
  apply (contrib_spread finite finite_spreads _ _ _ _ _ _ _ Ey) in Py. rewrite Er. cbn [hr_time]. exact (proj2 Py).
Qed.
Theorem C121_hkSynth draw (data time : list B64) p pk H K Vp w1 w2 w3 layer r :
  refuses_nonfinite draw -> @hkSynth B64 draw data time p pk H K Vp w1 w2 w3 layer = Ok r ->
  forall k h, In k K -> In h H -> reads finite data time (hk_times (dflt Vp (nlit 65 10)) p pk h k).
Proof.
  intros R E k h Ik Ih. apply hkSynth_inv in E as (u & T & _ & D & Er).
  destruct (node_spread finite _ K H _ k h T (drawn_finite _ _ _ R D) Ik Ih) as (v & Ev & Pv).
  destruct (one_spread finite finite_spreads _ _ Ev Pv) as (y & Ey & Py).
  apply (contrib_spread finite finite_spreads _ _ _ _ _ _ _ Ey) in Py. rewrite hkSynth_times_eq in Py. exact (proj2 Py).
Qed.
Theorem C121_hkYu draw (flt time : list B64) tlag tk p pk H K VM VS vs w1 w2 w3 r :
  refuses_nonfinite draw -> @hkYu B64 draw flt time tlag tk p pk H K VM VS vs w1 w2 w3 = Ok r ->
  forall k h, In k K -> In h H -> reads finite flt time (hkYu_times (dflt VM (nlit 65 10)) p pk tlag (yr_Pdelay r) h k).
Proof.
  intros R E k h Ik Ih. apply hkYu_inv in E as (vs' & x & y & u & _ & _ & _ & _ & _ & T & _ & D & Er).
  destruct (node_spread finite _ K H _ k h T (drawn_finite _ _ _ R D) Ik Ih) as (v & Ev & Pv).
  destruct (one_spread finite finite_spreads _ _ Ev Pv) as (z & Ez & Pz). apply contribO_inv in Ez as (x1 & x2 & x3 & ts & -> & -> & -> & Ets & Ez).
  apply (contrib_spread finite finite_spreads _ _ _ _ _ _ _ Ez) in Pz. rewrite Ets. exact (proj2 Pz).
Qed.
(** hkSeq, stack=False: the last trace of each stream (C16).  A NaN is refused in both stages.
    In the Moho stage the table that is drawn is the clipped one, so only NaN is refused. *)
Theorem C121_hkSeq km1 stackO draw (rfS rfM : stream B64) trS trM pre HS KS VS a b c HM KM VM d e f r :
  refuses_nonfinite draw ->
  @hkSeq B64 km1 stackO draw (rfS ++ [trS]) (rfM ++ [trM]) pre HS KS VS a b c HM KM VM d e f (Some false) = Ok r ->
  (forall k h, In k KS -> In h HS ->
     reads finite (tr_data trS) (sr_time r) (hk_times (dflt VS (nlit 30 10)) (nmul km1 (tr_slow trS)) (tr_slowk trS) h k)) /\
  exists best, nth_error (sr_stkSed r) (sr_bestSed r) = Some best /\
    forall k h, In k KM -> In h HM ->
      reads (fun x => ~ missing x) (tr_data trM) (sr_time r)
        (hkSeqMoho_times (rH best) (rK best) (dflt VS (nlit 30 10)) VM (nmul km1 (tr_slow trM)) (tr_slowk trM) h k).
Proof.
  intros R E. apply hkSeq_inv in E. cbn zeta in E.
  destruct E as (SS & stS & SM & stM & tr0 & u & u' & bm & rowsM & _ & _ & _ & _ & _ & T & _ & D & Bm & T' & _ & D' & _ & Er).
  assert (Et : sr_time r = taxis (tr_delta tr0) (length (tr_data tr0)) pre) by (rewrite Er; reflexivity). rewrite Et. clear Er Et. split.
  - intros k h Ik Ih. destruct (node_spread finite _ KS HS _ k h T (drawn_finite _ _ _ R D) Ik Ih) as (v & Ev & Pv).
    destruct (last_spread finite finite_spreads _ _ _ _ Ev Pv) as (y & Ey & Py). unfold seqSed_c in Ey. rewrite hkSeqSed_times_eq in Ey.
    exact (proj2 (contrib_spread finite finite_spreads _ _ _ _ _ _ _ Ey Py)).
  - exists bm. split; [exact Bm|]. intros k h Ik Ih.
    destruct (node_spread (fun x => ~ missing x) _ KM HM _ k h T' (clipped_drawn _ _ _ R D') Ik Ih) as (v & Ev & Pv).
    destruct (last_spread _ missing_spreads _ _ _ _ Ev Pv) as (y & Ey & Py). unfold seqMoho_c in Ey.
    apply contribO_inv in Ey as (x1 & x2 & x3 & ts & _ & _ & _ & Ets & Ey).
    pose proof (proj2 (contrib_spread _ missing_spreads _ _ _ _ _ _ _ Ey Py)) as G. rewrite <- Ets in G. exact G.
Qed.
Theorem C121_hkSeqSynth draw (dS dM time : list B64) p pk HS KS VS a b c HM KM VM d e f r :
  refuses_nonfinite draw ->
  @hkSeqSynth B64 draw dS dM time p pk HS KS VS a b c HM KM VM d e f = Ok r ->
  (forall k h, In k KS -> In h HS -> reads finite dS time (hk_times (dflt VS (nlit 30 10)) p pk h k)) /\
  exists best, nth_error (ss_stkSed r) (ss_bestSed r) = Some best /\
    forall k h, In k KM -> In h HM ->
      reads (fun x => ~ missing x) dM time (hkSeqMoho_times (rH best) (rK best) (dflt VS (nlit 30 10)) VM p pk h k).
Proof.
  intros R E. apply hkSeqSynth_inv in E as (u & u' & bm & rowsM & T & _ & D & Bm & T' & _ & D' & _ & Er). clear Er. split.
  - intros k h Ik Ih. destruct (node_spread finite _ KS HS _ k h T (drawn_finite _ _ _ R D) Ik Ih) as (v & Ev & Pv).
    destruct (one_spread finite finite_spreads _ _ Ev Pv) as (y & Ey & Py). rewrite hkSeqSynthSed_times_eq in Ey.
    exact (proj2 (contrib_spread finite finite_spreads _ _ _ _ _ _ _ Ey Py)).
  - exists bm. split; [exact Bm|]. intros k h Ik Ih.
    destruct (node_spread (fun x => ~ missing x) _ KM HM _ k h T' (clipped_drawn _ _ _ R D') Ik Ih) as (v & Ev & Pv).
    destruct (one_spread _ missing_spreads _ _ Ev Pv) as (y & Ey & Py). apply contribO_inv in Ey as (x1 & x2 & x3 & ts & _ & _ & _ & Ets & Ey).
    rewrite hkSeqSynthMoho_times_eq in Ets.
    pose proof (proj2 (contrib_spread _ missing_spreads _ _ _ _ _ _ _ Ey Py)) as G. rewrite <- Ets in G. exact G.
Qed.

(** A dead channel (no finite sample) makes hk raise. *)
Corollary C121_hk_dead_trace km1 stackO draw (rf : stream B64) pre H K Vp w1 w2 w3 layer tr :
  refuses_nonfinite draw -> H <> [] -> K <> [] -> In tr rf -> (forall a, In a (tr_data tr) -> ~ finite a) ->
  exists e, @hk B64 km1 stackO draw rf pre H K Vp w1 w2 w3 layer (Some false) = Err e.
Proof.
  intros R HH HK It Dd. destruct (@hk B64 km1 stackO draw rf pre H K Vp w1 w2 w3 layer (Some false)) as [r|e] eqn:E; [|eauto]. exfalso.
  destruct K as [|k K]; [congruence|]. destruct H as [|h H]; [congruence|].
  destruct (C121_hk _ _ _ _ _ _ _ _ _ _ _ _ _ R E tr k h It (or_introl eq_refl) (or_introl eq_refl)) as (_ & t1 & t2 & t3 & _ & G).
  destruct (G t1 (or_introl eq_refl)) as (a & Ea & Fa). unfold getamp in Ea.
  destruct (argmin (map (fun ti => tdist ti t1) (hr_time r))) as [i|]; [|discriminate]. cbn [bind] in Ea. apply getitem_Ok in Ea.
  exact (Dd a (nth_error_In _ _ Ea) Fa).
Qed.

(** ** C122: a returned search compared at least two depths and two ratios *)
Section Lines.
Context {N : Num} (draw : list (row N) -> res unit) (RL : refuses_lines draw).
Definition two_values (l : list N) : Prop := exists x y, In x l /\ In y l /\ neqb x y = false.
Lemma lines_grid K H tb u : grid_table K H tb -> draw tb = Ok u -> two_values H /\ two_values K.
Proof.
  intros [Ln G] D. destruct (RL tb u D) as [(r & r' & I & I' & E) (q & q' & J & J' & E')].
  assert (Q : forall r, In r tb -> In (rH r) H /\ In (rK r) K).
  { intros z Iz. apply In_nth_error in Iz as [n En]. assert (Hn : n < length K * length H) by (rewrite <- Ln; apply nth_error_Some; congruence).
    assert (HH : length H <> 0) by (intro Z; rewrite Z in Hn; lia).
    assert (Hi : n / length H < length K) by (apply Nat.div_lt_upper_bound; [exact HH|lia]).
    assert (Hj : n mod length H < length H) by (apply Nat.mod_upper_bound; exact HH).
    destruct (nth_error K (n / length H)) as [k|] eqn:Ek; [|apply nth_error_None in Ek; lia].
    destruct (nth_error H (n mod length H)) as [h|] eqn:Eh; [|apply nth_error_None in Eh; lia].
    destruct (G _ _ k h Ek Eh) as [s Es]. rewrite Nat.mul_comm, <- Nat.div_mod in Es by exact HH. rewrite En in Es. injection Es as ->. cbn.
    split; eapply nth_error_In; eassumption. }
  split.
  - exists (rH r), (rH r'). split; [apply Q; exact I|]. split; [apply Q; exact I'|exact E].
  - exists (rK q), (rK q'). split; [apply Q; exact J|]. split; [apply Q; exact J'|exact E'].
Qed.
Theorem C122_hk km1 stackO (rf : stream N) pre H K Vp w1 w2 w3 layer stack r :
  hk km1 stackO draw rf pre H K Vp w1 w2 w3 layer stack = Ok r -> two_values H /\ two_values K.
Proof.
  intro E. pose proof (C05_hk_grid _ _ _ _ _ _ _ _ _ _ _ _ _ _ _ E) as G. apply hk_inv in E as (SR & st0 & tr0 & u & _ & _ & _ & _ & _ & D & _).
  exact (lines_grid K H _ u G D).
Qed.
Theorem C122_hkSynth (data time : list N) p pk H K Vp w1 w2 w3 layer r :
  hkSynth draw data time p pk H K Vp w1 w2 w3 layer = Ok r -> two_values H /\ two_values K.
Proof.
  intro E. apply hkSynth_inv in E as (u & T & _ & D & _). exact (lines_grid K H _ u (grid_table_of _ _ _ _ T) D).
Qed.
Theorem C122_hkYu (flt time : list N) tlag tk p pk H K VM VS vs w1 w2 w3 r :
  hkYu draw flt time tlag tk p pk H K VM VS vs w1 w2 w3 = Ok r -> two_values H /\ two_values K.
Proof.
  intro E. apply hkYu_inv in E as (vs' & x & y & u & _ & _ & _ & _ & _ & T & _ & D & _). exact (lines_grid K H _ u (grid_table_of _ _ _ _ T) D).
Qed.
Theorem C122_hkSeq km1 stackO (rfS rfM : stream N) pre HS KS VS a b c HM KM VM d e f stack r :
  hkSeq km1 stackO draw rfS rfM pre HS KS VS a b c HM KM VM d e f stack = Ok r ->
  (two_values HS /\ two_values KS) /\ (two_values HM /\ two_values KM).
Proof.
  intro E. apply hkSeq_inv in E. cbn zeta in E.
  destruct E as (SS & stS & SM & stM & tr0 & u & u' & bm & rowsM & _ & _ & _ & _ & _ & T & _ & D & _ & T' & _ & D' & _).
  split; [exact (lines_grid KS HS _ u (grid_table_of _ _ _ _ T) D)|exact (lines_grid KM HM _ u' (grid_table_clip _ _ _ (grid_table_of _ _ _ _ T')) D')].
Qed.
Theorem C122_hkSeqSynth (dS dM time : list N) p pk HS KS VS a b c HM KM VM d e f r :
  hkSeqSynth draw dS dM time p pk HS KS VS a b c HM KM VM d e f = Ok r ->
  (two_values HS /\ two_values KS) /\ (two_values HM /\ two_values KM).
Proof.
  intro E. apply hkSeqSynth_inv in E as (u & u' & bm & rowsM & T & _ & D & _ & T' & _ & D' & _).
  split; [exact (lines_grid KS HS _ u (grid_table_of _ _ _ _ T) D)|exact (lines_grid KM HM _ u' (grid_table_clip _ _ _ (grid_table_of _ _ _ _ T')) D')].
Qed.
End Lines.

(** ** Concrete cases (binary64, [pyplot]) *)
Definition mdata (bad : spec_float) : list B64 := map z64 [0;1;2]%Z ++ [bad] ++ map z64 [4;3;2;1;0;1;2;1]%Z.
Definition mtr (bad : spec_float) : trace B64 := @mkTrace B64 (mdata bad) (z64 1) (nlit 6 100) NpF (z64 0) (z64 0) (z64 60) "A" "Q" None.
Definition mrun (bad : spec_float) (H K : list B64) : res (hkres B64) :=
  @hk B64 (z64 1) stack1 pyplot [mtr (z64 1); mtr bad] (z64 0) H K (Some (nlit 65 10)) None None None None (Some false).
Definition mH : list B64 := [z64 25; z64 30].
Definition mK : list B64 := [nlit 17 10; nlit 18 10].
Definition is_ValueError (e : exn) : bool := match e with ValueError => true | _ => false end.

(** The run returns; with a missing or infinite sample at 3 s it raises, and so it does for
    a grid of one depth. *)
Theorem C121_example :
  (exists r, mrun (z64 3) mH mK = Ok r) /\ mrun S754_nan mH mK = Err ValueError /\ mrun (S754_infinity false) mH mK = Err ValueError /\
  mrun (z64 3) [z64 30] mK = Err ValueError /\ mrun (z64 3) mH [nlit 17 10] = Err ValueError.
Proof.
  assert (G : forall x : res (hkres B64), raises x is_ValueError = true -> x = Err ValueError).
  { intros x E. apply raises_true in E as (e & E & Q). destruct e; try discriminate. exact E. }
  split. { assert (E : chk (mrun (z64 3) mH mK) (fun _ => true) = true) by (vm_compute; reflexivity). apply chk_true in E as (r & E & _). eauto. }
  split; [apply G; vm_compute; reflexivity|]. split; [apply G; vm_compute; reflexivity|]. split; apply G; vm_compute; reflexivity.
Qed.

(** The samples of [dM] that the Moho stage reads, given the best sediment [(h1, k1)]. *)
Definition moho_reads (dM time : list B64) (p : B64) (HM KM : list B64) (h1 k1 VS VM : B64) : list B64 :=
  flat_map (fun k => flat_map (fun h =>
    match hkSeqMoho_times h1 k1 VS (Some VM) p NpF h k with
    | Ok (t1, t2, t3) => flat_map (fun t => match getamp dM time t with Ok a => [a] | _ => [] end) [t1; t2; t3]
    | Err _ => [] end) HM) KM.
Definition is_inf (x : spec_float) : bool := match x with S754_infinity _ => true | _ => false end.
Definition iS : list B64 := map z64 [1;1;1;1;1;1;1;1;1;1]%Z.
Definition iM : list B64 := map z64 [0;1]%Z ++ [S754_infinity true] ++ map z64 [3;4;1;2;3;4;5]%Z.
Definition itime : list B64 := map z64 [0;1;2;3;4;5;6;7;8;9]%Z.
Definition irun : res (seqsres B64) :=
  @hkSeqSynth B64 pyplot iS iM itime (nlit 6 100) NpF [z64 1; z64 2] [z64 2; nlit 19 10] (Some (z64 3)) None None None
     [z64 15; z64 20] [nlit 17 10; nlit 18 10] (Some (z64 6)) (Some (z64 1)) (Some (z64 1)) (Some (z64 1)).
(** In the Moho stage of the sequential programs an infinite sample is hidden by the clipping:
    the call returns.  ("Finite samples only" is false there.) *)
Theorem C121_moho_infinite : exists r best a,
  irun = Ok r /\ nth_error (ss_stkSed r) (ss_bestSed r) = Some best /\
  In a (moho_reads iM itime (nlit 6 100) [z64 15; z64 20] [nlit 17 10; nlit 18 10] (rH best) (rK best) (z64 3) (z64 6)) /\ is_inf a = true.
Proof.
  assert (E : chk irun (fun r => match nth_error (ss_stkSed r) (ss_bestSed r) with
     | Some best => existsb is_inf (moho_reads iM itime (nlit 6 100) [z64 15; z64 20] [nlit 17 10; nlit 18 10] (rH best) (rK best) (z64 3) (z64 6))
     | None => false end) = true) by (vm_compute; reflexivity).
  apply chk_true in E as (r & E & G). destruct (nth_error (ss_stkSed r) (ss_bestSed r)) as [best|] eqn:B; [|discriminate G].
  apply existsb_exists in G as (a & Ia & Ea). exists r, best, a. split; [exact E|]. split; [exact B|]. split; [exact Ia|exact Ea].
Qed.
