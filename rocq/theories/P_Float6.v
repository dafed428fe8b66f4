(** * P_Float6: in IEEE double precision, samples away from the predicted arrivals do not matter (C125).

    Two records that agree, bit for bit, on every sample within [tol] (half a sample plus rounding) of a predicted
    arrival of the grid give the same table and the same best model, bit for bit; the other samples may be anything
    (other values, infinities, NaN). *)

From Coq Require Import ZArith Reals Lra Lia Psatz Floats.SpecFloat.
From Flocq Require Import Core.
From Verif Require Import Base Num NumPy Spec HkModel HkProofs HkReal HkFacts HkFacts2 HkFacts4 P_Hk P_Hk4 P_Hk6 Float64 FloatErr FloatHk FloatStack FloatSeq P_Float P_Float2 FloatTable FloatOne P_Float3 P_Float4 P_Meta2.

Local Open Scope R_scope.

(** ** Vocabulary *)

(** Sampling interval, onset and length of usual size. *)
Definition axis64 (delta pre : B64) (l : nat) : Prop :=
  fdouble delta /\ fdouble pre /\ sane_axis (real delta) (real pre) l /\ (1 <= l)%nat.

(** The two records hold the same bits at every sample whose true time is within [tol] of [T]. *)
Definition same_near (data data' : list B64) (delta pre : R) (l : nat) (T : R) : Prop :=
  forall i, (i < l)%nat -> Rabs (delta * INR i - pre - T) <= tol delta pre l -> nth_error data' i = nth_error data i.

(** ... near each of the three arrivals of every node of the grid. *)
Definition same_arrivals (data data' : list B64) (delta pre : B64) (l : nat) (T1 T2 T3 : R -> R -> R) (H K : list B64) : Prop :=
  forall h k, In h H -> In k K ->
    same_near data data' (real delta) (real pre) l (T1 (real h) (real k)) /\
    same_near data data' (real delta) (real pre) l (T2 (real h) (real k)) /\
    same_near data data' (real delta) (real pre) l (T3 (real h) (real k)).

(** ** Reads *)

Lemma argmin_repeat (i : nat) : nth_error (repeat (sf_ofZ 0 : B64) i ++ [sf_ofZ 1]) i = Some (sf_ofZ 1).
Proof. rewrite nth_error_app2; rewrite repeat_length; [|lia]. rewrite Nat.sub_diag. reflexivity. Qed.
Lemma repeat_only (i j : nat) : nth_error (repeat (sf_ofZ 0 : B64) i ++ [sf_ofZ 1]) j = Some (sf_ofZ 1) -> j = i.
Proof.
  intro E. destruct (lt_eq_lt_dec j i) as [[L| -> ]|G]; [|reflexivity|].
  - rewrite nth_error_app1 in E by (rewrite repeat_length; exact L). apply nth_error_In, repeat_spec in E. discriminate E.
  - rewrite nth_error_app2 in E by (rewrite repeat_length; lia). rewrite repeat_length in E.
    destruct (j - i)%nat as [|[|n]] eqn:D; [lia|discriminate E|discriminate E].
Qed.

(** The index a read takes is that of a sample near the exact time. *)
Lemma read_index (delta pre x : B64) l (T : R) i :
  axis64 delta pre l -> fdouble x -> covered (real delta) l (real pre) T ->
  Rabs (real x - T) <= / 2 ^ 45 * (real delta * INR l + Rabs (real pre)) ->
  argmin (map (fun ti => @tdist B64 ti (TR x)) (@taxis B64 delta l pre)) = Ok i ->
  (i < l)%nat /\ Rabs (real delta * INR i - real pre - T) <= tol (real delta) (real pre) l.
Proof.
  intros (Fd & Fq & S & Hl) Fx C Ex Ei. pose proof S as [[d1 d2] pr ln].
  set (L := real delta * INR l + Rabs (real pre)) in *.
  assert (HL : 0 <= INR l <= 2 ^ 40).
  { split; [apply pos_INR|]. rewrite INR_IZR_INZ. replace (2 ^ 40) with (IZR (2 ^ 40)) by (simpl; lra). apply IZR_le. lia. }
  assert (Hdl : 0 <= real delta * INR l <= 2 ^ 60).
  { split; [apply Rmult_le_pos; lra|]. replace (2 ^ 60) with (2 ^ 20 * 2 ^ 40) by lra. apply Rmult_le_compat; lra. }
  pose proof (Rabs_pos (real pre)) as Pq. assert (HLb : 0 <= L <= 2 ^ 61) by (unfold L; lra).
  assert (G : @getamp B64 (repeat (sf_ofZ 0 : B64) i ++ [sf_ofZ 1]) (@taxis B64 delta l pre) (TR x) = Ok (sf_ofZ 1)).
  { unfold getamp. rewrite Ei. cbn [bind]. apply getitem_Ok. apply argmin_repeat. }
  destruct (read_b64 _ delta pre x l T (/ 2 ^ 45 * L) _ Fd Fq Fx S Hl C Ex ltac:(lra) G) as (j & Hj & Hn & Hb).
  apply repeat_only in Hn. subst j. split; [exact Hj|]. fold L in Hb. unfold tol. fold L. lra.
Qed.

Lemma getamp_same data data' (delta pre x : B64) l (T : R) :
  axis64 delta pre l -> fdouble x -> covered (real delta) l (real pre) T ->
  Rabs (real x - T) <= / 2 ^ 45 * (real delta * INR l + Rabs (real pre)) ->
  same_near data data' (real delta) (real pre) l T ->
  @getamp B64 data' (@taxis B64 delta l pre) (TR x) = @getamp B64 data (@taxis B64 delta l pre) (TR x).
Proof.
  intros HA Fx C Ex HS. unfold getamp. destruct (argmin _) as [i|e] eqn:Ei; [|reflexivity]. cbn [bind].
  destruct (read_index delta pre x l T i HA Fx C Ex Ei) as [Hi Hb]. unfold getitem. rewrite (HS i Hi Hb). reflexivity.
Qed.

Lemma reads_same data data' (delta pre : B64) l times (T1 T2 T3 : R -> R -> R) H K h k :
  axis64 delta pre l ->
  accurate times (fun h k => T1 (real h) (real k)) (fun h k => T2 (real h) (real k)) (fun h k => T3 (real h) (real k)) h k ->
  covers delta pre l T1 T2 T3 H K -> same_arrivals data data' delta pre l T1 T2 T3 H K -> In h H -> In k K ->
  exists x1 x2 x3, times h k = Ok (TR x1, TR x2, TR x3) /\
    @getamp B64 data' (@taxis B64 delta l pre) (TR x1) = @getamp B64 data (@taxis B64 delta l pre) (TR x1) /\
    @getamp B64 data' (@taxis B64 delta l pre) (TR x2) = @getamp B64 data (@taxis B64 delta l pre) (TR x2) /\
    @getamp B64 data' (@taxis B64 delta l pre) (TR x3) = @getamp B64 data (@taxis B64 delta l pre) (TR x3).
Proof.
  intros HA (a & b & e & Et & Fa & Fb & Fc & P2 & Ea & Eb & Ec) Cov HS Hh Hk.
  destruct (Cov h k Hh Hk) as (C1 & C2 & C3). destruct (HS h k Hh Hk) as (S1 & S2 & S3).
  assert (Hb : T2 (real h) (real k) <= real delta * INR l + Rabs (real pre)).
  { destruct C2 as [_ C2]. pose proof HA as (_ & _ & [[d1 _] _ _] & _). pose proof (Rle_abs (- real pre)) as Q. rewrite Rabs_Ropp in Q.
    assert (real delta * INR (l - 1) <= real delta * INR l) by (apply Rmult_le_compat_l; [lra|apply le_INR; lia]). lra. }
  assert (G : / 2 ^ 45 * T2 (real h) (real k) <= / 2 ^ 45 * (real delta * INR l + Rabs (real pre))) by (apply Rmult_le_compat_l; lra).
  exists a, b, e. split; [exact Et|]. split; [|split].
  - apply (getamp_same data data' delta pre a l (T1 (real h) (real k))); try assumption. eapply Rle_trans; [exact Ea|exact G].
  - apply (getamp_same data data' delta pre b l (T2 (real h) (real k))); try assumption. eapply Rle_trans; [exact Eb|exact G].
  - apply (getamp_same data data' delta pre e l (T3 (real h) (real k))); try assumption. eapply Rle_trans; [exact Ec|exact G].
Qed.
Lemma contrib_same w1 w2 w3 data data' (delta pre : B64) l times (T1 T2 T3 : R -> R -> R) H K h k :
  axis64 delta pre l ->
  accurate times (fun h k => T1 (real h) (real k)) (fun h k => T2 (real h) (real k)) (fun h k => T3 (real h) (real k)) h k ->
  covers delta pre l T1 T2 T3 H K -> same_arrivals data data' delta pre l T1 T2 T3 H K -> In h H -> In k K ->
  @contrib B64 w1 w2 w3 data' (@taxis B64 delta l pre) (times h k) = @contrib B64 w1 w2 w3 data (@taxis B64 delta l pre) (times h k).
Proof.
  intros HA Ac Cov HS Hh Hk. destruct (reads_same _ _ _ _ _ _ _ _ _ _ _ _ _ HA Ac Cov HS Hh Hk) as (x1 & x2 & x3 & -> & E1 & E2 & E3).
  unfold contrib. cbn [bind]. rewrite E1, E2, E3. reflexivity.
Qed.
Lemma contribO_same w1 w2 w3 data data' (delta pre : B64) l times (T1 T2 T3 : R -> R -> R) H K h k :
  axis64 delta pre l ->
  accurate times (fun h k => T1 (real h) (real k)) (fun h k => T2 (real h) (real k)) (fun h k => T3 (real h) (real k)) h k ->
  covers delta pre l T1 T2 T3 H K -> same_arrivals data data' delta pre l T1 T2 T3 H K -> In h H -> In k K ->
  @contribO B64 w1 w2 w3 data' (@taxis B64 delta l pre) (times h k) = @contribO B64 w1 w2 w3 data (@taxis B64 delta l pre) (times h k).
Proof.
  intros HA Ac Cov HS Hh Hk. destruct (reads_same _ _ _ _ _ _ _ _ _ _ _ _ _ HA Ac Cov HS Hh Hk) as (x1 & x2 & x3 & -> & E1 & E2 & E3).
  unfold contribO. cbn [bind]. rewrite E1, E2, E3. reflexivity.
Qed.

(** ** C125 *)

Theorem C125_hkSynth draw (data data' : list B64) (delta pre : B64) l (p : B64) pk (H K : list B64) (Vp : B64) w1 w2 w3 layer r :
  @hkSynth B64 draw data (@uniform_axis B64 delta l pre) p pk H K (Some Vp) w1 w2 w3 layer = Ok r ->
  axis64 delta pre l -> fdouble p -> grid64 Vp (real p) H K ->
  let T1 := t_Ps (real Vp) (real p) in let T2 := t_PpPs (real Vp) (real p) in let T3 := t_PsPs (real Vp) (real p) in
  covers delta pre l T1 T2 T3 H K -> same_arrivals data data' delta pre l T1 T2 T3 H K ->
  exists r', @hkSynth B64 draw data' (@uniform_axis B64 delta l pre) p pk H K (Some Vp) w1 w2 w3 layer = Ok r' /\
    hs_stk r' = hs_stk r /\ hs_best r' = hs_best r.
Proof.
  intros E HA Fp [FV HG] T1 T2 T3 Cov HS. apply hkSynth_inv in E as (u0 & T & Ar & D & _). eexists. split.
  - eapply hkSynth_intro; [|exact Ar|exact D]. refine (table_mono_in _ _ _ _ _ _ T). intros k h v Hk Hh. cbn [dflt].
    intro Ev. rewrite <- Ev. f_equal.
    apply (contrib_same _ _ _ data data' delta pre l (fun h k => @hkSynth_times B64 Vp p pk h k) T1 T2 T3 H K h k HA); try assumption.
    destruct (HG h k Hh Hk) as (Fh & Fk & S). apply (acc_layer Vp p (real p) pk h k); try assumption; [apply self_near|reflexivity].
  - cbn. auto.
Qed.

Theorem C125_hkYu draw (data data' : list B64) (delta pre : B64) l (tlag : B64) tk (p : B64) pk (H K : list B64) (VM VS vs : B64) w1 w2 w3 r :
  @hkYu B64 draw data (@uniform_axis B64 delta l pre) tlag tk p pk H K (Some VM) (Some VS) (Some vs) w1 w2 w3 = Ok r ->
  axis64 delta pre l -> fdouble p -> fdouble tlag -> fdouble VS -> fdouble vs ->
  sane_sed (real tlag) (real VS) (real vs) -> grid64 VM (real p) H K ->
  let hs := real tlag * real vs / 2 in
  let T1 h k := t_Ps (real VS) 0 hs (real VS / real vs) + t_Ps (real VM) (real p) h k in
  let T2 h k := t_PpPs (real VS) 0 hs (real VS / real vs) + t_PpPs (real VM) (real p) h k in
  let T3 h k := t_PsPs (real VS) 0 hs (real VS / real vs) + t_PsPs (real VM) (real p) h k in
  covers delta pre l T1 T2 T3 H K -> same_arrivals data data' delta pre l T1 T2 T3 H K ->
  exists r', @hkYu B64 draw data' (@uniform_axis B64 delta l pre) tlag tk p pk H K (Some VM) (Some VS) (Some vs) w1 w2 w3 = Ok r' /\
    yr_stk r' = yr_stk r /\ yr_best r' = yr_best r.
Proof.
  intros E HA Fp Ft FS Fv SS [FV HG] hs T1 T2 T3 Cov HS.
  destruct (C89_hkYu _ _ _ _ _ _ _ _ _ _ _ _ _ _ _ _ E Ft FS Fv FV Fp SS) as (_ & _ & _ & _ & Acc). fold hs in Acc.
  apply hkYu_inv in E as (v & x & y & u0 & Ev & Eh & Ea & Eb & Ep & T & Ar & D & _). inversion Ev; subst v.
  eexists. rewrite hkYu_eq. cbn zeta. cbn [dflt need bind]. rewrite Eh in Ea, Eb. cbn [dflt] in Eb. rewrite Ea. cbn [bind]. rewrite Eb. cbn [bind].
  rewrite <- Ep. match goal with |- context [mapM (mkrow_of ?f)] => assert (T' : is_table f K H (yr_stk r)) end.
  { refine (table_mono_in _ _ _ _ _ _ T). intros k h z Hk Hh. cbn [dflt]. intro Ez. rewrite <- Ez. f_equal.
    apply (contribO_same _ _ _ data data' delta pre l (fun h k => @hkYu_times B64 VM p pk tlag (yr_Pdelay r) h k) T1 T2 T3 H K h k HA); try assumption.
    destruct (HG h k Hh Hk) as (Fh & Fk & S). exact (Acc h k Fh Fk S). }
  unfold is_table in T'. rewrite T'. cbn [bind]. rewrite Ar. cbn [bind]. rewrite D. cbn [bind]. split; [reflexivity|]. cbn. auto.
Qed.

(** hkSeqSynth: both records may be changed, the Moho record away from the Moho arrivals below any sediment of the grid. *)
Theorem C125_hkSeqSynth draw (dS dM dS' dM' : list B64) (delta pre : B64) l (p : B64) pk
    (HS KS : list B64) (VS : B64) a b c (HM KM : list B64) (VM : B64) d e f r :
  @hkSeqSynth B64 draw dS dM (@uniform_axis B64 delta l pre) p pk HS KS (Some VS) a b c HM KM (Some VM) d e f = Ok r ->
  axis64 delta pre l -> fdouble p -> grid64 VS (real p) HS KS -> grid64 VM (real p) HM KM ->
  let S1 := t_Ps (real VS) (real p) in let S2 := t_PpPs (real VS) (real p) in let S3 := t_PsPs (real VS) (real p) in
  covers delta pre l S1 S2 S3 HS KS -> same_arrivals dS dS' delta pre l S1 S2 S3 HS KS ->
  (forall h1 k1, In h1 HS -> In k1 KS ->
     let M1 := t2_Ps (real VS) (real h1) (real k1) (real VM) (real p) in
     let M2 := t2_PpPs (real VS) (real h1) (real k1) (real VM) (real p) in
     let M3 := t2_PsPs (real VS) (real h1) (real k1) (real VM) (real p) in
     covers delta pre l M1 M2 M3 HM KM /\ same_arrivals dM dM' delta pre l M1 M2 M3 HM KM) ->
  exists r', @hkSeqSynth B64 draw dS' dM' (@uniform_axis B64 delta l pre) p pk HS KS (Some VS) a b c HM KM (Some VM) d e f = Ok r' /\
    ss_stkSed r' = ss_stkSed r /\ ss_bestSed r' = ss_bestSed r /\ ss_stkMoho r' = ss_stkMoho r /\ ss_bestMoho r' = ss_bestMoho r.
Proof.
  intros E HA Fp [FVS GS] [FVM GM] S1 S2 S3 CS NS HM'. apply hkSeqSynth_inv in E as (u0 & u' & bm & rowsM & T & Ar & D & Bm & TM & AM & DM & EM & _).
  assert (Hb : In (rH bm) HS /\ In (rK bm) KS).
  { destruct (table_row _ _ _ _ _ _ T Bm) as (i & j & _ & _ & X & Y & _). split; eapply nth_error_In; eassumption. }
  destruct Hb as [Hb1 Hb2]. destruct (HM' _ _ Hb1 Hb2) as [CM NM]. destruct (GS _ _ Hb1 Hb2) as (Fh1 & Fk1 & Sb).
  eexists. rewrite hkSeqSynth_eq. cbn zeta. cbn [dflt].
  match goal with |- context [mapM (mkrow_of ?f) (list_prod KS HS)] => assert (T' : is_table f KS HS (ss_stkSed r)) end.
  { refine (table_mono_in _ _ _ _ _ _ T). intros k h z Hk Hh. cbn [dflt]. intro Ez. rewrite <- Ez. f_equal.
    apply (contrib_same _ _ _ dS dS' delta pre l (fun h k => @hkSeqSynthSed_times B64 VS p pk h k) S1 S2 S3 HS KS h k HA); try assumption.
    destruct (GS h k Hh Hk) as (Fh & Fk & S). apply (acc_layer VS p (real p) pk h k); try assumption; [apply self_near|reflexivity]. }
  unfold is_table in T'. rewrite T'. cbn [bind]. rewrite Ar. cbn [bind]. rewrite D. cbn [bind]. rewrite (proj2 (getitem_Ok _ _ _) Bm). cbn [bind].
  match goal with |- context [mapM (mkrow_of ?f) (list_prod KM HM)] => assert (TM' : is_table f KM HM rowsM) end.
  { refine (table_mono_in _ _ _ _ _ _ TM). intros k h z Hk Hh. cbn [dflt]. intro Ez. rewrite <- Ez. f_equal.
    apply (contribO_same _ _ _ dM dM' delta pre l (fun h k => @hkSeqSynthMoho_times B64 (rH bm) (rK bm) VS (Some VM) p pk h k)
       (t2_Ps (real VS) (real (rH bm)) (real (rK bm)) (real VM) (real p)) (t2_PpPs (real VS) (real (rH bm)) (real (rK bm)) (real VM) (real p))
       (t2_PsPs (real VS) (real (rH bm)) (real (rK bm)) (real VM) (real p)) HM KM h k HA); try assumption.
    destruct (GM h k Hh Hk) as (Fh & Fk & S).
    apply (acc_moho (rH bm) (rK bm) VS VM p (real p) pk h k); try assumption; [apply self_near|apply hkSeqSynthMoho_times_eq]. }
  unfold is_table in TM'. rewrite TM'. cbn [bind]. rewrite AM. cbn [bind]. rewrite DM. cbn [bind]. split; [reflexivity|]. cbn. auto.
Qed.

(** ** C125: streams *)

(** Same length, sampling interval and slowness; any samples. *)
Definition retouched (tr tr' : trace B64) : Prop :=
  length (tr_data tr') = length (tr_data tr) /\ tr_delta tr' = tr_delta tr /\ tr_slow tr' = tr_slow tr /\ tr_slowk tr' = tr_slowk tr.

Lemma retouched_avg rf rf' : Forall2 retouched rf rf' -> @avgslow B64 rf' = @avgslow B64 rf.
Proof.
  intro F2. unfold avgslow. f_equal. induction F2 as [|x y l l' (_ & _ & E & _) F2 IH]; [reflexivity|]. cbn [map]. rewrite E, IH. reflexivity.
Qed.
Lemma Forall2_two {A B} (P Q S : A -> B -> Prop) l l' : Forall2 P l l' -> Forall2 Q l l' -> (forall x y, In x l -> P x y -> Q x y -> S x y) -> Forall2 S l l'.
Proof.
  intros F1 F2 HS. induction F1 as [|x y l l' Hp F1 IH]; inversion F2; subst; constructor; [apply HS; [left; reflexivity|assumption|assumption]|].
  apply IH; [assumption|]. intros; apply HS; [right; assumption|assumption|assumption].
Qed.

(** hk, stack=False (each trace at its own slowness) or stack=True (the stacked record at the mean slowness). *)
Theorem C125_hk km1 stackO draw (rf rf' : stream B64) (pre : B64) (H K : list B64) (Vp : B64) w1 w2 w3 layer (stack : bool) r tr0 st SR st' SR' :
  @hk B64 km1 stackO draw rf pre H K (Some Vp) w1 w2 w3 layer (Some stack) = Ok r ->
  Forall2 retouched rf rf' -> nth_error rf 0 = Some tr0 -> stackO rf = Ok (st :: SR) -> stackO rf' = Ok (st' :: SR') ->
  let delta := tr_delta tr0 in let l := length (tr_data tr0) in
  axis64 delta pre l -> fdouble km1 ->
  Forall2 (fun tr tr' => let s := seen_slow stack (hr_AvgSlow r) tr in let p := real km1 * real s in
      let T1 := t_Ps (real Vp) p in let T2 := t_PpPs (real Vp) p in let T3 := t_PsPs (real Vp) p in
      fdouble s /\ grid64 Vp p H K /\ covers delta pre l T1 T2 T3 H K /\
      same_arrivals (seen_data stack (tr_data st) tr) (seen_data stack (tr_data st') tr') delta pre l T1 T2 T3 H K) rf rf' ->
  exists r', @hk B64 km1 stackO draw rf' pre H K (Some Vp) w1 w2 w3 layer (Some stack) = Ok r' /\
    hr_stk r' = hr_stk r /\ hr_best r' = hr_best r.
Proof.
  intros E F2 E0 ES ES' delta l HA Fk HT. apply hk_inv in E as (SR0 & st0 & tr1 & u0 & ES0 & E1 & E2 & T & Ar & D & Er).
  rewrite ES in ES0. injection ES0 as <-. cbn [nth_error] in E1. injection E1 as <-. rewrite E0 in E2. injection E2 as <-.
  assert (X : hr_AvgSlow r = @avgslow B64 rf) by (rewrite Er; reflexivity). clear Er. rewrite X in HT. clear X.
  destruct rf as [|t0 rf]; [discriminate|]. cbn [nth_error] in E0. injection E0 as ->. inversion F2 as [|? tr0' ? rf1 P0 F1]; subst.
  destruct P0 as (Hlen & Edel & _ & _). eexists. split.
  - eapply hk_intro with (tr0 := tr0'); [exact ES'|reflexivity| |exact Ar|exact D].
    refine (table_mono_in _ _ _ _ _ _ T). intros k h v Hk Hh. cbn [dflt]. apply sumM_mono.
    rewrite Edel, Hlen. fold delta l. rewrite (retouched_avg _ _ F2).
    refine (Forall2_two _ _ _ _ _ F2 HT _). intros tr tr' Htr (_ & _ & Hsl & Hsk) (Fs & [FV HG] & Cov & HS) y Ey. rewrite <- Ey.
    unfold hk_c. assert (Erp : @hk_rp B64 km1 stack (@avgslow B64 (tr0 :: rf)) tr' = @hk_rp B64 km1 stack (@avgslow B64 (tr0 :: rf)) tr) by (unfold hk_rp; rewrite Hsl; reflexivity).
    assert (Erk : @hk_rpk B64 stack tr' = @hk_rpk B64 stack tr) by (unfold hk_rpk; rewrite Hsk; reflexivity). rewrite Erp, Erk.
    assert (Q : @hk_rp B64 km1 stack (@avgslow B64 (tr0 :: rf)) tr = @nmul B64 km1 (seen_slow stack (@avgslow B64 (tr0 :: rf)) tr)) by (unfold hk_rp, seen_slow; destruct stack; reflexivity).
    assert (Q1 : @hk_data B64 stack st tr = seen_data stack (tr_data st) tr) by (unfold hk_data, seen_data; destruct stack; reflexivity).
    assert (Q2 : @hk_data B64 stack st' tr' = seen_data stack (tr_data st') tr') by (unfold hk_data, seen_data; destruct stack; reflexivity).
    rewrite Q, Q1, Q2. destruct (HG h k Hh Hk) as (Fh & Fk' & S). destruct (ray_near km1 _ Vp _ _ Fk Fs S) as [Fp Ep].
    eapply (contrib_same _ _ _ _ _ delta pre l (fun h k => @hk_times B64 Vp (@nmul B64 km1 (seen_slow stack (@avgslow B64 (tr0 :: rf)) tr)) (@hk_rpk B64 stack tr) h k)
       _ _ _ H K h k HA); [|exact Cov|exact HS|exact Hh|exact Hk].
    apply (acc_layer Vp (@nmul B64 km1 (seen_slow stack (@avgslow B64 (tr0 :: rf)) tr)) (real km1 * real (seen_slow stack (@avgslow B64 (tr0 :: rf)) tr)) (@hk_rpk B64 stack tr) h k); try assumption. reflexivity.
  - cbn. auto.
Qed.

Theorem C125_hkSeq km1 stackO draw (rfS rfM rfS' rfM' : stream B64) (pre : B64) (HS KS : list B64) (VS : B64) a b c
    (HM KM : list B64) (VM : B64) d e f (stack : bool) r tr0 stS SS stS' SS' stM SM stM' SM' :
  @hkSeq B64 km1 stackO draw rfS rfM pre HS KS (Some VS) a b c HM KM (Some VM) d e f (Some stack) = Ok r ->
  Forall2 retouched rfS rfS' -> Forall2 retouched rfM rfM' -> nth_error rfS 0 = Some tr0 ->
  stackO rfS = Ok (stS :: SS) -> stackO rfS' = Ok (stS' :: SS') -> stackO rfM = Ok (stM :: SM) -> stackO rfM' = Ok (stM' :: SM') ->
  let delta := tr_delta tr0 in let l := length (tr_data tr0) in
  axis64 delta pre l -> fdouble km1 ->
  Forall2 (fun tr tr' => let s := seen_slow stack (sr_AvgSlow r) tr in let p := real km1 * real s in
      let T1 := t_Ps (real VS) p in let T2 := t_PpPs (real VS) p in let T3 := t_PsPs (real VS) p in
      fdouble s /\ grid64 VS p HS KS /\ covers delta pre l T1 T2 T3 HS KS /\
      same_arrivals (seen_data stack (tr_data stS) tr) (seen_data stack (tr_data stS') tr') delta pre l T1 T2 T3 HS KS) rfS rfS' ->
  Forall2 (fun tr tr' => let s := seen_slow stack (sr_AvgSlow r) tr in let p := real km1 * real s in
      fdouble s /\ grid64 VS p HS KS /\ grid64 VM p HM KM /\
      forall h1 k1, In h1 HS -> In k1 KS ->
        let M1 := t2_Ps (real VS) (real h1) (real k1) (real VM) p in
        let M2 := t2_PpPs (real VS) (real h1) (real k1) (real VM) p in
        let M3 := t2_PsPs (real VS) (real h1) (real k1) (real VM) p in
        covers delta pre l M1 M2 M3 HM KM /\
        same_arrivals (seen_data stack (tr_data stM) tr) (seen_data stack (tr_data stM') tr') delta pre l M1 M2 M3 HM KM) rfM rfM' ->
  exists r', @hkSeq B64 km1 stackO draw rfS' rfM' pre HS KS (Some VS) a b c HM KM (Some VM) d e f (Some stack) = Ok r' /\
    sr_stkSed r' = sr_stkSed r /\ sr_bestSed r' = sr_bestSed r /\ sr_stkMoho r' = sr_stkMoho r /\ sr_bestMoho r' = sr_bestMoho r.
Proof.
  intros E FS FM E0 ES ES' EM EM' delta l HA Fk HTS HTM.
  apply hkSeq_inv in E as (SS0 & stS0 & SM0 & stM0 & tr1 & u0 & u2 & bm & rowsM & Q1 & Q2 & Q3 & Q4 & Q5 & T & Ar & D & Bm & TM & AM & DM & EMo & Er).
  rewrite ES in Q1. injection Q1 as <-. injection Q2 as <-. rewrite EM in Q3. injection Q3 as <-. injection Q4 as <-. rewrite E0 in Q5. injection Q5 as <-.
  assert (X : sr_AvgSlow r = @avgslow B64 rfM) by (rewrite Er; reflexivity). clear Er. rewrite X in HTS, HTM. clear X.
  assert (Hb : In (rH bm) HS /\ In (rK bm) KS).
  { destruct (table_row _ _ _ _ _ _ T Bm) as (i & j & _ & _ & X & Y & _). split; eapply nth_error_In; eassumption. }
  destruct Hb as [Hb1 Hb2].
  destruct rfS as [|t0 rfS]; [discriminate|]. cbn [nth_error] in E0. injection E0 as ->. inversion FS as [|? tr0' ? rf1 P0 F1]; subst.
  destruct P0 as (Hlen & Edel & _ & _).
  assert (Erp : forall tr tr', retouched tr tr' -> @hk_rp B64 km1 stack (@avgslow B64 rfM) tr' = @nmul B64 km1 (seen_slow stack (@avgslow B64 rfM) tr)) by (intros tr tr' (_ & _ & Hsl & _); unfold hk_rp, seen_slow; rewrite Hsl; destruct stack; reflexivity).
  assert (Erp0 : forall tr, @hk_rp B64 km1 stack (@avgslow B64 rfM) tr = @nmul B64 km1 (seen_slow stack (@avgslow B64 rfM) tr)) by (intros; unfold hk_rp, seen_slow; destruct stack; reflexivity).
  assert (Erk : forall tr tr', retouched tr tr' -> @hk_rpk B64 stack tr' = @hk_rpk B64 stack tr) by (intros tr tr' (_ & _ & _ & Hsk); unfold hk_rpk; rewrite Hsk; reflexivity).
  assert (Qd : forall st tr, @hk_data B64 stack st tr = seen_data stack (tr_data st) tr) by (intros; unfold hk_data, seen_data; destruct stack; reflexivity).
  eexists. rewrite hkSeq_eq. cbn zeta. cbn [dflt]. rewrite ES', EM'. cbn [bind getitem nth_error]. rewrite Edel, Hlen. fold delta l. rewrite (retouched_avg _ _ FM).
  match goal with |- context [mapM (mkrow_of ?f) (list_prod KS HS)] => assert (T' : is_table f KS HS (sr_stkSed r)) end.
  { refine (table_mono_in _ _ _ _ _ _ T). intros k h z Hk Hh. cbn [dflt]. apply lastv_mono. refine (Forall2_two _ _ _ _ _ FS HTS _).
    intros tr tr' Htr Hp (Fs & [FV HG] & Cov & HN) y Ey. rewrite <- Ey.
    unfold seqSed_c. rewrite (Erp tr tr' Hp), (Erk tr tr' Hp), !Qd, Erp0.
    destruct (HG h k Hh Hk) as (Fh & Fk' & S). destruct (ray_near km1 _ VS _ _ Fk Fs S) as [Fp Ep].
    eapply (contrib_same _ _ _ _ _ delta pre l (fun h k => @hkSeqSed_times B64 VS (@nmul B64 km1 (seen_slow stack (@avgslow B64 rfM) tr)) (@hk_rpk B64 stack tr) h k)
       _ _ _ HS KS h k HA); [|exact Cov|exact HN|exact Hh|exact Hk].
    apply (acc_layer VS (@nmul B64 km1 (seen_slow stack (@avgslow B64 rfM) tr)) (real km1 * real (seen_slow stack (@avgslow B64 rfM) tr)) (@hk_rpk B64 stack tr) h k); try assumption. reflexivity. }
  unfold is_table in T'. rewrite T'. cbn [bind]. rewrite Ar. cbn [bind]. rewrite D. cbn [bind]. rewrite (proj2 (getitem_Ok _ _ _) Bm). cbn [bind].
  match goal with |- context [mapM (mkrow_of ?f) (list_prod KM HM)] => assert (TM' : is_table f KM HM rowsM) end.
  { refine (table_mono_in _ _ _ _ _ _ TM). intros k h z Hk Hh. cbn [dflt]. apply lastv_mono. refine (Forall2_two _ _ _ _ _ FM HTM _).
    intros tr tr' Htr Hp (Fs & [FV HG] & [FV2 HG2] & HB) y Ey. rewrite <- Ey. destruct (HB _ _ Hb1 Hb2) as [Cov HN].
    unfold seqMoho_c. rewrite (Erp tr tr' Hp), (Erk tr tr' Hp), !Qd, Erp0.
    destruct (HG _ _ Hb1 Hb2) as (Fh1 & Fk1 & S1). destruct (HG2 h k Hh Hk) as (Fh & Fk' & S). destruct (ray_near km1 _ VM _ _ Fk Fs S) as [Fp Ep].
    eapply (contribO_same _ _ _ _ _ delta pre l (fun h k => @hkSeqMoho_times B64 (rH bm) (rK bm) VS (Some VM) (@nmul B64 km1 (seen_slow stack (@avgslow B64 rfM) tr)) (@hk_rpk B64 stack tr) h k)
       _ _ _ HM KM h k HA); [|exact Cov|exact HN|exact Hh|exact Hk].
    apply (acc_moho (rH bm) (rK bm) VS VM (@nmul B64 km1 (seen_slow stack (@avgslow B64 rfM) tr)) (real km1 * real (seen_slow stack (@avgslow B64 rfM) tr)) (@hk_rpk B64 stack tr) h k); try assumption. reflexivity. }
  unfold is_table in TM'. rewrite TM'. cbn [bind]. rewrite AM. cbn [bind]. rewrite DM. cbn [bind]. split; [reflexivity|]. cbn. auto.
Qed.
