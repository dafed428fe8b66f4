(** * PlotProofs3: exact drawing events of plothk on success. *)

From Coq Require Import Reals Lra.
From Verif Require Import Base Num NumPy Spec HkModel HkProofs HkReal PlotModel PlotProofs PlotProofs2.

Section S.
Context {N : Num}.

Definition mark3 (c g : N) (ts : tval N * tval N * tval N) : list (tval N * N * N) :=
  let '(t1, t2, t3) := ts in
  [(t1, nadd c g, nsub c g); (t2, nadd c g, nsub c g); (t3, nadd c g, nsub c g)].

Lemma marks_marks3 pan ts (c g : N) : marks pan (ev_marks3 pan ts c g) = mark3 c g ts.
Proof. destruct ts as [[t1 t2] t3]. simpl. rewrite Nat.eqb_refl. reflexivity. Qed.
Lemma marks_other pan pan' ts (c g : N) : pan <> pan' -> marks pan' (ev_marks3 pan ts c g) = [].
Proof. intro H. destruct ts as [[t1 t2] t3]. simpl. destruct (Nat.eqb_spec pan pan'); [congruence|reflexivity]. Qed.
Lemma marks_spans pan pan' ts (sp : N) : marks pan' (ev_spans3 pan ts sp) = [].
Proof. destruct ts as [[t1 t2] t3]. reflexivity. Qed.

Definition obs_trace (pan : nat) (g0 g1 : N) (centre : trace N -> N) (rf : trace N) :=
  match tr_hdr rf with None => [] | Some ts => mark3 (centre rf) g1 ts end.

Lemma marks_traces pan lo hi (g0 g1 : N) centre st :
  marks pan (flat_map (ev_trace pan lo hi g0 g1 centre) st) = flat_map (obs_trace pan g0 g1 centre) st.
Proof.
  induction st as [|rf st IH]; [reflexivity|]. simpl. rewrite marks_app, IH. f_equal.
  unfold ev_trace, obs_trace. destruct (tr_hdr rf) as [ts|]; [|reflexivity].
  rewrite marks_app. simpl. apply marks_marks3.
Qed.
Lemma marks_traces_other pan pan' lo hi (g0 g1 : N) centre st : pan <> pan' ->
  marks pan' (flat_map (ev_trace pan lo hi g0 g1 centre) st) = [].
Proof.
  intro Hp. induction st as [|rf st IH]; [reflexivity|]. simpl. rewrite marks_app, IH.
  unfold ev_trace. destruct (tr_hdr rf) as [ts|]; [|reflexivity].
  rewrite marks_app, marks_other by assumption. reflexivity.
Qed.

Lemma curves_marks3 pan pan' ts (c g : N) : curves pan' (ev_marks3 pan ts c g) = [].
Proof. destruct ts as [[t1 t2] t3]. reflexivity. Qed.
Lemma curves_spans pan pan' ts (sp : N) : curves pan' (ev_spans3 pan ts sp) = [].
Proof. destruct ts as [[t1 t2] t3]. reflexivity. Qed.
Lemma curves_traces pan lo hi (g0 g1 : N) centre st :
  (forall rf, In rf st -> tr_hdr rf <> None) ->
  curves pan (flat_map (ev_trace pan lo hi g0 g1 centre) st)
  = map (fun rf => (own_axis rf, scaled (tr_data rf) g0 (centre rf))) st.
Proof.
  induction st as [|rf st IH]; intro H; [reflexivity|]. simpl. rewrite curves_app, IH.
  2:{ intros; apply H; right; assumption. }
  unfold ev_trace. destruct (tr_hdr rf) as [ts|] eqn:E.
  2:{ exfalso. apply (H rf); [left; reflexivity|assumption]. }
  rewrite curves_app, curves_marks3. simpl. rewrite Nat.eqb_refl. reflexivity.
Qed.
Lemma curves_traces_other pan pan' lo hi (g0 g1 : N) centre st : pan <> pan' ->
  curves pan' (flat_map (ev_trace pan lo hi g0 g1 centre) st) = [].
Proof.
  intro Hp. induction st as [|rf st IH]; [reflexivity|]. simpl. rewrite curves_app, IH.
  unfold ev_trace. destruct (tr_hdr rf) as [ts|]; [|reflexivity].
  rewrite curves_app, curves_marks3. simpl. destruct (Nat.eqb_spec pan pan'); [congruence|reflexivity].
Qed.

Lemma plain_ev_trace {X} (obs : pev N -> list X)
  (H1 : forall p a b, obs (EXlim p a b) = []) (H2 : forall p a b, obs (ELine p a b) = [])
  (H3 : forall p a b c, obs (EMark p a b c) = []) pan lo hi g0 g1 centre st :
  flat_map obs (flat_map (ev_trace pan lo hi g0 g1 centre) st) = [].
Proof.
  induction st as [|rf st IH]; [reflexivity|]. simpl. rewrite flat_map_app, IH.
  unfold ev_trace. destruct (tr_hdr rf) as [[[t1 t2] t3]|]; [|reflexivity].
  simpl. rewrite H1, H2, !H3. reflexivity.
Qed.
Lemma plain_spans {X} (obs : pev N -> list X) (H : forall p a b, obs (ESpan p a b) = []) pan ts sp :
  flat_map obs (ev_spans3 pan ts sp) = [].
Proof. destruct ts as [[t1 t2] t3]. simpl. rewrite !H. reflexivity. Qed.

(** [plothk], one curve per trace. *)
Lemma plothk_ok_traces pyplot (km1 : N) path g rmneg fmt (s s' : pst N (hkres N)) u :
  plothk pyplot km1 path g rmneg fmt s = (s', Ok u) -> hr_stack (ps_d s) = false ->
  let d := ps_d s in
  exists es bm g0 g1 g2 g3,
    ps_ev s' = ps_ev s ++ es /\ nth_error (hr_stk d) (hr_best d) = Some bm /\
    nth_error (dflt g g_default) 0 = Some g0 /\ nth_error (dflt g g_default) 1 = Some g1 /\
    nth_error (dflt g g_default) 2 = Some g2 /\ nth_error (dflt g g_default) 3 = Some g3 /\
    saves es = [fname4 path (hr_staname d) (hr_comp d) (hr_layer d) (dflt fmt "pdf"%string)] /\
    contours es = [hr_stk (ps_d s')] /\ bests es = [(rH bm, rK bm)] /\
    times_written km1 (rH bm) (rK bm) d (ps_d s') /\
    marks 2 es = flat_map (obs_trace 2 g0 g1 tr_baz) (hr_RF (ps_d s')) /\
    marks 3 es = flat_map (obs_trace 3 g2 g3 tr_dist) (hr_RF (ps_d s')) /\
    curves 2 es = map (fun rf => (own_axis rf, scaled (tr_data rf) g0 (tr_baz rf))) (hr_RF (ps_d s')) /\
    curves 3 es = map (fun rf => (own_axis rf, scaled (tr_data rf) g2 (tr_dist rf))) (hr_RF (ps_d s')).
Proof.
  intros E Hst d.
  destruct (plothk_split pyplot km1 path g rmneg fmt s) as [(d'&e&E'&P)|(d'&bm&ts&P&Eb&Ets&E')].
  { rewrite E' in E. discriminate E. }
  fold d in P, Eb, Ets, E'.
  rewrite E' in E. clear E'. fold d in Hst. rewrite Hst in Ets. destruct Ets as [-> HT].
  apply tail_ok in E. destruct E as [s1 [v [E ->]]]. unfold panels in E.
  apply pbind_ok in E. destruct E as [s2 [v2 [E1 E]]].
  apply panel1_ok in E1. destruct E1 as (bm'&hlo&hhi&klo&khi&Ebm'&_&_&_&_ & ->).
  assert (Hst' : hr_stack d' = false).
  { destruct P as (RF'&stk' & -> & _). exact Hst. }
  rewrite Hst' in E.
  apply pbind_ok in E. destruct E as [s3 [v3 [E2 E3]]].
  apply panel_stream_ok in E2. destruct E2 as (g0&g1&lo&hi&sp&rest&rl&tsl&G0&G1&Hw&_&_&Hh & ->).
  apply panel_stream_ok in E3. destruct E3 as (g2&g3&lo'&hi'&sp'&rest'&rl'&tsl'&G2&G3&_&_&_&_ & ->).
  cbn [ps_d ps_ev].
  assert (Hbm : rH bm' = rH bm /\ rK bm' = rK bm).
  { destruct P as (RF'&stk' & -> & _&_&[[C _]| -> ]); [discriminate C|].
    cbn [hr_stk hr_setStk hr_setRF hr_best] in Ebm'. destruct (dflt rmneg true).
    - rewrite nth_error_map, Eb in Ebm'. simpl in Ebm'. injection Ebm' as <-. apply clip_row_HK.
    - rewrite Eb in Ebm'. injection Ebm' as <-. auto. }
  eexists _, bm, g0, g1, g2, g3. split; [rewrite <- !app_assoc; reflexivity|].
  repeat (split; [assumption|]). destruct Hbm as [-> ->].
  rewrite !saves_app, !contours_app, !bests_app, !marks_app, !curves_app.
  unfold saves, contours, bests.
  rewrite !plain_ev_trace, !plain_spans by reflexivity.
  rewrite !marks_spans, !curves_spans.
  rewrite !marks_traces.
  rewrite (marks_traces_other 2 3), (marks_traces_other 3 2) by discriminate.
  rewrite (curves_traces_other 2 3), (curves_traces_other 3 2) by discriminate.
  rewrite !curves_traces by assumption.
  simpl. rewrite !app_nil_r.
  split; [reflexivity|]. split; [reflexivity|]. split; [reflexivity|]. split; [exact HT|]. auto.
Qed.

(** [plothk], stacked trace. *)
Lemma plothk_ok_stacked pyplot (km1 : N) path g rmneg fmt (s s' : pst N (hkres N)) u :
  plothk pyplot km1 path g rmneg fmt s = (s', Ok u) -> hr_stack (ps_d s) = true ->
  let d := ps_d s in
  exists es bm ts g0 g1,
    ps_ev s' = ps_ev s ++ es /\ nth_error (hr_stk d) (hr_best d) = Some bm /\
    hk_times (hr_Vp d) (nmul km1 (hr_AvgSlow d)) NpF (rH bm) (rK bm) = Ok ts /\
    nth_error (dflt g g_default) 0 = Some g0 /\ nth_error (dflt g g_default) 1 = Some g1 /\
    saves es = [fname4 path (hr_staname d) (hr_comp d) (hr_layer d) (dflt fmt "pdf"%string)] /\
    contours es = [hr_stk (ps_d s')] /\ bests es = [(rH bm, rK bm)] /\
    marks 2 es = mark3 (nofZ 180) g1 ts /\ marks 3 es = [] /\
    curves 2 es = [(hr_time d, scaled (hr_RFStack d) g0 (nofZ 180))] /\ curves 3 es = [].
Proof.
  intros E Hst d.
  destruct (plothk_split pyplot km1 path g rmneg fmt s) as [(d'&e&E'&P)|(d'&bm&ts&P&Eb&Ets&E')].
  { rewrite E' in E. discriminate E. }
  fold d in P, Eb, Ets, E'.
  rewrite E' in E. clear E'. fold d in Hst. rewrite Hst in Ets. destruct Ets as [t [Et ->]].
  apply tail_ok in E. destruct E as [s1 [v [E ->]]]. unfold panels in E.
  apply pbind_ok in E. destruct E as [s2 [v2 [E1 E]]].
  apply panel1_ok in E1. destruct E1 as (bm'&hlo&hhi&klo&khi&Ebm'&_&_&_&_ & ->).
  assert (Hst' : hr_stack d' = true /\ hr_time d' = hr_time d /\ hr_RFStack d' = hr_RFStack d).
  { destruct P as (RF'&stk' & -> & _). auto. }
  destruct Hst' as [Hst' [Htm Hrs]]. rewrite Hst', Htm, Hrs in E.
  apply pbind_ok in E. destruct E as [s3 [t3 [E2 E]]]. apply plift_ok in E2. destruct E2 as [-> E2].
  cbn [bound] in E2. injection E2 as <-.
  apply pbind_ok in E. destruct E as [s4 [v4 [E2 E]]].
  apply panel_one_ok in E2. destruct E2 as (g0&g1&lo&hi&sp&G0&G1&Hw & ->).
  apply pbind_ok in E. destruct E as [s5 [w [E2 E]]]. apply plift_ok in E2. destruct E2 as [-> E2].
  destruct w as [[lo' hi'] sp']. apply emits_spans3 in E. subst s1.
  cbn [ps_d ps_ev].
  assert (Hbm : rH bm' = rH bm /\ rK bm' = rK bm).
  { destruct P as (RF'&stk' & -> & _&_&[[C _]| -> ]); [discriminate C|].
    cbn [hr_stk hr_setStk hr_setRF hr_best] in Ebm'. destruct (dflt rmneg true).
    - rewrite nth_error_map, Eb in Ebm'. simpl in Ebm'. injection Ebm' as <-. apply clip_row_HK.
    - rewrite Eb in Ebm'. injection Ebm' as <-. auto. }
  eexists _, bm, t, g0, g1. split; [rewrite <- !app_assoc; reflexivity|].
  repeat (split; [assumption|]). destruct Hbm as [-> ->].
  destruct t as [[t1 t2] t3].
  repeat split.
Qed.
End S.
