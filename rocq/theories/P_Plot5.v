(** * P_Plot5: are the marked arrivals inside the time axis of the figure? (C99); plotting again
    changes nothing more (C100).  C99 is in exact arithmetic, C100 in any arithmetic. *)

From Coq Require Import Reals Lra Ascii Floats.SpecFloat.
From Verif Require Import Base Num NumPy Spec HkModel HkProofs HkReal P_Hk4 PlotModel PlotProofs PlotProofs2 PlotProofs3 P_Plot P_Plot2 PlotProofs4 P_Plot3 P_Plot4.

(** ** Vocabulary *)

(** Every arrival marked in a panel of the figure lies inside every time window given to this panel. *)
Definition all_visible (e : list (pev RN)) : Prop :=
  forall pan lo hi t c1 c2, In (lo, hi) (xlims pan e) -> In (t, c1, c2) (marks pan e) ->
  exists x : R, t = @TR RN x /\ (IZR lo <= x <= IZR hi)%R.
(** Three times inside a window. *)
Definition in_window (lo hi : Z) (ts : tval RN * tval RN * tval RN) : Prop :=
  match ts with
  | (TR a, TR b, TR c) => (IZR lo <= a <= IZR hi)%R /\ (IZR lo <= b <= IZR hi)%R /\ (IZR lo <= c <= IZR hi)%R
  | _ => False
  end.

(** ** Lemmas *)

Lemma xlims_app {N : Num} p (a b : list (pev N)) : xlims p (a ++ b) = xlims p a ++ xlims p b.
Proof. apply flat_map_app. Qed.
Lemma in_strokes t c1 c2 c g ts : In (t, c1, c2) (strokes c g ts) -> let '(a, b, d) := ts in t = a \/ t = b \/ t = d.
Proof. destruct ts as [[a b] d]. cbn. intros [E|[E|[E|[]]]]; injection E; intros; subst; auto. Qed.
Lemma strokes_in c g a b d t : t = a \/ t = b \/ t = d -> In (t, c + g, c - g)%R (strokes c g (a, b, d)).
Proof. cbn. intros [->|[->| ->]]; auto. Qed.

Lemma window_strokes lo hi ts : in_window lo hi ts <->
  (forall c g t c1 c2, In (t, c1, c2) (strokes c g ts) -> exists x : R, t = @TR RN x /\ (IZR lo <= x <= IZR hi)%R).
Proof.
  destruct ts as [[a b] d]. split.
  - intros W c g t c1 c2 Ht. apply in_strokes in Ht. cbn [in_window] in W.
    destruct a as [a|], b as [b|], d as [d|]; try contradiction. destruct W as (A & B & C).
    destruct Ht as [->|[->| ->]]; eauto.
  - intro H. destruct (H 0%R 0%R a _ _ (strokes_in _ _ _ _ _ _ (or_introl eq_refl))) as (x & -> & A).
    destruct (H 0%R 0%R b _ _ (strokes_in _ _ _ _ _ _ (or_intror (or_introl eq_refl)))) as (y & -> & B).
    destruct (H 0%R 0%R d _ _ (strokes_in _ _ _ _ _ _ (or_intror (or_intror eq_refl)))) as (z & -> & C).
    exact (conj A (conj B C)).
Qed.

Lemma xlims_spans3 {N : Num} pan pan' (ts : tval N * tval N * tval N) sp : xlims pan (ev_spans3 pan' ts sp) = [].
Proof. destruct ts as [[a b] c]. reflexivity. Qed.
Lemma xlims_marks3 {N : Num} pan pan' (ts : tval N * tval N * tval N) c g : xlims pan (ev_marks3 pan' ts c g) = [].
Proof. destruct ts as [[a b] d]. reflexivity. Qed.
Lemma marks_spans3 {N : Num} pan pan' (ts : tval N * tval N * tval N) sp : marks pan (ev_spans3 pan' ts sp) = [].
Proof. destruct ts as [[a b] c]. reflexivity. Qed.

Lemma visible_one stk H K a b c d lo hi (gain g1 : R) (t data : list R) ts :
  all_visible (@ev_fig_one RN stk H K a b c d lo hi gain g1 t data ts) <-> in_window lo hi ts.
Proof.
  pose (e := @ev_fig_one RN stk H K a b c d lo hi gain g1 t data ts). fold e.
  assert (M : forall p, marks p e = if p =? 2 then strokes 180 g1 ts else []).
  { intro p. unfold e, ev_fig_one. destruct ts as [[t1 t2] t3]. destruct p as [|[|[|p]]]; reflexivity. }
  assert (X : forall p, xlims p e = if p =? 2 then [(lo, hi)] else []).
  { intro p. unfold e, ev_fig_one. destruct ts as [[t1 t2] t3]. destruct p as [|[|[|p]]]; reflexivity. }
  clearbody e. unfold all_visible. split.
  - intro V. destruct ts as [[t1 t2] t3].
    assert (Q : forall x, x = t1 \/ x = t2 \/ x = t3 -> exists r : R, x = @TR RN r /\ (IZR lo <= r <= IZR hi)%R).
    { intros x Hx. apply (V 2 lo hi x (180 + g1)%R (180 - g1)%R).
      - rewrite X. left. reflexivity.
      - rewrite M. exact (strokes_in 180%R g1 t1 t2 t3 x Hx). }
    destruct (Q t1 (or_introl eq_refl)) as (x & -> & A).
    destruct (Q t2 (or_intror (or_introl eq_refl))) as (y & -> & B).
    destruct (Q t3 (or_intror (or_intror eq_refl))) as (z & -> & C). exact (conj A (conj B C)).
  - intros W p lo' hi' x c1 c2 HX HM. rewrite X in HX. rewrite M in HM. destruct (p =? 2); [|destruct HM].
    destruct HX as [E|[]]. injection E as <- <-. exact (proj1 (window_strokes lo hi ts) W _ _ _ _ _ HM).
Qed.

(** The traces of a panel. *)
Lemma xlims_traces pan pan' lo hi (g0 g1 : R) centre (st : stream RN) :
  (forall rf, In rf st -> tr_hdr rf <> None) ->
  xlims pan (flat_map (@ev_trace RN pan' lo hi g0 g1 centre) st) = flat_map (fun _ => if pan' =? pan then [(lo, hi)] else []) st.
Proof.
  induction st as [|rf st IH]; [reflexivity|]. intro Hh. cbn [flat_map]. rewrite xlims_app, IH by (intros r Hr; apply Hh; right; exact Hr).
  f_equal. unfold ev_trace. destruct (tr_hdr rf) as [ts|] eqn:E; [|exfalso; exact (Hh rf (or_introl eq_refl) E)].
  rewrite xlims_app, xlims_marks3. cbn. rewrite app_nil_r. destruct (pan' =? pan); reflexivity.
Qed.

Lemma visible_traces stk H K a b c d lo hi (sp : R) (g0 g1 g2 g3 : R) (st st' : stream RN) tsl f (km1 : R) :
  headers_of f km1 st st' -> (forall rf, In rf st' -> tr_hdr rf <> None) ->
  all_visible (@ev_fig_traces RN stk H K a b c d lo hi sp g0 g1 g2 g3 st' tsl)
  <-> (forall tr, In tr st -> in_window lo hi (f (km1 * tr_slow tr)%R)).
Proof.
  intros F Hh.
  destruct (@obs_fig_traces RN stk H K a b c d lo hi sp g0 g1 g2 g3 st' tsl Hh) as (_&_&M2&M3&_&_&_&_).
  rewrite (headers_marks f km1 st st' _ _ _ _ F) in M2 by reflexivity.
  rewrite (headers_marks f km1 st st' _ _ _ _ F) in M3 by reflexivity.
  pose (e := @ev_fig_traces RN stk H K a b c d lo hi sp g0 g1 g2 g3 st' tsl). fold e in M2, M3 |- *.
  assert (X : forall p, xlims p e = flat_map (fun _ => if 2 =? p then [(lo, hi)] else []) st' ++ flat_map (fun _ => if 3 =? p then [(lo, hi)] else []) st').
  { intro p. unfold e, ev_fig_traces. rewrite !xlims_app, !xlims_spans3, !xlims_traces by exact Hh. cbn [xlims flat_map app]. rewrite !app_nil_r. reflexivity. }
  assert (MO : forall p, p <> 2 -> p <> 3 -> marks p e = []).
  { intros p N2 N3. unfold e, ev_fig_traces. rewrite !marks_app, !marks_spans3.
    rewrite (marks_traces_other 2 p), (marks_traces_other 3 p) by congruence. reflexivity. }
  assert (XW : forall p lo' hi', In (lo', hi') (xlims p e) -> lo' = lo /\ hi' = hi).
  { intros p lo' hi' HX. rewrite X in HX. apply in_app_iff in HX.
    destruct HX as [HX|HX]; apply in_flat_map in HX; destruct HX as (r & _ & HX).
    - destruct (2 =? p); [|destruct HX]. destruct HX as [E|[]]. injection E as <- <-. auto.
    - destruct (3 =? p); [|destruct HX]. destruct HX as [E|[]]. injection E as <- <-. auto. }
  clearbody e. unfold all_visible. split.
  - intros V tr Htr. apply window_strokes. intros c0 g t c1 c2 Ht.
    apply (V 2 lo hi t (tr_baz tr + g1)%R (tr_baz tr - g1)%R).
    + rewrite X. apply in_app_iff. left.
      destruct st' as [|r' st']; [inversion F; subst; destruct Htr|]. left. reflexivity.
    + rewrite M2. apply in_flat_map. exists tr. split; [exact Htr|]. apply in_strokes in Ht.
      destruct (f (km1 * tr_slow tr)%R) as [[u v] w]. apply strokes_in. exact Ht.
  - intros W p lo' hi' t c1 c2 HX HM. apply XW in HX. destruct HX as [-> ->].
    destruct (Nat.eq_dec p 2) as [->|N2]; [|destruct (Nat.eq_dec p 3) as [->|N3]; [|rewrite MO in HM by assumption; destruct HM]].
    + rewrite M2 in HM. apply in_flat_map in HM. destruct HM as (tr & Htr & HM).
      exact (proj1 (window_strokes lo hi _) (W tr Htr) _ _ _ _ _ HM).
    + rewrite M3 in HM. apply in_flat_map in HM. destruct HM as (tr & Htr & HM).
      exact (proj1 (window_strokes lo hi _) (W tr Htr) _ _ _ _ _ HM).
Qed.

(** The last of the three arrivals decides. *)
Lemma times_order0 V p H K : precritical V p -> (1 <= K)%R -> (0 <= H)%R ->
  (0 <= t_Ps V p H K)%R /\ (t_Ps V p H K <= t_PpPs V p H K)%R /\ (t_PpPs V p H K <= t_PsPs V p H K)%R.
Proof.
  intros [HV Hp] HK HH.
  assert (Hq : (0 <= qp V p)%R) by (unfold qp; apply sqrt_pos).
  assert (Hs : (qp V p <= qs V K p)%R).
  { unfold qp, qs. apply sqrt_le_1_alt. assert (((1 / V) ^ 2 <= (K / V) ^ 2)%R); [|lra].
    assert (HiV : (0 < / V)%R) by (apply Rinv_0_lt_compat; exact HV).
    unfold Rdiv. apply pow_incr. split; [lra|]. apply Rmult_le_compat_r; lra. }
  unfold t_Ps, t_PpPs, t_PsPs.
  assert (0 <= H * (qs V K p - qp V p))%R by (apply Rmult_le_pos; lra).
  assert (0 <= H * qp V p)%R by (apply Rmult_le_pos; lra).
  repeat split; nra.
Qed.

Lemma window_one V H K p lo hi : precritical V p -> (1 <= K)%R -> (0 <= H)%R -> (lo <= 0)%Z ->
  in_window lo hi (one_layer V H K p) <-> (t_PsPs V p H K <= IZR hi)%R.
Proof.
  intros HP HK HH Hlo. destruct (times_order0 V p H K HP HK HH) as (A & B & C). apply IZR_le in Hlo.
  unfold one_layer, times3, in_window. split; [lra|]. intro D. repeat split; lra.
Qed.
Lemma window_two V1 H1 K1 V2 H2 K2 p lo hi : precritical V1 p -> precritical V2 p -> (1 <= K1)%R -> (1 <= K2)%R ->
  (0 <= H1)%R -> (0 <= H2)%R -> (lo <= 0)%Z ->
  in_window lo hi (two_layers V1 H1 K1 V2 H2 K2 p) <-> (t2_PsPs V1 H1 K1 V2 p H2 K2 <= IZR hi)%R.
Proof.
  intros HP1 HP2 HK1 HK2 HH1 HH2 Hlo.
  destruct (times_order0 V1 p H1 K1 HP1 HK1 HH1) as (A & B & C).
  destruct (times_order0 V2 p H2 K2 HP2 HK2 HH2) as (A' & B' & C'). apply IZR_le in Hlo.
  unfold two_layers, times3, in_window, t2_Ps, t2_PpPs, t2_PsPs. split; [lra|]. intro D. repeat split; lra.
Qed.
Lemma window_yu V H K p tlag Pd lo hi : precritical V p -> (1 <= K)%R -> (0 <= H)%R -> (0 <= Pd <= tlag)%R -> (lo <= 0)%Z ->
  in_window lo hi (yu_arrivals V H K p tlag Pd) <-> (t_PsPs V p H K + tlag <= IZR hi)%R.
Proof.
  intros HP HK HH HT Hlo. destruct (times_order0 V p H K HP HK HH) as (A & B & C). apply IZR_le in Hlo.
  unfold yu_arrivals, times3, in_window. split; [lra|]. intro D. repeat split; lra.
Qed.

(** *** plothk: the drawn figure on success. *)
Lemma layer_window_cases {N : Num} l lo hi (sp : N) : layer_window l = Some (lo, hi, sp) ->
  l = "Moho"%string /\ lo = (-5)%Z /\ hi = 30%Z \/ l = "Sed"%string /\ lo = (-1)%Z /\ hi = 10%Z.
Proof.
  unfold layer_window. destruct (String.eqb_spec l "Moho") as [->|_].
  - intro E. injection E as <- <- _. auto.
  - destruct (String.eqb_spec l "Sed") as [->|_]; [|discriminate]. intro E. injection E as <- <- _. auto.
Qed.

Lemma plothk_events (N : Num) pyplot (km1 : N) path g rmneg fmt (s s' : pst N (hkres N)) u bm :
  plothk pyplot km1 path g rmneg fmt s = (s', Ok u) ->
  let d := ps_d s in
  nth_error (hr_stk d) (hr_best d) = Some bm ->
  let f := fname4 path (hr_staname d) (hr_comp d) (hr_layer d) (dflt fmt "pdf"%string) in
  exists lo hi sp a b c e g0 g1,
    layer_window (hr_layer d) = Some (lo, hi, sp) /\
    if hr_stack d then
      exists ts, hk_times (hr_Vp d) (nmul km1 (hr_AvgSlow d)) NpF (rH bm) (rK bm) = Ok ts /\
      ps_ev s' = ps_ev s ++ ((ev_fig_one (hr_stk (ps_d s')) (rH bm) (rK bm) a b c e lo hi g0 g1 (hr_time d) (hr_RFStack d) ts ++ ev_spans3 2 ts sp) ++ [ESave f; EShow])
    else
      exists g2 g3 tsl, times_written km1 (rH bm) (rK bm) d (ps_d s') /\ (forall rf, In rf (hr_RF (ps_d s')) -> tr_hdr rf <> None) /\
      ps_ev s' = ps_ev s ++ (ev_fig_traces (hr_stk (ps_d s')) (rH bm) (rK bm) a b c e lo hi sp g0 g1 g2 g3 (hr_RF (ps_d s')) tsl ++ [ESave f; EShow]).
Proof.
  intros E d Hb f.
  destruct (plothk_split pyplot km1 path g rmneg fmt s) as [(d'&e&E'&P)|(d'&bm0&ts&P&Eb&Ets&E')].
  { rewrite E' in E. discriminate E. }
  fold d in P, Eb, Ets, E'. rewrite Hb in Eb. injection Eb as <-.
  rewrite E' in E. clear E'.
  apply tail_ok in E. destruct E as [s1 [v [E ->]]]. unfold panels in E. fold f.
  assert (Hd : hr_stack d' = hr_stack d /\ hr_time d' = hr_time d /\ hr_RFStack d' = hr_RFStack d).
  { destruct P as (RF'&stk' & -> & _). auto. }
  destruct Hd as (Hst & Htm & Hrs).
  assert (Hb' : exists bm', nth_error (hr_stk d') (hr_best d') = Some bm' /\ rH bm' = rH bm /\ rK bm' = rK bm).
  { destruct P as (RF'&stk' & -> & _&_&[[C _]| -> ]); [discriminate C|].
    cbn [hr_stk hr_setStk hr_setRF hr_best]. destruct (dflt rmneg true).
    - exists (clip_row bm). rewrite nth_error_map, Hb. split; [reflexivity|]. apply clip_row_HK.
    - exists bm. auto. }
  destruct Hb' as (bm' & Hb' & HH & HK). rewrite Hst, Htm, Hrs in E.
  destruct (layer_window (hr_layer d)) as [[[lo hi] sp]|] eqn:W.
  2:{ step E u1. destruct (hr_stack d).
      - step E t. step E t'. apply panel_one_ok in E2. destruct E2 as (?&?&?&?&?&_&_&C&_). discriminate C.
      - step E t. apply panel_stream_ok in E1. destruct E1 as (?&?&?&?&?&?&?&?&_&_&C&_). discriminate C. }
  exists lo, hi, sp. destruct (hr_stack d).
  - destruct Ets as (t & Et & ->).
    step E u1. step E t'. apply plift_ok in E1. destruct E1 as [-> E1]. cbn [bound] in E1. injection E1 as <-.
    step E u2. destruct (two_panels_ok _ _ _ _ _ _ _ _ _ _ _ _ _ _ _ _ _ _ bm' Hb' E0 E1) as (a&b&c&e&g0&g1&G0&G1&Es).
    rewrite HH, HK in Es. cbn [ps_ev ps_d] in Es.
    step E w. apply plift_ok in E2. destruct E2 as [-> E2]. cbn [bound] in E2. injection E2 as <-.
    apply emits_spans3 in E. rewrite E, Es. cbn [ps_ev ps_d].
    exists a, b, c, e, g0, g1. split; [reflexivity|]. exists t. split; [exact Et|].
    rewrite <- !app_assoc. reflexivity.
  - destruct Ets as (-> & HT).
    apply (fig_traces_ok pyplot _ _ _ _ _ _ _ _ _ _ _ _ _ Hb') in E.
    destruct E as (a&b&c&e&g0&g1&g2&g3&rest&rl&tsl&_&_&_&_&_&_&_&_&_&_&Hh&->).
    cbn [ps_ev ps_d]. rewrite HH, HK. exists a, b, c, e, g0, g1. split; [reflexivity|].
    exists g2, g3, tsl. split; [exact HT|]. split; [exact Hh|]. rewrite <- !app_assoc. reflexivity.
Qed.

(** ** C99 - the arrivals marked in a saved figure lie inside its time axis.
    The claim fails: the window is fixed (-5..30 s for the crust, -1..10 s for the sediment) while the
    best model is not.  For every successful call: the marks are inside exactly when the last
    arrival, PsPs, of every drawn trace comes before the end of the window. *)

Definition window_end (layer : string) : R := if String.eqb layer "Moho" then 30 else 10.

Theorem C99_plothk pyplot (km1 : R) path g rmneg fmt (s s' : pst RN (hkres RN)) u bm :
  @plothk RN pyplot km1 path g rmneg fmt s = (s', Ok u) ->
  let d := ps_d s in
  nth_error (hr_stk d) (hr_best d) = Some bm -> (1 <= rK bm)%R -> (0 <= rH bm)%R ->
  let drawn := if hr_stack d then [hr_AvgSlow d] else map (@tr_slow RN) (hr_RF d) in
  (forall q : R, In q drawn -> precritical (hr_Vp d) (km1 * q)%R) ->
  (hr_layer d = "Moho"%string \/ hr_layer d = "Sed"%string) /\
  exists es e f, ps_ev s' = ps_ev s ++ es /\ figures es = [(f, e)] /\
    (all_visible e <-> forall q : R, In q drawn -> (t_PsPs (hr_Vp d) (km1 * q) (rH bm) (rK bm) <= window_end (hr_layer d))%R).
Proof.
  intros E d Hb HK HH drawn HP.
  destruct (plothk_events RN pyplot km1 path g rmneg fmt s s' u bm E Hb) as (lo&hi&sp&a&b&c&e&g0&g1&W&X).
  fold d in W, X. apply layer_window_cases in W.
  split; [destruct W as [[Hl _]|[Hl _]]; auto|].
  assert (Hw : (lo <= 0)%Z /\ IZR hi = window_end (hr_layer d)).
  { unfold window_end. destruct W as [(-> & -> & ->)|(-> & -> & ->)]; split; (discriminate || reflexivity). }
  destruct Hw as [Hlo Hhi]. unfold drawn in *. destruct (hr_stack d).
  - destruct X as (ts & F1 & Ev). change (@nmul RN km1 (hr_AvgSlow d)) with (km1 * hr_AvgSlow d)%R in F1.
    assert (HP' := HP (hr_AvgSlow d) (or_introl eq_refl)). rewrite one_layer_ok in F1 by exact HP'.
    assert (F1' : one_layer (hr_Vp d) (rH bm) (rK bm) (km1 * hr_AvgSlow d)%R = ts) by congruence. clear F1. subst ts.
    eexists _, _, _. split; [exact Ev|].
    split; [apply figures_one; apply Forall_app; split; [apply plain_fig_one|apply plain_spans3]|].
    match goal with |- all_visible (?x ++ ?y) <-> _ => assert (A : all_visible (x ++ y) <-> all_visible x) end.
    { unfold all_visible. split; intros V pan lo' hi' t c1 c2; specialize (V pan lo' hi' t c1 c2);
        rewrite xlims_app, marks_app, xlims_spans3, marks_spans3, !app_nil_r in *; exact V. }
    rewrite A, visible_one, window_one by assumption. rewrite Hhi. split.
    + intros L q [<-|[]]. exact L.
    + intro L. exact (L _ (or_introl eq_refl)).
  - destruct X as (g2&g3&tsl&HT&Hh&Ev). unfold times_written in HT.
    apply (written_headers (one_layer (hr_Vp d) (rH bm) (rK bm)) (fun rp k => @hk_times RN (hr_Vp d) rp k (rH bm) (rK bm))) in HT.
    2:{ intros tr Ht. apply one_layer_ok. apply HP. exact (in_map (@tr_slow RN) _ _ Ht). }
    eexists _, _, _. split; [exact Ev|]. split; [apply figures_one; apply plain_fig_traces|].
    rewrite (visible_traces _ _ _ _ _ _ _ _ _ _ _ _ _ _ _ _ _ _ _ HT Hh). split.
    + intros L q Hq. apply in_map_iff in Hq. destruct Hq as (tr & <- & Htr). rewrite <- Hhi.
      refine (proj1 (window_one _ _ _ _ lo hi _ _ _ _) (L tr Htr)); try assumption. apply HP. exact (in_map (@tr_slow RN) _ _ Htr).
    + intros L tr Htr. assert (Hq := in_map (@tr_slow RN) _ _ Htr). refine (proj2 (window_one _ _ _ _ lo hi _ _ _ _) _); try assumption; [exact (HP _ Hq)|]. rewrite Hhi. exact (L _ Hq).
Qed.

Theorem C99_plotSeqhk pyplot (km1 : R) path g rmneg fmt (s s' : pst RN (seqres RN)) u bm1 bm2 (VM : R) :
  @plotSeqhk RN pyplot km1 path g rmneg fmt s = (s', Ok u) ->
  let d := ps_d s in
  sr_VpMoho d = Some VM ->
  nth_error (sr_stkSed d) (sr_bestSed d) = Some bm1 -> nth_error (sr_stkMoho d) (sr_bestMoho d) = Some bm2 ->
  (1 <= rK bm1)%R -> (1 <= rK bm2)%R -> (0 <= rH bm1)%R -> (0 <= rH bm2)%R ->
  let drawnS := if sr_stack d then [sr_AvgSlow d] else map (@tr_slow RN) (sr_RFSed d) in
  let drawnM := if sr_stack d then [sr_AvgSlow d] else map (@tr_slow RN) (sr_RFMoho d) in
  (forall q : R, In q drawnS -> precritical (sr_VpSed d) (km1 * q)%R) ->
  (forall q : R, In q drawnM -> precritical (sr_VpSed d) (km1 * q)%R /\ precritical VM (km1 * q)%R) ->
  exists es e1 e2 f1 f2, ps_ev s' = ps_ev s ++ es /\ figures es = [(f1, e1); (f2, e2)] /\
    (all_visible e1 <-> forall q : R, In q drawnS -> (t_PsPs (sr_VpSed d) (km1 * q) (rH bm1) (rK bm1) <= 10)%R) /\
    (all_visible e2 <-> forall q : R, In q drawnM -> (t2_PsPs (sr_VpSed d) (rH bm1) (rK bm1) VM (km1 * q) (rH bm2) (rK bm2) <= 30)%R).
Proof.
  intros E d HV Hb1 Hb2 HK1 HK2 HH1 HH2 drawnS drawnM HPS HPM.
  destruct (sr_stack d) eqn:Hs.
  - destruct (plotSeqhk_stacked_events RN pyplot km1 path g rmneg fmt s s' u bm1 bm2 E Hs Hb1 Hb2)
      as (ts1&ts2&a1&b1&c1&e1&a2&b2&c2&e2&g0&g1&G0&G1&F1&F2&T1&T2&Ev).
    fold d in F1, F2, Ev. rewrite HV in F2.
    destruct (HPM _ (or_introl eq_refl)) as [P1 P2].
    change (@nmul RN km1 (sr_AvgSlow d)) with (km1 * sr_AvgSlow d)%R in F1, F2.
    rewrite hkSeqSed_times_eq, one_layer_ok in F1 by exact P1. injection F1 as F1.
    rewrite two_layers_ok in F2 by assumption. injection F2 as F2.
    match type of Ev with _ = _ ++ (?x ++ [ESave ?f1; EShow] ++ ?y ++ [ESave ?f2; EShow]) =>
      exists (x ++ [ESave f1; EShow] ++ y ++ [ESave f2; EShow]), x, y, f1, f2 end.
    split; [exact Ev|]. split; [apply figures_two; apply plain_fig_one|].
    rewrite !visible_one, <- F1, <- F2. unfold drawnS, drawnM.
    rewrite window_one, window_two by (assumption || discriminate).
    split; split.
    + intros L q [<-|[]]. exact L.
    + intro L. exact (L _ (or_introl eq_refl)).
    + intros L q [<-|[]]. exact L.
    + intro L. exact (L _ (or_introl eq_refl)).
  - destruct (plotSeqhk_traces_events RN pyplot km1 path g rmneg fmt s s' u bm1 bm2 E Hs Hb1 Hb2)
      as (RS&RM&a1&b1&c1&e1&a2&b2&c2&e2&g0&g1&g2&g3&r1&rl1&ts1&r2&rl2&ts2&G0&G1&G2&G3&F1&F2&R1&L1&N1&R2&L2&N2&T1&T2&_&_&Ev).
    fold d in F1, F2, Ev. rewrite HV in F2.
    apply (written_headers (one_layer (sr_VpSed d) (rH bm1) (rK bm1)) (fun rp k => @hkSeqSed_times RN (sr_VpSed d) rp k (rH bm1) (rK bm1))) in F1.
    2:{ intros tr Ht. apply one_layer_ok. apply HPS. exact (in_map (@tr_slow RN) _ _ Ht). }
    apply (written_headers (two_layers (sr_VpSed d) (rH bm1) (rK bm1) VM (rH bm2) (rK bm2)) (fun rp k => @hkSeqMoho_times RN (rH bm1) (rK bm1) (sr_VpSed d) (Some VM) rp k (rH bm2) (rK bm2))) in F2.
    2:{ intros tr Ht. apply two_layers_ok; apply (HPM _ (in_map (@tr_slow RN) _ _ Ht)). }
    match type of Ev with _ = _ ++ (?x ++ [ESave ?f1; EShow] ++ ?y ++ [ESave ?f2; EShow]) =>
      exists (x ++ [ESave f1; EShow] ++ y ++ [ESave f2; EShow]), x, y, f1, f2 end.
    split; [exact Ev|]. split; [apply figures_two; apply plain_fig_traces|].
    rewrite (visible_traces _ _ _ _ _ _ _ _ _ _ _ _ _ _ _ _ _ _ _ F1 N1), (visible_traces _ _ _ _ _ _ _ _ _ _ _ _ _ _ _ _ _ _ _ F2 N2).
    unfold drawnS, drawnM. split; split.
    + intros L q Hq. assert (Hp := HPS q Hq). apply in_map_iff in Hq. destruct Hq as (tr & <- & Htr).
      refine (proj1 (window_one _ _ _ _ (-1) 10 _ _ _ _) (L tr Htr)); try assumption. discriminate.
    + intros L tr Htr. assert (Hq := in_map (@tr_slow RN) _ _ Htr). refine (proj2 (window_one _ _ _ _ (-1) 10 _ _ _ _) (L _ Hq)); try assumption; [exact (HPS _ Hq)|discriminate].
    + intros L q Hq. destruct (HPM q Hq) as [Hp1 Hp2]. apply in_map_iff in Hq. destruct Hq as (tr & <- & Htr).
      refine (proj1 (window_two _ _ _ _ _ _ _ (-5) 30 _ _ _ _ _ _ _) (L tr Htr)); try assumption. discriminate.
    + intros L tr Htr. assert (Hq := in_map (@tr_slow RN) _ _ Htr). destruct (HPM _ Hq) as [Hp1 Hp2].
      refine (proj2 (window_two _ _ _ _ _ _ _ (-5) 30 _ _ _ _ _ _ _) (L _ Hq)); try assumption. discriminate.
Qed.

Theorem C99_plothkYu pyplot k path g rmneg fmt (s s' : pst RN (yures RN)) u bm :
  @plothkYu RN pyplot k path g rmneg fmt s = (s', Ok u) ->
  let d := ps_d s in
  nth_error (yr_stk d) (yr_best d) = Some bm -> (1 <= rK bm)%R -> (0 <= rH bm)%R ->
  precritical (yr_VpMoho d) (yr_rayp d) -> (0 <= yr_Pdelay d <= yr_tlag d)%R ->
  exists es e f, ps_ev s' = ps_ev s ++ es /\ figures es = [(f, e)] /\
    (all_visible e <-> (t_PsPs (yr_VpMoho d) (yr_rayp d) (rH bm) (rK bm) + yr_tlag d <= 30)%R).
Proof.
  intros E d Hb HK HH HP HT.
  destruct (plothkYu_events RN pyplot k path g rmneg fmt s s' u bm E Hb) as (ts&a&b&c&e&g0&g1&G0&G1&F1&T1&Ev).
  fold d in F1, Ev.
  rewrite hkYu_times_eq, hk_times_R in F1 by exact HP. cbn [bind] in F1. injection F1 as F1.
  eexists _, _, _. split; [exact Ev|]. split; [apply figures_one; apply plain_fig_one|].
  rewrite visible_one, <- F1. apply (window_yu _ _ _ _ _ _ (-5) 30); auto. discriminate.
Qed.

Theorem C99_plothkSynth pyplot k path g rmneg fmt (s s' : pst RN (hksres RN)) u bm :
  @plothkSynth RN pyplot k path g rmneg fmt s = (s', Ok u) ->
  let d := ps_d s in
  nth_error (hs_stk d) (hs_best d) = Some bm -> (1 <= rK bm)%R -> (0 <= rH bm)%R -> precritical (hs_Vp d) (hs_rayp d) ->
  (hs_layer d = "Moho"%string \/ hs_layer d = "Sed"%string) /\
  exists es e f, ps_ev s' = ps_ev s ++ es /\ figures es = [(f, e)] /\
    (all_visible e <-> (t_PsPs (hs_Vp d) (hs_rayp d) (rH bm) (rK bm) <= window_end (hs_layer d))%R).
Proof.
  intros E d Hb HK HH HP.
  destruct (plothkSynth_events RN pyplot k path g rmneg fmt s s' u bm E Hb) as (ts'&a&b&c&e&g0&g1&lo&hi&sp&G0&G1&F1&W&T1&Ev).
  fold d in F1, W, Ev. apply layer_window_cases in W.
  split; [destruct W as [[Hl _]|[Hl _]]; auto|].
  assert (Hw : (lo <= 0)%Z /\ IZR hi = window_end (hs_layer d)).
  { unfold window_end. destruct W as [(-> & -> & ->)|(-> & -> & ->)]; split; (discriminate || reflexivity). }
  destruct Hw as [Hlo Hhi].
  rewrite hkSynth_times_eq, one_layer_ok in F1 by exact HP. injection F1 as F1.
  match type of Ev with _ = _ ++ (?x ++ [ESave ?f1; EShow]) => exists (x ++ [ESave f1; EShow]), x, f1 end.
  split; [exact Ev|].
  split; [apply figures_one; apply Forall_app; split; [apply plain_fig_one|apply plain_spans3]|].
  match goal with |- all_visible (?x ++ ?y) <-> _ => assert (A : all_visible (x ++ y) <-> all_visible x) end.
  { unfold all_visible. split; intros V pan lo' hi' t c1 c2; specialize (V pan lo' hi' t c1 c2);
      rewrite xlims_app, marks_app, xlims_spans3, marks_spans3, !app_nil_r in *; exact V. }
  rewrite A, visible_one, <- F1, window_one by assumption. rewrite Hhi. reflexivity.
Qed.

Theorem C99_plothkSeqSynth pyplot k path g rmneg fmt (s s' : pst RN (seqsres RN)) u bm1 bm2 (VM : R) :
  @plothkSeqSynth RN pyplot k path g rmneg fmt s = (s', Ok u) ->
  let d := ps_d s in
  ss_VpMoho d = Some VM ->
  nth_error (ss_stkSed d) (ss_bestSed d) = Some bm1 -> nth_error (ss_stkMoho d) (ss_bestMoho d) = Some bm2 ->
  (1 <= rK bm1)%R -> (1 <= rK bm2)%R -> (0 <= rH bm1)%R -> (0 <= rH bm2)%R ->
  precritical (ss_VpSed d) (ss_RayP d) -> precritical VM (ss_RayP d) ->
  exists es e1 e2 f1 f2, ps_ev s' = ps_ev s ++ es /\ figures es = [(f1, e1); (f2, e2)] /\
    (all_visible e1 <-> (t_PsPs (ss_VpSed d) (ss_RayP d) (rH bm1) (rK bm1) <= 10)%R) /\
    (all_visible e2 <-> (t2_PsPs (ss_VpSed d) (rH bm1) (rK bm1) VM (ss_RayP d) (rH bm2) (rK bm2) <= 30)%R).
Proof.
  intros E d HV Hb1 Hb2 HK1 HK2 HH1 HH2 HP1 HP2.
  destruct (plothkSeqSynth_events RN pyplot k path g rmneg fmt s s' u bm1 bm2 E Hb1 Hb2)
    as (ts1&ts2&a1&b1&c1&e1&a2&b2&c2&e2&g0&g1&G0&G1&F1&F2&T1&T2&Ev).
  fold d in F1, F2, Ev. rewrite HV in F2.
  rewrite hkSeqSynthSed_times_eq, one_layer_ok in F1 by exact HP1. injection F1 as F1.
  rewrite hkSeqSynthMoho_times_eq, two_layers_ok in F2 by assumption. injection F2 as F2.
  match type of Ev with _ = _ ++ (?x ++ [ESave ?f1; EShow] ++ ?y ++ [ESave ?f2; EShow]) =>
    exists (x ++ [ESave f1; EShow] ++ y ++ [ESave f2; EShow]), x, y, f1, f2 end.
  split; [exact Ev|]. split; [apply figures_two; apply plain_fig_one|].
  rewrite !visible_one, <- F1, <- F2. rewrite window_one, window_two by (assumption || discriminate). split; reflexivity.
Qed.

(** ** C100 - plotting again changes nothing more, even if the second call uses other
    arguments or fails half-way. *)

Lemma kept_again {N : Num} rm (t t' : list (row N)) : table_kept rm (cliprm rm t) t' -> t' = cliprm rm t.
Proof.
  intros [->|[-> F]]; [reflexivity|]. apply clipped_det in F. rewrite F. cbn [cliprm]. apply map_clip_idem.
Qed.

Theorem C100_plothkYu_again (N : Num) pyplot pyplot2 k k2 path path2 g g2 rmneg fmt fmt2 (s s1 s2 : pst N (yures N)) out2 ev :
  plothkYu pyplot k path g rmneg fmt s = (s1, Ok tt) ->
  plothkYu pyplot2 k2 path2 g2 rmneg fmt2 (mkPst ev (ps_d s1)) = (s2, out2) -> ps_d s2 = ps_d s1.
Proof.
  intros E1 E2.
  destruct (nth_error (yr_stk (ps_d s)) (yr_best (ps_d s))) as [bm|] eqn:Hb.
  2:{ unfold plothkYu in E1. step E1 d. apply pget_ok in E. destruct E as [-> ->].
      step E1 bm. pure E. apply getitem_Ok in L. congruence. }
  destruct (plothkYu_events N pyplot k path g rmneg fmt s s1 tt bm E1 Hb) as (ts&a&b&c&e&g0&g1&_&_&_&T1&_).
  apply C80_plothkYu_result in E2. cbn [ps_d] in E2. destruct E2 as (R2 & K2 & _).
  change (match rmneg with Some b => b | None => false end) with (dflt rmneg false) in K2.
  rewrite T1 in K2. apply kept_again in K2. rewrite <- T1 in K2.
  unfold yu_rest in R2. decompose [and] R2. destruct (ps_d s1), (ps_d s2). cbn in *. subst. reflexivity.
Qed.

Theorem C100_plothkSynth_again (N : Num) pyplot pyplot2 k k2 path path2 g g2 rmneg fmt fmt2 (s s1 s2 : pst N (hksres N)) out2 ev :
  plothkSynth pyplot k path g rmneg fmt s = (s1, Ok tt) ->
  plothkSynth pyplot2 k2 path2 g2 rmneg fmt2 (mkPst ev (ps_d s1)) = (s2, out2) -> ps_d s2 = ps_d s1.
Proof.
  intros E1 E2.
  destruct (nth_error (hs_stk (ps_d s)) (hs_best (ps_d s))) as [bm|] eqn:Hb.
  2:{ unfold plothkSynth in E1. step E1 d. apply pget_ok in E. destruct E as [-> ->].
      step E1 bm. pure E. apply getitem_Ok in L. congruence. }
  destruct (plothkSynth_events N pyplot k path g rmneg fmt s s1 tt bm E1 Hb) as (ts&a&b&c&e&g0&g1&lo&hi&sp&_&_&_&_&T1&_).
  apply C80_plothkSynth_result in E2. cbn [ps_d] in E2. destruct E2 as (R2 & K2 & _).
  change (match rmneg with Some b => b | None => false end) with (dflt rmneg false) in K2.
  rewrite T1 in K2. apply kept_again in K2. rewrite <- T1 in K2.
  unfold syn_rest in R2. decompose [and] R2. destruct (ps_d s1), (ps_d s2). cbn in *. subst. reflexivity.
Qed.

Lemma seqsyn_rows (N : Num) pyplot k path g rmneg fmt (s s1 : pst N (seqsres N)) u :
  plothkSeqSynth pyplot k path g rmneg fmt s = (s1, Ok u) ->
  exists bm1 bm2, nth_error (ss_stkSed (ps_d s)) (ss_bestSed (ps_d s)) = Some bm1 /\
    nth_error (ss_stkMoho (ps_d s)) (ss_bestMoho (ps_d s)) = Some bm2.
Proof.
  intro E1. unfold plothkSeqSynth in E1. step E1 d. apply pget_ok in E. destruct E as [-> ->].
  step E1 bm. pure E. apply getitem_Ok in L. exists bm.
  step E1 ts. pure E. step E1 u1. rewrite clip_in_place_eq in E. injection E as <- _.
  step E1 d2. apply pget_ok in E. destruct E as [-> ->].
  step E1 u2. step E1 u3. step E1 u4. step E1 u5. step E1 bm2. pure E4. apply getitem_Ok in L1.
  exists bm2. split; [exact L|]. rewrite <- L1. destruct (dflt rmneg false); reflexivity.
Qed.

Theorem C100_plothkSeqSynth_again (N : Num) pyplot pyplot2 k k2 path path2 g g2 rmneg fmt fmt2 (s s1 s2 : pst N (seqsres N)) out2 ev :
  plothkSeqSynth pyplot k path g rmneg fmt s = (s1, Ok tt) ->
  plothkSeqSynth pyplot2 k2 path2 g2 rmneg fmt2 (mkPst ev (ps_d s1)) = (s2, out2) -> ps_d s2 = ps_d s1.
Proof.
  intros E1 E2. destruct (seqsyn_rows _ _ _ _ _ _ _ _ _ _ E1) as (bm1 & bm2 & Hb1 & Hb2).
  destruct (plothkSeqSynth_events N pyplot k path g rmneg fmt s s1 tt bm1 bm2 E1 Hb1 Hb2)
    as (ts1&ts2&a1&b1&c1&e1&a2&b2&c2&e2&g0&g1&_&_&_&_&T1&T2&_).
  apply C80_plothkSeqSynth_result in E2. cbn [ps_d] in E2. destruct E2 as (R2 & K1 & K2 & _).
  change (match rmneg with Some b => b | None => false end) with (dflt rmneg false) in K1, K2.
  rewrite T1 in K1. apply kept_again in K1. rewrite <- T1 in K1.
  rewrite T2 in K2. apply kept_again in K2. rewrite <- T2 in K2.
  unfold seqsyn_rest in R2. decompose [and] R2. destruct (ps_d s1), (ps_d s2). cbn in *. subst. reflexivity.
Qed.

(** The headers already hold the times that would be written. *)
Lemma headers_fixed {N : Num} {D : Type} (getS : D -> stream N) (setS : D -> stream N -> D) (km1 : N) tf (d0 : D) :
  setS d0 (getS d0) = d0 ->
  (forall tr, In tr (getS d0) -> forall ts, tf (nmul km1 (tr_slow tr)) (tr_slowk tr) = Ok ts -> set_hdr tr ts = tr) ->
  safe (fun d => d = d0) (write_headers getS setS km1 tf) (fun _ => True) [].
Proof.
  intros Hid HH. unfold write_headers. eapply safe_bind_l; [apply safe_get|]. intros d ->.
  generalize (seq 0 (length (getS d0))). intro l. generalize tt at 1. induction l as [|i l IH]; intro u; cbn [forP].
  - apply safe_quiet. intro s. split; reflexivity.
  - apply safe_bind_l with (Q := fun _ => True); [|intros a _; apply IH].
    unfold header_step. eapply safe_bind_l; [apply safe_get|]. intros d ->.
    eapply safe_bind_l; [apply safe_lift|]. intros tr Htr. apply getitem_Ok in Htr.
    eapply safe_bind_l; [apply safe_lift|]. intros ts Hts.
    rewrite (HH tr (nth_error_In _ _ Htr) ts Hts).
    assert (Eu : upd (getS d0) i tr = getS d0).
    { apply list_ext. intro j. destruct (Nat.eq_dec i j) as [<-|Hj].
      - rewrite nth_error_upd_eq; [symmetry; exact Htr|]. apply nth_error_Some. congruence.
      - apply nth_error_upd_neq. exact Hj. }
    rewrite Eu, Hid. intros s Hs. cbn [fst snd pput ps_d ps_ev]. split; [reflexivity|]. exists [], [].
    split; [reflexivity|]. split; [rewrite app_nil_r; reflexivity|auto].
Qed.

Lemma seq_rows (N : Num) pyplot (km1 : N) path g rmneg fmt (s s1 : pst N (seqres N)) u :
  plotSeqhk pyplot km1 path g rmneg fmt s = (s1, Ok u) ->
  exists bm1 bm2, nth_error (sr_stkSed (ps_d s)) (sr_bestSed (ps_d s)) = Some bm1 /\
    nth_error (sr_stkMoho (ps_d s)) (sr_bestMoho (ps_d s)) = Some bm2.
Proof.
  intro E1. set (d0 := ps_d s).
  (* up to the first figure nothing touches the Moho table *)
  pose (P := fun d : seqres N => sr_stkMoho d = sr_stkMoho d0 /\ sr_bestMoho d = sr_bestMoho d0).
  unfold plotSeqhk in E1. step E1 d. apply pget_ok in E. destruct E as [-> ->]. fold d0 in E1.
  step E1 bm. pure E. apply getitem_Ok in L. exists bm. cbv zeta in E1.
  step E1 ts.
  assert (P1 : P (ps_d s0)).
  { assert (S : safe P (if sr_stack d0
        then pbind (plift (hkSeqSed_times (sr_VpSed d0) (nmul km1 (sr_AvgSlow d0)) NpF (rH bm) (rK bm))) (fun ts => pret (Some ts))
        else pbind (write_headers sr_RFSed sr_setSed km1 (fun rp k => hkSeqSed_times (sr_VpSed d0) rp k (rH bm) (rK bm))) (fun _ => pret None))
        (fun _ => True) []).
    { destruct (sr_stack d0); [apply safe_quiet; q|].
      eapply safe_bind_l; [|intros ? _; apply safe_quiet; q].
      apply safe_headers; [reflexivity|reflexivity|intros []; reflexivity|]. intros d l Hd _. exact Hd. }
    assert (I : P (ps_d s)) by (split; reflexivity).
    destruct (S s I) as [J _]. rewrite E in J. exact J. }
  step E1 u1. rewrite clip_in_place_eq in E0. injection E0 as <- _.
  step E1 d2. apply pget_ok in E0. destruct E0 as [-> ->].
  step E1 u2. step E1 u3. step E1 u4. step E1 u5. step E1 bm2. pure E5. apply getitem_Ok in L0.
  exists bm2. split; [exact L|]. rewrite <- L0. destruct P1 as [<- <-]. destruct (dflt rmneg true); reflexivity.
Qed.

(** The headers written by the first call stay as they are. *)
Lemma written_fixed {N : Num} (km1 : N) (tf : N -> fkind -> res (tval N * tval N * tval N)) (l l' : stream N) :
  Forall2 (fun tr tr' => exists ts, tf (nmul km1 (tr_slow tr)) (tr_slowk tr) = Ok ts /\ tr' = set_hdr tr ts) l l' ->
  forall tr, In tr l' -> forall ts, tf (nmul km1 (tr_slow tr)) (tr_slowk tr) = Ok ts -> set_hdr tr ts = tr.
Proof.
  intros F tr' Hin ts E. apply In_nth_error in Hin. destruct Hin as [n Hn].
  destruct (Forall2_nth_r _ _ _ _ _ F Hn) as [tr [_ [tsa [Et ->]]]].
  cbn [set_hdr tr_slow tr_slowk] in E. rewrite Et in E. injection E as <-. reflexivity.
Qed.

Theorem C100_plotSeqhk_again (N : Num) pyplot pyplot2 (km1 : N) path path2 g g2 rmneg fmt fmt2 (s s1 s2 : pst N (seqres N)) out2 ev :
  plotSeqhk pyplot km1 path g rmneg fmt s = (s1, Ok tt) ->
  plotSeqhk pyplot2 km1 path2 g2 rmneg fmt2 (mkPst ev (ps_d s1)) = (s2, out2) -> ps_d s2 = ps_d s1.
Proof.
  intros E1 E2. destruct (seq_rows _ _ _ _ _ _ _ _ _ _ E1) as (bm1 & bm2 & Hb1 & Hb2).
  assert (E1' := E1). apply C80_plotSeqhk_result in E1'. destruct E1' as (R1 & _).
  set (d := ps_d s) in *. set (d1 := ps_d s1) in *. set (rm := dflt rmneg true).
  (* what the first call left *)
  assert (W : sr_stkSed d1 = cliprm rm (sr_stkSed d) /\ sr_stkMoho d1 = cliprm rm (sr_stkMoho d) /\
    (sr_stack d = false ->
      (forall tr, In tr (sr_RFSed d1) -> forall ts, hkSeqSed_times (sr_VpSed d) (nmul km1 (tr_slow tr)) (tr_slowk tr) (rH bm1) (rK bm1) = Ok ts -> set_hdr tr ts = tr) /\
      (forall tr, In tr (sr_RFMoho d1) -> forall ts, hkSeqMoho_times (rH bm1) (rK bm1) (sr_VpSed d) (sr_VpMoho d) (nmul km1 (tr_slow tr)) (tr_slowk tr) (rH bm2) (rK bm2) = Ok ts -> set_hdr tr ts = tr))).
  { destruct (sr_stack d) eqn:Hs.
    - destruct (plotSeqhk_stacked_events N pyplot km1 path g rmneg fmt s s1 tt bm1 bm2 E1 Hs Hb1 Hb2)
        as (ts1&ts2&a1&b1&c1&e1&a2&b2&c2&e2&g0&g1&_&_&_&_&T1&T2&_). split; [exact T1|]. split; [exact T2|]. intro C; discriminate C.
    - destruct (plotSeqhk_traces_events N pyplot km1 path g rmneg fmt s s1 tt bm1 bm2 E1 Hs Hb1 Hb2)
        as (RS&RM&a1&b1&c1&e1&a2&b2&c2&e2&g0&g1&g2'&g3&r1&rl1&ts1&r2&rl2&ts2&_&_&_&_&F1&F2&_&_&_&_&_&_&T1&T2&S1&S2&_).
      split; [exact T1|]. split; [exact T2|]. intros _. fold d1 in S1, S2. fold d in F1, F2. rewrite S1, S2. split.
      + exact (written_fixed km1 (fun rp k => hkSeqSed_times (sr_VpSed d) rp k (rH bm1) (rK bm1)) _ _ F1).
      + exact (written_fixed km1 (fun rp k => hkSeqMoho_times (rH bm1) (rK bm1) (sr_VpSed d) (sr_VpMoho d) rp k (rH bm2) (rK bm2)) _ _ F2). }
  destruct W as (T1 & T2 & HD).
  assert (V : sr_VpSed d1 = sr_VpSed d /\ sr_VpMoho d1 = sr_VpMoho d /\ sr_stack d1 = sr_stack d /\ sr_bestSed d1 = sr_bestSed d /\ sr_bestMoho d1 = sr_bestMoho d).
  { unfold seq_rest in R1. decompose [and] R1. repeat split; assumption. }
  destruct V as (V1 & V2 & V3 & V4 & V5).
  assert (B1 : forall b, getitem (sr_stkSed d1) (sr_bestSed d1) = Ok b -> rH b = rH bm1 /\ rK b = rK bm1).
  { intros b Hb. apply getitem_Ok in Hb. rewrite T1, V4 in Hb. exact (cliprm_nth _ _ _ _ _ Hb1 Hb). }
  assert (B2 : forall b, getitem (sr_stkMoho d1) (sr_bestMoho d1) = Ok b -> rH b = rH bm2 /\ rK b = rK bm2).
  { intros b Hb. apply getitem_Ok in Hb. rewrite T2, V5 in Hb. exact (cliprm_nth _ _ _ _ _ Hb2 Hb). }
  assert (C1 : rm = true -> sr_setStkSed d1 (map clip_row (sr_stkSed d1)) = d1).
  { intro Hr. assert (Q : map clip_row (sr_stkSed d1) = sr_stkSed d1).
    { rewrite T1, Hr. cbn [cliprm]. apply map_clip_idem. }
    rewrite Q. destruct d1; reflexivity. }
  assert (C2 : rm = true -> sr_setStkMoho d1 (map clip_row (sr_stkMoho d1)) = d1).
  { intro Hr. assert (Q : map clip_row (sr_stkMoho d1) = sr_stkMoho d1).
    { rewrite T2, Hr. cbn [cliprm]. apply map_clip_idem. }
    rewrite Q. destruct d1; reflexivity. }
  assert (S : exists l, safe (fun x => x = d1) (plotSeqhk pyplot2 km1 path2 g2 rmneg fmt2) (fun _ => True) l).
  { eexists. unfold plotSeqhk. fold rm.
    eapply safe_bind_l; [apply safe_get|]. intros x ->.
    eapply safe_bind_l; [apply safe_lift|]. intros b Hb. destruct (B1 b Hb) as [HH1 HK1].
    eapply safe_bind_l with (Q := fun _ => True).
    { destruct (sr_stack d1) eqn:Es; [apply safe_quiet; q|].
      eapply safe_bind_l; [|intros ? _; apply safe_quiet; q].
      apply headers_fixed; [destruct d1; reflexivity|]. rewrite HH1, HK1, V1. apply HD. congruence. }
    intros ts _. eapply safe_bind_l; [apply safe_clip; intros Hr x ->; exact (C1 Hr)|]. intros _ _.
    eapply safe_bind_l; [apply safe_get|]. intros x ->.
    eapply safe_bind_l; [apply safe_quiet; q|]. intros _ _.
    eapply safe_bind_l; [apply safe_quiet; destruct (sr_stack d1); q|]. intros _ _.
    eapply (safe_bind _ _ _ _ _ [_] [_]); [apply safe_save|]. intros _ _.
    sq. eapply safe_bind_l; [apply safe_lift|]. intros b' Hb'. destruct (B2 b' Hb') as [HH2 HK2].
    eapply safe_bind_l with (Q := fun _ => True).
    { destruct (sr_stack d1) eqn:Es; [apply safe_quiet; q|].
      eapply safe_bind_l; [|intros ? _; apply safe_quiet; q].
      apply headers_fixed; [destruct d1; reflexivity|]. rewrite HH1, HK1, HH2, HK2, V1, V2. apply HD. congruence. }
    intros ts2 _. eapply safe_bind_l; [apply safe_clip; intros Hr x ->; exact (C2 Hr)|]. intros _ _.
    eapply safe_bind_l; [apply safe_get|]. intros x ->.
    eapply safe_bind_l; [apply safe_quiet; q|]. intros _ _.
    eapply safe_bind_l; [apply safe_quiet; destruct (sr_stack d1); q|]. intros _ _.
    eapply (safe_bind _ _ _ _ _ [_] []); [apply safe_save|]. intros _ _.
    apply safe_quiet. q. }
  destruct S as [l S]. destruct (S (mkPst ev d1) eq_refl) as [J _]. rewrite E2 in J. exact J.
Qed.

(** ** C99: which models are visible, and a refutation within the documented grid
    (H 20..60 km, Vp/Vs 1.65..1.95, Vp 6.9 km/s, ray parameter 0.06 s/km: hkZhu.py:106-107,
    SynthAnalysis.py:127-128). *)

Local Open Scope R_scope.
Lemma qs_le V K p : (0 < V)%R -> (0 <= K)%R -> (qs V K p <= K / V)%R.
Proof.
  intros HV HK. assert (0 <= K / V)%R by (apply Rmult_le_pos; [exact HK|]; left; apply Rinv_0_lt_compat; exact HV).
  unfold qs. replace (K / V)%R with (sqrt ((K / V) ^ 2)) at 2.
  - apply sqrt_le_1_alt. assert (0 <= p ^ 2)%R by apply pow2_ge_0. lra.
  - replace ((K / V) ^ 2)%R with ((K / V) * (K / V))%R by ring. apply sqrt_square. assumption.
Qed.
(** Enough for a crust: H * (Vp/Vs) / Vp at most 15 s, e.g. 50 km with 1.95 and 6.5 km/s. *)
Theorem C99_shallow V p H K : (0 < V)%R -> (0 <= K)%R -> (0 <= H)%R -> (H * (K / V) <= 15)%R -> (t_PsPs V p H K <= 30)%R.
Proof.
  intros HV HK HH L. unfold t_PsPs. assert (Q := qs_le V K p HV HK).
  assert ((H * qs V K p <= H * (K / V))%R) by (apply Rmult_le_compat_l; assumption). lra.
Qed.

Definition deep_result : hksres RN :=
  @mkHksRes RN [0; 1]%R [0; 1]%R 1 (69 / 10)%R [@mkRow RN 20 (165 / 100) 1; @mkRow RN 60 (195 / 100) 2]%R "Moho" (6 / 100)%R
    [20; 60]%R [165 / 100; 195 / 100]%R.

Lemma deep_precritical : precritical (69 / 10) (6 / 100).
Proof. split; lra. Qed.
Lemma deep_late : (30 < t_PsPs (69 / 10) (6 / 100) 60 (195 / 100))%R.
Proof.
  unfold t_PsPs. assert ((1 / 4 < qs (69 / 10) (195 / 100) (6 / 100))%R); [|lra].
  unfold qs. replace (1 / 4)%R with (sqrt ((1 / 4) * (1 / 4))) by (apply sqrt_square; lra).
  apply sqrt_lt_1_alt. lra.
Qed.
Lemma deep_run : exists s', @plothkSynth RN (fun _ _ => None) PyF "out" None None None (mkPst [] deep_result) = (s', Ok tt).
Proof.
  unfold plothkSynth.
  rewrite (pbind_step _ _ _ (mkPst [] deep_result) deep_result) by reflexivity.
  rewrite (pbind_step _ _ _ (mkPst [] deep_result) (@mkRow RN 60 (195 / 100) 2)%R) by reflexivity.
  cbv zeta. cbn [rH rK deep_result hs_Vp hs_rayp].
  assert (F := one_layer_ok (69 / 10) 60 (195 / 100) (6 / 100) PyF deep_precritical).
  rewrite <- hkSynth_times_eq in F.
  rewrite (pbind_step _ _ _ (mkPst [] deep_result) (one_layer (69 / 10) 60 (195 / 100) (6 / 100))) by (unfold plift; rewrite F; reflexivity).
  eexists. reflexivity.
Qed.

Theorem C99_refuted :
  exists (s s' : pst RN (hksres RN)) f e (bm : row RN),
    @plothkSynth RN (fun _ _ => None) PyF "out" None None None s = (s', Ok tt) /\
    nth_error (hs_stk (ps_d s)) (hs_best (ps_d s)) = Some bm /\ hs_layer (ps_d s) = "Moho"%string /\
    (20 <= rH bm <= 60)%R /\ (165 / 100 <= rK bm <= 195 / 100)%R /\
    hs_Vp (ps_d s) = (69 / 10)%R /\ hs_rayp (ps_d s) = (6 / 100)%R /\
    figures (ps_ev s') = [(f, e)] /\ ~ all_visible e.
Proof.
  destruct deep_run as [s' E].
  destruct (C99_plothkSynth _ _ _ _ _ _ _ _ _ (@mkRow RN 60 (195 / 100) 2)%R E) as (_ & es & e & f & Ev & Fig & V);
    [reflexivity|cbn; lra|cbn; lra|exact deep_precritical|].
  cbn [ps_ev app] in Ev. subst es.
  exists (mkPst [] deep_result), s', f, e, (@mkRow RN 60 (195 / 100) 2)%R.
  do 3 (split; [assumption || reflexivity|]). split; [cbn; lra|]. split; [cbn; lra|].
  do 2 (split; [reflexivity|]). split; [exact Fig|]. rewrite V. assert (D := deep_late). unfold window_end. cbn -[Rle t_PsPs]. 
  cbn [deep_result ps_d hs_Vp hs_rayp rH rK]. lra.
Qed.
(** The same call with a best model of 35 km and Vp/Vs 1.75: all marks are inside. *)
Theorem C99_example :
  exists (s s' : pst RN (hksres RN)) f e,
    @plothkSynth RN (fun _ _ => None) PyF "out" None None None s = (s', Ok tt) /\ figures (ps_ev s') = [(f, e)] /\ all_visible e.
Proof.
  pose (r := @mkHksRes RN [0; 1]%R [0; 1]%R 0 (69 / 10)%R [@mkRow RN 35 (175 / 100) 1]%R "Moho" (6 / 100)%R [35]%R [175 / 100]%R).
  assert (E : exists s', @plothkSynth RN (fun _ _ => None) PyF "out" None None None (mkPst [] r) = (s', Ok tt)).
  { unfold plothkSynth.
    rewrite (pbind_step _ _ _ (mkPst [] r) r) by reflexivity.
    rewrite (pbind_step _ _ _ (mkPst [] r) (@mkRow RN 35 (175 / 100) 1)%R) by reflexivity.
    cbv zeta. cbn [rH rK r hs_Vp hs_rayp].
    assert (F := one_layer_ok (69 / 10) 35 (175 / 100) (6 / 100) PyF deep_precritical).
    rewrite <- hkSynth_times_eq in F.
    rewrite (pbind_step _ _ _ (mkPst [] r) (one_layer (69 / 10) 35 (175 / 100) (6 / 100))) by (unfold plift; rewrite F; reflexivity).
    eexists. reflexivity. }
  destruct E as [s' E].
  destruct (C99_plothkSynth _ _ _ _ _ _ _ _ _ (@mkRow RN 35 (175 / 100) 1)%R E) as (_ & es & e & f & Ev & Fig & V);
    [reflexivity|cbn; lra|cbn; lra|exact deep_precritical|].
  cbn [ps_ev app] in Ev. subst es. exists (mkPst [] r), s', f, e. split; [exact E|]. split; [exact Fig|]. apply V.
  apply (C99_shallow (69 / 10) (6 / 100) 35 (175 / 100)); lra.
Qed.
