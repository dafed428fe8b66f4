(** * P_Plot4: what the figures of plotSeqhk, plothkYu, plothkSynth and plothkSeqSynth show (C81).
    Exact arithmetic. *)

From Coq Require Import Reals Lra Ascii Floats.SpecFloat.
From Verif Require Import Base Num NumPy Spec HkModel HkProofs HkReal P_Hk4 PlotModel PlotProofs PlotProofs2 PlotProofs3 P_Plot P_Plot2 PlotProofs4 P_Plot3.

(** ** Vocabulary *)

(** Three times. *)
Definition times3 (a b c : R) : tval RN * tval RN * tval RN := (@TR RN a, @TR RN b, @TR RN c).
(** One-layer and two-layer arrival times of a ray parameter. *)
Definition one_layer (V H K p : R) := times3 (t_Ps V p H K) (t_PpPs V p H K) (t_PsPs V p H K).
Definition two_layers (V1 H1 K1 V2 H2 K2 p : R) :=
  times3 (t2_Ps V1 H1 K1 V2 p H2 K2) (t2_PpPs V1 H1 K1 V2 p H2 K2) (t2_PsPs V1 H1 K1 V2 p H2 K2).
(** Three vertical strokes from [c+g] to [c-g] at these times. *)
Definition strokes (c g : R) (ts : tval RN * tval RN * tval RN) : list (tval RN * R * R) :=
  let '(a, b, d) := ts in [(a, c + g, c - g); (b, c + g, c - g); (d, c + g, c - g)]%R.
(** Three highlighted spans of half-width [w]. *)
Definition highlights (w : R) (ts : tval RN * tval RN * tval RN) : list (tval RN * tval RN) :=
  match ts with (TR a, TR b, TR c) => [(@TR RN (a - w), @TR RN (a + w)); (@TR RN (b - w), @TR RN (b + w)); (@TR RN (c - w), @TR RN (c + w))]%R
           | _ => [] end.
(** The curve of a trace: its own times against its amplitudes times [gain], lifted to [c]. *)
Definition trace_curve (gain c : R) (tr : trace RN) : list R * list R :=
  (map (fun i => IZR (Z.of_nat i) * tr_delta tr + tr_b tr)%R (seq 0 (length (tr_data tr))),
   map (fun x => x * gain + c)%R (tr_data tr)).
Definition lifted (gain c : R) (l : list R) : list R := map (fun x => x * gain + c)%R l.

(** The content of a figure. *)
Definition figure_shows (e : list (pev RN)) (tbl : list (row RN)) (best : R * R)
    (marks2 marks3 : list (tval RN * R * R)) (curves2 curves3 : list (list R * list R))
    (spans2 spans3 : list (tval RN * tval RN)) : Prop :=
  contours e = [tbl] /\ bests e = [best] /\
  marks 2 e = marks2 /\ marks 3 e = marks3 /\
  curves 2 e = curves2 /\ curves 3 e = curves3 /\ spans 2 e = spans2 /\ spans 3 e = spans3.

(** ** Lemmas *)

Lemma strokes_eq c g ts : @mark3 RN c g ts = strokes c g ts.
Proof. destruct ts as [[a b] d]. reflexivity. Qed.

Definition headers_of (f : R -> tval RN * tval RN * tval RN) (km1 : R) (st st' : stream RN) : Prop :=
  Forall2 (fun tr tr' => tr' = set_hdr tr (f (km1 * tr_slow tr)%R)) st st'.

Lemma headers_marks f km1 st st' pan g0 g1 centre : headers_of f km1 st st' ->
  (forall tr ts, centre (set_hdr tr ts) = centre tr) ->
  flat_map (@obs_trace RN pan g0 g1 centre) st' = flat_map (fun tr => strokes (centre tr) g1 (f (km1 * tr_slow tr)%R)) st.
Proof.
  intros F Hc. induction F as [|tr tr' l l' -> F IH]; [reflexivity|]. cbn [flat_map]. rewrite IH. f_equal.
  unfold obs_trace. cbn [set_hdr tr_hdr]. rewrite strokes_eq. f_equal. apply Hc.
Qed.
Lemma headers_curves f km1 st st' g0 centre : headers_of f km1 st st' ->
  (forall tr ts, centre (set_hdr tr ts) = centre tr) ->
  map (fun rf : trace RN => (own_axis rf, scaled (tr_data rf) g0 (centre rf))) st'
  = map (fun tr => trace_curve g0 (centre tr) tr) st.
Proof.
  intros F Hc. induction F as [|tr tr' l l' -> F IH]; [reflexivity|]. cbn [map]. rewrite IH, Hc. reflexivity.
Qed.
Lemma headers_last f km1 st st' rest rl tsl : headers_of f km1 st st' -> st' = rest ++ [rl] -> tr_hdr rl = Some tsl ->
  exists init tr, st = init ++ [tr] /\ tsl = f (km1 * tr_slow tr)%R.
Proof.
  intros F -> Hl. apply Forall2_app_inv_r in F. destruct F as (a & b & _ & Fb & ->).
  inversion Fb as [|tr y l l' Etr Fl]; subst. inversion Fl; subst.
  exists a, tr. split; [reflexivity|]. cbn [set_hdr tr_hdr] in Hl. injection Hl as <-. reflexivity.
Qed.
Lemma written_headers (f : R -> tval RN * tval RN * tval RN) (tf : R -> fkind -> res (tval RN * tval RN * tval RN)) (km1 : R) (st st' : stream RN) :
  (forall tr, In tr st -> tf (km1 * tr_slow tr)%R (tr_slowk tr) = Ok (f (km1 * tr_slow tr)%R)) ->
  Forall2 (fun tr tr' => exists ts, tf (@nmul RN km1 (tr_slow tr)) (tr_slowk tr) = Ok ts /\ tr' = set_hdr tr ts) st st' ->
  headers_of f km1 st st'.
Proof.
  intros H F. unfold headers_of. induction F as [|tr tr' l l' [ts [E ->]] F IH]; constructor.
  - change (@nmul RN km1 (tr_slow tr)) with (km1 * tr_slow tr)%R in E. rewrite H in E by (left; reflexivity).
    injection E as <-. reflexivity.
  - apply IH. intros t Ht. apply H. right. exact Ht.
Qed.
Lemma highlights_eq w a b c : @span3 RN w (times3 a b c) = highlights w (times3 a b c).
Proof. reflexivity. Qed.

Tactic Notation "step" hyp(E) ident(x) := apply pbind_ok in E; let s := fresh "s" in let E' := fresh "E" in
  destruct E as [s [x [E' E]]].
Ltac pure E := apply plift_ok in E; let H := fresh "L" in destruct E as [-> H].

(** plotSeqhk, one curve per trace: all events. *)
Lemma plotSeqhk_traces_events (N : Num) pyplot (km1 : N) path g rmneg fmt (s s' : pst N (seqres N)) u bm1 bm2 :
  plotSeqhk pyplot km1 path g rmneg fmt s = (s', Ok u) ->
  let d := ps_d s in
  sr_stack d = false ->
  nth_error (sr_stkSed d) (sr_bestSed d) = Some bm1 -> nth_error (sr_stkMoho d) (sr_bestMoho d) = Some bm2 ->
  let rm := dflt rmneg true in
  exists RS RM a1 b1 c1 e1 a2 b2 c2 e2 g0 g1 g2 g3 r1 rl1 ts1 r2 rl2 ts2,
    let gl := dflt g g_default in
    nth_error gl 0 = Some g0 /\ nth_error gl 1 = Some g1 /\ nth_error gl 2 = Some g2 /\ nth_error gl 3 = Some g3 /\
    Forall2 (fun tr tr' => exists ts, hkSeqSed_times (sr_VpSed d) (nmul km1 (tr_slow tr)) (tr_slowk tr) (rH bm1) (rK bm1) = Ok ts /\ tr' = set_hdr tr ts) (sr_RFSed d) RS /\
    Forall2 (fun tr tr' => exists ts, hkSeqMoho_times (rH bm1) (rK bm1) (sr_VpSed d) (sr_VpMoho d) (nmul km1 (tr_slow tr)) (tr_slowk tr) (rH bm2) (rK bm2) = Ok ts /\ tr' = set_hdr tr ts) (sr_RFMoho d) RM /\
    RS = r1 ++ [rl1] /\ tr_hdr rl1 = Some ts1 /\ (forall rf, In rf RS -> tr_hdr rf <> None) /\
    RM = r2 ++ [rl2] /\ tr_hdr rl2 = Some ts2 /\ (forall rf, In rf RM -> tr_hdr rf <> None) /\
    sr_stkSed (ps_d s') = cliprm rm (sr_stkSed d) /\ sr_stkMoho (ps_d s') = cliprm rm (sr_stkMoho d) /\
    sr_RFSed (ps_d s') = RS /\ sr_RFMoho (ps_d s') = RM /\
    ps_ev s' = ps_ev s ++
      (ev_fig_traces (cliprm rm (sr_stkSed d)) (rH bm1) (rK bm1) a1 b1 c1 e1 (-1) 10 (nlit 1 10) g0 g1 g2 g3 RS ts1 ++
       [ESave (fname4 path (sr_staname d) (sr_comp d) "Sediment" (dflt fmt "pdf"%string)); EShow] ++
       ev_fig_traces (cliprm rm (sr_stkMoho d)) (rH bm2) (rK bm2) a2 b2 c2 e2 (-5) 30 (nlit 5 10) g0 g1 g2 g3 RM ts2 ++
       [ESave (fname4 path (sr_staname d) (sr_comp d) "Moho" (dflt fmt "pdf"%string)); EShow]).
Proof.
  intros E d Hs Hb1 Hb2 rm. unfold plotSeqhk in E. fold rm in E.
  step E d1. apply pget_ok in E0. destruct E0 as [-> ->]. fold d in E.
  step E bm1'. pure E0. apply getitem_Ok in L. rewrite Hb1 in L. injection L as <-. cbv zeta in E.
  rewrite Hs in E. step E ts.
  step E0 u1. apply pret_ok in E0. destruct E0 as [-> ->].
  destruct (write_headers_spec sr_RFSed sr_setSed (fun _ _ => eq_refl) (fun _ _ _ => eq_refl)
     (fun x => match x with mkSeqRes _ _ _ _ _ _ _ _ _ _ _ _ _ _ _ _ _ _ _ => eq_refl end)
     km1 (fun rp k => hkSeqSed_times (sr_VpSed d) rp k (rH bm1) (rK bm1)) s) as [RS [_ [W1 W2]]].
  rewrite E1 in W1, W2. cbn [fst snd] in W1, W2. specialize (W2 u1 eq_refl). fold d in W1, W2. subst s1. clear E1.
  set (d2 := sr_setStkSed (sr_setSed d RS) (cliprm rm (sr_stkSed d))).
  step E u2. assert (Ed2 : s0 = mkPst (ps_ev s) d2).
  { rewrite clip_in_place_eq in E0. injection E0 as <- _. unfold d2, cliprm. clear. destruct rm, d; reflexivity. }
  subst s0. clear E0.
  step E d2'. apply pget_ok in E0. destruct E0 as [-> ->]. cbn [ps_d ps_ev] in E.
  step E u3. step E u4.
  assert (S2 : sr_stack d2 = false) by exact Hs. rewrite S2 in E1, E.
  assert (Hbm : exists bm, nth_error (sr_stkSed d2) (sr_bestSed d2) = Some bm /\ rH bm = rH bm1 /\ rK bm = rK bm1).
  { unfold d2. cbn [sr_setStkSed sr_stkSed sr_bestSed sr_setSed].
    destruct (nth_error (cliprm rm (sr_stkSed d)) (sr_bestSed d)) as [bm|] eqn:Eb.
    - exists bm. split; [reflexivity|]. exact (cliprm_nth _ _ _ _ _ Hb1 Eb).
    - exfalso. apply nth_error_None in Eb. assert (H : nth_error (sr_stkSed d) (sr_bestSed d) <> None) by congruence.
      apply nth_error_Some in H. unfold cliprm in Eb. destruct rm; [rewrite map_length in Eb|]; lia. }
  destruct Hbm as (bm & Hbm & HbH & HbK).
  match type of E0 with panel1 _ _ _ _ _ ?sa = _ => match type of E1 with _ = (?sb, _) =>
  assert (Ef : pbind (panel1 pyplot (sr_stkSed d2) (sr_bestSed d2) (sr_HSed d2) (sr_KSed d2)) (fun _ => pbind (panel_stream pyplot 2 (sr_RFSed d2) (dflt g g_default) 0 tr_baz
              (Some ((-1)%Z, 10%Z, nlit 1 10))) (fun _ : unit => panel_stream pyplot 3 (sr_RFSed d2) (dflt g g_default) 2 tr_dist
              (Some ((-1)%Z, 10%Z, nlit 1 10)))) sa = (sb, Ok tt)) end end.
  { rewrite (pbind_step _ _ _ _ _ E0). rewrite E1. f_equal. f_equal. match goal with |- ?x = tt => destruct x; reflexivity end. }
  clear E0 E1.
  apply (fig_traces_ok pyplot _ _ _ _ _ _ _ _ _ _ _ _ _ Hbm) in Ef.
  destruct Ef as (a1&b1&c1&e1&g0&g1&g2&g3&r1&rl1&ts1&_&_&_&_&G0&G1&G2&G3&Hst1&Hl1&Hh1&Es1).
  rewrite HbH, HbK in Es1. cbn [ps_ev ps_d] in Es1. clear bm Hbm HbH HbK.
  step E u5. apply emit_ok in E0. step E u6. apply emit_ok in E1.
  step E bm2'. pure E2. apply getitem_Ok in L. change (nth_error (sr_stkMoho d) (sr_bestMoho d) = Some bm2') in L.
  rewrite Hb2 in L. injection L as <-. cbv zeta in E.
  step E ts'. step E2 u7. apply pret_ok in E2. destruct E2 as [-> ->].
  rewrite E1, E0, Es1 in E3. clear E1 E0. cbn [ps_ev ps_d] in E3.
  match type of E3 with write_headers _ _ _ _ ?st = _ => set (sx := st) in * end.
  destruct (write_headers_spec sr_RFMoho sr_setMoho (fun _ _ => eq_refl) (fun _ _ _ => eq_refl)
     (fun x => match x with mkSeqRes _ _ _ _ _ _ _ _ _ _ _ _ _ _ _ _ _ _ _ => eq_refl end)
     km1 (fun rp k => hkSeqMoho_times (rH bm1) (rK bm1) (sr_VpSed d2) (sr_VpMoho d2) rp k (rH bm2) (rK bm2)) sx) as [RM [_ [V1 V2]]].
  rewrite E3 in V1, V2. cbn [fst snd] in V1, V2. specialize (V2 u7 eq_refl). clear E3.
  match type of V1 with ?x = _ => subst x end.
  set (d3 := sr_setStkMoho (sr_setMoho d2 RM) (cliprm rm (sr_stkMoho d))).
  step E u8. match type of E0 with _ = (?st, _) => assert (Ed3 : st = mkPst (ps_ev sx) d3) end.
  { rewrite clip_in_place_eq in E0. injection E0 as <- _. change (ps_d sx) with d2. unfold d3, d2, cliprm. clear. destruct rm, d; reflexivity. }
  match type of E0 with _ = (?st, _) => subst st end. clear E0.
  step E d3'. apply pget_ok in E0. destruct E0 as [-> ->]. cbn [ps_d ps_ev] in E.
  step E u9. step E u10.
  assert (S3 : sr_stack d3 = false) by exact Hs. rewrite S3 in E1.
  assert (Hbm : exists bm, nth_error (sr_stkMoho d3) (sr_bestMoho d3) = Some bm /\ rH bm = rH bm2 /\ rK bm = rK bm2).
  { unfold d3, d2. cbn [sr_setStkMoho sr_stkMoho sr_bestMoho sr_setMoho sr_setStkSed sr_setSed].
    destruct (nth_error (cliprm rm (sr_stkMoho d)) (sr_bestMoho d)) as [bm|] eqn:Eb.
    - exists bm. split; [reflexivity|]. exact (cliprm_nth _ _ _ _ _ Hb2 Eb).
    - exfalso. apply nth_error_None in Eb. assert (H : nth_error (sr_stkMoho d) (sr_bestMoho d) <> None) by congruence.
      apply nth_error_Some in H. unfold cliprm in Eb. destruct rm; [rewrite map_length in Eb|]; lia. }
  destruct Hbm as (bm & Hbm & HbH & HbK).
  match type of E0 with panel1 _ _ _ _ _ ?sa = _ => match type of E1 with _ = (?sb, _) =>
  assert (Ef : pbind (panel1 pyplot (sr_stkMoho d3) (sr_bestMoho d3) (sr_HMoho d3) (sr_KMoho d3)) (fun _ => pbind (panel_stream pyplot 2 (sr_RFMoho d3) (dflt g g_default) 0 tr_baz
              (Some ((-5)%Z, 30%Z, nlit 5 10))) (fun _ : unit => panel_stream pyplot 3 (sr_RFMoho d3) (dflt g g_default) 2 tr_dist
              (Some ((-5)%Z, 30%Z, nlit 5 10)))) sa = (sb, Ok tt)) end end.
  { rewrite (pbind_step _ _ _ _ _ E0). rewrite E1. f_equal. f_equal. match goal with |- ?x = tt => destruct x; reflexivity end. }
  clear E0 E1.
  apply (fig_traces_ok pyplot _ _ _ _ _ _ _ _ _ _ _ _ _ Hbm) in Ef.
  destruct Ef as (a2&b2&c2&e2&g0'&g1'&g2'&g3'&r2&rl2&ts2&_&_&_&_&G0'&G1'&G2'&G3'&Hst2&Hl2&Hh2&Es2).
  rewrite HbH, HbK in Es2. cbn [ps_ev ps_d] in Es2.
  rewrite G0 in G0'. injection G0' as <-. rewrite G1 in G1'. injection G1' as <-.
  rewrite G2 in G2'. injection G2' as <-. rewrite G3 in G3'. injection G3' as <-.
  step E u11. apply emit_ok in E0. apply emit_ok in E. 
  exists RS, RM, a1, b1, c1, e1, a2, b2, c2, e2, g0, g1, g2, g3, r1, rl1, ts1, r2, rl2, ts2.
  cbv zeta. repeat (split; [assumption|]).
  rewrite E, E0, Es2. cbn [ps_ev ps_d]. do 4 (split; [reflexivity|]).
  unfold sx. cbn [ps_ev]. rewrite <- !app_assoc. reflexivity.
Qed.

Lemma cliprm_row {N : Num} rm (t : list (row N)) i bm1 : nth_error t i = Some bm1 ->
  exists bm, nth_error (cliprm rm t) i = Some bm /\ rH bm = rH bm1 /\ rK bm = rK bm1.
Proof.
  intro Hb. destruct (nth_error (cliprm rm t) i) as [bm|] eqn:Eb.
  - exists bm. split; [reflexivity|]. exact (cliprm_nth _ _ _ _ _ Hb Eb).
  - exfalso. apply nth_error_None in Eb. assert (H : nth_error t i <> None) by congruence.
    apply nth_error_Some in H. unfold cliprm in Eb. destruct rm; [rewrite map_length in Eb|]; lia.
Qed.

(** The two steps "first panel", "single curve" of a successful run. *)
Lemma two_panels_ok {N : Num} pyplot {D} stk ib H K data t g f lo hi sp ts (s s1 s2 : pst N D) u1 u2 bm :
  nth_error stk ib = Some bm ->
  panel1 pyplot stk ib H K s = (s1, Ok u1) ->
  panel_one pyplot data t g f (Some (lo, hi, sp)) ts s1 = (s2, Ok u2) ->
  exists hlo hhi klo khi g0 g1,
    nth_error g 0 = Some g0 /\ nth_error g 1 = Some g1 /\
    s2 = mkPst (ps_ev s ++ ev_fig_one stk (rH bm) (rK bm) hlo hhi klo khi lo hi (f g0) g1 t data ts) (ps_d s).
Proof.
  intros Hb E0 E1.
  assert (Ef : pbind (panel1 pyplot stk ib H K) (fun _ => panel_one pyplot data t g f (Some (lo, hi, sp)) ts) s = (s2, Ok u2)).
  { rewrite (pbind_step _ _ _ _ _ E0). exact E1. }
  apply (fig_one_ok pyplot _ _ _ _ _ _ _ _ _ _ _ _ _ _ _ _ Hb) in Ef.
  destruct Ef as (a&b&c&e&g0&g1&_&_&_&_&G0&G1&Es). exists a, b, c, e, g0, g1. auto.
Qed.

Lemma plothkYu_events (N : Num) pyplot k path g rmneg fmt (s s' : pst N (yures N)) u bm :
  plothkYu pyplot k path g rmneg fmt s = (s', Ok u) ->
  let d := ps_d s in
  nth_error (yr_stk d) (yr_best d) = Some bm ->
  let rm := dflt rmneg false in
  exists ts a b c e g0 g1,
    nth_error (dflt g g_default) 0 = Some g0 /\ nth_error (dflt g g_default) 1 = Some g1 /\
    hkYu_times (yr_VpMoho d) (yr_rayp d) k (yr_tlag d) (yr_Pdelay d) (rH bm) (rK bm) = Ok ts /\
    yr_stk (ps_d s') = cliprm rm (yr_stk d) /\
    ps_ev s' = ps_ev s ++
      (ev_fig_one (cliprm rm (yr_stk d)) (rH bm) (rK bm) a b c e (-5) 30 g0 g1 (yr_time d) (yr_FltRF d) ts ++
       [ESave (fname3 path "FilteredRF_HKYu" "SubSediment" (dflt fmt "pdf"%string)); EShow]).
Proof.
  intros E d Hb rm. unfold plothkYu in E. fold rm in E.
  step E d1. apply pget_ok in E0. destruct E0 as [-> ->]. fold d in E.
  step E bm1'. pure E0. apply getitem_Ok in L. rewrite Hb in L. injection L as <-.
  step E ts. pure E0.
  set (d2 := yr_setStk d (cliprm rm (yr_stk d))).
  step E u2. assert (Ed2 : s0 = mkPst (ps_ev s) d2).
  { rewrite clip_in_place_eq in E0. injection E0 as <- _. unfold d2, d, cliprm. clear. destruct rm; [reflexivity|]. destruct s as [ev []]; reflexivity. }
  subst s0. clear E0.
  step E d2'. apply pget_ok in E0. destruct E0 as [-> ->]. cbn [ps_d ps_ev] in E.
  step E u3. step E u4. destruct (cliprm_row rm _ _ _ Hb) as (bm' & Hb' & HH & HK).
  destruct (two_panels_ok _ _ _ _ _ _ _ _ _ _ _ _ _ _ _ _ _ _ bm' Hb' E0 E1) as (a&b&c&e&g0&g1&G0&G1&Es).
  rewrite HH, HK in Es. cbn [ps_ev ps_d] in Es.
  step E u5. apply emit_ok in E2. apply emit_ok in E.
  exists ts, a, b, c, e, g0, g1. repeat (split; [assumption|]).
  rewrite E, E2, Es. cbn [ps_ev ps_d]. split; [reflexivity|]. rewrite <- !app_assoc. reflexivity.
Qed.

Lemma plothkSynth_events (N : Num) pyplot k path g rmneg fmt (s s' : pst N (hksres N)) u bm :
  plothkSynth pyplot k path g rmneg fmt s = (s', Ok u) ->
  let d := ps_d s in
  nth_error (hs_stk d) (hs_best d) = Some bm ->
  let rm := dflt rmneg false in
  exists ts a b c e g0 g1 lo hi sp,
    nth_error (dflt g g_default) 0 = Some g0 /\ nth_error (dflt g g_default) 1 = Some g1 /\
    hkSynth_times (hs_Vp d) (hs_rayp d) k (rH bm) (rK bm) = Ok ts /\
    layer_window (hs_layer d) = Some (lo, hi, sp) /\
    hs_stk (ps_d s') = cliprm rm (hs_stk d) /\
    ps_ev s' = ps_ev s ++
      ((ev_fig_one (cliprm rm (hs_stk d)) (rH bm) (rK bm) a b c e lo hi g0 g1 (hs_time d) (hs_RF d) ts ++ ev_spans3 2 ts sp) ++
       [ESave (fname3 path "SynthRF" (hs_layer d) (dflt fmt "pdf"%string)); EShow]).
Proof.
  intros E d Hb rm. unfold plothkSynth in E. fold rm in E.
  step E d1. apply pget_ok in E0. destruct E0 as [-> ->]. fold d in E.
  step E bm1'. pure E0. apply getitem_Ok in L. rewrite Hb in L. injection L as <-.
  step E ts. pure E0.
  set (d2 := hs_setStk d (cliprm rm (hs_stk d))).
  step E u2. assert (Ed2 : s0 = mkPst (ps_ev s) d2).
  { rewrite clip_in_place_eq in E0. injection E0 as <- _. unfold d2, d, cliprm. clear. destruct rm; [reflexivity|]. destruct s as [ev []]; reflexivity. }
  subst s0. clear E0.
  step E d2'. apply pget_ok in E0. destruct E0 as [-> ->]. cbn [ps_d ps_ev] in E.
  step E u3. step E u4. destruct (cliprm_row rm _ _ _ Hb) as (bm' & Hb' & HH & HK).
  step E w. pure E2. destruct (layer_window (hs_layer d)) as [w'|] eqn:Ew; [|discriminate L0].
  injection L0 as <-. destruct w' as [[lo hi] sp].
  destruct (two_panels_ok _ _ _ _ _ _ _ _ _ _ _ _ _ _ _ _ _ _ bm' Hb' E0 E1) as (a&b&c&e&g0&g1&G0&G1&Es).
  rewrite HH, HK in Es. cbn [ps_ev ps_d] in Es.
  step E u5. apply emits_spans3 in E2.
  step E u6. apply emit_ok in E3. apply emit_ok in E.
  exists ts, a, b, c, e, g0, g1, lo, hi, sp. repeat (split; [assumption || reflexivity|]).
  rewrite E, E3, E2, Es. cbn [ps_ev ps_d]. split; [reflexivity|]. rewrite <- !app_assoc. reflexivity.
Qed.

Lemma plothkSeqSynth_events (N : Num) pyplot k path g rmneg fmt (s s' : pst N (seqsres N)) u bm1 bm2 :
  plothkSeqSynth pyplot k path g rmneg fmt s = (s', Ok u) ->
  let d := ps_d s in
  nth_error (ss_stkSed d) (ss_bestSed d) = Some bm1 -> nth_error (ss_stkMoho d) (ss_bestMoho d) = Some bm2 ->
  let rm := dflt rmneg false in
  exists ts1 ts2 a1 b1 c1 e1 a2 b2 c2 e2 g0 g1,
    nth_error (dflt g g_default) 0 = Some g0 /\ nth_error (dflt g g_default) 1 = Some g1 /\
    hkSeqSynthSed_times (ss_VpSed d) (ss_RayP d) k (rH bm1) (rK bm1) = Ok ts1 /\
    hkSeqSynthMoho_times (rH bm1) (rK bm1) (ss_VpSed d) (ss_VpMoho d) (ss_RayP d) k (rH bm2) (rK bm2) = Ok ts2 /\
    ss_stkSed (ps_d s') = cliprm rm (ss_stkSed d) /\ ss_stkMoho (ps_d s') = cliprm rm (ss_stkMoho d) /\
    ps_ev s' = ps_ev s ++
      (ev_fig_one (cliprm rm (ss_stkSed d)) (rH bm1) (rK bm1) a1 b1 c1 e1 (-1) 10 (ndiv g0 (nofZ 2)) g1 (ss_time d) (ss_RFSed d) ts1 ++
       [ESave (fname3 path "SynthRF_SeqHK" "Sediment" (dflt fmt "pdf"%string)); EShow] ++
       ev_fig_one (cliprm rm (ss_stkMoho d)) (rH bm2) (rK bm2) a2 b2 c2 e2 (-5) 30 g0 g1 (ss_time d) (ss_RFMoho d) ts2 ++
       [ESave (fname3 path "SynthRF_SeqHK" "Moho" (dflt fmt "pdf"%string)); EShow]).
Proof.
  intros E d Hb1 Hb2 rm. unfold plothkSeqSynth in E. fold rm in E.
  step E d1. apply pget_ok in E0. destruct E0 as [-> ->]. fold d in E.
  step E bm1'. pure E0. apply getitem_Ok in L. rewrite Hb1 in L. injection L as <-.
  step E ts1. pure E0.
  set (d2 := ss_setStkSed d (cliprm rm (ss_stkSed d))).
  step E u2. assert (Ed2 : s0 = mkPst (ps_ev s) d2).
  { rewrite clip_in_place_eq in E0. injection E0 as <- _. unfold d2, d, cliprm. clear. destruct rm; [reflexivity|]. destruct s as [ev []]; reflexivity. }
  subst s0. clear E0.
  step E d2'. apply pget_ok in E0. destruct E0 as [-> ->]. cbn [ps_d ps_ev] in E.
  step E u3. step E u4. destruct (cliprm_row rm _ _ _ Hb1) as (bm' & Hb' & HH & HK).
  destruct (two_panels_ok _ _ _ _ _ _ _ _ _ _ _ _ _ _ _ _ _ _ bm' Hb' E0 E1) as (a1&b1&c1&e1&g0&g1&G0&G1&Es).
  rewrite HH, HK in Es. cbn [ps_ev ps_d] in Es. clear E0 E1 bm' Hb' HH HK.
  step E u5. apply emit_ok in E0. step E u6. apply emit_ok in E1.
  step E bm2'. pure E2. apply getitem_Ok in L0. change (nth_error (ss_stkMoho d) (ss_bestMoho d) = Some bm2') in L0.
  rewrite Hb2 in L0. injection L0 as <-.
  step E ts2. pure E2.
  match type of E1 with ?x = _ => rename x into sx end.
  assert (Hd : ps_d sx = d2) by (rewrite E1, E0, Es; reflexivity).
  set (d3 := ss_setStkMoho d2 (cliprm rm (ss_stkMoho d))).
  step E u8. match type of E2 with _ = (?st, _) => assert (Ed3 : st = mkPst (ps_ev sx) d3) end.
  { rewrite clip_in_place_eq in E2. injection E2 as <- _. rewrite Hd. unfold d3, cliprm.
    destruct rm; [reflexivity|]. rewrite <- Hd at 1. clear - Hd. destruct sx as [ev y]. cbn [ps_d ps_ev] in *. subst y. unfold d2.
    clear. unfold ss_setStkMoho, ss_setStkSed. destruct d; reflexivity. }
  match type of E2 with _ = (?st, _) => subst st end. clear E2.
  step E d3'. apply pget_ok in E2. destruct E2 as [-> ->]. cbn [ps_d ps_ev] in E.
  step E u9. step E u10. destruct (cliprm_row rm _ _ _ Hb2) as (bm' & Hb' & HH & HK).
  destruct (two_panels_ok _ _ _ _ _ _ _ _ _ _ _ _ _ _ _ _ _ _ bm' Hb' E2 E3) as (a2&b2&c2&e2&g0'&g1'&G0'&G1'&Es2).
  rewrite HH, HK in Es2. cbn [ps_ev ps_d] in Es2.
  rewrite G0 in G0'. injection G0' as <-. rewrite G1 in G1'. injection G1' as <-.
  step E u11. apply emit_ok in E4. apply emit_ok in E.
  exists ts1, ts2, a1, b1, c1, e1, a2, b2, c2, e2, g0, g1. repeat (split; [assumption|]).
  rewrite E, E4, Es2. cbn [ps_ev ps_d]. split; [reflexivity|]. split; [reflexivity|].
  rewrite E1, E0, Es. cbn [ps_ev]. rewrite <- !app_assoc. reflexivity.
Qed.

Lemma plotSeqhk_stacked_events (N : Num) pyplot (km1 : N) path g rmneg fmt (s s' : pst N (seqres N)) u bm1 bm2 :
  plotSeqhk pyplot km1 path g rmneg fmt s = (s', Ok u) ->
  let d := ps_d s in
  sr_stack d = true ->
  nth_error (sr_stkSed d) (sr_bestSed d) = Some bm1 -> nth_error (sr_stkMoho d) (sr_bestMoho d) = Some bm2 ->
  let rm := dflt rmneg true in let rp := nmul km1 (sr_AvgSlow d) in
  exists ts1 ts2 a1 b1 c1 e1 a2 b2 c2 e2 g0 g1,
    nth_error (dflt g g_default) 0 = Some g0 /\ nth_error (dflt g g_default) 1 = Some g1 /\
    hkSeqSed_times (sr_VpSed d) rp NpF (rH bm1) (rK bm1) = Ok ts1 /\
    hkSeqMoho_times (rH bm1) (rK bm1) (sr_VpSed d) (sr_VpMoho d) rp NpF (rH bm2) (rK bm2) = Ok ts2 /\
    sr_stkSed (ps_d s') = cliprm rm (sr_stkSed d) /\ sr_stkMoho (ps_d s') = cliprm rm (sr_stkMoho d) /\
    ps_ev s' = ps_ev s ++
      (ev_fig_one (cliprm rm (sr_stkSed d)) (rH bm1) (rK bm1) a1 b1 c1 e1 (-1) 10 g0 g1 (sr_time d) (sr_RFSedStack d) ts1 ++
       [ESave (fname4 path (sr_staname d) (sr_comp d) "Sediment" (dflt fmt "pdf"%string)); EShow] ++
       ev_fig_one (cliprm rm (sr_stkMoho d)) (rH bm2) (rK bm2) a2 b2 c2 e2 (-5) 30 g0 g1 (sr_time d) (sr_RFMohoStack d) ts2 ++
       [ESave (fname4 path (sr_staname d) (sr_comp d) "Moho" (dflt fmt "pdf"%string)); EShow]).
Proof.
  intros E d Hs Hb1 Hb2 rm rp. unfold plotSeqhk in E. fold rm in E.
  step E d1. apply pget_ok in E0. destruct E0 as [-> ->]. fold d in E.
  step E bm1'. pure E0. apply getitem_Ok in L. rewrite Hb1 in L. injection L as <-. cbv zeta in E.
  rewrite Hs in E. fold rp in E. step E ts. step E0 ts1. pure E1. apply pret_ok in E0. destruct E0 as [-> ->].
  set (d2 := sr_setStkSed d (cliprm rm (sr_stkSed d))).
  step E u2. assert (Ed2 : s0 = mkPst (ps_ev s) d2).
  { rewrite clip_in_place_eq in E0. injection E0 as <- _. unfold d2, d, cliprm. clear. destruct rm; [reflexivity|]. destruct s as [ev []]; reflexivity. }
  subst s0. clear E0.
  step E d2'. apply pget_ok in E0. destruct E0 as [-> ->]. cbn [ps_d ps_ev] in E.
  assert (S2 : sr_stack d2 = true) by exact Hs. rewrite S2 in E.
  step E u3. step E u4. destruct (cliprm_row rm _ _ _ Hb1) as (bm' & Hb' & HH & HK).
  step E1 tt'. pure E2. injection L0 as <-.
  destruct (two_panels_ok _ _ _ _ _ _ _ _ _ _ _ _ _ _ _ _ _ _ bm' Hb' E0 E1) as (a1&b1&c1&e1&g0&g1&G0&G1&Es).
  rewrite HH, HK in Es. cbn [ps_ev ps_d] in Es. clear E0 E1 bm' Hb' HH HK.
  step E u5. apply emit_ok in E0. step E u6. apply emit_ok in E1.
  step E bm2'. pure E2. apply getitem_Ok in L0. change (nth_error (sr_stkMoho d) (sr_bestMoho d) = Some bm2') in L0.
  rewrite Hb2 in L0. injection L0 as <-. cbv zeta in E.
  step E ts'. step E2 ts2. pure E3. apply pret_ok in E2. destruct E2 as [-> ->].
  match type of E1 with ?x = _ => rename x into sx end.
  assert (Hd : ps_d sx = d2) by (rewrite E1, E0, Es; reflexivity).
  set (d3 := sr_setStkMoho d2 (cliprm rm (sr_stkMoho d))).
  step E u8. match type of E2 with _ = (?st, _) => assert (Ed3 : st = mkPst (ps_ev sx) d3) end.
  { rewrite clip_in_place_eq in E2. injection E2 as <- _. rewrite Hd. unfold d3, cliprm.
    destruct rm; [reflexivity|]. rewrite <- Hd at 1. clear - Hd. destruct sx as [ev y]. cbn [ps_d ps_ev] in *. subst y. unfold d2.
    clear. unfold sr_setStkMoho, sr_setStkSed. destruct d; reflexivity. }
  match type of E2 with _ = (?st, _) => subst st end. clear E2.
  step E d3'. apply pget_ok in E2. destruct E2 as [-> ->]. cbn [ps_d ps_ev] in E.
  assert (S3 : sr_stack d3 = true) by exact Hs. rewrite S3 in E.
  step E u9. step E u10. destruct (cliprm_row rm _ _ _ Hb2) as (bm' & Hb' & HH & HK).
  step E3 tt''. pure E4. injection L1 as <-.
  destruct (two_panels_ok _ _ _ _ _ _ _ _ _ _ _ _ _ _ _ _ _ _ bm' Hb' E2 E3) as (a2&b2&c2&e2&g0'&g1'&G0'&G1'&Es2).
  rewrite HH, HK in Es2. cbn [ps_ev ps_d] in Es2.
  rewrite G0 in G0'. injection G0' as <-. rewrite G1 in G1'. injection G1' as <-.
  step E u11. apply emit_ok in E4. apply emit_ok in E.
  exists ts1, ts2, a1, b1, c1, e1, a2, b2, c2, e2, g0, g1. repeat (split; [assumption|]).
  rewrite E, E4, Es2. cbn [ps_ev ps_d]. split; [reflexivity|]. split; [reflexivity|].
  rewrite E1, E0, Es. cbn [ps_ev]. rewrite <- !app_assoc. reflexivity.
Qed.


(** ** C81 *)

Lemma shows_traces stk H K a b c d lo hi (sp : R) (g0 g1 g2 g3 : R) (st st' : stream RN) tsl rest rl f (km1 : R) init last :
  headers_of f km1 st st' ->
  st' = rest ++ [rl] -> tr_hdr rl = Some tsl -> (forall rf, In rf st' -> tr_hdr rf <> None) ->
  (forall p, exists x y z, f p = times3 x y z) ->
  st = init ++ [last] ->
  figure_shows (@ev_fig_traces RN stk H K a b c d lo hi sp g0 g1 g2 g3 st' tsl) stk (H, K)
    (flat_map (fun tr => strokes (tr_baz tr) g1 (f (km1 * tr_slow tr)%R)) st)
    (flat_map (fun tr => strokes (tr_dist tr) g3 (f (km1 * tr_slow tr)%R)) st)
    (map (fun tr => trace_curve g0 (tr_baz tr) tr) st)
    (map (fun tr => trace_curve g2 (tr_dist tr) tr) st)
    (highlights sp (f (km1 * tr_slow last)%R)) (highlights sp (f (km1 * tr_slow last)%R)).
Proof.
  intros Hh Hst Hl Hn Hf Hi.
  destruct (obs_fig_traces stk H K a b c d lo hi sp g0 g1 g2 g3 st' tsl Hn) as (A1&A2&A3&A4&A5&A6&A7&A8).
  destruct (headers_last f km1 st st' rest rl tsl Hh Hst Hl) as (i' & t' & Ei & ->).
  rewrite Hi in Ei. apply app_inj_tail in Ei. destruct Ei as [_ <-].
  unfold figure_shows. rewrite A1, A2, A3, A4, A5, A6, A7, A8.
  destruct (Hf (km1 * tr_slow last)%R) as (x & y & z & Ef).
  repeat split.
  - apply (headers_marks f km1 st st' 2 g0 g1 tr_baz Hh). reflexivity.
  - apply (headers_marks f km1 st st' 3 g2 g3 tr_dist Hh). reflexivity.
  - apply (headers_curves f km1 st st' g0 tr_baz Hh). reflexivity.
  - apply (headers_curves f km1 st st' g2 tr_dist Hh). reflexivity.
  - rewrite Ef. reflexivity.
  - rewrite Ef. reflexivity.
Qed.

Lemma shows_one stk H K a b c d lo hi (gain g1 : R) (t data : list R) ts :
  figure_shows (@ev_fig_one RN stk H K a b c d lo hi gain g1 t data ts) stk (H, K)
    (strokes 180 g1 ts) [] [(t, lifted gain 180 data)] [] [] [].
Proof.
  destruct (@obs_fig_one RN stk H K a b c d lo hi gain g1 t data ts) as (A1&A2&A3&A4&A5&A6&A7&A8&A9).
  assert (A3' := eq_trans A3 (strokes_eq 180%R g1 ts)).
  exact (conj A1 (conj A2 (conj A3' (conj A4 (conj A5 (conj A6 (conj A7 A8))))))).
Qed.

Lemma one_layer_ok V H K p k : precritical V p -> @hk_times RN V p k H K = Ok (one_layer V H K p).
Proof. exact (hk_times_R V p k H K). Qed.
Lemma two_layers_ok V1 H1 K1 V2 H2 K2 p k : precritical V1 p -> precritical V2 p ->
  @hkSeqMoho_times RN H1 K1 V1 (Some V2) p k H2 K2 = Ok (two_layers V1 H1 K1 V2 H2 K2 p).
Proof. exact (hkSeqMoho_times_R H1 K1 V1 V2 p k H2 K2). Qed.
Lemma headers_nonempty f km1 (st st' : stream RN) rest rl : headers_of f km1 st st' -> st' = rest ++ [rl] ->
  exists init last, st = init ++ [last].
Proof.
  intros F ->. apply Forall2_app_inv_r in F. destruct F as (a & b & _ & Fb & ->).
  inversion Fb as [|tr y l l' Etr Fl]; subst. inversion Fl; subst. eauto.
Qed.

(** *** plotSeqhk, one curve per receiver function.
    Two figures. Each shows the final table of its own layer, that layer's best row, and for
    every trace of that layer: its curve at its back azimuth (panel 2) and at its distance
    (panel 3) and marks at the three arrivals that the best row predicts for that trace's own
    ray parameter - single-layer times of the sediment row, two-layer times with the sediment row
    on top for the Moho row. The shaded spans are those of the last trace only. *)
Theorem C81_plotSeqhk_traces pyplot (km1 : R) path g rmneg fmt (s s' : pst RN (seqres RN)) u bm1 bm2 (VM : R) :
  @plotSeqhk RN pyplot km1 path g rmneg fmt s = (s', Ok u) ->
  let d := ps_d s in
  sr_stack d = false -> sr_VpMoho d = Some VM ->
  nth_error (sr_stkSed d) (sr_bestSed d) = Some bm1 -> nth_error (sr_stkMoho d) (sr_bestMoho d) = Some bm2 ->
  (1 <= rK bm1)%R -> (1 <= rK bm2)%R ->
  (forall tr, In tr (sr_RFSed d) -> precritical (sr_VpSed d) (km1 * tr_slow tr)%R) ->
  (forall tr, In tr (sr_RFMoho d) -> precritical (sr_VpSed d) (km1 * tr_slow tr)%R /\ precritical VM (km1 * tr_slow tr)%R) ->
  let sed tr := one_layer (sr_VpSed d) (rH bm1) (rK bm1) (km1 * tr_slow tr)%R in
  let moho tr := two_layers (sr_VpSed d) (rH bm1) (rK bm1) VM (rH bm2) (rK bm2) (km1 * tr_slow tr)%R in
  exists es e1 e2 g0 g1 g2 g3 initS lastS initM lastM,
    ps_ev s' = ps_ev s ++ es /\
    nth_error (gains g) 0 = Some g0 /\ nth_error (gains g) 1 = Some g1 /\
    nth_error (gains g) 2 = Some g2 /\ nth_error (gains g) 3 = Some g3 /\
    sr_RFSed d = initS ++ [lastS] /\ sr_RFMoho d = initM ++ [lastM] /\
    figures es = [(figure_file path (sr_staname d) (sr_comp d) "Sediment" fmt, e1);
                  (figure_file path (sr_staname d) (sr_comp d) "Moho" fmt, e2)] /\
    figure_shows e1 (sr_stkSed (ps_d s')) (rH bm1, rK bm1)
      (flat_map (fun tr => strokes (tr_baz tr) g1 (sed tr)) (sr_RFSed d))
      (flat_map (fun tr => strokes (tr_dist tr) g3 (sed tr)) (sr_RFSed d))
      (map (fun tr => trace_curve g0 (tr_baz tr) tr) (sr_RFSed d))
      (map (fun tr => trace_curve g2 (tr_dist tr) tr) (sr_RFSed d))
      (highlights (1 / 10) (sed lastS)) (highlights (1 / 10) (sed lastS)) /\
    figure_shows e2 (sr_stkMoho (ps_d s')) (rH bm2, rK bm2)
      (flat_map (fun tr => strokes (tr_baz tr) g1 (moho tr)) (sr_RFMoho d))
      (flat_map (fun tr => strokes (tr_dist tr) g3 (moho tr)) (sr_RFMoho d))
      (map (fun tr => trace_curve g0 (tr_baz tr) tr) (sr_RFMoho d))
      (map (fun tr => trace_curve g2 (tr_dist tr) tr) (sr_RFMoho d))
      (highlights (5 / 10) (moho lastM)) (highlights (5 / 10) (moho lastM)).
Proof.
  intros E d Hs HV Hb1 Hb2 _ _ HP1 HP2 sed moho.
  destruct (plotSeqhk_traces_events RN pyplot km1 path g rmneg fmt s s' u bm1 bm2 E Hs Hb1 Hb2)
    as (RS&RM&a1&b1&c1&e1&a2&b2&c2&e2&g0&g1&g2&g3&r1&rl1&ts1&r2&rl2&ts2&G0&G1&G2&G3&F1&F2&R1&L1&N1&R2&L2&N2&T1&T2&_&_&Ev).
  fold d in F1, F2, T1, T2, Ev. rewrite HV in F2. rewrite gains_eq in G0, G1, G2, G3. rewrite !figure_file_eq in Ev.
  apply (written_headers (one_layer (sr_VpSed d) (rH bm1) (rK bm1)) (fun rp k => @hkSeqSed_times RN (sr_VpSed d) rp k (rH bm1) (rK bm1))) in F1.
  2:{ intros tr Ht. apply one_layer_ok. exact (HP1 tr Ht). }
  apply (written_headers (two_layers (sr_VpSed d) (rH bm1) (rK bm1) VM (rH bm2) (rK bm2)) (fun rp k => @hkSeqMoho_times RN (rH bm1) (rK bm1) (sr_VpSed d) (Some VM) rp k (rH bm2) (rK bm2))) in F2.
  2:{ intros tr Ht. apply two_layers_ok; apply (HP2 tr Ht). }
  destruct (headers_nonempty _ _ _ _ _ _ F1 R1) as (iS & lS & ES).
  destruct (headers_nonempty _ _ _ _ _ _ F2 R2) as (iM & lM & EM).
  match type of Ev with _ = _ ++ (?x ++ [ESave ?f1; EShow] ++ ?y ++ [ESave ?f2; EShow]) =>
    exists (x ++ [ESave f1; EShow] ++ y ++ [ESave f2; EShow]), x, y end.
  exists g0, g1, g2, g3, iS, lS, iM, lM.
  repeat (split; [assumption|]). split; [apply figures_two; apply plain_fig_traces|].
  rewrite T1, T2. split.
  - exact (shows_traces _ _ _ _ _ _ _ _ _ _ _ _ _ _ _ _ _ _ _ _ km1 iS lS F1 R1 L1 N1 (fun p => ex_intro _ _ (ex_intro _ _ (ex_intro _ _ eq_refl))) ES).
  - exact (shows_traces _ _ _ _ _ _ _ _ _ _ _ _ _ _ _ _ _ _ _ _ km1 iM lM F2 R2 L2 N2 (fun p => ex_intro _ _ (ex_intro _ _ (ex_intro _ _ eq_refl))) EM).
Qed.

(** *** plotSeqhk, stacked receiver functions: one curve at height 180, average ray parameter,
    no spans. *)
Theorem C81_plotSeqhk_stacked pyplot (km1 : R) path g rmneg fmt (s s' : pst RN (seqres RN)) u bm1 bm2 (VM : R) :
  @plotSeqhk RN pyplot km1 path g rmneg fmt s = (s', Ok u) ->
  let d := ps_d s in let p := (km1 * sr_AvgSlow d)%R in
  sr_stack d = true -> sr_VpMoho d = Some VM ->
  nth_error (sr_stkSed d) (sr_bestSed d) = Some bm1 -> nth_error (sr_stkMoho d) (sr_bestMoho d) = Some bm2 ->
  (1 <= rK bm1)%R -> (1 <= rK bm2)%R -> precritical (sr_VpSed d) p -> precritical VM p ->
  exists es e1 e2 g0 g1,
    ps_ev s' = ps_ev s ++ es /\
    nth_error (gains g) 0 = Some g0 /\ nth_error (gains g) 1 = Some g1 /\
    figures es = [(figure_file path (sr_staname d) (sr_comp d) "Sediment" fmt, e1);
                  (figure_file path (sr_staname d) (sr_comp d) "Moho" fmt, e2)] /\
    figure_shows e1 (sr_stkSed (ps_d s')) (rH bm1, rK bm1)
      (strokes 180 g1 (one_layer (sr_VpSed d) (rH bm1) (rK bm1) p)) []
      [(sr_time d, lifted g0 180 (sr_RFSedStack d))] [] [] [] /\
    figure_shows e2 (sr_stkMoho (ps_d s')) (rH bm2, rK bm2)
      (strokes 180 g1 (two_layers (sr_VpSed d) (rH bm1) (rK bm1) VM (rH bm2) (rK bm2) p)) []
      [(sr_time d, lifted g0 180 (sr_RFMohoStack d))] [] [] [].
Proof.
  intros E d p Hs HV Hb1 Hb2 _ _ HP1 HP2.
  destruct (plotSeqhk_stacked_events RN pyplot km1 path g rmneg fmt s s' u bm1 bm2 E Hs Hb1 Hb2)
    as (ts1&ts2&a1&b1&c1&e1&a2&b2&c2&e2&g0&g1&G0&G1&F1&F2&T1&T2&Ev).
  fold d in F1, F2, T1, T2, Ev. rewrite HV in F2. rewrite gains_eq in G0, G1. rewrite !figure_file_eq in Ev.
  change (@nmul RN km1 (sr_AvgSlow d)) with p in F1, F2.
  rewrite hkSeqSed_times_eq, one_layer_ok in F1 by exact HP1. injection F1 as F1.
  rewrite two_layers_ok in F2 by assumption. injection F2 as F2.
  match type of Ev with _ = _ ++ (?x ++ [ESave ?f1; EShow] ++ ?y ++ [ESave ?f2; EShow]) =>
    exists (x ++ [ESave f1; EShow] ++ y ++ [ESave f2; EShow]), x, y end.
  exists g0, g1. repeat (split; [assumption|]). split; [apply figures_two; apply plain_fig_one|].
  rewrite T1, T2, <- F1, <- F2. split; apply shows_one.
Qed.

(** *** plothkYu: the marks are the arrivals below the sediment, i.e. the single-layer times of the
    best row shifted by the sediment delays of the result. *)
Definition yu_arrivals (V H K p tlag Pd : R) : tval RN * tval RN * tval RN :=
  times3 (t_Ps V p H K + Pd) (t_PpPs V p H K + tlag - Pd) (t_PsPs V p H K + tlag).
Theorem C81_plothkYu pyplot k path g rmneg fmt (s s' : pst RN (yures RN)) u bm :
  @plothkYu RN pyplot k path g rmneg fmt s = (s', Ok u) ->
  let d := ps_d s in
  nth_error (yr_stk d) (yr_best d) = Some bm -> (1 <= rK bm)%R -> precritical (yr_VpMoho d) (yr_rayp d) ->
  exists es e f g0 g1,
    ps_ev s' = ps_ev s ++ es /\
    nth_error (gains g) 0 = Some g0 /\ nth_error (gains g) 1 = Some g1 /\
    yu_files path fmt = [f] /\ figures es = [(f, e)] /\
    figure_shows e (yr_stk (ps_d s')) (rH bm, rK bm)
      (strokes 180 g1 (yu_arrivals (yr_VpMoho d) (rH bm) (rK bm) (yr_rayp d) (yr_tlag d) (yr_Pdelay d))) []
      [(yr_time d, lifted g0 180 (yr_FltRF d))] [] [] [].
Proof.
  intros E d Hb _ HP.
  destruct (plothkYu_events RN pyplot k path g rmneg fmt s s' u bm E Hb) as (ts&a&b&c&e&g0&g1&G0&G1&F1&T1&Ev).
  fold d in F1, T1, Ev. rewrite gains_eq in G0, G1.
  rewrite hkYu_times_eq, hk_times_R in F1 by exact HP. cbn [bind] in F1. injection F1 as F1.
  match type of Ev with _ = _ ++ (?x ++ [ESave ?f1; EShow]) => exists (x ++ [ESave f1; EShow]), x, f1 end.
  exists g0, g1. repeat (split; [assumption|]). split; [destruct fmt; reflexivity|].
  split; [apply figures_one; apply plain_fig_one|].
  rewrite T1, <- F1. apply shows_one.
Qed.

(** *** plothkSynth: the spans around the three arrivals depend on the layer (0.1 s / 0.5 s). *)
Theorem C81_plothkSynth pyplot k path g rmneg fmt (s s' : pst RN (hksres RN)) u bm :
  @plothkSynth RN pyplot k path g rmneg fmt s = (s', Ok u) ->
  let d := ps_d s in
  nth_error (hs_stk d) (hs_best d) = Some bm -> (1 <= rK bm)%R -> precritical (hs_Vp d) (hs_rayp d) ->
  let ts := one_layer (hs_Vp d) (rH bm) (rK bm) (hs_rayp d) in
  exists es e f g0 g1 (w : R),
    ps_ev s' = ps_ev s ++ es /\
    nth_error (gains g) 0 = Some g0 /\ nth_error (gains g) 1 = Some g1 /\
    (hs_layer d = "Moho"%string /\ w = (5 / 10)%R \/ hs_layer d = "Sed"%string /\ w = (1 / 10)%R) /\
    syn_files path (hs_layer d) fmt = [f] /\ figures es = [(f, e)] /\
    figure_shows e (hs_stk (ps_d s')) (rH bm, rK bm)
      (strokes 180 g1 ts) [] [(hs_time d, lifted g0 180 (hs_RF d))] [] (highlights w ts) [].
Proof.
  intros E d Hb _ HP ts.
  destruct (plothkSynth_events RN pyplot k path g rmneg fmt s s' u bm E Hb) as (ts'&a&b&c&e&g0&g1&lo&hi&sp&G0&G1&F1&W&T1&Ev).
  fold d in F1, T1, W, Ev. rewrite gains_eq in G0, G1.
  rewrite hkSynth_times_eq, one_layer_ok in F1 by exact HP. injection F1 as F1. 
  match type of Ev with _ = _ ++ (?x ++ [ESave ?f1; EShow]) => exists (x ++ [ESave f1; EShow]), x, f1 end.
  exists g0, g1, sp. repeat (split; [assumption|]). split.
  { unfold layer_window in W. destruct (String.eqb_spec (hs_layer d) "Moho") as [Hl|_].
    - left. split; [exact Hl|]. injection W as _ _ <-. reflexivity.
    - destruct (String.eqb_spec (hs_layer d) "Sed") as [Hl|_]; [|discriminate W].
      right. split; [exact Hl|]. injection W as _ _ <-. reflexivity. }
  split; [destruct fmt; reflexivity|].
  split; [apply figures_one; apply Forall_app; split; [apply plain_fig_one|apply plain_spans3]|].
  rewrite T1, <- F1. unfold ts.
  destruct (shows_one (cliprm (dflt rmneg false) (hs_stk d)) (rH bm) (rK bm) a b c e lo hi g0 g1 (hs_time d) (hs_RF d) (one_layer (hs_Vp d) (rH bm) (rK bm) (hs_rayp d))) as (A1&A2&A3&A4&A5&A6&A7&A8).
  unfold figure_shows. rewrite contours_app, bests_app, !marks_app, !curves_app, !spans_app, A1, A2, A3, A4, A5, A6, A7, A8.
  unfold one_layer, times3. repeat split.
Qed.

(** *** plothkSeqSynth: the sediment curve is drawn with half of the first gain. *)
Theorem C81_plothkSeqSynth pyplot k path g rmneg fmt (s s' : pst RN (seqsres RN)) u bm1 bm2 (VM : R) :
  @plothkSeqSynth RN pyplot k path g rmneg fmt s = (s', Ok u) ->
  let d := ps_d s in
  ss_VpMoho d = Some VM ->
  nth_error (ss_stkSed d) (ss_bestSed d) = Some bm1 -> nth_error (ss_stkMoho d) (ss_bestMoho d) = Some bm2 ->
  (1 <= rK bm1)%R -> (1 <= rK bm2)%R -> precritical (ss_VpSed d) (ss_RayP d) -> precritical VM (ss_RayP d) ->
  exists es e1 e2 f1 f2 g0 g1,
    ps_ev s' = ps_ev s ++ es /\
    nth_error (gains g) 0 = Some g0 /\ nth_error (gains g) 1 = Some g1 /\
    seqsyn_files path fmt = [f1; f2] /\ figures es = [(f1, e1); (f2, e2)] /\
    figure_shows e1 (ss_stkSed (ps_d s')) (rH bm1, rK bm1)
      (strokes 180 g1 (one_layer (ss_VpSed d) (rH bm1) (rK bm1) (ss_RayP d))) []
      [(ss_time d, lifted (g0 / 2) 180 (ss_RFSed d))] [] [] [] /\
    figure_shows e2 (ss_stkMoho (ps_d s')) (rH bm2, rK bm2)
      (strokes 180 g1 (two_layers (ss_VpSed d) (rH bm1) (rK bm1) VM (rH bm2) (rK bm2) (ss_RayP d))) []
      [(ss_time d, lifted g0 180 (ss_RFMoho d))] [] [] [].
Proof.
  intros E d HV Hb1 Hb2 _ _ HP1 HP2.
  destruct (plothkSeqSynth_events RN pyplot k path g rmneg fmt s s' u bm1 bm2 E Hb1 Hb2)
    as (ts1&ts2&a1&b1&c1&e1&a2&b2&c2&e2&g0&g1&G0&G1&F1&F2&T1&T2&Ev).
  fold d in F1, F2, T1, T2, Ev. rewrite HV in F2. rewrite gains_eq in G0, G1.
  rewrite hkSeqSynthSed_times_eq, one_layer_ok in F1 by exact HP1. injection F1 as F1.
  rewrite hkSeqSynthMoho_times_eq, two_layers_ok in F2 by assumption. injection F2 as F2.
  match type of Ev with _ = _ ++ (?x ++ [ESave ?f1; EShow] ++ ?y ++ [ESave ?f2; EShow]) =>
    exists (x ++ [ESave f1; EShow] ++ y ++ [ESave f2; EShow]), x, y, f1, f2 end.
  exists g0, g1. repeat (split; [assumption|]). split; [destruct fmt; reflexivity|].
  split; [apply figures_two; apply plain_fig_one|].
  rewrite T1, T2, <- F1, <- F2. split; apply shows_one.
Qed.

(** ** Concrete runs (binary64): hypotheses met, figures really produced *)

Definition ex_tr (k : Z) : trace B64 :=
  let z := sf_ofZ in
  mkTrace (N := B64) [z 1; z 2; z 3]%Z (z 1%Z) (z 6%Z) PyF (z (-1)%Z) (z k) (z 60%Z) "STA" "HHR" None.
Definition ex_rows (h : Z) : list (row B64) :=
  [mkRow (N := B64) (sf_ofZ h) (sf_lit 17 10) (sf_ofZ (-1)); mkRow (N := B64) (sf_ofZ (h + 1)) (sf_lit 17 10) (sf_ofZ 2)].
Definition ex_seq (stack : bool) : seqres B64 :=
  let z := sf_ofZ in
  mkSeqRes (N := B64) [ex_tr 90; ex_tr 120] [z 1; z 2; z 3]%Z [ex_tr 90] [z 3; z 2; z 1]%Z
    [z (-1); z 0; z 1]%Z 1 (ex_rows 3) 0 (ex_rows 30) stack "HHR" (z 6%Z) (sf_lit 30 10) (Some (sf_lit 65 10))
    [z 3; z 4]%Z [sf_lit 17 10] [z 30; z 31]%Z [sf_lit 17 10] "STA".
Definition ex_syn (layer : string) : hksres B64 :=
  let z := sf_ofZ in
  mkHksRes (N := B64) [z 1; z 2; z 3]%Z [z (-1); z 0; z 1]%Z 1 (sf_lit 65 10) (ex_rows 30) layer (sf_lit 6 100)
    [z 30; z 31]%Z [sf_lit 17 10].
Definition ex_seqsyn : seqsres B64 :=
  let z := sf_ofZ in
  mkSeqsRes (N := B64) [z 1; z 2; z 3]%Z [z 3; z 2; z 1]%Z [z (-1); z 0; z 1]%Z 1 (ex_rows 3) 0 (ex_rows 30)
    (sf_lit 6 100) (sf_lit 30 10) (Some (sf_lit 65 10)) [z 3; z 4]%Z [sf_lit 17 10] [z 30; z 31]%Z [sf_lit 17 10].

(** Two names, and the numbers of marks, curves and spans of panel 2 of the two figures. *)
Definition summary {D} (out : pst B64 D * res unit) : option (list (string * (nat * nat * nat))) :=
  match out with
  | (s', Ok _) => Some (map (fun '(f, e) => (f, (length (marks 2 e), length (curves 2 e), length (spans 2 e)))) (figures (ps_ev s')))
  | _ => None
  end.
Definition ok_plot : list (pev B64) -> pev B64 -> option exn := fun _ _ => None.
Local Open Scope string_scope.
Example C81_example_traces :
  summary (@plotSeqhk B64 ok_plot (sf_lit 9 1000) "out" None None None (mkPst [] (ex_seq false)))
  = Some [("out/STA_HHR_Sediment.pdf", (6, 2, 3)); ("out/STA_HHR_Moho.pdf", (3, 1, 3))].
Proof. vm_compute. reflexivity. Qed.
Example C81_example_stacked :
  summary (@plotSeqhk B64 ok_plot (sf_lit 9 1000) "out" None None (Some "png") (mkPst [] (ex_seq true)))
  = Some [("out/STA_HHR_Sediment.png", (3, 1, 0)); ("out/STA_HHR_Moho.png", (3, 1, 0))].
Proof. vm_compute. reflexivity. Qed.
Example C81_example_yu :
  summary (@plothkYu B64 ok_plot PyF "out" None None None (mkPst [] (ex_yu 30)))
  = Some [("out/FilteredRF_HKYu_SubSediment.pdf", (3, 1, 0))].
Proof. vm_compute. reflexivity. Qed.
Example C81_example_synth :
  summary (@plothkSynth B64 ok_plot PyF "out" None None None (mkPst [] (ex_syn "Sed")))
  = Some [("out/SynthRF_Sed.pdf", (3, 1, 3))] /\
  summary (@plothkSynth B64 ok_plot PyF "out" None None None (mkPst [] (ex_syn "Crust"))) = None.
Proof. split; vm_compute; reflexivity. Qed.
Example C81_example_seqsynth :
  summary (@plothkSeqSynth B64 ok_plot PyF "out" None None None (mkPst [] ex_seqsyn))
  = Some [("out/SynthRF_SeqHK_Sediment.pdf", (3, 1, 0)); ("out/SynthRF_SeqHK_Moho.pdf", (3, 1, 0))].
Proof. vm_compute. reflexivity. Qed.

(** A pyplot that fails on the second figure: the first is on disk, the second is not, and the
    sediment table was clipped (C80's worst case is reachable). *)
Definition bad_second : list (pev B64) -> pev B64 -> option exn :=
  fun past e => match e with ESave _ => if (1 <=? length (saves past))%nat then Some FileNotFoundError else None | _ => None end.
Example C80_example_partial_write :
  match @plotSeqhk B64 bad_second (sf_lit 9 1000) "out" None None None (mkPst [] (ex_seq false)) with
  | (s', Err _) => (length (saves (ps_ev s')) =? 1)%nat && SFeqb (rS (nth 0 (sr_stkMoho (ps_d s')) zrow)) (sf_ofZ 0)
  | _ => false
  end = true.
Proof. vm_compute. reflexivity. Qed.
