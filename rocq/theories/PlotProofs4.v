(** * PlotProofs4: a small program logic for the plot functions, and the drawing events of
    plotSeqhk, plothkYu, plothkSynth and plothkSeqSynth on success. *)

From Verif Require Import Base Num NumPy HkModel HkProofs HkReal PlotModel PlotProofs PlotProofs2 PlotProofs3.

(** ** Any outcome: an invariant of the data and the files written so far *)
Section Safe.
Context {N : Num} (pyplot : list (pev N) -> pev N -> option exn) {D : Type} (P : D -> Prop).

Definition safe {A} (m : @PM N D A) (Q : A -> Prop) (l : list string) : Prop :=
  forall s, P (ps_d s) ->
    P (ps_d (fst (m s))) /\
    exists pre rest, l = pre ++ rest /\
      saves (ps_ev (fst (m s))) = saves (ps_ev s) ++ pre /\
      forall a, snd (m s) = Ok a -> Q a /\ rest = [].

Lemma safe_bind {A B} (m : @PM N D A) (f : A -> @PM N D B) Q Q' l1 l2 :
  safe m Q l1 -> (forall a, Q a -> safe (f a) Q' l2) -> safe (pbind m f) Q' (l1 ++ l2).
Proof.
  intros H1 H2 s Hs. unfold pbind. destruct (H1 s Hs) as [HP (pre & rest & El & Es & Ha)].
  destruct (m s) as [s1 [a|e]]; cbn [fst snd] in *.
  - destruct (Ha a eq_refl) as [HQ ->]. destruct (H2 a HQ s1 HP) as [HP2 (p2 & r2 & El2 & Es2 & Ha2)].
    split; [exact HP2|]. exists (pre ++ p2), r2. rewrite app_nil_r in El.
    split; [rewrite El, El2, app_assoc; reflexivity|].
    split; [rewrite Es2, Es, app_assoc; reflexivity|exact Ha2].
  - split; [exact HP|]. exists pre, (rest ++ l2). split; [rewrite El, <- app_assoc; reflexivity|].
    split; [exact Es|]. intros a C. discriminate C.
Qed.

Lemma safe_bind_l {A B} (m : @PM N D A) (f : A -> @PM N D B) Q Q' l :
  safe m Q [] -> (forall a, Q a -> safe (f a) Q' l) -> safe (pbind m f) Q' l.
Proof. intros H1 H2. apply (safe_bind m f Q Q' [] l H1 H2). Qed.

Lemma safe_weaken {A} (m : @PM N D A) (Q Q' : A -> Prop) l : (forall a, Q a -> Q' a) -> safe m Q l -> safe m Q' l.
Proof.
  intros H H1 s Hs. destruct (H1 s Hs) as [HP (pre & rest & El & Es & Ha)].
  split; [exact HP|]. exists pre, rest. repeat (split; [assumption|]).
  intros a E. destruct (Ha a E). auto.
Qed.

Lemma safe_quiet {A} (m : @PM N D A) : quiet m -> safe m (fun _ => True) [].
Proof.
  intros H s Hs. destruct (H s) as [E1 E2]. rewrite E1. split; [exact Hs|].
  exists [], []. split; [reflexivity|]. split; [rewrite E2, app_nil_r; reflexivity|auto].
Qed.
Lemma safe_get : safe pget P [].
Proof.
  intros s Hs. split; [exact Hs|]. exists [], []. split; [reflexivity|].
  split; [rewrite app_nil_r; reflexivity|]. intros a E. injection E as <-. auto.
Qed.
Lemma safe_lift {A} (r : res A) : safe (plift r) (fun a => r = Ok a) [].
Proof.
  intros s Hs. split; [exact Hs|]. exists [], []. split; [reflexivity|].
  split; [rewrite app_nil_r; reflexivity|]. intros a E. auto.
Qed.
Lemma safe_save f : safe (emit pyplot (ESave f)) (fun _ => True) [f].
Proof.
  intros s Hs. unfold emit. destruct (pyplot (ps_ev s) (ESave f)); cbn [fst snd ps_d ps_ev].
  - split; [exact Hs|]. exists [], [f]. split; [reflexivity|]. split; [rewrite app_nil_r; reflexivity|].
    intros a C. discriminate C.
  - split; [exact Hs|]. exists [f], []. split; [reflexivity|]. split; [rewrite saves_app; reflexivity|auto].
Qed.
Lemma safe_clip getT setT (rm : bool) :
  (rm = true -> forall d, P d -> P (setT d (map clip_row (getT d)))) ->
  safe (clip_in_place getT setT rm) (fun _ => True) [].
Proof.
  intros H s Hs. rewrite clip_in_place_eq. cbn [fst snd]. split.
  - destruct rm; [apply H; auto|exact Hs].
  - exists [], []. split; [reflexivity|]. split; [destruct rm; cbn [ps_ev]; rewrite app_nil_r; reflexivity|auto].
Qed.
Lemma safe_headers getS setS km1 times_of :
  (forall d st, getS (setS d st) = st) -> (forall d a b, setS (setS d a) b = setS d b) ->
  (forall d, setS d (getS d) = d) ->
  (forall d l, P d -> Forall2 hdr_only (getS d) l -> P (setS d l)) ->
  safe (write_headers getS setS km1 times_of) (fun _ => True) [].
Proof.
  intros h1 h2 h3 H s Hs.
  destruct (write_headers_spec getS setS h1 h2 h3 km1 times_of s) as [l' [F [E1 _]]].
  rewrite E1. cbn [ps_d ps_ev]. split; [apply H; assumption|].
  exists [], []. split; [reflexivity|]. split; [rewrite app_nil_r; reflexivity|auto].
Qed.
End Safe.

(** ** Figures: what each saved file shows, i.e. everything drawn since the last
    [plt.show()] (each figure is shown and closed before the next is opened). *)
Section Fig.
Context {N : Num}.
Fixpoint figures_from (cur es : list (pev N)) : list (string * list (pev N)) :=
  match es with
  | [] => []
  | ESave f :: es' => (f, cur) :: figures_from cur es'
  | EShow :: es' => figures_from [] es'
  | e :: es' => figures_from (cur ++ [e]) es'
  end.
Definition figures (es : list (pev N)) := figures_from [] es.
(** Highlighted time spans of a panel. *)
Definition spans (pan : nat) (es : list (pev N)) : list (tval N * tval N) :=
  flat_map (fun e => match e with ESpan p a b => if p =? pan then [(a, b)] else [] | _ => [] end) es.
(** Time limits of a panel. *)
Definition xlims (pan : nat) (es : list (pev N)) : list (Z * Z) :=
  flat_map (fun e => match e with EXlim p a b => if p =? pan then [(a, b)] else [] | _ => [] end) es.
Lemma spans_app p a b : spans p (a ++ b) = spans p a ++ spans p b. Proof. apply flat_map_app. Qed.

Definition plain (e : pev N) : Prop := match e with ESave _ | EShow => False | _ => True end.
Lemma figures_plain es : forall cur es', Forall plain es -> figures_from cur (es ++ es') = figures_from (cur ++ es) es'.
Proof.
  induction es as [|e es IH]; intros cur es' H; cbn [app].
  - rewrite app_nil_r. reflexivity.
  - inversion H as [|? ? He H']; subst. replace (cur ++ e :: es) with ((cur ++ [e]) ++ es) by (rewrite <- app_assoc; reflexivity).
    rewrite <- IH by exact H'. destruct e; try reflexivity; destruct He.
Qed.
Lemma plain_marks3 pan ts c g : Forall plain (ev_marks3 pan ts c g).
Proof. destruct ts as [[t1 t2] t3]. repeat constructor. Qed.
Lemma plain_spans3 pan ts sp : Forall plain (ev_spans3 pan ts sp).
Proof. destruct ts as [[t1 t2] t3]. repeat constructor. Qed.
Lemma plain_traces pan lo hi g0 g1 centre st : Forall plain (flat_map (ev_trace pan lo hi g0 g1 centre) st).
Proof.
  induction st as [|rf st IH]; [constructor|]. cbn [flat_map]. apply Forall_app. split; [|exact IH].
  unfold ev_trace. destruct (tr_hdr rf); [|constructor]. apply Forall_app. split; [repeat constructor|apply plain_marks3].
Qed.

(** The events of a figure with one curve per trace. *)
Definition ev_fig_traces (stk : list (row N)) (H K hlo hhi klo khi : N) (lo hi : Z) (sp g0 g1 g2 g3 : N)
    (st : stream N) (tsl : tval N * tval N * tval N) : list (pev N) :=
  [EContour stk; EBest H K (H, nadd K (nlit 1 1000)); EGrid hlo hhi klo khi] ++
  (flat_map (ev_trace 2 lo hi g0 g1 tr_baz) st ++ ev_spans3 2 tsl sp) ++
  (flat_map (ev_trace 3 lo hi g2 g3 tr_dist) st ++ ev_spans3 3 tsl sp).
(** The events of a figure with a single curve at height 180. *)
Definition ev_fig_one (stk : list (row N)) (H K hlo hhi klo khi : N) (lo hi : Z) (gain g1 : N)
    (t data : list N) (ts : tval N * tval N * tval N) : list (pev N) :=
  [EContour stk; EBest H K (H, nadd K (nlit 1 1000)); EGrid hlo hhi klo khi] ++
  ([EXlim 2 lo hi; ELine 2 t (scaled data gain (nofZ 180))] ++ ev_marks3 2 ts (nofZ 180) g1).

Lemma plain_fig_traces stk H K a b c d lo hi sp g0 g1 g2 g3 st tsl :
  Forall plain (ev_fig_traces stk H K a b c d lo hi sp g0 g1 g2 g3 st tsl).
Proof.
  unfold ev_fig_traces. apply Forall_app. split; [repeat constructor|].
  apply Forall_app. split; (apply Forall_app; split; [apply plain_traces|apply plain_spans3]).
Qed.
Lemma plain_fig_one stk H K a b c d lo hi gain g1 t data ts :
  Forall plain (ev_fig_one stk H K a b c d lo hi gain g1 t data ts).
Proof.
  unfold ev_fig_one. apply Forall_app. split; [repeat constructor|].
  apply Forall_app. split; [repeat constructor|apply plain_marks3].
Qed.

(** Spans of a panel drawn at the times of a trace. *)
Definition span3 (sp : N) (ts : tval N * tval N * tval N) : list (tval N * tval N) :=
  let '(t1, t2, t3) := ts in
  [(tsubr t1 sp, taddr t1 sp); (tsubr t2 sp, taddr t2 sp); (tsubr t3 sp, taddr t3 sp)].
Lemma spans_traces pan pan' lo hi g0 g1 centre st : spans pan' (flat_map (ev_trace pan lo hi g0 g1 centre) st) = [].
Proof. apply plain_ev_trace; reflexivity. Qed.

Lemma obs_fig_traces stk H K a b c d lo hi sp g0 g1 g2 g3 st tsl :
  (forall rf, In rf st -> tr_hdr rf <> None) ->
  let e := ev_fig_traces stk H K a b c d lo hi sp g0 g1 g2 g3 st tsl in
  contours e = [stk] /\ bests e = [(H, K)] /\
  marks 2 e = flat_map (obs_trace 2 g0 g1 tr_baz) st /\
  marks 3 e = flat_map (obs_trace 3 g2 g3 tr_dist) st /\
  curves 2 e = map (fun rf => (own_axis rf, scaled (tr_data rf) g0 (tr_baz rf))) st /\
  curves 3 e = map (fun rf => (own_axis rf, scaled (tr_data rf) g2 (tr_dist rf))) st /\
  spans 2 e = span3 sp tsl /\ spans 3 e = span3 sp tsl.
Proof.
  intros Hh e. unfold e, ev_fig_traces.
  rewrite !contours_app, !bests_app, !marks_app, !curves_app, !spans_app.
  unfold contours, bests.
  rewrite !plain_ev_trace, !plain_spans by reflexivity.
  rewrite !marks_spans, !curves_spans, !marks_traces, !spans_traces.
  rewrite (marks_traces_other 2 3), (marks_traces_other 3 2) by discriminate.
  rewrite (curves_traces_other 2 3), (curves_traces_other 3 2) by discriminate.
  rewrite !curves_traces by assumption.
  destruct tsl as [[t1 t2] t3]. cbn [flat_map app]. rewrite !app_nil_r.
  repeat split.
Qed.

Lemma obs_fig_one stk H K a b c d lo hi gain g1 t data ts :
  let e := ev_fig_one stk H K a b c d lo hi gain g1 t data ts in
  contours e = [stk] /\ bests e = [(H, K)] /\
  marks 2 e = mark3 (nofZ 180) g1 ts /\ marks 3 e = [] /\
  curves 2 e = [(t, scaled data gain (nofZ 180))] /\ curves 3 e = [] /\
  spans 2 e = [] /\ spans 3 e = [] /\ xlims 2 e = [(lo, hi)].
Proof. intro e. unfold e, ev_fig_one. destruct ts as [[t1 t2] t3]. repeat split. Qed.

Lemma figures_one e f : Forall plain e -> figures (e ++ [ESave f; EShow]) = [(f, e)].
Proof. intro H. unfold figures. rewrite figures_plain by exact H. reflexivity. Qed.
Lemma figures_two e1 f1 e2 f2 : Forall plain e1 -> Forall plain e2 ->
  figures (e1 ++ [ESave f1; EShow] ++ e2 ++ [ESave f2; EShow]) = [(f1, e1); (f2, e2)].
Proof.
  intros H1 H2. unfold figures. rewrite figures_plain by exact H1. cbn [app figures_from].
  rewrite figures_plain by exact H2. reflexivity.
Qed.
End Fig.

(** ** Exact events on success *)
Section Ok.
Context {N : Num} (pyplot : list (pev N) -> pev N -> option exn).

Definition cliprm (rm : bool) (t : list (row N)) := if rm then map clip_row t else t.
Lemma cliprm_nth rm (t : list (row N)) i bm bm' :
  nth_error t i = Some bm -> nth_error (cliprm rm t) i = Some bm' -> rH bm' = rH bm /\ rK bm' = rK bm.
Proof.
  unfold cliprm. intros E E'. destruct rm.
  - rewrite nth_error_map, E in E'. cbn [option_map] in E'. injection E' as <-. apply clip_row_HK.
  - rewrite E in E'. injection E' as <-. auto.
Qed.

Ltac step E x := apply pbind_ok in E; let s := fresh "s" in let E' := fresh "E" in
  destruct E as [s [x [E' E]]].

(** Drawing part of a figure with one curve per trace. *)
Lemma fig_traces_ok {D} stk ib H K st g lo hi sp (s s' : pst N D) u bm :
  nth_error stk ib = Some bm ->
  pbind (panel1 pyplot stk ib H K) (fun _ =>
    pbind (panel_stream pyplot 2 st g 0 tr_baz (Some (lo, hi, sp))) (fun _ =>
      panel_stream pyplot 3 st g 2 tr_dist (Some (lo, hi, sp)))) s = (s', Ok u) ->
  exists hlo hhi klo khi g0 g1 g2 g3 rest rl tsl,
    pymin H = Ok hlo /\ pymax H = Ok hhi /\ pymin K = Ok klo /\ pymax K = Ok khi /\
    nth_error g 0 = Some g0 /\ nth_error g 1 = Some g1 /\ nth_error g 2 = Some g2 /\ nth_error g 3 = Some g3 /\
    st = rest ++ [rl] /\ tr_hdr rl = Some tsl /\ (forall rf, In rf st -> tr_hdr rf <> None) /\
    s' = mkPst (ps_ev s ++ ev_fig_traces stk (rH bm) (rK bm) hlo hhi klo khi lo hi sp g0 g1 g2 g3 st tsl) (ps_d s).
Proof.
  intros Hb E. step E u1. apply panel1_ok in E0. destruct E0 as (bm' & hlo & hhi & klo & khi & Hb' & A1 & A2 & A3 & A4 & ->).
  rewrite Hb in Hb'. injection Hb' as <-.
  step E u2. apply panel_stream_ok in E0. destruct E0 as (g0&g1&lo1&hi1&sp1&rest&rl&tsl&G0&G1&Hw&Hst&Hl&Hh & ->).
  injection Hw as <- <- <-.
  apply panel_stream_ok in E. destruct E as (g2&g3&lo2&hi2&sp2&rest'&rl'&tsl'&G2&G3&Hw&Hst'&Hl'&_ & ->).
  injection Hw as <- <- <-.
  rewrite Hst in Hst'. apply app_inj_tail in Hst'. destruct Hst' as [<- <-].
  rewrite Hl in Hl'. injection Hl' as <-.
  exists hlo, hhi, klo, khi, g0, g1, g2, g3, rest, rl, tsl. repeat (split; [assumption|]).
  cbn [ps_ev ps_d]. unfold ev_fig_traces. rewrite <- !app_assoc. reflexivity.
Qed.

(** Drawing part of a figure with a single curve. *)
Lemma fig_one_ok {D} stk ib H K data t g f lo hi sp ts (s s' : pst N D) u bm :
  nth_error stk ib = Some bm ->
  pbind (panel1 pyplot stk ib H K) (fun _ =>
    panel_one pyplot data t g f (Some (lo, hi, sp)) ts) s = (s', Ok u) ->
  exists hlo hhi klo khi g0 g1,
    pymin H = Ok hlo /\ pymax H = Ok hhi /\ pymin K = Ok klo /\ pymax K = Ok khi /\
    nth_error g 0 = Some g0 /\ nth_error g 1 = Some g1 /\
    s' = mkPst (ps_ev s ++ ev_fig_one stk (rH bm) (rK bm) hlo hhi klo khi lo hi (f g0) g1 t data ts) (ps_d s).
Proof.
  intros Hb E. step E u1. apply panel1_ok in E0. destruct E0 as (bm' & hlo & hhi & klo & khi & Hb' & A1 & A2 & A3 & A4 & ->).
  rewrite Hb in Hb'. injection Hb' as <-.
  apply panel_one_ok in E. destruct E as (g0&g1&lo1&hi1&sp1&G0&G1&Hw & ->). injection Hw as <- <- <-.
  exists hlo, hhi, klo, khi, g0, g1. repeat (split; [assumption|]).
  cbn [ps_ev ps_d]. unfold ev_fig_one. rewrite <- !app_assoc. reflexivity.
Qed.
End Ok.
