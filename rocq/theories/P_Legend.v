(** * P_Legend: the legend and the axes of the figures saved by the plot functions
    (C96, C98; the two-decimal rendering of the legend is in P_Legend2). *)

From Verif Require Import Base Num NumPy HkModel HkProofs PlotModel PlotProofs PlotProofs2 PlotProofs3 PlotProofs4 ShowModel P_Show.

(** ** Any outcome: what every event of a figure satisfies *)
Section Keeps.
Context {N : Num} (pyplot : list (pev N) -> pev N -> option exn) {D : Type}.
Context (I : D -> Prop) (PB : N -> N -> N * N -> Prop) (PG : N -> N -> N -> N -> Prop).

Definition ev_ok (e : pev N) : Prop :=
  match e with EBest h k l => PB h k l | EGrid a b c d => PG a b c d | _ => True end.

Definition keeps {A} (m : @PM N D A) (Q : A -> Prop) : Prop :=
  forall s, I (ps_d s) ->
    I (ps_d (fst (m s))) /\ (exists es, ps_ev (fst (m s)) = ps_ev s ++ es /\ Forall ev_ok es) /\
    forall a, snd (m s) = Ok a -> Q a.

Lemma keeps_bind {A B} (m : @PM N D A) (f : A -> @PM N D B) Q Q' :
  keeps m Q -> (forall a, Q a -> keeps (f a) Q') -> keeps (pbind m f) Q'.
Proof.
  intros H1 H2 s Hs. unfold pbind. destruct (H1 s Hs) as (HP & (es & Ee & Fe) & HQ).
  destruct (m s) as [s1 [a|e]]; cbn [fst snd] in *.
  - destruct (H2 a (HQ a eq_refl) s1 HP) as (HP2 & (es2 & Ee2 & Fe2) & HQ2).
    split; [exact HP2|]. split; [|exact HQ2]. exists (es ++ es2).
    split; [rewrite Ee2, Ee, app_assoc; reflexivity|apply Forall_app; split; assumption].
  - split; [exact HP|]. split; [exists es; split; assumption|]. intros a C. discriminate C.
Qed.
Lemma keeps_weaken {A} (m : @PM N D A) (Q Q' : A -> Prop) : (forall a, Q a -> Q' a) -> keeps m Q -> keeps m Q'.
Proof. intros H K s Hs. destruct (K s Hs) as (a & b & c). repeat split; auto. Qed.
Lemma keeps_get : keeps pget I.
Proof.
  intros s Hs. split; [exact Hs|]. split; [exists []; split; [symmetry; apply app_nil_r|constructor]|].
  intros a E. injection E as <-. exact Hs.
Qed.
Lemma keeps_lift {A} (r : res A) : keeps (plift r) (fun a => r = Ok a).
Proof.
  intros s Hs. split; [exact Hs|]. split; [exists []; split; [symmetry; apply app_nil_r|constructor]|]. auto.
Qed.
Lemma keeps_ret {A} (a : A) : keeps (pret a) (fun _ => True).
Proof.
  intros s Hs. split; [exact Hs|]. split; [exists []; split; [symmetry; apply app_nil_r|constructor]|]. auto.
Qed.
Lemma keeps_emit e : ev_ok e -> keeps (emit pyplot e) (fun _ => True).
Proof.
  intros He s Hs. unfold emit. destruct (pyplot (ps_ev s) e); cbn [fst snd ps_d ps_ev].
  - split; [exact Hs|]. split; [exists []; split; [symmetry; apply app_nil_r|constructor]|auto].
  - split; [exact Hs|]. split; [exists [e]; split; [reflexivity|repeat constructor; exact He]|auto].
Qed.
Lemma keeps_forP {A B} (l : list A) (body : A -> B -> @PM N D B) :
  (forall x b, keeps (body x b) (fun _ => True)) -> forall b, keeps (forP l body b) (fun _ => True).
Proof.
  intro H. induction l as [|x l IH]; intro b; cbn [forP]; [apply keeps_ret|].
  eapply keeps_bind; [apply H|]. intros a _. apply IH.
Qed.
Lemma keeps_marks3 pan ts c g : keeps (marks3 pyplot pan ts c g) (fun _ => True).
Proof.
  destruct ts as [[t1 t2] t3]. cbn [marks3]. eapply keeps_bind; [apply keeps_emit; exact Logic.I|intros ? _].
  eapply keeps_bind; [apply keeps_emit; exact Logic.I|intros ? _]. apply keeps_emit. exact Logic.I.
Qed.
Lemma keeps_spans3 pan ts sp : keeps (spans3 pyplot pan ts sp) (fun _ => True).
Proof.
  destruct ts as [[t1 t2] t3]. cbn [spans3]. eapply keeps_bind; [apply keeps_emit; exact Logic.I|intros ? _].
  eapply keeps_bind; [apply keeps_emit; exact Logic.I|intros ? _]. apply keeps_emit. exact Logic.I.
Qed.
Lemma keeps_panel1 stk ib H K :
  (forall r, nth_error stk ib = Some r -> PB (rH r) (rK r) (rH r, nadd (rK r) (nlit 1 1000))) ->
  (forall a b c d, pymin H = Ok a -> pymax H = Ok b -> pymin K = Ok c -> pymax K = Ok d -> PG a b c d) ->
  keeps (panel1 pyplot stk ib H K) (fun _ => True).
Proof.
  intros Hb Hg. unfold panel1. eapply keeps_bind; [apply keeps_emit; exact Logic.I|intros ? _].
  eapply keeps_bind; [apply keeps_lift|intros r Er]. apply getitem_Ok in Er.
  eapply keeps_bind; [apply keeps_emit; exact (Hb r Er)|intros ? _].
  eapply keeps_bind; [apply keeps_lift|intros v1 Ea]. eapply keeps_bind; [apply keeps_lift|intros v2 Eb].
  eapply keeps_bind; [apply keeps_lift|intros v3 Ec]. eapply keeps_bind; [apply keeps_lift|intros v4 Ed].
  apply keeps_emit. cbn [ev_ok]. apply Hg; assumption.
Qed.
Lemma keeps_panel_one data t g f win ts : keeps (panel_one pyplot data t g f win ts) (fun _ => True).
Proof.
  unfold panel_one. eapply keeps_bind; [apply keeps_lift|intros g0 _].
  eapply keeps_bind; [apply keeps_lift|intros [[lo hi] sp] _].
  eapply keeps_bind; [apply keeps_emit; exact Logic.I|intros ? _]. eapply keeps_bind; [apply keeps_emit; exact Logic.I|intros ? _].
  eapply keeps_bind; [apply keeps_lift|intros g1 _]. apply keeps_marks3.
Qed.
Lemma keeps_panel_stream pan st g gi c win : keeps (panel_stream pyplot pan st g gi c win) (fun _ => True).
Proof.
  unfold panel_stream. eapply keeps_bind.
  - apply keeps_forP. intros rf b. eapply keeps_bind; [apply keeps_lift|intros ts _].
    eapply keeps_bind; [apply keeps_lift|intros g0 _]. eapply keeps_bind; [apply keeps_lift|intros [[lo hi] sp] _].
    eapply keeps_bind; [apply keeps_emit; exact Logic.I|intros ? _]. eapply keeps_bind; [apply keeps_emit; exact Logic.I|intros ? _].
    eapply keeps_bind; [apply keeps_lift|intros g1 _]. eapply keeps_bind; [apply keeps_marks3|intros ? _]. apply keeps_ret.
  - intros last _. eapply keeps_bind; [apply keeps_lift|intros ts _].
    eapply keeps_bind; [apply keeps_lift|intros [[lo hi] sp] _]. apply keeps_spans3.
Qed.
Lemma keeps_clip getT setT (rm : bool) :
  (forall d, I d -> I (setT d (map clip_row (getT d)))) -> keeps (clip_in_place getT setT rm) (fun _ => True).
Proof.
  intros H s Hs. rewrite clip_in_place_eq. cbn [fst snd]. split; [destruct rm; [apply H; exact Hs|exact Hs]|].
  split; [|auto]. exists []. split; [destruct rm; cbn [ps_ev]; symmetry; apply app_nil_r|constructor].
Qed.
Lemma keeps_headers getS setS km1 times_of :
  (forall d st, getS (setS d st) = st) -> (forall d a b, setS (setS d a) b = setS d b) ->
  (forall d, setS d (getS d) = d) -> (forall d l, I d -> I (setS d l)) ->
  keeps (write_headers getS setS km1 times_of) (fun _ => True).
Proof.
  intros h1 h2 h3 H s Hs.
  destruct (write_headers_spec getS setS h1 h2 h3 km1 times_of s) as [l' [F [E1 _]]].
  rewrite E1. cbn [ps_d ps_ev]. split; [apply H; assumption|].
  split; [|auto]. exists []. split; [symmetry; apply app_nil_r|constructor].
Qed.
End Keeps.

(** ** Specification *)
Section Statements.
Context {N : Num}.

(** The best-model mark [(h, k)] with legend numbers [lab] is at the reported row of the table
    [tbl], and the legend prints its depth and its Vp/Vs {e plus 0.001}. *)
Definition marked (tbl : list (row N)) (ib : nat) (h k : N) (lab : N * N) : Prop :=
  exists r, nth_error tbl ib = Some r /\ h = rH r /\ k = rK r /\ lab = (rH r, nadd (rK r) (nlit 1 1000)).

(** The axes have a grid value at each end and contain the whole grid. *)
Definition axes (H K : list N) (hlo hhi klo khi : N) : Prop :=
  encloses H (hlo, hhi) /\ encloses K (klo, khi).

(** Every mark and every pair of axes among [es] is one of those allowed. *)
Definition legends (es : list (pev N)) (ok : N -> N -> N * N -> Prop) : Prop :=
  forall h k lab, In (EBest h k lab) es -> ok h k lab.
Definition limits (es : list (pev N)) (ok : N -> N -> N -> N -> Prop) : Prop :=
  forall a b c d, In (EGrid a b c d) es -> ok a b c d.

(** The rows of two tables agree on depth and Vp/Vs. *)
Definition same_HK (t t' : list (row N)) : Prop :=
  map (fun r => (rH r, rK r)) t = map (fun r => (rH r, rK r)) t'.

Lemma same_HK_clip (t t' : list (row N)) : same_HK t t' -> same_HK t (map clip_row t').
Proof.
  unfold same_HK. intros ->. rewrite map_map. apply map_ext. intro r. destruct (clip_row_HK r) as [-> ->]. reflexivity.
Qed.
Lemma same_HK_nth (t t' : list (row N)) i r : same_HK t t' -> nth_error t' i = Some r ->
  exists r0, nth_error t i = Some r0 /\ rH r = rH r0 /\ rK r = rK r0.
Proof.
  intros E Hr. pose proof (map_nth_error (fun r => (rH r, rK r)) _ _ Hr) as M. rewrite <- E in M.
  rewrite nth_error_map in M. destruct (nth_error t i) as [r0|]; [|discriminate]. cbn in M. exists r0. split; [reflexivity|].
  pose proof (f_equal (option_map fst) M) as M1. pose proof (f_equal (option_map snd) M) as M2. cbn in M1, M2. split; congruence.
Qed.
Lemma marked_same (t t' : list (row N)) i r : same_HK t t' -> nth_error t' i = Some r ->
  marked t i (rH r) (rK r) (rH r, nadd (rK r) (nlit 1 1000)).
Proof.
  intros E Hr. destruct (same_HK_nth t t' i r E Hr) as (r0 & H0 & E1 & E2). exists r0. rewrite E1, E2. auto.
Qed.
(** The limits computed by [min]/[max] of the two grids. *)
Definition minmaxes (H K : list N) (a b c d : N) : Prop :=
  pymin H = Ok a /\ pymax H = Ok b /\ pymin K = Ok c /\ pymax K = Ok d.
Lemma minmaxes_axes (L : OrdLaws N) (H K : list N) a b c d : minmaxes H K a b c d -> axes H K a b c d.
Proof.
  intros (E1 & E2 & E3 & E4).
  destruct (pymin_spec L _ _ E1) as [A1 A2], (pymax_spec L _ _ E2) as [A3 A4], (pymin_spec L _ _ E3) as [A5 A6], (pymax_spec L _ _ E4) as [A7 A8].
  unfold axes, encloses. cbn [fst snd]. repeat split; auto.
Qed.

Lemma keeps_events {D A} (I : D -> Prop) PB PG (m : @PM N D A) Q s s' out :
  keeps I PB PG m Q -> I (ps_d s) -> m s = (s', out) ->
  exists es, ps_ev s' = ps_ev s ++ es /\ legends es PB /\ limits es PG.
Proof.
  intros K Hs E. destruct (K s Hs) as (_ & (es & Ee & Fe) & _). rewrite E in Ee. cbn [fst] in Ee. exists es.
  split; [exact Ee|]. rewrite Forall_forall in Fe. split; [intros h k lab Hi; exact (Fe _ Hi)|intros a b c d Hi; exact (Fe _ Hi)].
Qed.

Context (pyplot : list (pev N) -> pev N -> option exn).
Ltac kq := repeat first [ apply keeps_panel_one | apply keeps_panel_stream | apply keeps_spans3 | apply keeps_ret
             | eapply keeps_weaken; [|apply keeps_lift]; intros; exact Logic.I
             | apply keeps_emit; exact Logic.I ].

Definition hk_same (d0 d : hkres N) : Prop :=
  same_HK (hr_stk d0) (hr_stk d) /\ hr_best d = hr_best d0 /\ hr_H d = hr_H d0 /\ hr_K d = hr_K d0.
Lemma plothk_keeps km1 path g rmneg fmt d0 :
  keeps (hk_same d0) (marked (hr_stk d0) (hr_best d0)) (minmaxes (hr_H d0) (hr_K d0)) (plothk pyplot km1 path g rmneg fmt) (fun _ => True).
Proof.
  unfold plothk. eapply keeps_bind; [apply keeps_get|intros d1 H1].
  eapply keeps_bind; [apply keeps_lift|intros bm _].
  eapply keeps_bind with (Q := fun _ => True).
  { destruct (hr_stack d1); (eapply keeps_bind; [|intros; apply keeps_ret]); [apply keeps_lift|].
    apply keeps_headers; [reflexivity|reflexivity|intros []; reflexivity|]. intros d l (A & B & C & E). repeat split; assumption. }
  intros ts _. eapply keeps_bind.
  { apply keeps_clip. intros d (A & B & C & E). split; [apply same_HK_clip; exact A|]. repeat split; assumption. }
  intros _ _. eapply keeps_bind; [apply keeps_get|intros d2 (A & B & C & E)].
  eapply keeps_bind.
  { apply keeps_panel1.
    - intros r Hr. rewrite B in Hr. exact (marked_same _ _ _ _ A Hr).
    - rewrite C, E. intros. repeat split; assumption. }
  intros _ _. eapply keeps_bind with (Q := fun _ => True).
  { destruct (hr_stack d2).
    - eapply keeps_bind; [apply keeps_lift|intros t _]. eapply keeps_bind; [kq|intros ? _].
      eapply keeps_bind; [apply keeps_lift|intros [[lo hi] sp] _]. kq.
    - eapply keeps_bind; [kq|intros ? _]. kq. }
  intros _ _. eapply keeps_bind; [kq|intros ? _]. kq.
Qed.

Definition seq_same (d0 d : seqres N) : Prop :=
  same_HK (sr_stkSed d0) (sr_stkSed d) /\ sr_bestSed d = sr_bestSed d0 /\ sr_HSed d = sr_HSed d0 /\ sr_KSed d = sr_KSed d0 /\
  same_HK (sr_stkMoho d0) (sr_stkMoho d) /\ sr_bestMoho d = sr_bestMoho d0 /\ sr_HMoho d = sr_HMoho d0 /\ sr_KMoho d = sr_KMoho d0.
Lemma plotSeqhk_keeps km1 path g rmneg fmt d0 :
  keeps (seq_same d0)
    (fun h k l => marked (sr_stkSed d0) (sr_bestSed d0) h k l \/ marked (sr_stkMoho d0) (sr_bestMoho d0) h k l)
    (fun a b c d => minmaxes (sr_HSed d0) (sr_KSed d0) a b c d \/ minmaxes (sr_HMoho d0) (sr_KMoho d0) a b c d)
    (plotSeqhk pyplot km1 path g rmneg fmt) (fun _ => True).
Proof.
  unfold plotSeqhk. eapply keeps_bind; [apply keeps_get|intros d1 H1].
  eapply keeps_bind; [apply keeps_lift|intros bm1 _].
  eapply keeps_bind with (Q := fun _ => True).
  { destruct (sr_stack d1); (eapply keeps_bind; [|intros; apply keeps_ret]); [apply keeps_lift|].
    apply keeps_headers; [reflexivity|reflexivity|intros []; reflexivity|]. intros d l Hd. exact Hd. }
  intros ts _. eapply keeps_bind.
  { apply keeps_clip. intros d (A & Hd). split; [apply same_HK_clip; exact A|exact Hd]. }
  intros _ _. eapply keeps_bind; [apply keeps_get|intros d2 (A & B & C & E & _)].
  eapply keeps_bind.
  { apply keeps_panel1.
    - intros r Hr. left. rewrite B in Hr. exact (marked_same _ _ _ _ A Hr).
    - rewrite C, E. intros. left. repeat split; assumption. }
  intros _ _. eapply keeps_bind with (Q := fun _ => True).
  { destruct (sr_stack d2).
    - eapply keeps_bind; [apply keeps_lift|intros t _]. kq.
    - eapply keeps_bind; [kq|intros ? _]. kq. }
  intros _ _. eapply keeps_bind; [kq|intros ? _]. eapply keeps_bind; [kq|intros ? _].
  eapply keeps_bind; [apply keeps_lift|intros bm2 _].
  eapply keeps_bind with (Q := fun _ => True).
  { destruct (sr_stack d2); (eapply keeps_bind; [|intros; apply keeps_ret]); [apply keeps_lift|].
    apply keeps_headers; [reflexivity|reflexivity|intros []; reflexivity|]. intros d l Hd. exact Hd. }
  intros ts2 _. eapply keeps_bind.
  { apply keeps_clip. intros d (q1 & q2 & q3 & q4 & A' & Hd). unfold seq_same. cbn [sr_setStkMoho sr_stkMoho sr_stkSed sr_bestSed sr_HSed sr_KSed].
    repeat (split; [assumption|]). split; [apply same_HK_clip; exact A'|exact Hd]. }
  intros _ _. eapply keeps_bind; [apply keeps_get|intros d3 (_ & _ & _ & _ & A' & B' & C' & E')].
  eapply keeps_bind.
  { apply keeps_panel1.
    - intros r Hr. right. rewrite B' in Hr. exact (marked_same _ _ _ _ A' Hr).
    - rewrite C', E'. intros. right. repeat split; assumption. }
  intros _ _. eapply keeps_bind with (Q := fun _ => True).
  { destruct (sr_stack d3).
    - eapply keeps_bind; [apply keeps_lift|intros t _]. kq.
    - eapply keeps_bind; [kq|intros ? _]. kq. }
  intros _ _. eapply keeps_bind; [kq|intros ? _]. kq.
Qed.

Definition yu_same (d0 d : yures N) : Prop :=
  same_HK (yr_stk d0) (yr_stk d) /\ yr_best d = yr_best d0 /\ yr_H d = yr_H d0 /\ yr_K d = yr_K d0.
Lemma plothkYu_keeps rk path g rmneg fmt d0 :
  keeps (yu_same d0) (marked (yr_stk d0) (yr_best d0)) (minmaxes (yr_H d0) (yr_K d0)) (plothkYu pyplot rk path g rmneg fmt) (fun _ => True).
Proof.
  unfold plothkYu. eapply keeps_bind; [apply keeps_get|intros d1 H1].
  eapply keeps_bind; [apply keeps_lift|intros bm _]. eapply keeps_bind; [apply keeps_lift|intros ts _].
  eapply keeps_bind.
  { apply keeps_clip. intros d (A & Hd). split; [apply same_HK_clip; exact A|exact Hd]. }
  intros _ _. eapply keeps_bind; [apply keeps_get|intros d2 (A & B & C & E)].
  eapply keeps_bind.
  { apply keeps_panel1.
    - intros r Hr. rewrite B in Hr. exact (marked_same _ _ _ _ A Hr).
    - rewrite C, E. intros. repeat split; assumption. }
  intros _ _. eapply keeps_bind; [kq|intros ? _]. eapply keeps_bind; [kq|intros ? _]. kq.
Qed.

Definition syn_same (d0 d : hksres N) : Prop :=
  same_HK (hs_stk d0) (hs_stk d) /\ hs_best d = hs_best d0 /\ hs_H d = hs_H d0 /\ hs_K d = hs_K d0.
Lemma plothkSynth_keeps rk path g rmneg fmt d0 :
  keeps (syn_same d0) (marked (hs_stk d0) (hs_best d0)) (minmaxes (hs_H d0) (hs_K d0)) (plothkSynth pyplot rk path g rmneg fmt) (fun _ => True).
Proof.
  unfold plothkSynth. eapply keeps_bind; [apply keeps_get|intros d1 H1].
  eapply keeps_bind; [apply keeps_lift|intros bm _]. eapply keeps_bind; [apply keeps_lift|intros ts _].
  eapply keeps_bind.
  { apply keeps_clip. intros d (A & Hd). split; [apply same_HK_clip; exact A|exact Hd]. }
  intros _ _. eapply keeps_bind; [apply keeps_get|intros d2 (A & B & C & E)].
  eapply keeps_bind.
  { apply keeps_panel1.
    - intros r Hr. rewrite B in Hr. exact (marked_same _ _ _ _ A Hr).
    - rewrite C, E. intros. repeat split; assumption. }
  intros _ _. eapply keeps_bind; [kq|intros ? _].
  eapply keeps_bind; [apply keeps_lift|intros [[lo hi] sp] _].
  eapply keeps_bind; [kq|intros ? _]. eapply keeps_bind; [kq|intros ? _]. kq.
Qed.

Definition seqsyn_same (d0 d : seqsres N) : Prop :=
  same_HK (ss_stkSed d0) (ss_stkSed d) /\ ss_bestSed d = ss_bestSed d0 /\ ss_HSed d = ss_HSed d0 /\ ss_KSed d = ss_KSed d0 /\
  same_HK (ss_stkMoho d0) (ss_stkMoho d) /\ ss_bestMoho d = ss_bestMoho d0 /\ ss_HMoho d = ss_HMoho d0 /\ ss_KMoho d = ss_KMoho d0.
Lemma plothkSeqSynth_keeps rk path g rmneg fmt d0 :
  keeps (seqsyn_same d0)
    (fun h k l => marked (ss_stkSed d0) (ss_bestSed d0) h k l \/ marked (ss_stkMoho d0) (ss_bestMoho d0) h k l)
    (fun a b c d => minmaxes (ss_HSed d0) (ss_KSed d0) a b c d \/ minmaxes (ss_HMoho d0) (ss_KMoho d0) a b c d)
    (plothkSeqSynth pyplot rk path g rmneg fmt) (fun _ => True).
Proof.
  unfold plothkSeqSynth. eapply keeps_bind; [apply keeps_get|intros d1 H1].
  eapply keeps_bind; [apply keeps_lift|intros bm1 _]. eapply keeps_bind; [apply keeps_lift|intros ts _].
  eapply keeps_bind.
  { apply keeps_clip. intros d (A & Hd). split; [apply same_HK_clip; exact A|exact Hd]. }
  intros _ _. eapply keeps_bind; [apply keeps_get|intros d2 (A & B & C & E & _)].
  eapply keeps_bind.
  { apply keeps_panel1.
    - intros r Hr. left. rewrite B in Hr. exact (marked_same _ _ _ _ A Hr).
    - rewrite C, E. intros. left. repeat split; assumption. }
  intros _ _. eapply keeps_bind; [kq|intros ? _]. eapply keeps_bind; [kq|intros ? _]. eapply keeps_bind; [kq|intros ? _].
  eapply keeps_bind; [apply keeps_lift|intros bm2 _]. eapply keeps_bind; [apply keeps_lift|intros ts2 _].
  eapply keeps_bind.
  { apply keeps_clip. intros d (q1 & q2 & q3 & q4 & A' & Hd). unfold seqsyn_same. cbn [ss_setStkMoho ss_stkMoho ss_stkSed ss_bestSed ss_HSed ss_KSed].
    repeat (split; [assumption|]). split; [apply same_HK_clip; exact A'|exact Hd]. }
  intros _ _. eapply keeps_bind; [apply keeps_get|intros d3 (_ & _ & _ & _ & A' & B' & C' & E')].
  eapply keeps_bind.
  { apply keeps_panel1.
    - intros r Hr. right. rewrite B' in Hr. exact (marked_same _ _ _ _ A' Hr).
    - rewrite C', E'. intros. right. repeat split; assumption. }
  intros _ _. eapply keeps_bind; [kq|intros ? _]. eapply keeps_bind; [kq|intros ? _]. kq.
Qed.

(** ** C96, C98: the five plot functions, in any arithmetic, whatever their outcome *)

Theorem C96_plothk (L : OrdLaws N) km1 path g rmneg fmt (s s' : pst N (hkres N)) out :
  plothk pyplot km1 path g rmneg fmt s = (s', out) ->
  exists es, ps_ev s' = ps_ev s ++ es /\
    legends es (marked (hr_stk (ps_d s)) (hr_best (ps_d s))) /\ limits es (axes (hr_H (ps_d s)) (hr_K (ps_d s))).
Proof.
  intro E. destruct (keeps_events _ _ _ _ _ _ _ _ (plothk_keeps km1 path g rmneg fmt (ps_d s)) (conj eq_refl (conj eq_refl (conj eq_refl eq_refl))) E) as (es & A & B & C).
  exists es. split; [exact A|]. split; [exact B|]. intros a b c d Hi. apply (minmaxes_axes L), C, Hi.
Qed.
Theorem C96_plotSeqhk (L : OrdLaws N) km1 path g rmneg fmt (s s' : pst N (seqres N)) out :
  plotSeqhk pyplot km1 path g rmneg fmt s = (s', out) ->
  let d := ps_d s in
  exists es, ps_ev s' = ps_ev s ++ es /\
    legends es (fun h k l => marked (sr_stkSed d) (sr_bestSed d) h k l \/ marked (sr_stkMoho d) (sr_bestMoho d) h k l) /\
    limits es (fun a b c e => axes (sr_HSed d) (sr_KSed d) a b c e \/ axes (sr_HMoho d) (sr_KMoho d) a b c e).
Proof.
  intros E d. assert (S : seq_same d d) by (repeat split).
  destruct (keeps_events _ _ _ _ _ _ _ _ (plotSeqhk_keeps km1 path g rmneg fmt d) S E) as (es & A & B & C).
  exists es. split; [exact A|]. split; [exact B|]. intros a b c e Hi. destruct (C _ _ _ _ Hi) as [M|M]; [left|right]; apply (minmaxes_axes L), M.
Qed.
Theorem C96_plothkYu (L : OrdLaws N) rk path g rmneg fmt (s s' : pst N (yures N)) out :
  plothkYu pyplot rk path g rmneg fmt s = (s', out) ->
  exists es, ps_ev s' = ps_ev s ++ es /\
    legends es (marked (yr_stk (ps_d s)) (yr_best (ps_d s))) /\ limits es (axes (yr_H (ps_d s)) (yr_K (ps_d s))).
Proof.
  intro E. destruct (keeps_events _ _ _ _ _ _ _ _ (plothkYu_keeps rk path g rmneg fmt (ps_d s)) (conj eq_refl (conj eq_refl (conj eq_refl eq_refl))) E) as (es & A & B & C).
  exists es. split; [exact A|]. split; [exact B|]. intros a b c d Hi. apply (minmaxes_axes L), C, Hi.
Qed.
Theorem C96_plothkSynth (L : OrdLaws N) rk path g rmneg fmt (s s' : pst N (hksres N)) out :
  plothkSynth pyplot rk path g rmneg fmt s = (s', out) ->
  exists es, ps_ev s' = ps_ev s ++ es /\
    legends es (marked (hs_stk (ps_d s)) (hs_best (ps_d s))) /\ limits es (axes (hs_H (ps_d s)) (hs_K (ps_d s))).
Proof.
  intro E. destruct (keeps_events _ _ _ _ _ _ _ _ (plothkSynth_keeps rk path g rmneg fmt (ps_d s)) (conj eq_refl (conj eq_refl (conj eq_refl eq_refl))) E) as (es & A & B & C).
  exists es. split; [exact A|]. split; [exact B|]. intros a b c d Hi. apply (minmaxes_axes L), C, Hi.
Qed.
Theorem C96_plothkSeqSynth (L : OrdLaws N) rk path g rmneg fmt (s s' : pst N (seqsres N)) out :
  plothkSeqSynth pyplot rk path g rmneg fmt s = (s', out) ->
  let d := ps_d s in
  exists es, ps_ev s' = ps_ev s ++ es /\
    legends es (fun h k l => marked (ss_stkSed d) (ss_bestSed d) h k l \/ marked (ss_stkMoho d) (ss_bestMoho d) h k l) /\
    limits es (fun a b c e => axes (ss_HSed d) (ss_KSed d) a b c e \/ axes (ss_HMoho d) (ss_KMoho d) a b c e).
Proof.
  intros E d. assert (S : seqsyn_same d d) by (repeat split).
  destruct (keeps_events _ _ _ _ _ _ _ _ (plothkSeqSynth_keeps rk path g rmneg fmt d) S E) as (es & A & B & C).
  exists es. split; [exact A|]. split; [exact B|]. intros a b c e Hi. destruct (C _ _ _ _ Hi) as [M|M]; [left|right]; apply (minmaxes_axes L), M.
Qed.
End Statements.
