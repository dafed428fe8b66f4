(** * P_ArrSession: H-k results over arrays shared with the caller (C144, C145). *)

From Coq Require Import Reals Lra Ascii Floats.SpecFloat.
From Verif Require Import Base Num NumPy Spec HkModel HkProofs HkReal HkFacts DrawSpec P_Hk4 P_Hk5 PlotModel PlotProofs PlotProofs2 PlotProofs3 P_Plot P_Plot2 PlotProofs4 P_Plot3 P_Plot4 P_Legend P_Show P_Show2 ArrSessionModel.

Section Any.
Context {N : Num}.
Context (km1 : N) (stackO : stream N -> res (list (trace N))) (draw : list (row N) -> res unit)
        (pyplot : list (pev N) -> pev N -> option exn).

(** Specification: every dictionary owns copies of the arrays as they were when the
    analysis was made. *)
Fixpoint separate (h : arrays N) (vs : list (contents N)) (ops : list (op N)) : list (out N) :=
  match ops with
  | [] => []
  | Analyse c :: ops' =>
      match run_call km1 stackO draw h c with
      | Ok v => OResult (Ok v) :: separate h (vs ++ [v]) ops'
      | Err e => OResult (Err e) :: separate h vs ops'
      end
  | Plot i path g rmneg format :: ops' =>
      match nth_error vs i with
      | None => ONoResult :: separate h vs ops'
      | Some v => let '(v', (ev, x)) := plot km1 pyplot v path g rmneg format in
                  OPlot ev x :: separate h (upd vs i v') ops'
      end
  | Read i :: ops' =>
      match nth_error vs i with
      | None => ONoResult :: separate h vs ops'
      | Some v => ORead v :: separate h vs ops'
      end
  | Change a l :: ops' => ONone :: separate (fun b => if Nat.eqb b a then l else h b) vs ops'
  end.

(** The arrays handed to an analysis. *)
Definition addresses (c : call N) : list nat :=
  match c with
  | CHk _ _ H K _ _ _ _ _ _ => [H; K]
  | CSeq _ _ _ HS KS _ _ _ _ HM KM _ _ _ _ _ => [HS; KS; HM; KM]
  | CYu f t _ _ _ _ H K _ _ _ _ _ _ => [f; t; H; K]
  | CSynth f t _ _ H K _ _ _ _ _ => [f; t; H; K]
  | CSeqS fs fm t _ _ HS KS _ _ _ _ HM KM _ _ _ _ => [fs; fm; t; HS; KS; HM; KM]
  end.
(** The array entries of a dictionary, in the same order. *)
Definition array_entries (v : contents N) : list (list N) :=
  match v with
  | VHk d => [hr_H d; hr_K d]
  | VSeq d => [sr_HSed d; sr_KSed d; sr_HMoho d; sr_KMoho d]
  | VYu _ d => [yr_FltRF d; yr_time d; yr_H d; yr_K d]
  | VSynth _ d => [hs_RF d; hs_time d; hs_H d; hs_K d]
  | VSeqS _ d => [ss_RFSed d; ss_RFMoho d; ss_time d; ss_HSed d; ss_KSed d; ss_HMoho d; ss_KMoho d]
  end.
(** The caller changes no array that was handed to an earlier analysis ([used]). *)
Fixpoint careful (used : list nat) (ops : list (op N)) : Prop :=
  match ops with
  | [] => True
  | Analyse c :: ops' => careful (addresses c ++ used) ops'
  | Plot _ _ _ _ _ :: ops' | Read _ :: ops' => careful used ops'
  | Change a _ :: ops' => ~ In a used /\ careful used ops'
  end.

(** *** References and contents *)
(** call and contents of the same kind *)
Definition kind (c : call N) (v : contents N) : Prop :=
  match c, v with
  | CHk _ _ _ _ _ _ _ _ _ _, VHk _ | CSeq _ _ _ _ _ _ _ _ _ _ _ _ _ _ _ _, VSeq _
  | CYu _ _ _ _ _ _ _ _ _ _ _ _ _ _, VYu _ _ | CSynth _ _ _ _ _ _ _ _ _ _ _, VSynth _ _
  | CSeqS _ _ _ _ _ _ _ _ _ _ _ _ _ _ _ _ _, VSeqS _ _ => True
  | _, _ => False
  end.
Lemma view_entries (h : arrays N) (c : call N) (v : contents N) : kind c v -> array_entries (view h c v) = map h (addresses c).
Proof. destruct c, v; cbn; tauto || reflexivity. Qed.
(** the entries determine the view *)
Lemma view_id (h : arrays N) (c : call N) (v : contents N) : kind c v -> array_entries v = map h (addresses c) -> view h c v = v.
Proof.
  destruct c, v; cbn [kind array_entries map addresses]; try contradiction; intros _ E;
    destruct d; cbn in *; injection E; intros; subst; reflexivity.
Qed.
Lemma view_view (h : arrays N) (c : call N) (v : contents N) : view h c (view h c v) = view h c v.
Proof. destruct c, v; reflexivity. Qed.
Lemma kind_view (h : arrays N) (c : call N) (v : contents N) : kind c v -> kind c (view h c v).
Proof. destruct c, v; cbn; tauto. Qed.

Lemma run_kind h c v : run_call km1 stackO draw h c = Ok v -> kind c v.
Proof.
  destruct c; cbn [run_call]; unfold okmap;
    match goal with |- match ?x with Ok _ => _ | Err _ => _ end = _ -> _ => destruct x end; intro E; try discriminate E;
    injection E as <-; exact Logic.I.
Qed.
Lemma run_entries h c v : run_call km1 stackO draw h c = Ok v -> array_entries v = map h (addresses c).
Proof.
  destruct c; cbn [run_call]; unfold okmap;
    match goal with |- match ?x with Ok _ => _ | Err _ => _ end = _ -> _ => destruct x eqn:E end; intro Q; try discriminate Q;
    injection Q as <-; cbn [array_entries addresses map].
  - apply hk_inv in E. destruct E as (SR & st0 & tr0 & u & _ & _ & _ & _ & _ & _ & ->). reflexivity.
  - apply hkSeq_inv in E. cbv zeta in E. destruct E as (a1 & a2 & a3 & a4 & a5 & a6 & a7 & a8 & a9 & _ & _ & _ & _ & _ & _ & _ & _ & _ & _ & _ & _ & _ & ->). reflexivity.
  - apply hkYu_inv in E. destruct E as (a1 & a2 & a3 & a4 & _ & _ & _ & _ & _ & _ & _ & _ & ->). reflexivity.
  - apply hkSynth_inv in E. destruct E as (u & _ & _ & _ & ->). reflexivity.
  - apply hkSeqSynth_inv in E. destruct E as (a1 & a2 & a3 & a4 & _ & _ & _ & _ & _ & _ & _ & _ & ->). reflexivity.
Qed.

(** What a figure may change in a dictionary: arrival-time headers of the traces of [hk] and
    [hkSeq], and table values that are not positive (replaced by 0).  Arrays, parameters and
    the number of the best row stay. *)
Definition figure_keeps (v v' : contents N) : Prop :=
  array_entries v' = array_entries v /\
  match v, v' with
  | VHk d, VHk d' => same_rest d d' /\ Forall2 hdr_only (hr_RF d) (hr_RF d') /\ table_kept true (hr_stk d) (hr_stk d')
  | VSeq d, VSeq d' => seq_rest d d' /\ Forall2 hdr_only (sr_RFSed d) (sr_RFSed d') /\ Forall2 hdr_only (sr_RFMoho d) (sr_RFMoho d') /\
                       table_kept true (sr_stkSed d) (sr_stkSed d') /\ table_kept true (sr_stkMoho d) (sr_stkMoho d')
  | VYu k d, VYu k' d' => k' = k /\ yu_rest d d' /\ table_kept true (yr_stk d) (yr_stk d')
  | VSynth k d, VSynth k' d' => k' = k /\ syn_rest d d' /\ table_kept true (hs_stk d) (hs_stk d')
  | VSeqS k d, VSeqS k' d' => k' = k /\ seqsyn_rest d d' /\ table_kept true (ss_stkSed d) (ss_stkSed d') /\ table_kept true (ss_stkMoho d) (ss_stkMoho d')
  | _, _ => False
  end.
Lemma kept_true rm (t t' : list (row N)) : table_kept rm t t' -> table_kept true t t'.
Proof. intros [E|[_ F]]; [left; exact E|right; split; [reflexivity|exact F]]. Qed.
Lemma plot_keeps v path g rmneg format v' o : plot km1 pyplot v path g rmneg format = (v', o) -> figure_keeps v v'.
Proof.
  destruct v; cbn [plot]; match goal with |- (let '(_, _) := ?x in _) = _ -> _ => destruct x as [s x'] eqn:E end; intro Q; injection Q as <- _.
  - apply C11_plothk_result in E. cbv zeta in E. cbn [ps_d] in E. destruct E as (R & F & _ & T & _). split.
    + unfold same_rest in R. cbn. decompose [and] R. congruence.
    + split; [exact R|]. split; [exact F|]. destruct T as [T|[_ T]]; [left; exact T|right; split; [reflexivity|exact T]].
  - apply C80_plotSeqhk_result in E. cbv zeta in E. cbn [ps_d] in E. destruct E as (R & F1 & F2 & _ & T1 & T2 & _). split.
    + unfold seq_rest in R. cbn. decompose [and] R. congruence.
    + split; [exact R|]. split; [exact F1|]. split; [exact F2|]. split; eapply kept_true; eassumption.
  - apply C80_plothkYu_result in E. cbv zeta in E. cbn [ps_d] in E. destruct E as (R & T & _). split.
    + unfold yu_rest in R. cbn. decompose [and] R. congruence.
    + split; [reflexivity|]. split; [exact R|]. eapply kept_true. eassumption.
  - apply C80_plothkSynth_result in E. cbv zeta in E. cbn [ps_d] in E. destruct E as (R & T & _). split.
    + unfold syn_rest in R. cbn. decompose [and] R. congruence.
    + split; [reflexivity|]. split; [exact R|]. eapply kept_true. eassumption.
  - apply C80_plothkSeqSynth_result in E. cbv zeta in E. cbn [ps_d] in E. destruct E as (R & T1 & T2 & _). split.
    + unfold seqsyn_rest in R. cbn. decompose [and] R. congruence.
    + split; [reflexivity|]. split; [exact R|]. split; eapply kept_true; eassumption.
Qed.
Lemma plot_kind c v path g rmneg format v' o : kind c v -> plot km1 pyplot v path g rmneg format = (v', o) -> kind c v'.
Proof.
  destruct v; cbn [plot]; match goal with |- _ -> (let '(_, _) := ?x in _) = _ -> _ => destruct x as [s x'] end; intros Hk Q; injection Q as <- _; exact Hk.
Qed.

(** *** Simulation *)
Definition owned (used : list nat) (h : arrays N) (x : call N * contents N) (v : contents N) : Prop :=
  (forall a, In a (addresses (fst x)) -> In a used) /\ kind (fst x) (snd x) /\ view h (fst x) (snd x) = v.
Lemma owned_weaken used used' h x v : (forall a, In a used -> In a used') -> owned used h x v -> owned used' h x v.
Proof. intros I (A & B & C). split; [auto|]. split; assumption. Qed.
Lemma view_change used (h : arrays N) (c : call N) (v : contents N) a l : (forall b, In b (addresses c) -> In b used) -> ~ In a used -> view (set_arr h a l) c v = view h c v.
Proof.
  intros A Na. assert (K : forall b, In b (addresses c) -> set_arr h a l b = h b).
  { intros b Hb. unfold set_arr. destruct (Nat.eqb_spec b a) as [->|]; [|reflexivity]. contradiction (Na (A _ Hb)). }
  destruct c, v; cbn [view]; try reflexivity; cbn [addresses In] in K; rewrite !K by tauto; reflexivity.
Qed.
Lemma F2_upd {A B} (P : A -> B -> Prop) l l' i a b : Forall2 P l l' -> P a b -> Forall2 P (upd l i a) (upd l' i b).
Proof. intros F H. revert i. induction F; intros [|i]; cbn; constructor; auto. Qed.
Lemma F2_nth {A B} (P : A -> B -> Prop) l l' i : Forall2 P l l' ->
  match nth_error l i, nth_error l' i with Some a, Some b => P a b | None, None => True | _, _ => False end.
Proof. intro F. revert i. induction F; intros [|i]; cbn; auto. apply IHF. Qed.

Notation session := (session km1 stackO draw pyplot).
Lemma session_sim used h ds vs ops : careful used ops -> Forall2 (owned used h) ds vs -> session (h, ds) ops = separate h vs ops.
Proof.
  revert used h ds vs. induction ops as [|o ops IH]; intros used h ds vs Hc Hr; [reflexivity|].
  destruct o as [c|i path g rmneg format|i|a l]; cbn [careful] in Hc; cbn [ArrSessionModel.session separate step].
  - destruct (run_call km1 stackO draw h c) as [v|e] eqn:E; (f_equal; eapply IH; [exact Hc|]).
    + apply Forall2_app.
      * eapply Base.Forall2_imp; [|exact Hr]. intros x y. apply owned_weaken. intros b Hb. apply in_or_app. right. exact Hb.
      * constructor; [|constructor]. split; [intros b Hb; apply in_or_app; left; exact Hb|]. cbn [fst snd].
        pose proof (run_kind _ _ _ E) as Hk. split; [exact Hk|]. apply view_id; [exact Hk|]. apply run_entries. exact E.
    + eapply Base.Forall2_imp; [|exact Hr]. intros x y. apply owned_weaken. intros b Hb. apply in_or_app. right. exact Hb.
  - pose proof (F2_nth _ _ _ i Hr) as Q. destruct (nth_error ds i) as [[c v]|], (nth_error vs i) as [w|]; try contradiction.
    + destruct Q as (Hu & Hk & Hv). cbn [fst snd] in *. rewrite Hv.
      destruct (plot km1 pyplot w path g rmneg format) as [v' [ev x]] eqn:E. f_equal. eapply IH; [exact Hc|].
      apply F2_upd; [exact Hr|]. split; [exact Hu|]. cbn [fst snd].
      assert (Kw : kind c w) by (rewrite <- Hv; apply kind_view; exact Hk).
      assert (Kv : kind c v') by (eapply plot_kind; eassumption). split; [exact Kv|].
      apply view_id; [exact Kv|]. destruct (plot_keeps _ _ _ _ _ _ _ E) as [-> _]. rewrite <- Hv. apply view_entries. exact Hk.
    + f_equal. eapply IH; eassumption.
  - pose proof (F2_nth _ _ _ i Hr) as Q. destruct (nth_error ds i) as [[c v]|], (nth_error vs i) as [w|]; try contradiction.
    + destruct Q as (Hu & Hk & Hv). cbn [fst snd] in *. rewrite Hv. f_equal. eapply IH; eassumption.
    + f_equal. eapply IH; eassumption.
  - destruct Hc as [Hn Hc]. f_equal. eapply IH; [exact Hc|]. eapply Base.Forall2_imp; [|exact Hr].
    intros [c v] y (Hu & Hk & Hv). cbn [fst snd] in *. split; [exact Hu|]. split; [exact Hk|]. cbn [fst snd]. rewrite <- Hv.
    apply (view_change used); assumption.
Qed.

(** C144: as long as the caller changes in place no array he handed to an analysis, any
    number of analyses over shared arrays, and any figures of their results in any order,
    behave as if every result owned copies of its arrays. *)
Theorem C144_shared h ops : careful [] ops -> session (h, []) ops = separate h [] ops.
Proof. intro Hc. eapply session_sim; [exact Hc|constructor]. Qed.
Theorem C144_hands_off h ops : (forall a l, ~ In (Change a l) ops) -> session (h, []) ops = separate h [] ops.
Proof.
  intro H. apply C144_shared. generalize (@nil nat). induction ops as [|o ops IH]; intro used; [exact Logic.I|].
  assert (K : forall a l, ~ In (Change a l) ops) by (intros a l Q; apply (H a l); right; exact Q).
  destruct o as [c|i path g rmneg format|i|a l]; cbn; try (apply IH; exact K). exfalso. apply (H a l). left. reflexivity.
Qed.

(** *** What a change does (exactly) *)
Lemma table_kept_trans (t t' t'' : list (row N)) : table_kept true t t' -> table_kept true t' t'' -> table_kept true t t''.
Proof.
  intros [->|[_ F]] [->|[_ G]]; [left; reflexivity|right; split; [reflexivity|exact G]|right; split; [reflexivity|exact F]|].
  apply clipped_det in G. subst t''. right. split; [reflexivity|]. apply clipped_trans_clip. exact F.
Qed.
(** The analysis behind a dictionary: everything but the arrays, tables up to clipping,
    traces up to headers. *)
Definition same_analysis (v v' : contents N) : Prop :=
  match v, v' with
  | VHk d, VHk d' =>
      hr_best d' = hr_best d /\ hr_RFStack d' = hr_RFStack d /\ hr_time d' = hr_time d /\ hr_staname d' = hr_staname d /\
      hr_Vp d' = hr_Vp d /\ hr_layer d' = hr_layer d /\ hr_stack d' = hr_stack d /\ hr_comp d' = hr_comp d /\ hr_AvgSlow d' = hr_AvgSlow d /\
      Forall2 hdr_only (hr_RF d) (hr_RF d') /\ table_kept true (hr_stk d) (hr_stk d')
  | VSeq d, VSeq d' =>
      sr_bestSed d' = sr_bestSed d /\ sr_bestMoho d' = sr_bestMoho d /\ sr_RFSedStack d' = sr_RFSedStack d /\ sr_RFMohoStack d' = sr_RFMohoStack d /\
      sr_time d' = sr_time d /\ sr_stack d' = sr_stack d /\ sr_comp d' = sr_comp d /\ sr_AvgSlow d' = sr_AvgSlow d /\
      sr_VpSed d' = sr_VpSed d /\ sr_VpMoho d' = sr_VpMoho d /\ sr_staname d' = sr_staname d /\
      Forall2 hdr_only (sr_RFSed d) (sr_RFSed d') /\ Forall2 hdr_only (sr_RFMoho d) (sr_RFMoho d') /\
      table_kept true (sr_stkSed d) (sr_stkSed d') /\ table_kept true (sr_stkMoho d) (sr_stkMoho d')
  | VYu k d, VYu k' d' =>
      k' = k /\ yr_best d' = yr_best d /\ yr_tlag d' = yr_tlag d /\ yr_Pdelay d' = yr_Pdelay d /\ yr_rayp d' = yr_rayp d /\
      yr_VpMoho d' = yr_VpMoho d /\ yr_VpSed d' = yr_VpSed d /\ yr_SedThick d' = yr_SedThick d /\ table_kept true (yr_stk d) (yr_stk d')
  | VSynth k d, VSynth k' d' =>
      k' = k /\ hs_best d' = hs_best d /\ hs_Vp d' = hs_Vp d /\ hs_layer d' = hs_layer d /\ hs_rayp d' = hs_rayp d /\ table_kept true (hs_stk d) (hs_stk d')
  | VSeqS k d, VSeqS k' d' =>
      k' = k /\ ss_bestSed d' = ss_bestSed d /\ ss_bestMoho d' = ss_bestMoho d /\ ss_RayP d' = ss_RayP d /\ ss_VpSed d' = ss_VpSed d /\
      ss_VpMoho d' = ss_VpMoho d /\ table_kept true (ss_stkSed d) (ss_stkSed d') /\ table_kept true (ss_stkMoho d) (ss_stkMoho d')
  | _, _ => False
  end.
Lemma kept_refl (t : list (row N)) : table_kept true t t. Proof. left. reflexivity. Qed.
Lemma hdr_refl (l : stream N) : Forall2 hdr_only l l.
Proof. induction l; constructor; auto. repeat split. Qed.
Lemma same_refl v : same_analysis v v.
Proof. destruct v; cbn; repeat (split; [reflexivity || apply hdr_refl || apply kept_refl|]); apply kept_refl. Qed.
Lemma same_trans v v' v'' : same_analysis v v' -> same_analysis v' v'' -> same_analysis v v''.
Proof.
  destruct v, v', v''; cbn; try contradiction; intros A B; decompose [and] A; decompose [and] B;
    repeat match goal with |- _ /\ _ => split end; try congruence;
    (eapply F2_trans; eassumption) || (eapply table_kept_trans; eassumption).
Qed.
Lemma same_view (h : arrays N) (c : call N) v v' : same_analysis v (view h c v') <-> same_analysis v v'.
Proof. destruct c, v, v'; cbn; reflexivity. Qed.
Lemma keeps_same v v' : figure_keeps v v' -> same_analysis v v'.
Proof.
  intros [_ K]. destruct v, v'; try contradiction K; cbn; unfold same_rest, seq_rest, yu_rest, syn_rest, seqsyn_rest in K; tauto.
Qed.

Lemma step_keeps st o i c v w : nth_error (snd st) i = Some (c, w) -> kind c w -> same_analysis v w ->
  exists w', nth_error (snd (fst (step km1 stackO draw pyplot st o))) i = Some (c, w') /\ kind c w' /\ same_analysis v w'.
Proof.
  destruct st as [h ds]. cbn [snd]. intros Hi Hk Hs. destruct o as [c'|j path g rmneg format|j|a l]; cbn [step].
  - destruct (run_call km1 stackO draw h c') as [v'|e]; cbn [fst snd]; [|eauto]. exists w. split; [|auto].
    rewrite nth_error_app1; [exact Hi|]. apply nth_error_Some. congruence.
  - destruct (nth_error ds j) as [[c' w']|] eqn:Ej; cbn [fst snd]; [|eauto].
    destruct (plot km1 pyplot (view h c' w') path g rmneg format) as [w'' [ev x]] eqn:E. cbn [fst snd].
    destruct (Nat.eq_dec i j) as [->|Hne].
    + rewrite Ej in Hi. injection Hi as -> ->. exists w''. split.
      * clear -Ej. revert j Ej. induction ds as [|z l IH]; intros [|j] E; cbn in *; try discriminate; [reflexivity|apply IH; exact E].
      * split; [eapply plot_kind; [apply kind_view; exact Hk|exact E]|]. eapply same_trans; [apply same_view; exact Hs|]. apply keeps_same. eapply plot_keeps. exact E.
    + exists w. split; [|auto]. rewrite <- Hi. clear -Hne. revert i j Hne. induction ds as [|z l IH]; intros [|i] [|j] Hne; cbn; try reflexivity; [contradiction|apply IH; congruence].
  - destruct (nth_error ds j) as [[c' w']|]; cbn [fst snd]; eauto.
  - eauto.
Qed.
Lemma after_keeps ops st i c v w : nth_error (snd st) i = Some (c, w) -> kind c w -> same_analysis v w ->
  exists w', nth_error (snd (after km1 stackO draw pyplot st ops)) i = Some (c, w') /\ kind c w' /\ same_analysis v w'.
Proof.
  revert st w. induction ops as [|o ops IH]; intros st w Hi Hk Hs; [eauto|]. cbn [after].
  destruct (step_keeps st o i c v w Hi Hk Hs) as (w1 & H1 & K1 & S1). exact (IH _ _ H1 K1 S1).
Qed.

(** After any history, the result of an analysis still is that analysis, but its array
    entries are the caller's arrays as they are now; a figure is the figure of that mixture. *)
Theorem C145_current h1 ds1 c ops h2 ds2 v :
  run_call km1 stackO draw h1 c = Ok v ->
  after km1 stackO draw pyplot (h1, ds1) (Analyse c :: ops) = (h2, ds2) ->
  exists v2, same_analysis v v2 /\ array_entries v2 = map h2 (addresses c) /\
    snd (step km1 stackO draw pyplot (h2, ds2) (Read (length ds1))) = ORead v2 /\
    forall path g rmneg format,
      snd (step km1 stackO draw pyplot (h2, ds2) (Plot (length ds1) path g rmneg format)) =
        let '(_, (ev, x)) := plot km1 pyplot v2 path g rmneg format in OPlot ev x.
Proof.
  intros Ev HA. cbn [after step fst] in HA. rewrite Ev in HA. cbn [fst] in HA.
  assert (N0 : nth_error (snd (h1, ds1 ++ [(c, v)])) (length ds1) = Some (c, v)).
  { cbn [snd]. rewrite nth_error_app2, Nat.sub_diag by lia. reflexivity. }
  destruct (after_keeps ops _ _ _ v v N0 (run_kind _ _ _ Ev) (same_refl v)) as (w & Hw & Kw & Sw).
  rewrite HA in Hw. cbn [snd] in Hw. exists (view h2 c w).
  split; [apply same_view; exact Sw|]. split; [apply view_entries; exact Kw|]. cbn [step]. rewrite Hw. split; [reflexivity|].
  intros. destruct (plot km1 pyplot (view h2 c w) path g rmneg format) as [v' [ev x]]. reflexivity.
Qed.
End Any.

(** ** Examples in exact arithmetic *)
Local Open Scope R_scope.
(** Addresses 0-3: trace, time, depths, ratios. *)
Definition a_heap : arrays RN := fun a =>
  match a with 0%nat => [0; 1] | 1%nat => [0; 1] | 2%nat => [35; 40] | 3%nat => [17 / 10; 18 / 10] | _ => [] end.
Definition a_call : call RN := CSynth 0 1 (6 / 100 : R) PyF 2 3 (Some (69 / 10) : option R) None None None None.
Definition a_stack : stream RN -> res (list (trace RN)) := fun st => Ok st.

Lemma a_runs : exists r, run_call 1 a_stack (@pyplot RN) a_heap a_call = Ok (VSynth PyF r).
Proof.
  assert (E : exists r, @hkSynth RN (@pyplot RN) [0; 1] [0; 1] (6 / 100) PyF [35; 40] [17 / 10; 18 / 10] (Some (69 / 10)) None None None None = Ok r).
  { eapply (drawn_R (@pyplot RN) [17 / 10; 18 / 10] [35; 40] _ hs_stk).
    - apply (pyplot_draws_R _ _ 35 40 (17 / 10) (18 / 10)); try (simpl; auto; fail); lra.
    - apply (C77_hkSynth_completes RN (@pyplot RN)); try discriminate; [apply le_n|].
      cbn [dflt]. simpl. unfold Reqb. destruct (Req_EM_T (69 / 10) 0) as [C|]; [lra|reflexivity]. }
  destruct E as [r E]. exists r. unfold run_call, a_call, a_heap. rewrite E. reflexivity.
Qed.


Lemma a_best r : run_call 1 a_stack (@pyplot RN) a_heap a_call = Ok (VSynth PyF r) ->
  exists bm : row RN, nth_error (hs_stk r) (hs_best r) = Some bm /\ In (rH bm : R) [35; 40] /\
    r = @mkHksRes RN [0; 1] [0; 1] (hs_best r) (69 / 10) (hs_stk r) "Moho" (6 / 100) [35; 40] [17 / 10; 18 / 10].
Proof.
  unfold run_call, a_call, okmap. cbn [a_heap]. intro E.
  match type of E with match ?x with _ => _ end = _ => destruct x as [r0|] eqn:E0; [|discriminate E] end.
  assert (r0 = r) by congruence. subst r0. clear E.
  apply hkSynth_inv in E0. destruct E0 as (u & T & A & _ & Er).
  pose proof (argmax_lt _ _ A) as L. rewrite map_length in L.
  destruct (nth_error (hs_stk r) (hs_best r)) as [bm|] eqn:Hb; [|apply nth_error_None in Hb; lia].
  exists bm. split; [reflexivity|]. split; [|exact Er].
  destruct (table_row _ _ _ _ _ _ T Hb) as (i & j & _ & _ & _ & Hj & _). eapply nth_error_In. exact Hj.
Qed.

Definition quiet : list (pev RN) -> pev RN -> option exn := fun _ _ => None.
(** A figure of such a dictionary is drawn to the end, whatever the depth grid has become. *)
Lemma a_figure stk ib (bm : row RN) (h1 h2 : R) :
  nth_error stk ib = Some bm ->
  let d := @mkHksRes RN [0; 1] [0; 1] ib (69 / 10) stk "Moho" (6 / 100) [h1; h2] [17 / 10; 18 / 10] in
  exists v' ev, plot 1 quiet (VSynth PyF d) "out" None None None = (v', (ev, Ok tt)) /\
    (exists k l, In (EBest (rH bm) k l) ev) /\
    exists a b c e, In (EGrid a b c e) ev /\ In (a : R) [h1; h2] /\ In (b : R) [h1; h2].
Proof.
  intros Hb d.
  assert (R : exists s', @plothkSynth RN quiet PyF "out" None None None (mkPst [] d) = (s', Ok tt)).
  { assert (G : getitem (hs_stk d) (hs_best d) = Ok bm) by (unfold getitem; cbn [d hs_stk hs_best]; rewrite Hb; reflexivity).
    unfold plothkSynth.
    rewrite (pbind_step _ _ _ (mkPst [] d) d) by reflexivity.
    rewrite (pbind_step _ _ _ (mkPst [] d) bm) by (unfold plift; rewrite G; reflexivity).
    assert (P : precritical (69 / 10) (6 / 100)) by (split; lra).
    rewrite (pbind_step _ _ _ (mkPst [] d) (one_layer (69 / 10) (rH bm) (rK bm) (6 / 100)))
      by (unfold plift; cbn [d hs_Vp hs_rayp]; rewrite hkSynth_times_eq, (one_layer_ok (69 / 10) (rH bm) (rK bm) (6 / 100) PyF P); reflexivity).
    rewrite (pbind_step _ _ _ (mkPst [] d) tt) by reflexivity.
    rewrite (pbind_step _ _ _ (mkPst [] d) d) by reflexivity.
    assert (P1 : exists ev, panel1 quiet (hs_stk d) (hs_best d) (hs_H d) (hs_K d) (mkPst [] d) = (mkPst ev d, Ok tt)).
    { unfold panel1.
      rewrite (pbind_step _ _ _ (mkPst [EContour (hs_stk d)] d) tt) by reflexivity.
      rewrite (pbind_step _ _ _ (mkPst [EContour (hs_stk d)] d) bm) by (unfold plift; rewrite G; reflexivity).
      eexists. reflexivity. }
    destruct P1 as [ev1 P1]. rewrite (pbind_step _ _ _ (mkPst ev1 d) tt) by exact P1.
    eexists. reflexivity. }
  destruct R as [s' E]. exists (VSynth PyF (ps_d s')), (ps_ev s').
  split; [unfold plot; rewrite E; reflexivity|].
  destruct (plothkSynth_events RN quiet PyF "out" None None None _ s' tt bm E Hb) as (ts & a & b & c & e & g0 & g1 & lo & hi & sp & _ & _ & _ & _ & _ & Ev).
  assert (IB : In (@EBest RN (rH bm) (rK bm) (rH bm, nadd (rK bm) (nlit 1 1000))) (ps_ev s')).
  { rewrite Ev. apply in_or_app. right. apply in_or_app. left. apply in_or_app. left. unfold ev_fig_one. apply in_or_app. left. right. left. reflexivity. }
  assert (IG : In (@EGrid RN a b c e) (ps_ev s')).
  { rewrite Ev. apply in_or_app. right. apply in_or_app. left. apply in_or_app. left. unfold ev_fig_one. apply in_or_app. left. do 2 right. left. reflexivity. }
  split; [eauto|]. exists a, b, c, e. split; [exact IG|].
  destruct (C96_plothkSynth quiet RN_laws PyF "out" None None None _ s' (Ok tt) E) as (es & Ee & _ & L).
  cbn [ps_ev app] in Ee. rewrite Ee in IG. destruct (L _ _ _ _ IG) as [(I1 & I2 & _) _]. split; assumption.
Qed.

(** Several results over shared arrays; an array that was never handed over is changed. *)
Theorem C144_example :
  careful [] [Analyse a_call; Analyse a_call; Change 7 [5 : R]; Plot 0 "out" None None None; Read 1] /\
  exists v f, session 1 a_stack (@pyplot RN) quiet (a_heap, [])
      [Analyse a_call; Analyse a_call; Change 7 [5 : R]; Plot 0 "out" None None None; Read 1] =
    [OResult (Ok v); OResult (Ok v); ONone; OPlot f (Ok tt); ORead v].
Proof.
  match goal with |- ?c /\ _ => assert (C : c) end.
  { cbn. split; [|exact Logic.I]. intuition congruence. }
  split; [exact C|]. rewrite (C144_shared _ _ _ _ _ _ C). destruct a_runs as [r E].
  destruct (a_best r E) as (bm & Hb & _ & Er). destruct (a_figure _ _ bm 35 40 Hb) as (v' & ev & F & _).
  cbv zeta in F. rewrite <- Er in F.
  exists (VSynth PyF r), ev. cbn [separate]. rewrite E. cbn [app nth_error]. rewrite F. reflexivity.
Qed.

(** C145: a figure made from a result shows the depths and the receiver function of that
    analysis.  Refuted: the caller converts his depth grid to metres in place; the figure of
    the earlier result then has axes that do not contain its best model. *)
Theorem C145_refuted : exists (h : arrays RN) ops v f f' (hb kb lo hi : R) lab c e,
  session 1 a_stack (@pyplot RN) quiet (h, []) ops = [OResult (Ok v); ONone; OPlot f (Ok tt)] /\
  In (@EBest RN hb kb lab) f /\ In (@EGrid RN lo hi c e) f /\ hb < lo /\
  separate 1 a_stack (@pyplot RN) quiet h [] ops = [OResult (Ok v); ONone; OPlot f' (Ok tt)] /\
  (exists lo' hi' c' e', In (@EGrid RN lo' hi' c' e') f' /\ 35 <= lo' /\ hi' <= 40).
Proof.
  destruct a_runs as [r E]. destruct (a_best r E) as (bm & Hb & Ih & Er).
  destruct (a_figure _ _ bm 35 40 Hb) as (v' & ev & F & _ & (a1 & b1 & c1 & e1 & G1 & A1 & B1)). cbv zeta in F. rewrite <- Er in F.
  destruct (a_figure _ _ bm 35000 40000 Hb) as (v2 & ev2 & F2 & (k2 & l2 & M2) & (a2 & b2 & c2 & e2 & G2 & A2 & B2)). cbv zeta in F2.
  exists a_heap, [Analyse a_call; Change 2 [35000; 40000 : R]; Plot 0 "out" None None None], (VSynth PyF r), ev2, ev, (rH bm), k2, a2, b2, l2, c2, e2.
  split; [|split; [exact M2|split; [exact G2|split; [|split]]]].
  - cbn [session step]. rewrite E. cbn [app nth_error].
    cbn [step nth_error app].
    assert (V : view (set_arr a_heap 2 [35000; 40000]) a_call (@VSynth RN PyF r) = @VSynth RN PyF (@mkHksRes RN [0; 1] [0; 1] (hs_best r) (69 / 10) (hs_stk r) "Moho" (6 / 100) [35000; 40000] [17 / 10; 18 / 10])).
    { rewrite Er. reflexivity. }
    rewrite V, F2. reflexivity.
  - destruct Ih as [<-|[<-|[]]]; destruct A2 as [<-|[<-|[]]]; lra.
  - cbn [separate]. rewrite E. cbn [app nth_error]. rewrite F. reflexivity.
  - exists a1, b1, c1, e1. split; [exact G1|]. destruct A1 as [<-|[<-|[]]]; destruct B1 as [<-|[<-|[]]]; lra.
Qed.
