(** * P_Wave4: what the waveform-fitting figures show (C69, C72). *)

From Coq Require Import Reals Lra Permutation.
From Verif Require Import Base Num NumPy Spec HkModel PlotModel PoolModel PoolProofs P_Pool WaveModel WaveProofs P_Wave P_Wave2 P_Wave3.

(** ** The loop over the figures *)
Lemma figures_spec {N : Num} (body : string * list N * @srow N -> res (@figure N)) ps fs r : figures body ps = (fs, r) ->
  length fs <= length ps /\ Forall2 (fun p f => body p = Ok f) (firstn (length fs) ps) fs /\
  (r = Ok tt <-> length fs = length ps) /\
  (forall e, r = Err e -> exists p, nth_error ps (length fs) = Some p /\ body p = Err e).
Proof.
  revert fs r. induction ps as [|p ps IH]; intros fs r H; cbn [figures] in H.
  - injection H as <- <-. cbn. repeat split; try constructor; try reflexivity. intros e He. discriminate.
  - destruct (body p) as [f|e] eqn:E.
    + destruct (figures body ps) as [fs' r'] eqn:Ef. injection H as <- <-. destruct (IH _ _ eq_refl) as (L & F & R1 & R2). cbn [length firstn nth_error].
      split; [lia|]. split; [constructor; assumption|]. split; [rewrite R1; split; lia|]. exact R2.
    + injection H as <- <-. cbn [length firstn nth_error]. split; [lia|]. split; [constructor|]. split; [split; discriminate|].
      intros e' He. injection He as <-. exists p. split; [reflexivity|exact E].
Qed.
Lemma one_figure_inv {N : Num} stackR synO draw rf t lim po HS VpS VsS SD VpC CD rp ga sp fmt suff crit (row : @srow N) f :
  one_figure stackR synO draw rf t lim po HS VpS VsS SD VpC CD rp ga sp fmt (suff, crit, row) = Ok f ->
  exists tr0 rf' st0 SR l p0, rf = tr0 :: rf' /\ stackR rf = Ok (st0 :: SR) /\ lim = Ok l /\
    match po with Some x => p0 = x | None => exists x, nth_error (map (fun i => nadd (nmul (nofZ (Z.of_nat i)) (tr_delta tr0)) (tr_b tr0)) (seq 0 (length (tr_data tr0)))) 0 = Some x /\ p0 = nabs x end /\
    synth synO HS VpS VsS SD VpC CD (sr_H row) (sr_K row) rp (tr_delta tr0) (length (tr_data st0)) p0 ga = Ok (f_synth f) /\
    f_label f = suff /\ f_crit f = crit /\ f_H f = sr_H row /\ f_K f = sr_K row /\ f_x f = map sr_H t /\ f_y f = map sr_K t /\
    f_xlim f = fst l /\ f_ylim f = snd l /\ f_data f = tr_data st0 /\
    f_file f = (sp ++ "/" ++ tr_sta tr0 ++ "_" ++ suff ++ "." ++ fmt)%string /\
    f_dep f = [nofZ 0; HS; HS; sr_H row; sr_H row; nofZ 50] /\ f_vp f = [VpS; VpS; VpC; VpC; nlit 8045 1000; nlit 8045 1000] /\
    f_vs f = [VsS; VsS; ndiv VpC (sr_K row); ndiv VpC (sr_K row); nlit 449 100; nlit 449 100] /\
    f_legend f = (sr_H row, nadd (sr_K row) (nlit 1 1000)) /\
    f_plus f = map (fun x => nadd x (np_std (tr_data st0))) (tr_data st0) /\ f_minus f = map (fun x => nsub x (np_std (tr_data st0))) (tr_data st0).
Proof.
  unfold one_figure. intro H. apply bind_Ok_inv in H as (l & Hl & H). apply bind_Ok_inv in H as (tr0 & H0 & H). destruct rf as [|tr0' rf']; [discriminate|]. injection H0 as <-.
  apply bind_Ok_inv in H as (p0 & Hp & H). apply bind_Ok_inv in H as (SR & HSt & H). apply bind_Ok_inv in H as (st0 & H1 & H). destruct SR as [|st0' SR]; [discriminate|]. injection H1 as <-.
  apply bind_Ok_inv in H as (sy & Hsy & H). apply bind_Ok_inv in H as (u & _ & H). injection H as <-. cbn.
  exists tr0', rf', st0', SR, l, p0. repeat split; try assumption.
  destruct po as [x|]; [injection Hp as <-; reflexivity|]. apply bind_Ok_inv in Hp as (x & Hx & Hp). injection Hp as <-. exists x. split; [apply getitem_Ok in Hx; exact Hx|reflexivity].
Qed.

(** ** C72 *)
(** Figure [f] is the one labelled [label] for criterion column [col] and reported row [r]. *)
Definition shows {N : Num} (table : list (@srow N)) (prefix fmt : string) (p : string * list N * @srow N) (f : @figure N) : Prop :=
  let '(label, col, r) := p in
  f_label f = label /\ f_crit f = col /\ f_H f = sr_H r /\ f_K f = sr_K r /\
  f_x f = map sr_H table /\ f_y f = map sr_K table /\ f_file f = (prefix ++ label ++ "." ++ fmt)%string.
Definition four {N : Num} (table : list (@srow N)) (b : @best N) : list (string * list N * @srow N) :=
  [("Correlation Coefficient"%string, map sr_corr table, b_corr b);
   ("Root-mean-square Error"%string, map sr_rmse table, b_rmse b);
   ("Phase Goodness of Fit"%string, map sr_pg table, b_pg b);
   ("Overall Goodness of Fit"%string, map sr_gof table, b_gof b)].

Lemma str_app_assoc (a b c : string) : ((a ++ b) ++ c = a ++ b ++ c)%string.
Proof. induction a as [|x a IH]; cbn; [reflexivity|]. rewrite IH. reflexivity. Qed.
Lemma str_app_inj_l (a b c : string) : (a ++ b = a ++ c -> b = c)%string.
Proof. induction a as [|x a IH]; cbn; intro H; [exact H|]. injection H as H. exact (IH H). Qed.

Lemma Forall2_imp {A B} (P Q : A -> B -> Prop) l m : (forall a b, In a l -> P a b -> Q a b) -> Forall2 P l m -> Forall2 Q l m.
Proof.
  intros H F. induction F as [|a b l m Hab F IH]; constructor; [apply H; [left; reflexivity|exact Hab]|].
  apply IH. intros a' b' I. apply H. right. exact I.
Qed.

(** C72 (serial): the figures saved by PlotWaveformFitting are, in this order, the
    correlation, RMSE, PG and GoF figures, each with the criterion of the whole table, marked
    at exactly the model WaveformFitting printed as the best one, in the file
    savepath/station_label.format; all four are there exactly when the call returns,
    otherwise a prefix of them. *)
Theorem C72_PlotWaveformFitting {N : Num} stackR synO pgO draw rf po HS VpS VpC rp Ks Hs ga a b c (wf : @wfit N) a' b' c' sp fmt figs r :
  WaveformFitting stackR synO pgO rf po HS VpS VpC rp Ks Hs ga a b c = Ok wf ->
  PlotWaveformFitting stackR synO draw wf a' b' c' sp fmt = (figs, r) ->
  exists tr0 rf', rf = tr0 :: rf' /\ length figs <= 4 /\ (r = Ok tt <-> length figs = 4) /\
    Forall2 (shows (wf_sols wf) (sp ++ "/" ++ tr_sta tr0 ++ "_") fmt) (firstn (length figs) (four (wf_sols wf) (wf_printed wf))) figs.
Proof.
  intros HW HP. destruct (wf_inv _ _ _ _ _ _ _ _ _ _ _ _ _ _ _ _ HW) as (P & T & HPa & _ & _ & _ & _ & Hb & E1 & _).
  destruct (WaveformPara_inv _ _ _ _ _ _ _ _ _ _ _ HPa) as (tr0 & rf' & st0 & SR & t0 & ts & s & e & Erf & _).
  unfold PlotWaveformFitting in HP. rewrite E1, Erf, Hb in HP. cbn [getitem nth_error bind] in HP.
  apply figures_spec in HP as (L & F & R1 & _). exists tr0, rf'. split; [exact Erf|]. split; [exact L|]. split; [exact R1|].
  eapply Forall2_imp; [|exact F]. intros [[suff crit] row] f _ Hf. apply one_figure_inv in Hf as (q1 & q2 & q3 & q4 & l & p0 & Z & _ & _ & _ & _ & G1 & G2 & G3 & G4 & G5 & G6 & _ & _ & _ & G7 & _).
  injection Z as <- <-. unfold shows. repeat split; try assumption. rewrite G7. rewrite !str_app_assoc. reflexivity.
Qed.
(** C72 (parallel): the same for plotbestmodel, marked at the models it printed. *)
Theorem C72_plotbestmodel {N : Num} stackR synO draw res P Ps a b c sp fmt bm :
  let x := @plotbestmodel N stackR synO draw res (P :: Ps) a b c sp fmt in
  pb_printed x = Some bm ->
  exists W, rank (dflt a (nlit 4 10)) (dflt b (nlit 4 10)) (dflt c (nlit 2 10))
      (concat res ++ repeat zsol (length (wp_HMoho P) * length (wp_KMoho P) - length (concat res))) = Ok W /\
    length (pb_figs x) <= 4 /\ (pb_end x = Ok tt <-> length (pb_figs x) = 4) /\
    match wp_stream P with
    | [] => pb_figs x = []
    | tr0 :: _ => Forall2 (shows W (sp ++ "/" ++ tr_sta tr0 ++ "_") fmt) (firstn (length (pb_figs x)) (four W bm)) (pb_figs x)
    end.
Proof.
  cbv zeta. intro H. destruct (pbm_inv _ _ _ _ _ _ _ _ _ _ _ _ H) as (W & HL & HR & HB). exists W. split; [exact HR|]. clear H.
  unfold plotbestmodel. cbn [getitem nth_error bind]. rewrite fill_eq. apply Nat.leb_le in HL. rewrite HL. cbn [bind]. rewrite HR. cbn [bind]. rewrite HB. cbn [bind].
  destruct (figures _ _) as [fs r] eqn:EF. cbn [pb_figs pb_end]. apply figures_spec in EF as (L & F & R1 & _). split; [exact L|]. split; [exact R1|].
  destruct (wp_stream P) as [|tr0 rf'] eqn:EP.
  { destruct fs as [|f fs]; [reflexivity|]. exfalso. cbn [length firstn panels] in F. inversion F as [|x1 x2 x3 x4 Hf F']. subst. apply one_figure_inv in Hf as (q1 & q2 & q3 & q4 & l & p0 & Z & _). discriminate. }
  eapply Forall2_imp; [|exact F]. intros [[suff crit] row] f _ Hf. apply one_figure_inv in Hf as (q1 & q2 & q3 & q4 & l & p0 & Z & _ & _ & _ & _ & G1 & G2 & G3 & G4 & G5 & G6 & _ & _ & _ & G7 & _).
  injection Z as <- <-. unfold shows. repeat split; try assumption. rewrite G7. rewrite !str_app_assoc. reflexivity.
Qed.
(** The four files are different. *)
Theorem C72_distinct_files {N : Num} (W : list (@srow N)) prefix fmt bm figs :
  Forall2 (shows W prefix fmt) (firstn (length figs) (four W bm)) figs -> NoDup (map f_file figs).
Proof.
  intro F. assert (E : map f_file figs = map (fun p => prefix ++ (fst (fst p) ++ "." ++ fmt))%string (firstn (length figs) (four W bm))).
  { remember (firstn (length figs) (four W bm)) as l eqn:El. clear El. induction F as [|[[lab col] r] f l m Hs F IH]; cbn [map]; [reflexivity|].
    rewrite IH. destruct Hs as (_ & _ & _ & _ & _ & _ & ->). reflexivity. }
  rewrite E. rewrite <- firstn_map. clear.
  assert (D : NoDup (map (fun p : string * list N * @srow N => (prefix ++ (fst (fst p) ++ "." ++ fmt))%string) (four W bm))).
  { cbn [four map fst]. repeat constructor; cbn [In]; intro H;
    repeat match type of H with _ \/ _ => destruct H as [H|H] | False => destruct H end;
    apply str_app_inj_l in H; cbn in H; discriminate. }
  set (l := map _ (four W bm)) in *. clearbody l. generalize (length figs). clear -D.
  induction D as [|x l Hx D IH]; intros [|n]; cbn [firstn]; try constructor.
  - intro I. apply Hx. clear -I. revert n I. induction l as [|y l IH]; intros [|n] I; cbn in I; try contradiction. destruct I as [->|I]; [left; reflexivity|right; exact (IH _ I)].
  - apply IH.
Qed.

(** ** C69 *)
Lemma eval_row {N : Num} synO pgO (P : @wparams N) T (row : @srow N) l :
  mapM (fun hk => eval_node synO pgO P (fst hk) (snd hk)) l = Ok T -> In (strip row) T ->
  exists sy, synth synO (wp_HSed P) (wp_VpSed P) (wp_VsSed P) (wp_SedDen P) (wp_VpCrust P) (wp_CrustDen P) (sr_H row) (sr_K row)
      (wp_rayp P) (wp_delta P) (wp_n P) (wp_preonset P) (wp_gauss P) = Ok sy /\
    corrcoef (slice (wp_data P) (wp_start P) (wp_end P)) (slice sy (wp_start P) (wp_end P)) = Ok (sr_corr row) /\
    rmse (slice (wp_data P) (wp_start P) (wp_end P)) (slice sy (wp_start P) (wp_end P)) = Ok (sr_rmse row) /\
    pgO (signs (slice (wp_data P) (wp_start P) (wp_end P))) (signs (slice sy (wp_start P) (wp_end P))) (wp_delta P) = Ok (sr_pg row).
Proof.
  intros HT HI. apply mapM_Ok in HT. induction HT as [|[h k] s l T Hsv F IH]; [destruct HI|]. destruct HI as [->|HI]; [|exact (IH HI)].
  cbn [fst snd] in Hsv. pose proof (eval_node_HK _ _ _ _ _ _ Hsv) as [E1 E2]. cbn [strip so_H so_K] in E1, E2. subst h k.
  unfold eval_node in Hsv. apply bind_Ok_inv in Hsv as (sy & Hs & H). apply bind_Ok_inv in H as (c & Hc & H).
  apply bind_Ok_inv in H as (r & Hr & H). apply bind_Ok_inv in H as (p & Hp & H). unfold strip in H. injection H as -> -> ->.
  exists sy. repeat split; assumption.
Qed.

(** The synthetic record of figure [f] (the one that row [r] was scored with): over the
    samples [s..e) it has the correlation and the RMSE of [r] against the stacked record
    of the figure. *)
Definition scored_as {N : Num} (s e : nat) (f : @figure N) (r : @srow N) : Prop :=
  corrcoef (slice (f_data f) s e) (slice (f_synth f) s e) = Ok (sr_corr r) /\
  rmse (slice (f_data f) s e) (slice (f_synth f) s e) = Ok (sr_rmse r).

Lemma Forall2_map_l {A B D} (Q : B -> D -> Prop) (g : A -> B) l m : Forall2 Q (map g l) m <-> Forall2 (fun a d => Q (g a) d) l m.
Proof.
  split; intro F.
  - remember (map g l) as l' eqn:E. revert l E. induction F as [|b d l' m Hq F IH]; intros [|a l] E; cbn in E; try discriminate; constructor.
    + injection E as -> _. exact Hq.
    + injection E as _ ->. apply IH. reflexivity.
  - induction F; constructor; assumption.
Qed.
Lemma firstn_In {A} (l : list A) n x : In x (firstn n l) -> In x l.
Proof. revert n. induction l as [|y l IH]; intros [|n] I; cbn in I; try contradiction. destruct I as [->|I]; [left; reflexivity|right; exact (IH _ I)]. Qed.

(** C69 (parallel): with results that come from running the worker over the depths on the
    same parameters, each figure of plotbestmodel shows the very synthetic its model was
    scored with, beside the stacked record it was scored against (any arithmetic). *)
Theorem C69_plotbestmodel {N : Num} stackR synO pgO draw rf po HS VpS VpC rp Ks Hs ga P res a b c sp fmt bm :
  WaveformPara stackR rf po HS VpS VpC rp Ks Hs ga = Ok [P] ->
  mapM (fun h => WaveformFit_multiproc synO pgO ([h], [P])) Hs = Ok res ->
  let x := @plotbestmodel N stackR synO draw res [P] a b c sp fmt in
  pb_printed x = Some bm ->
  Forall2 (fun r f => scored_as (wp_start P) (wp_end P) f r)
    (firstn (length (pb_figs x)) [b_corr bm; b_rmse bm; b_pg bm; b_gof bm]) (pb_figs x).
Proof.
  intros HPa Hres. cbv zeta. intro H. destruct (pbm_inv _ _ _ _ _ _ _ _ _ _ _ _ H) as (W & HL & HR & HB). clear H.
  assert (Er : mapM (fun h => mapM (eval_node synO pgO P h) Ks) Hs = Ok res).
  { rewrite <- Hres. clear Hres. assert (EK : wp_KMoho P = Ks).
    { destruct (WaveformPara_inv _ _ _ _ _ _ _ _ _ _ _ HPa) as (? & ? & ? & ? & ? & ? & ? & ? & _ & _ & _ & _ & E). injection E as ->. reflexivity. }
    clear -EK. induction Hs as [|h Hs IH]; cbn [mapM]; [reflexivity|]. rewrite fit_eq, IH, EK. reflexivity. }
  pose proof (multi_table _ _ _ _ Er) as Em.
  destruct (WaveformPara_inv _ _ _ _ _ _ _ _ _ _ _ HPa) as (tr0 & rf' & st0 & SR & t0 & ts & s & e & Erf & Est & _ & _ & EP). injection EP as EP.
  assert (EL : length (concat res) = length (wp_HMoho P) * length (wp_KMoho P)).
  { apply mapM_length in Em. rewrite prod_length in Em. rewrite EP. cbn. lia. }
  assert (ES : map strip W = concat res).
  { rewrite (strip_rank _ _ _ _ _ HR), EL, Nat.sub_diag. cbn [repeat]. apply app_nil_r. }
  apply best_rows_In in HB as HI.
  unfold plotbestmodel. cbn [getitem nth_error bind]. rewrite fill_eq. apply Nat.leb_le in HL. rewrite HL. cbn [bind]. rewrite HR. cbn [bind]. rewrite HB. cbn [bind].
  destruct (figures _ _) as [fs r] eqn:EF. cbn [pb_figs]. apply figures_spec in EF as (L & F & _).
  change [b_corr bm; b_rmse bm; b_pg bm; b_gof bm] with (map (fun p : string * list N * @srow N => snd p) (panels W bm)).
  rewrite firstn_map. apply Forall2_map_l. eapply Forall2_imp; [|exact F]. intros [[suff crit] row] f Ip Hf. cbn [snd].
  apply firstn_In in Ip. assert (Iw : In row W).
  { destruct HI as (I1 & I2 & I3 & I4). unfold panels in Ip. cbn [In] in Ip. destruct Ip as [Ip|[Ip|[Ip|[Ip|[]]]]]; injection Ip as <- <- <-; assumption. }
  assert (Ir : In (strip row) (concat res)) by (rewrite <- ES; apply in_map; exact Iw).
  destruct (eval_row _ _ _ _ _ _ Em Ir) as (sy & Hsy & Hc & Hr & _).
  apply one_figure_inv in Hf as (q1 & q2 & q3 & q4 & l & p0 & Q1 & Q2 & _ & -> & Q3 & _ & _ & _ & _ & _ & _ & _ & _ & G & _).
  unfold scored_as. rewrite G. subst P. cbn [wp_stream wp_HSed wp_VpSed wp_VsSed wp_SedDen wp_VpCrust wp_CrustDen wp_rayp wp_delta wp_n wp_preonset wp_gauss wp_data wp_start wp_end] in *.
  rewrite Erf in Q1. injection Q1 as <- <-. rewrite Est in Q2. injection Q2 as <- <-.
  assert (E : Ok (f_synth f) = Ok sy) by (rewrite <- Q3, <- Hsy; reflexivity). injection E as ->. split; assumption.
Qed.

(** C69 (serial): PlotWaveformFitting derives the pre-onset time of the synthetic from the
    trace header (|starttime - onset|) instead of the [preonset] it was fitted with.  If
    the two agree in magnitude the figures show the scored synthetics. *)
Theorem C69_PlotWaveformFitting stackR synO pgO draw rf po HS VpS VpC rp Ks Hs ga (a b c : R) (wf : @wfit RN) a' b' c' sp fmt figs r tr0 rf' :
  WaveformFitting stackR synO pgO rf po HS VpS VpC rp Ks Hs ga a b c = Ok wf -> rf = tr0 :: rf' ->
  Rabs (tr_b tr0) = Rabs po ->
  PlotWaveformFitting stackR synO draw wf a' b' c' sp fmt = (figs, r) ->
  exists s e, fit_window (taxis (tr_delta tr0) (length (tr_data tr0)) po) (tr_delta tr0) = Ok (s, e) /\
  Forall2 (fun r f => scored_as s e f r)
    (firstn (length figs) [b_corr (wf_printed wf); b_rmse (wf_printed wf); b_pg (wf_printed wf); b_gof (wf_printed wf)]) figs.
Proof.
  intros HW Hrf Hb HP. rewrite WaveformFitting_eq in HW. apply bind_Ok_inv in HW as (Ps & HPa & H). apply bind_Ok_inv in H as (P & H0 & H).
  apply bind_Ok_inv in H as (T & HT & H). apply bind_Ok_inv in H as (W & HR & H). apply bind_Ok_inv in H as (bm & HB & H). injection H as <-.
  cbn [wf_printed] in *. destruct (WaveformPara_inv _ _ _ _ _ _ _ _ _ _ _ HPa) as (tr0' & rf'' & st0 & SR & t0 & ts & s & e & Erf & Est & Et & Ew & EP).
  rewrite Hrf in Erf. injection Erf as <- <-. exists s, e. rewrite Et. split; [exact Ew|].
  rewrite EP in H0. cbn in H0. injection H0 as EP0. clear EP.
  unfold PlotWaveformFitting in HP. cbn [wf_stream wf_sols wf_HMoho wf_KMoho wf_HSed wf_VpSed wf_VpCrust wf_rayp wf_gauss] in HP. rewrite Hrf in HP. cbn [getitem nth_error bind] in HP. rewrite HB in HP. cbn [bind] in HP.
  apply figures_spec in HP as (L & F & _). apply best_rows_In in HB as HI.
  change [b_corr bm; b_rmse bm; b_pg bm; b_gof bm] with (map (fun p : string * list RN * @srow RN => snd p) (panels W bm)).
  rewrite firstn_map. apply Forall2_map_l. eapply Forall2_imp; [|exact F]. intros [[suff crit] row] f Ip Hf. cbn [snd].
  apply firstn_In in Ip. assert (Iw : In row W).
  { destruct HI as (I1 & I2 & I3 & I4). unfold panels in Ip. cbn [In] in Ip. destruct Ip as [Ip|[Ip|[Ip|[Ip|[]]]]]; injection Ip as <- <- <-; assumption. }
  assert (Ir : In (strip row) T) by (rewrite <- (strip_rank _ _ _ _ _ HR); apply in_map; exact Iw).
  assert (HT' : mapM (fun hk => eval_node synO pgO P (fst hk) (snd hk)) (map (fun p => (snd p, fst p)) (list_prod Ks Hs)) = Ok T).
  { rewrite mapM_map. exact HT. }
  destruct (eval_row _ _ _ _ _ _ HT' Ir) as (sy & Hsy & Hc & Hr & _).
  apply one_figure_inv in Hf as (q1 & q2 & q3 & q4 & l & p0 & Q1 & Q2 & _ & (x & Hx & ->) & Q3 & _ & _ & _ & _ & _ & _ & _ & _ & G & _).
  unfold scored_as. rewrite G. subst P. cbn [wp_stream wp_HSed wp_VpSed wp_VsSed wp_SedDen wp_VpCrust wp_CrustDen wp_rayp wp_delta wp_n wp_preonset wp_gauss wp_data wp_start wp_end] in *.
  injection Q1 as <- <-. rewrite Hrf in Est. rewrite Est in Q2. injection Q2 as <- <-.
  assert (Ex : Rabs x = Rabs t0).
  { assert (Hl : 0 < length (tr_data tr0)).
    { unfold taxis in Et. destruct (length (tr_data tr0)); [discriminate Et|lia]. }
    destruct (length (tr_data tr0)) as [|n]; [lia|]. unfold taxis in Et. cbn [seq map nth_error] in Hx, Et. injection Hx as <-. injection Et as <- _.
    cbn [nadd nsub nmul nofZ RN Z.of_nat]. clear F. change (F RN) with R in *.
    assert (Z1 : (0 * tr_delta tr0 + tr_b tr0 = tr_b tr0)%R) by (rewrite Rmult_0_l; apply Rplus_0_l).
    assert (Z2 : (tr_delta tr0 * 0 - po = - po)%R) by (rewrite Rmult_0_r; apply Rminus_0_l).
    rewrite Z1, Z2, Rabs_Ropp. exact Hb. }
  assert (E : Ok (f_synth f) = Ok sy).
  { rewrite <- Q3, <- Hsy. change (@nabs RN x) with (Rabs x). change (@nabs RN t0) with (Rabs t0). rewrite Ex. reflexivity. }
  injection E as ->. split; assumption.
Qed.
