(** * P_FiltPlot: C117, what the diagnostic figures of the resonance filter show. *)

From Coq Require Import Reals Lra Ascii.
From Verif Require Import Base Num NumPy Spec HkModel HkReal Cplx DFT DFT2 SpecSignal ReverbModel ReverbProofs ReverbProofs2 P_Reverb P_Reverb2 P_Reverb3
  PlotModel PlotProofs.
Local Open Scope R_scope.

(** ** Specification *)

(** A saved figure: its file and the curves on it, each a list of abscissae and a list of ordinates. *)
Definition page := (string * list (list R * list R))%type.

(** The figures saved in a history of pyplot calls: a curve stays on the current figure until the
    figure is shown (and closed). *)
Fixpoint pages (on_figure : list (list R * list R)) (evs : list (pev RN)) : list page :=
  match evs with
  | [] => []
  | ELine _ x y :: r => pages (on_figure ++ [(x, y)]) r
  | ESave f :: r => (f, on_figure) :: pages on_figure r
  | EShow :: r => pages [] r
  | _ :: r => pages on_figure r
  end.

(** The result dictionary of the filter, as the plot function reads it (real part of the response). *)
Definition drawn_dict (o : fltout) (ac : list R) : fltres RN :=
  mkFltRes (N := RN) (fl_rf o) (fl_filtered o) (map Re (fl_res o)) (fl_time o) ac.

(** A curve of autocorrelation values is drawn right when value [k], which belongs to a lag of [k]
    samples, is at abscissa [k * delta]. *)
Definition against_lag (delta : R) (c : list R * list R) : Prop :=
  forall k, (k < length (snd c))%nat -> nth_error (fst c) k = Some (INR k * delta).
(** A curve of response values is drawn right when value [k] is at a frequency of FFT bin [k]:
    [k / (n delta)] up to a multiple of the sampling frequency. *)
Definition against_frequency (delta : R) (c : list R * list R) : Prop :=
  let n := length (snd c) in
  forall k, (k < n)%nat -> exists m, nth_error (fst c) k = Some (INR k / (INR n * delta) + IZR m / delta).
(** A curve of samples is drawn right when sample [k] is [k * delta - preonset] after the onset. *)
Definition against_time (delta pre : R) (c : list R * list R) : Prop :=
  forall k, (k < length (snd c))%nat -> nth_error (fst c) k = Some (delta * INR k - pre).

(** ** Lemmas *)
Lemma uniform_axis_nth delta l pre k : (k < l)%nat ->
  nth_error (@uniform_axis RN delta l pre) k = Some (delta * INR k - pre).
Proof.
  intro H. unfold uniform_axis. rewrite nth_error_map_seq by exact H.
  cbn [nsub nmul nofZ RN]. rewrite <- INR_IZR_INZ. reflexivity.
Qed.

Lemma plotfiltrf_events pyplot path fmt (d : fltres RN) s' u :
  plotfiltrf pyplot path fmt (mkPst [] d) = (s', Ok u) ->
  pages [] (ps_ev s') =
    [((path ++ "/Autocorrelation." ++ fmt)%string, [(fr_time d, fr_autoc d)]);
     ((path ++ "/Resonance_Filter." ++ fmt)%string, [(fr_time d, fr_resreal d)]);
     ((path ++ "/RF_FilteredRF." ++ fmt)%string, [(fr_time d, fr_rf d); (fr_time d, fr_filteredrf d)])]
  /\ ps_d s' = d.
Proof.
  unfold plotfiltrf. intro E.
  apply pbind_ok in E. destruct E as [s1 [d1 [E1 E]]]. apply pget_ok in E1. destruct E1 as [-> ->].
  do 9 (apply pbind_ok in E; let s1 := fresh "t" in let u1 := fresh "v" in let E1 := fresh "E1" in
        destruct E as [s1 [u1 [E1 E]]]; apply emit_ok in E1).
  apply emit_ok in E. subst. cbn [ps_ev ps_d]. split; reflexivity.
Qed.

(** ** C117 *)

(** What is saved, for every returned dictionary: three figures, all of them against the time axis of
    the receiver function. *)
Theorem C117_figures pyplot path fmt o ac s' u :
  plotfiltrf pyplot path fmt (mkPst [] (drawn_dict o ac)) = (s', Ok u) ->
  pages [] (ps_ev s') =
    [((path ++ "/Autocorrelation." ++ fmt)%string, [(fl_time o, ac)]);
     ((path ++ "/Resonance_Filter." ++ fmt)%string, [(fl_time o, map Re (fl_res o))]);
     ((path ++ "/RF_FilteredRF." ++ fmt)%string, [(fl_time o, fl_rf o); (fl_time o, fl_filtered o)])]
  /\ ps_d s' = drawn_dict o ac.
Proof. intro E. exact (plotfiltrf_events pyplot path fmt (drawn_dict o ac) s' u E). Qed.

(** Both curves of the third figure are right. *)
Theorem C117_traces_right stackO rf pre tr0 st0 SR o :
  ResonanceFilt stackO rf pre = Ok o -> nth_error rf 0 = Some tr0 -> stackO rf = Ok (st0 :: SR) ->
  length (tr_data st0) = length (tr_data tr0) ->
  against_time (tr_delta tr0) pre (fl_time o, fl_rf o) /\
  against_time (tr_delta tr0) pre (fl_time o, fl_filtered o).
Proof.
  intros E H0 HS HL.
  assert (Ru : run_of (tr_data st0) (tr_delta tr0) (@uniform_axis RN (tr_delta tr0) (length (tr_data tr0)) pre) o).
  { left. exists stackO, rf, pre, tr0, st0, SR. repeat split; assumption. }
  apply run_of_facts in Ru. cbn zeta in Ru.
  destruct Ru as (L & r & _ & _ & Hrf & Htm & _ & _ & _ & _ & Hf & _).
  split; intros k Hk; cbn [fst snd] in *; rewrite Htm; apply uniform_axis_nth.
  - rewrite Hrf in Hk. rewrite <- HL. exact Hk.
  - rewrite Hf, map_length, seq_length in Hk. rewrite <- HL. exact Hk.
Qed.

(** In the first figure every value is displaced by the start of the time axis: the trough that the
    filter uses, at lag [tlag], is drawn at [tlag] plus the time of the first sample. *)
Theorem C117_trough_displaced data delta time o t0 : run_of data delta time o -> ~ straight data ->
  (forall k, (k < length data)%nat -> nth_error time k = Some (t0 + INR k * delta)) ->
  exists ac L x y, fl_autoc o = Some ac /\ fl_tlag o = INR L * delta /\ fl_r o = Rabs y /\
    nth_error ac L = Some y /\ nth_error (fl_time o) L = Some x /\
    x = fl_tlag o + t0 /\
    (against_lag delta (fl_time o, ac) <-> t0 = 0).
Proof.
  intros H Hs Hax. destruct (C87_resonance_found data delta time o H Hs) as (ac & a & b & Ea & T & _ & HL & Et & Er).
  cbn zeta in *. set (L := ((a + b) / 2)%nat) in *.
  pose proof H as F0. apply run_of_facts in F0. cbn zeta in F0. destruct F0 as (_ & _ & Hn & _ & _ & Htm & _).
  destruct (C26_first_trough data delta time o H) as (D & HD & Hm). rewrite Ea in Hm. destruct Hm as ((Lac & _) & _).
  assert (Hy : nth_error ac L = Some (rnth ac L)) by (apply nth_error_nth'; lia).
  exists ac, L, (t0 + INR L * delta), (rnth ac L). rewrite Htm.
  split; [exact Ea|]. split; [exact Et|]. split; [exact Er|]. split; [exact Hy|].
  split; [apply Hax; lia|]. split; [rewrite Et; ring|].
  unfold against_lag. cbn [fst snd]. rewrite Lac. split.
  - intro A. assert (Hl : (0 < length data)%nat) by (destruct data; [congruence|cbn; lia]).
    specialize (A 0%nat Hl). rewrite Hax in A by exact Hl. injection A as A. simpl in A. lra.
  - intros -> k Hk. rewrite Hax by exact Hk. f_equal. ring.
Qed.

(** For a stream the first sample is [preonset] before the onset, so the figure is right only for
    [preonset = 0]. *)
Theorem C117_right_iff_no_preonset stackO rf pre tr0 st0 SR o :
  ResonanceFilt stackO rf pre = Ok o -> nth_error rf 0 = Some tr0 -> stackO rf = Ok (st0 :: SR) ->
  length (tr_data st0) = length (tr_data tr0) -> ~ straight (tr_data st0) ->
  exists ac L y, fl_autoc o = Some ac /\ fl_tlag o = INR L * tr_delta tr0 /\ fl_r o = Rabs y /\
    nth_error ac L = Some y /\ nth_error (fl_time o) L = Some (fl_tlag o - pre) /\
    (against_lag (tr_delta tr0) (fl_time o, ac) <-> pre = 0).
Proof.
  intros E H0 HS HL Hs.
  assert (Ru : run_of (tr_data st0) (tr_delta tr0) (@uniform_axis RN (tr_delta tr0) (length (tr_data tr0)) pre) o).
  { left. exists stackO, rf, pre, tr0, st0, SR. repeat split; assumption. }
  destruct (C117_trough_displaced _ _ _ o (- pre) Ru Hs) as (ac & L & x & y & A1 & A2 & A3 & A4 & A5 & A6 & A7).
  { intros k Hk. etransitivity; [apply uniform_axis_nth; rewrite <- HL; exact Hk|]. f_equal. ring. }
  exists ac, L, y. subst x. do 4 (split; [assumption|]). split; [etransitivity; [exact A5|f_equal; ring]|].
  rewrite A7. split; intro; lra.
Qed.

(** ** A run: the trace 1 0 1 4 at 2 Hz, onset 5 s after its start.  The filter uses the trough at a lag
    of 1 s; the figure shows it at -4 s, and the response at zero frequency at -5. *)
Definition ex_tr : trace RN :=
  mkTrace (N := RN) [1; 0; 1; 4] (1 / 2) 0 PyF 0 0 0 "STA" "RRF" None.
Lemma ex_auto time o : run_of [1; 0; 1; 4] (1 / 2) time o ->
  fl_tlag o = 1 /\ fl_r o = 1 / 2 /\ exists ac, fl_autoc o = Some ac /\ ac = [1; - (1 / 4); - (1 / 2); 1 / 4].
Proof.
  intro Ru. set (data := [1; 0; 1; 4]) in *. set (D := [1; -1; -1; 1]).
  assert (HD : ls_residual data D).
  { split; [reflexivity|]. split; [exists 0, 1|split].
    - intros j Hj. unfold data, D in *. simpl in Hj. do 4 (destruct j as [|j]; [unfold rnth; simpl; lra|]). lia.
    - unfold D, rnth. simpl. lra.
    - unfold D, rnth. simpl. lra. }
  assert (A0 : acorr D 0 = 4) by (unfold acorr, D, rnth; simpl; lra).
  assert (A1 : acorr D 1 = -1) by (unfold acorr, D, rnth; simpl; lra).
  assert (A2 : acorr D 2 = -2) by (unfold acorr, D, rnth; simpl; lra).
  assert (A3 : acorr D 3 = 1) by (unfold acorr, D, rnth; simpl; lra).
  destruct (C26_first_trough data (1 / 2) time o Ru) as (D' & HD' & Hm).
  rewrite (ls_residual_unique data D' D HD' HD) in Hm. clear D' HD'.
  destruct (fl_autoc o) as [ac|].
  2:{ exfalso. specialize (Hm 0%nat). unfold D, rnth in Hm. simpl in Hm. lra. }
  destruct Hm as ((Lac & Hac) & _ & _ & _ & Ht). change (length data) with 4%nat in *.
  assert (B0 := Hac 0%nat ltac:(lia)). assert (B1 := Hac 1%nat ltac:(lia)).
  assert (B2 := Hac 2%nat ltac:(lia)). assert (B3 := Hac 3%nat ltac:(lia)).
  rewrite A0 in B0, B1, B2, B3. rewrite A1 in B1. rewrite A2 in B2. rewrite A3 in B3.
  assert (T22 : trough ac 2 2).
  { split; [lia|]. split; [lia|]. simpl. split; [lra|]. split; [|lra]. intros i Hi. replace i with 2%nat by lia. reflexivity. }
  destruct Ht as (a & b & T & Hfst & HL & Htl & Hr & _); [eauto|].
  assert (Ha : (a <= 2)%nat) by (apply (Hfst 2%nat 2%nat); exact T22).
  assert (Eab : a = 2%nat /\ b = 2%nat).
  { destruct T as ((T1 & T2) & T3 & T4 & T5 & T6). rewrite Lac in T3.
    destruct (Nat.eq_dec a 1) as [->|].
    - exfalso. destruct (Nat.eq_dec b 1) as [->|]; [simpl in T6; lra|]. assert (b = 2%nat) by lia. subst b.
      specialize (T5 2%nat ltac:(lia)). lra.
    - assert (a = 2%nat) by lia. split; [assumption|lia]. }
  destruct Eab as [-> ->]. change ((2 + 2) / 2)%nat with 2%nat in *.
  split; [rewrite Htl; simpl; lra|]. split; [rewrite Hr, B2, Rabs_left; lra|].
  exists ac. split; [reflexivity|]. apply rlist_ext; [exact Lac|]. rewrite Lac. intros j Hj.
  do 4 (destruct j as [|j]; [unfold rnth in *; simpl in *; lra|]). lia.
Qed.

Theorem C117_refuted : exists o ac s',
  ResonanceFilt (fun rf => Ok rf) [ex_tr] 5 = Ok o /\ fl_autoc o = Some ac /\
  plotfiltrf (fun _ _ => None) "out" "jpg" (mkPst [] (drawn_dict o ac)) = (s', Ok tt) /\
  (* the filter used lag 1 s, where the autocorrelation is -1/2; the figure shows -1/2 at -4 s *)
  fl_tlag o = 1 /\
  nth_error (pages [] (ps_ev s')) 0 = Some ("out/Autocorrelation.jpg"%string,
    [([-5; -9/2; -4; -7/2], [1; -(1/4); -(1/2); 1/4])]) /\
  ~ against_lag (1 / 2) (fl_time o, ac) /\
  (* and no frequency is where it should be on the figure of the response *)
  ~ against_frequency (1 / 2) (fl_time o, map Re (fl_res o)).
Proof.
  destruct (C24_ResonanceFilt_returns (fun rf => Ok rf) [ex_tr] 5 ex_tr ex_tr []) as [o E];
    try reflexivity; [cbn; lra|discriminate|].
  assert (Ru : run_of [1; 0; 1; 4] (1 / 2) (@uniform_axis RN (1 / 2) 4 5) o).
  { left. exists (fun rf => Ok rf), [ex_tr], 5, ex_tr, ex_tr, []. repeat split; assumption. }
  destruct (ex_auto _ _ Ru) as (Et & _ & ac & Ea & Eac).
  pose proof Ru as Q. apply run_of_facts in Q. cbn zeta in Q.
  destruct Q as (L & r & _ & _ & _ & Htm & _ & _ & _ & Hres & _).
  assert (Eax : @uniform_axis RN (1 / 2) 4 5 = [-5; -9/2; -4; -7/2]).
  { cbn. repeat (apply f_equal2; [lra|]). reflexivity. }
  destruct (plotfiltrf (fun _ _ => None) "out" "jpg" (mkPst [] (drawn_dict o ac))) as [s' res] eqn:Ep.
  assert (res = Ok tt) by (cbn in Ep; congruence). subst res.
  exists o, ac, s'. split; [exact E|]. split; [exact Ea|]. split; [exact Ep|]. split; [exact Et|].
  split; [|split].
  - apply C117_figures in Ep. destruct Ep as [-> _]. cbn [nth_error]. rewrite Htm, Eax, Eac. reflexivity.
  - intro A. specialize (A 0%nat). cbn [fst snd] in A. rewrite Eac in A. specialize (A ltac:(cbn; lia)).
    rewrite Htm, Eax in A. cbn in A. injection A as A. lra.
  - intro A. unfold against_frequency in A. cbn [fst snd] in A.
    assert (Ln : length (map Re (fl_res o)) = 4%nat) by (rewrite Hres, !map_length, seq_length; reflexivity).
    rewrite Ln in A. destruct (A 0%nat ltac:(lia)) as [m Hm]. rewrite Htm, Eax in Hm. cbn [nth_error] in Hm.
    injection Hm as Hm. simpl INR in Hm.
    assert (H2 : IZR (2 * m) = IZR (-5)) by (rewrite mult_IZR; lra).
    apply eq_IZR in H2. lia.
Qed.
