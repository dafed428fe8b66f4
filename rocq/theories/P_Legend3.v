(** * P_Legend3: legend, band and axes of the waveform-fitting figures (C96, C97, C98). *)

From Coq Require Import Reals Lra.
From Verif Require Import Base Num NumPy Spec HkModel PlotModel PoolModel ShowModel P_Show WaveModel WaveProofs P_Wave P_Wave2 P_Wave3 P_Wave4 P_Wave5.

(** The models printed as best by the four criteria, in the order of the figures. *)
Definition printed_rows {N : Num} (b : @best N) : list (@srow N) := [b_corr b; b_rmse b; b_pg b; b_gof b].

Lemma panels_rows {N : Num} (W : list (@srow N)) b : map snd (panels W b) = printed_rows b.
Proof. reflexivity. Qed.
Lemma firstn_map' {A B} (f : A -> B) n l : firstn n (map f l) = map f (firstn n l).
Proof. apply firstn_map. Qed.
Lemma F2_map_l {A B D} (Q : B -> D -> Prop) (g : A -> B) l m : Forall2 (fun a d => Q (g a) d) l m -> Forall2 Q (map g l) m.
Proof. induction 1; constructor; assumption. Qed.
Lemma F2_all {A B} (P : A -> B -> Prop) (Q : B -> Prop) l m : (forall a b, P a b -> Q b) -> Forall2 P l m -> Forall Q m.
Proof. intros H. induction 1; constructor; eauto. Qed.

(** What holds of every figure of PlotWaveformFitting and of plotbestmodel. *)
Lemma pwf_figs {N : Num} stackR synO draw (wf : @wfit N) a' b' c' sp fmt figs r (Q : @srow N -> @figure N -> Prop) :
  PlotWaveformFitting stackR synO draw wf a' b' c' sp fmt = (figs, r) ->
  (forall suff crit row f,
    one_figure stackR synO draw (wf_stream wf) (wf_sols wf) (a <- ends (wf_HMoho wf) ;; c <- ends (wf_KMoho wf) ;; Ok (a, c)) None
                 (wf_HSed wf) (wf_VpSed wf) (brocher_vs (wf_VpSed wf)) (brocher_rho (wf_VpSed wf)) (wf_VpCrust wf) (brocher_rho (wf_VpCrust wf))
                 (wf_rayp wf) (wf_gauss wf) sp fmt (suff, crit, row) = Ok f -> Q row f) ->
  match best_rows (wf_sols wf) with
  | Ok b => Forall2 Q (firstn (length figs) (printed_rows b)) figs
  | Err _ => figs = []
  end.
Proof.
  intros HP H. unfold PlotWaveformFitting in HP. destruct (getitem (wf_stream wf) 0) as [tr0|e]; cbn [bind] in HP.
  2:{ injection HP as <- _. destruct (best_rows _); [constructor|reflexivity]. }
  destruct (best_rows (wf_sols wf)) as [b|e] eqn:EB; cbn [bind] in HP; [|injection HP as <- _; reflexivity].
  apply figures_spec in HP as (L & F & _). rewrite <- (panels_rows (wf_sols wf)), firstn_map'. apply F2_map_l.
  eapply Forall2_imp; [|exact F]. intros [[suff crit] row] f _ Hf. cbn [snd]. eapply H. exact Hf.
Qed.
Lemma pbm_figs {N : Num} stackR synO draw res P Ps a b c sp fmt bm (Q : @srow N -> @figure N -> Prop) :
  let x := @plotbestmodel N stackR synO draw res (P :: Ps) a b c sp fmt in
  pb_printed x = Some bm ->
  (forall W suff crit row f,
    one_figure stackR synO draw (wp_stream P) W (k <- minmax (wp_KMoho P) ;; h <- minmax (wp_HMoho P) ;; Ok (h, k)) (Some (wp_preonset P))
                 (wp_HSed P) (wp_VpSed P) (wp_VsSed P) (wp_SedDen P) (wp_VpCrust P) (wp_CrustDen P)
                 (wp_rayp P) (wp_gauss P) sp fmt (suff, crit, row) = Ok f -> Q row f) ->
  Forall2 Q (firstn (length (pb_figs x)) (printed_rows bm)) (pb_figs x).
Proof.
  cbv zeta. intros H HQ. destruct (pbm_inv _ _ _ _ _ _ _ _ _ _ _ _ H) as (W & HL & HR & HB). clear H.
  unfold plotbestmodel. cbn [getitem nth_error bind]. rewrite fill_eq. apply Nat.leb_le in HL. rewrite HL. cbn [bind]. rewrite HR. cbn [bind]. rewrite HB. cbn [bind].
  destruct (figures _ _) as [fs r] eqn:EF. cbn [pb_figs]. apply figures_spec in EF as (L & F & _).
  rewrite <- (panels_rows W), firstn_map'. apply F2_map_l.
  eapply Forall2_imp; [|exact F]. intros [[suff crit] row] f _ Hf. cbn [snd]. eapply HQ. exact Hf.
Qed.

(** ** C96: the legend of each figure prints the depth of the printed model and its Vp/Vs plus
    0.001 (see C96_legend_exact for what that means at two decimals), although the console line
    of the same model prints the Vp/Vs itself at two decimals. *)
Definition legend_of {N : Num} (r : @srow N) (f : @figure N) : Prop :=
  f_H f = sr_H r /\ f_K f = sr_K r /\ f_legend f = (sr_H r, nadd (sr_K r) (nlit 1 1000)).

Ltac fig_inv H := apply one_figure_inv in H as (tr0 & rf' & st0 & SR & l & p0 & Z & St & Li & Po & Sy & G1 & G2 & G3 & G4 & G5 & G6 & Gx & Gy & Gd & G7 & Gdep & Gvp & Gvs & Gl & Gp & Gm).

Theorem C96_PlotWaveformFitting {N : Num} stackR synO pgO draw rf po HS VpS VpC rp Ks Hs ga a b c (wf : @wfit N) a' b' c' sp fmt figs r :
  WaveformFitting stackR synO pgO rf po HS VpS VpC rp Ks Hs ga a b c = Ok wf ->
  PlotWaveformFitting stackR synO draw wf a' b' c' sp fmt = (figs, r) ->
  Forall2 legend_of (firstn (length figs) (printed_rows (wf_printed wf))) figs.
Proof.
  intros HW HP. destruct (wf_inv _ _ _ _ _ _ _ _ _ _ _ _ _ _ _ _ HW) as (P & T & _ & _ & _ & _ & _ & Hb & _).
  apply (pwf_figs _ _ _ _ _ _ _ _ _ _ _ legend_of) in HP; [rewrite Hb in HP; exact HP|].
  intros suff crit row f Hf. fig_inv Hf. repeat split; assumption.
Qed.
Theorem C96_plotbestmodel {N : Num} stackR synO draw res P Ps a b c sp fmt bm :
  let x := @plotbestmodel N stackR synO draw res (P :: Ps) a b c sp fmt in
  pb_printed x = Some bm -> Forall2 legend_of (firstn (length (pb_figs x)) (printed_rows bm)) (pb_figs x).
Proof.
  cbv zeta. intro H. apply pbm_figs; [exact H|]. intros W suff crit row f Hf. fig_inv Hf. repeat split; assumption.
Qed.

(** ** C97: the band *)
(** The scatter of a record about its own mean over time. *)
Definition time_std (x : list R) : R := (sqrt (sum2 (fun a _ => (a - mean x) ^ 2) x x / INR (length x)))%R.
Lemma np_std_R (x : list R) : @np_std RN x = time_std x.
Proof.
  unfold np_std, time_std. cbn [nroot RN]. f_equal. change (F RN) with R. rewrite npmean_mean. unfold mean at 1.
  unfold centred. rewrite !map_length. f_equal. rewrite sum2_map. rewrite sum2_map. apply sum2_ext. intros u v.
  cbn [nsq nmul nsub RN]. change (F RN) with R in *. rewrite npmean_mean. ring.
Qed.
(** The shaded band is the stacked record plus and minus one number, the scatter in time of the
    stacked record itself. *)
Definition band (f : @figure RN) : Prop :=
  f_plus f = map (fun x : R => x + time_std (f_data f))%R (f_data f) /\ f_minus f = map (fun x : R => x - time_std (f_data f))%R (f_data f).
Theorem C97_PlotWaveformFitting stackR synO draw (wf : @wfit RN) a' b' c' sp fmt figs r :
  PlotWaveformFitting stackR synO draw wf a' b' c' sp fmt = (figs, r) -> Forall band figs.
Proof.
  intro HP. apply (pwf_figs _ _ _ _ _ _ _ _ _ _ _ (fun _ => band)) in HP.
  - destruct (best_rows _); [|subst; constructor]. eapply F2_all; [|exact HP]. auto.
  - intros suff crit row f Hf. fig_inv Hf. unfold band. rewrite Gp, Gm, Gd. change (F RN) with R in *. rewrite np_std_R. split; reflexivity.
Qed.
Theorem C97_plotbestmodel stackR synO draw res P Ps a b c sp fmt bm :
  let x := @plotbestmodel RN stackR synO draw res (P :: Ps) a b c sp fmt in
  pb_printed x = Some bm -> Forall band (pb_figs x).
Proof.
  cbv zeta. intro H. eapply F2_all; [|apply (pbm_figs stackR synO draw res P Ps a b c sp fmt bm (fun _ => band) H)]; [auto|].
  intros W suff crit row f Hf. fig_inv Hf. unfold band. rewrite Gp, Gm, Gd. change (F RN) with R in *. rewrite np_std_R. split; reflexivity.
Qed.
(** Its width is the same at every sample, whatever the spread of the receiver functions there,
    and it is zero only when the stacked record is constant. *)
Theorem C97_width f i lo hi : band f -> nth_error (f_plus f) i = Some hi -> nth_error (f_minus f) i = Some lo ->
  (hi - lo = 2 * time_std (f_data f))%R /\ ((hi = lo)%R <-> ~ varies (f_data f)).
Proof.
  intros [Bp Bm]. rewrite Bp, Bm, !nth_error_map. change (F RN) with R in *. set (d := f_data f) in *. change (list (F RN)) with (list R) in d.
  destruct (nth_error d i) as [x|] eqn:Ex; [|discriminate]. cbn [option_map].
  intros Hh Hl. assert (Eh : hi = (x + time_std d)%R) by congruence. assert (El : lo = (x - time_std d)%R) by congruence. clear Hh Hl. subst hi lo.
  split; [ring|].
  assert (Lp : (0 < INR (length d))%R) by (apply lt_0_INR; assert (i < length d) by (apply nth_error_Some; rewrite Ex; discriminate); lia).
  assert (Nn : (0 <= sum2 (fun a _ => (a - mean d) ^ 2)%R d d)%R) by (apply sum2_nonneg; intros; apply pow2_ge_0).
  split.
  - intros E (u & v & Iu & Iv & D). assert (T : time_std d = 0%R) by lra. unfold time_std in T.
    apply sqrt_eq_0 in T; [|apply Rmult_le_pos; [exact Nn|left; apply Rinv_0_lt_compat; exact Lp]].
    apply Rmult_integral in T. destruct T as [T|T]; [|assert (0 < / INR (length d))%R by (apply Rinv_0_lt_compat; exact Lp); lra].
    assert (Zr : forall w, In w d -> w = mean d).
    { intros w Iw. apply In_nth_error in Iw as [j Hj].
      assert (X : ((w - mean d) ^ 2 = 0)%R) by (apply (sum2_zero (fun a _ => (a - mean d) ^ 2)%R d d (fun a _ => pow2_ge_0 _) T j w w Hj Hj)).
      assert ((w - mean d) * (w - mean d) = 0)%R by lra. apply Rmult_integral in H. lra. }
    rewrite (Zr u Iu), (Zr v Iv) in D. apply D. reflexivity.
  - intro V. assert (C : forall w, In w d -> w = x).
    { intros w Iw. destruct (Req_dec w x) as [E|E]; [exact E|]. exfalso. apply V. exists w, x. repeat split; try assumption. eapply nth_error_In. exact Ex. }
    assert (M : mean d = x).
    { unfold mean. rewrite (sum2_ext _ (fun a _ => x * 1 + (a - x))%R) by (intros; ring).
      rewrite sum2_plus, sum2_scal. rewrite (sum2_eq_all (fun a b => a - x)%R d d eq_refl).
      - assert (X : forall l, sum2 (fun _ _ => 1%R) l l = INR (length l)).
        { clear. induction l as [|a l IH]; [reflexivity|]. cbn [sum2]. rewrite IH. cbn [length]. rewrite S_INR. ring. }
        rewrite X. field. lra.
      - intros j a b Ha _. apply nth_error_In in Ha. rewrite (C a Ha). ring. }
    assert (T : time_std d = 0%R).
    { unfold time_std. rewrite (sum2_eq_all (fun a _ => (a - mean d) ^ 2)%R d d eq_refl); [unfold Rdiv; rewrite Rmult_0_l; apply sqrt_0|].
      intros j a b Ha _. apply nth_error_In in Ha. rewrite (C a Ha), M. ring. }
    rewrite T. ring.
Qed.

(** C97 is refuted: two identical receiver functions, stacked by their average; they do not
    scatter at all (each equals the stacked record), but the band has a positive width at every
    sample. *)
Definition avg2 (rf : stream B64) : res (list (trace B64)) :=
  match rf with
  | [t1; t2] => Ok [mkTrace (N := B64) (map (fun p => @ndiv B64 (@nadd B64 (fst p) (snd p)) (z2 2)) (combine (tr_data t1) (tr_data t2)))
                     (tr_delta t1) (tr_slow t1) (tr_slowk t1) (tr_b t1) (tr_baz t1) (tr_dist t1) (tr_sta t1) (tr_chan t1) (tr_hdr t1)]
  | _ => Err ValueError
  end.
Definition twins := [ex_trace [1;2;3;5;4;0]%Z; ex_trace [1;2;3;5;4;0]%Z].
Definition all2 (p : B64 -> B64 -> bool) (x y : list B64) : bool := (length x =? length y) && forallb (fun q => p (fst q) (snd q)) (combine x y).
Theorem C97_refuted : exists wf f0 f1 f2 f3,
  WaveformFitting avg2 tie pg1 twins (z2 0) (z2 1) (z2 2) (z2 6) (z2 0) [z2 2; z2 3] [z2 30; z2 40] (z2 1) (z2 1) (z2 0) (z2 0) = Ok wf /\
  PlotWaveformFitting avg2 tie (fun _ => Ok tt) wf (z2 1) (z2 0) (z2 0) "." "png" = ([f0; f1; f2; f3], Ok tt) /\
  (forall t, In t twins -> all2 (@neqb B64) (tr_data t) (f_data f0) = true) /\
  all2 (@nltb B64) (f_minus f0) (f_plus f0) = true /\ length (f_plus f0) = 6.
Proof.
  assert (E : chk (WaveformFitting avg2 tie pg1 twins (z2 0) (z2 1) (z2 2) (z2 6) (z2 0) [z2 2; z2 3] [z2 30; z2 40] (z2 1) (z2 1) (z2 0) (z2 0))
    (fun wf => match PlotWaveformFitting avg2 tie (fun _ => Ok tt) wf (z2 1) (z2 0) (z2 0) "." "png" with
       | ([f0; f1; f2; f3], Ok tt) => forallb (fun t => all2 (@neqb B64) (tr_data t) (f_data f0)) twins && all2 (@nltb B64) (f_minus f0) (f_plus f0) && (length (f_plus f0) =? 6)
       | _ => false end) = true) by (vm_compute; reflexivity).
  apply chk_true in E as (wf & E & Hb).
  destruct (PlotWaveformFitting _ _ _ _ _ _ _ _ _) as [figs en] eqn:Ep.
  destruct figs as [|f0 [|f1 [|f2 [|f3 [|]]]]]; try discriminate Hb. destruct en as [[]|]; [|discriminate Hb].
  rewrite !andb_true_iff in Hb. destruct Hb as ((H1 & H2) & H3). rewrite forallb_forall in H1. apply Nat.eqb_eq in H3.
  exists wf, f0, f1, f2, f3. exact (conj E (conj Ep (conj H1 (conj H2 H3)))).
Qed.

(** ** C98: the axes *)
(** plotbestmodel: the axes have a grid value at each end and contain both grids. *)
Theorem C98_plotbestmodel {N : Num} (L : OrdLaws N) stackR synO draw res P Ps a b c sp fmt bm :
  let x := @plotbestmodel N stackR synO draw res (P :: Ps) a b c sp fmt in
  pb_printed x = Some bm -> Forall (fun f => encloses (wp_HMoho P) (f_xlim f) /\ encloses (wp_KMoho P) (f_ylim f)) (pb_figs x).
Proof.
  cbv zeta. intro H. eapply F2_all; [|apply (pbm_figs stackR synO draw res P Ps a b c sp fmt bm (fun _ f => encloses (wp_HMoho P) (f_xlim f) /\ encloses (wp_KMoho P) (f_ylim f)) H)]; [auto|].
  intros W suff crit row f Hf. fig_inv Hf. rewrite Gx, Gy.
  apply bind_Ok_inv in Li as (k & Hk & Li). apply bind_Ok_inv in Li as (h & Hh & Li). injection Li as <-. cbn [fst snd].
  assert (M : forall (g : list N) p, minmax g = Ok p -> encloses g p).
  { intros g p Hp. unfold minmax in Hp. apply bind_Ok_inv in Hp as (u & Hu & Hp). apply bind_Ok_inv in Hp as (v & Hv & Hp). injection Hp as <-.
    destruct (pymin_spec L _ _ Hu) as [A1 A2], (pymax_spec L _ _ Hv) as [A3 A4]. repeat split; auto. }
  split; apply M; assumption.
Qed.
(** PlotWaveformFitting: the axes run from the first to the last grid value ... *)
Definition first_last {N : Num} (l : list N) (p : N * N) : Prop :=
  nth_error l 0 = Some (fst p) /\ nth_error l (length l - 1) = Some (snd p).
Theorem C98_PlotWaveformFitting {N : Num} stackR synO pgO draw rf po HS VpS VpC rp Ks Hs ga a b c (wf : @wfit N) a' b' c' sp fmt figs r :
  WaveformFitting stackR synO pgO rf po HS VpS VpC rp Ks Hs ga a b c = Ok wf ->
  PlotWaveformFitting stackR synO draw wf a' b' c' sp fmt = (figs, r) ->
  Forall (fun f => first_last Hs (f_xlim f) /\ first_last Ks (f_ylim f)) figs.
Proof.
  intros HW HP. destruct (wf_inv _ _ _ _ _ _ _ _ _ _ _ _ _ _ _ _ HW) as (P & T & _ & _ & _ & _ & _ & Hb & _ & EH & EK).
  apply (pwf_figs _ _ _ _ _ _ _ _ _ _ _ (fun _ f => first_last Hs (f_xlim f) /\ first_last Ks (f_ylim f))) in HP.
  - destruct (best_rows _); [|subst; constructor]. eapply F2_all; [|exact HP]. auto.
  - intros suff crit row f Hf. fig_inv Hf. rewrite Gx, Gy, EH, EK in *.
    apply bind_Ok_inv in Li as (h & Hh & Li). apply bind_Ok_inv in Li as (k & Hk & Li). injection Li as <-. cbn [fst snd].
    assert (M : forall (g : list N) p, ends g = Ok p -> first_last g p).
    { intros g p Hp. unfold ends in Hp. apply bind_Ok_inv in Hp as (u & Hu & Hp). apply bind_Ok_inv in Hp as (v & Hv & Hp). injection Hp as <-.
      apply getitem_Ok in Hu, Hv. split; assumption. }
    split; apply M; assumption.
Qed.
(** ... which contain an increasing grid, ... *)
Theorem C98_increasing {N : Num} (L : OrdLaws N) (l : list N) p :
  (forall i j x y, i < j -> nth_error l i = Some x -> nth_error l j = Some y -> nleb x y = true) ->
  first_last l p -> encloses l p.
Proof.
  intros Inc [H0 H1]. split; [eapply nth_error_In; exact H0|]. split; [eapply nth_error_In; exact H1|].
  intros Nn x Ix. assert (Rf : nleb x x = true) by (destruct (leb_total N L x x (Nn x Ix) (Nn x Ix)); assumption).
  apply In_nth_error in Ix as [i Hi]. assert (Li : i < length l) by (apply nth_error_Some; congruence). split.
  - destruct i as [|i]; [rewrite H0 in Hi; injection Hi as ->; exact Rf|]. eapply Inc; [|exact H0|exact Hi]. lia.
  - destruct (Nat.eq_dec i (length l - 1)) as [->|D]; [rewrite H1 in Hi; injection Hi as ->; exact Rf|]. eapply Inc; [|exact Hi|exact H1]. lia.
Qed.
(** ... but not any grid.  C98 is refuted: depths searched in the order 30, 40, 35; the model
    printed as best on all four criteria (40 km) lies outside the axes (30 to 35 km) of every
    figure. *)
Definition syn40 (depth vp vs rho : list B64) (rayp dt : B64) (n : nat) (po ga : B64) : res (list B64) :=
  Ok (map z2 (match depth with [_; h; _] => if @neqb B64 h (z2 40) then [1;2;3;5;4;0] else [0;0;1;0;0;0] | _ => [] end))%Z.
Definition outside (f : @figure B64) : bool := @nltb B64 (fst (f_xlim f)) (f_H f) && @nltb B64 (snd (f_xlim f)) (f_H f).
Definition pg40 (x y : list B64) (dt : B64) : res B64 := Ok (if all2 (@neqb B64) x y then z2 1 else z2 0).
Theorem C98_refuted : exists wf figs,
  WaveformFitting ex_stack syn40 pg40 [ex_trace [1;2;3;5;4;0]%Z] (z2 0) (z2 1) (z2 2) (z2 6) (z2 0) [z2 2; z2 3] [z2 30; z2 40; z2 35] (z2 1) (z2 1) (z2 1) (z2 1) = Ok wf /\
  PlotWaveformFitting ex_stack syn40 (fun _ => Ok tt) wf (z2 1) (z2 0) (z2 0) "." "png" = (figs, Ok tt) /\
  length figs = 4 /\ forallb outside figs = true /\ forallb (fun r => @neqb B64 (sr_H r) (z2 40)) (printed_rows (wf_printed wf)) = true.
Proof.
  assert (E : chk (WaveformFitting ex_stack syn40 pg40 [ex_trace [1;2;3;5;4;0]%Z] (z2 0) (z2 1) (z2 2) (z2 6) (z2 0) [z2 2; z2 3] [z2 30; z2 40; z2 35] (z2 1) (z2 1) (z2 1) (z2 1))
    (fun wf => match PlotWaveformFitting ex_stack syn40 (fun _ => Ok tt) wf (z2 1) (z2 0) (z2 0) "." "png" with
       | (figs, Ok tt) => (length figs =? 4) && forallb outside figs && forallb (fun r => @neqb B64 (sr_H r) (z2 40)) (printed_rows (wf_printed wf))
       | _ => false end) = true) by (vm_compute; reflexivity).
  apply chk_true in E as (wf & E & Hb).
  destruct (PlotWaveformFitting _ _ _ _ _ _ _ _ _) as [figs en] eqn:Ep. destruct en as [[]|]; [|discriminate Hb].
  rewrite !andb_true_iff in Hb. destruct Hb as ((H1 & H2) & H3). apply Nat.eqb_eq in H1.
  exists wf, figs. exact (conj E (conj Ep (conj H1 (conj H2 H3)))).
Qed.
