(** * P_Wave3: ties (C45), negative correlations (C47), weights given when plotting (C48),
      results that do not match the parameters (C49). *)

From Coq Require Import Reals Lra Permutation.
From Verif Require Import Base Num NumPy Spec HkModel PlotModel PoolModel PoolProofs P_Pool WaveModel WaveProofs P_Wave P_Wave2.

(** ** Concrete binary64 runs.  The record has six samples 5 s apart and P on the first
    one, so the window is the first five samples; [syn4] answers with one of four
    records according to the depth (30 or other) and the Vs of the crust (6/2 or other). *)
Definition z2 (z : Z) : B64 := @nofZ B64 z.
Definition ex_trace (d : list Z) : trace B64 :=
  mkTrace (N := B64) (map z2 d) (z2 5) (z2 6) PyF (z2 0) (z2 0) (z2 0) "STA"%string "BHR"%string None.
Definition syn4 (a b c d : list Z) (depth vp vs rho : list B64) (rayp dt : B64) (n : nat) (po ga : B64) : res (list B64) :=
  Ok (map z2 (match depth, vs with
    | [_; h; _], [_; v; _] =>
        if @neqb B64 h (z2 30) then (if @neqb B64 v (z2 3) then a else b) else (if @neqb B64 v (z2 3) then c else d)
    | _, _ => [] end)).
Definition pg1 (x y : list B64) (dt : B64) : res B64 := Ok (z2 1).
Definition ex_stack (rf : stream B64) : res (list (trace B64)) := Ok rf.
Definition ex_fit (syn : list B64 -> list B64 -> list B64 -> list B64 -> B64 -> B64 -> nat -> B64 -> B64 -> res (list B64)) (d : list Z) (w : Z * Z * Z) :=
  WaveformFitting ex_stack syn pg1 [ex_trace d] (z2 0) (z2 1) (z2 2) (z2 6) (z2 0) [z2 2; z2 3] [z2 30; z2 40] (z2 1)
    (z2 (fst (fst w))) (z2 (snd (fst w))) (z2 (snd w)).
Definition ex_para (d : list Z) :=
  WaveformPara ex_stack [ex_trace d] (z2 0) (z2 1) (z2 2) (z2 6) (z2 0) [z2 2; z2 3] [z2 30; z2 40] (z2 1).
Definition rowis (r : @srow B64) (h k : Z) : bool := @neqb B64 (sr_H r) (z2 h) && @neqb B64 (sr_K r) (z2 k).

(** C45 is refuted when two grid points tie: the serial version goes through the grid
    Vp/Vs by Vp/Vs, the parallel one depth by depth, and both keep the first best.  Here
    (40 km, 2) and (30 km, 3) reproduce the data exactly; the two versions report
    different models. *)
Definition tie := syn4 [1;0;0;0;0;0]%Z [1;2;3;5;4;0]%Z [1;2;3;5;4;0]%Z [0;0;1;0;0;0]%Z.
Theorem C45_ties_refuted : exists wf P res bm,
  ex_fit tie [1;2;3;5;4;0]%Z (1, 0, 0)%Z = Ok wf /\ ex_para [1;2;3;5;4;0]%Z = Ok [P] /\
  (forall nproc, 0 < nproc -> forall r, run_waveformfitting tie pg1 nproc [z2 30; z2 40] [P] r <-> r = Ok (map Some res)) /\
  pb_printed (plotbestmodel ex_stack tie (fun _ => Ok tt) res [P] (Some (z2 1)) (Some (z2 0)) (Some (z2 0)) "." "png") = Some bm /\
  rowis (b_corr (wf_printed wf)) 40 2 = true /\ rowis (b_corr bm) 30 3 = true /\
  rowis (b_rmse (wf_printed wf)) 40 2 = true /\ rowis (b_rmse bm) 30 3 = true /\
  rowis (b_gof (wf_printed wf)) 40 2 = true /\ rowis (b_gof bm) 30 3 = true.
Proof.
  assert (E : chk (wf <- ex_fit tie [1;2;3;5;4;0]%Z (1, 0, 0)%Z ;; Ps <- ex_para [1;2;3;5;4;0]%Z ;; P <- getitem Ps 0 ;;
                   res <- mapM (fun h => mapM (eval_node tie pg1 P h) (wp_KMoho P)) [z2 30; z2 40] ;; Ok (wf, Ps, P, res))
    (fun x => let '(wf, Ps, P, res) := x in (length Ps =? 1) &&
      match pb_printed (plotbestmodel ex_stack tie (fun _ => Ok tt) res [P] (Some (z2 1)) (Some (z2 0)) (Some (z2 0)) "." "png") with
      | None => false
      | Some bm => rowis (b_corr (wf_printed wf)) 40 2 && rowis (b_corr bm) 30 3 && (rowis (b_rmse (wf_printed wf)) 40 2 && rowis (b_rmse bm) 30 3)
                   && (rowis (b_gof (wf_printed wf)) 40 2 && rowis (b_gof bm) 30 3)
      end) = true) by (vm_compute; reflexivity).
  apply chk_true in E. destruct E as ([[[wf Ps] P] res] & E & Hb).
  apply bind_Ok_inv in E as (wf0 & E1 & E). apply bind_Ok_inv in E as (Ps0 & E2 & E). apply bind_Ok_inv in E as (P0 & E3 & E).
  apply bind_Ok_inv in E as (res0 & E4 & E). injection E as <- <- <- <-.
  apply andb_true_iff in Hb as [HL Hb]. apply Nat.eqb_eq in HL.
  destruct Ps0 as [|P1 [|]]; try discriminate HL. cbn in E3. injection E3 as <-.
  destruct (pb_printed _) as [bm|] eqn:Ep; [|discriminate Hb].
  exists wf0, P1, res0, bm. rewrite !andb_true_iff in Hb. destruct Hb as (((H1 & H2) & H3 & H4) & H5 & H6).
  split; [exact E1|]. split; [exact E2|]. split; [|split; [exact Ep|repeat split; assumption]].
  intros nproc Hn r. apply run_conv; assumption.
Qed.

(** C47 is refuted when no model correlates positively: the normalisation then divides
    by a negative number and turns the order around.  With all the weight on the
    correlation, the model reported as the best overall fit is the one with correlation
    -1, the worst; the best correlation is that of another model, and the GoF exceeds 1. *)
Definition neg := syn4 [-1;-2;-3;-5;-4;0]%Z [0;-1;-1;-1;-1;0]%Z [0;-1;-1;-2;-1;0]%Z [0;0;-1;-1;-1;0]%Z.
Theorem C47_refuted : exists wf,
  ex_fit neg [1;2;3;5;4;0]%Z (1, 0, 0)%Z = Ok wf /\
  rowis (b_gof (wf_printed wf)) 30 2 = true /\ rowis (b_corr (wf_printed wf)) 30 2 = false /\
  (forall r, In r (wf_sols wf) -> @nleb B64 (sr_corr (b_gof (wf_printed wf))) (sr_corr r) = true) /\
  @nltb B64 (sr_corr (b_gof (wf_printed wf))) (sr_corr (b_corr (wf_printed wf))) = true /\
  @nltb B64 (z2 1) (sr_gof (b_gof (wf_printed wf))) = true.
Proof.
  assert (E : chk (ex_fit neg [1;2;3;5;4;0]%Z (1, 0, 0)%Z) (fun wf =>
    rowis (b_gof (wf_printed wf)) 30 2 && negb (rowis (b_corr (wf_printed wf)) 30 2) &&
    forallb (fun r => @nleb B64 (sr_corr (b_gof (wf_printed wf))) (sr_corr r)) (wf_sols wf) &&
    @nltb B64 (sr_corr (b_gof (wf_printed wf))) (sr_corr (b_corr (wf_printed wf))) &&
    @nltb B64 (z2 1) (sr_gof (b_gof (wf_printed wf)))) = true) by (vm_compute; reflexivity).
  apply chk_true in E as (wf & E & Hb). exists wf. rewrite !andb_true_iff, negb_true_iff in Hb. destruct Hb as ((((H1 & H2) & H3) & H4) & H5).
  rewrite forallb_forall in H3. repeat split; assumption.
Qed.

(** C48 is refuted: the weights given to PlotWaveformFitting have no effect. *)
Theorem C48_weights_ignored {N : Num} stackR synO draw (W : @wfit N) a b c a' b' c' sp fmt :
  PlotWaveformFitting stackR synO draw W a b c sp fmt = PlotWaveformFitting stackR synO draw W a' b' c' sp fmt.
Proof. reflexivity. Qed.

(** A run where it matters: fitted with all the weight on RMSE the best overall model is
    (30 km, 2), with all the weight on the correlation it is (40 km, 3); plotting the first
    run with the second weights marks (30 km, 2) in the overall figure. *)
Definition wei := syn4 [1;2;3;4;4;0]%Z [0;1;0;0;0;0]%Z [0;0;0;1;0;0]%Z [10;20;30;50;40;0]%Z.
Theorem C48_refuted : exists wf wf' f0 f1 f2 f3,
  ex_fit wei [1;2;3;5;4;0]%Z (0, 1, 0)%Z = Ok wf /\ ex_fit wei [1;2;3;5;4;0]%Z (1, 0, 0)%Z = Ok wf' /\
  rowis (b_gof (wf_printed wf')) 40 3 = true /\
  PlotWaveformFitting ex_stack wei (fun _ => Ok tt) wf (z2 1) (z2 0) (z2 0) "." "png" = ([f0; f1; f2; f3], Ok tt) /\
  f_label f3 = "Overall Goodness of Fit"%string /\
  @neqb B64 (f_H f3) (z2 30) = true /\ @neqb B64 (f_K f3) (z2 2) = true.
Proof.
  assert (E : chk (wf <- ex_fit wei [1;2;3;5;4;0]%Z (0, 1, 0)%Z ;; wf' <- ex_fit wei [1;2;3;5;4;0]%Z (1, 0, 0)%Z ;; Ok (wf, wf'))
    (fun x => rowis (b_gof (wf_printed (snd x))) 40 3 &&
       match PlotWaveformFitting ex_stack wei (fun _ => Ok tt) (fst x) (z2 1) (z2 0) (z2 0) "." "png" with
       | ([f0; f1; f2; f3], Ok tt) => String.eqb (f_label f3) "Overall Goodness of Fit" && @neqb B64 (f_H f3) (z2 30) && @neqb B64 (f_K f3) (z2 2)
       | _ => false end) = true) by (vm_compute; reflexivity).
  apply chk_true in E as ([wf wf'] & E & Hb). apply bind_Ok_inv in E as (wf0 & E1 & E). apply bind_Ok_inv in E as (wf0' & E2 & E).
  injection E as <- <-. cbn [fst snd] in Hb. apply andb_true_iff in Hb as [H1 Hb].
  destruct (PlotWaveformFitting _ _ _ _ _ _ _ _ _) as [figs en] eqn:Ep.
  destruct figs as [|f0 [|f1 [|f2 [|f3 [|]]]]]; try discriminate Hb. destruct en as [[]|]; [|discriminate Hb].
  rewrite !andb_true_iff in Hb. destruct Hb as ((H2 & H3) & H4). apply String.eqb_eq in H2.
  exists wf0, wf0', f0, f1, f2, f3. repeat split; assumption.
Qed.

(** ** C49 *)
(** Rows that plotbestmodel reports: result rows, or the all-zero row of the table it
    allocates. *)
Definition reported {N : Num} (r : @srow N) (res : list (list (@sol N))) : Prop := In (strip r) (concat res).

(** More results than the parameters' grid: IndexError, nothing printed or drawn. *)
Theorem C49_too_many {N : Num} stackR synO draw res P Ps a b c sp fmt :
  length (wp_HMoho P) * length (wp_KMoho P) < length (concat res) ->
  @plotbestmodel N stackR synO draw res (P :: Ps) a b c sp fmt = mkPbm None [] (Err IndexError).
Proof.
  intro H. unfold plotbestmodel. cbn [getitem nth_error bind]. rewrite fill_eq.
  destruct (Nat.leb_spec (length (concat res)) (length (wp_HMoho P) * length (wp_KMoho P))); [lia|]. reflexivity.
Qed.

Lemma getitem_In {A} (l : list A) i x : getitem l i = Ok x -> In x l.
Proof. unfold getitem. destruct (nth_error l i) eqn:E; [|discriminate]. intro H. injection H as <-. eapply nth_error_In. exact E. Qed.
Lemma best_rows_In {N : Num} (t : list (@srow N)) b : best_rows t = Ok b ->
  In (b_corr b) t /\ In (b_rmse b) t /\ In (b_pg b) t /\ In (b_gof b) t.
Proof.
  unfold best_rows. intro H. apply bind_Ok_inv in H as (i1 & _ & H). apply bind_Ok_inv in H as (r1 & G1 & H).
  apply bind_Ok_inv in H as (i2 & _ & H). apply bind_Ok_inv in H as (r2 & G2 & H).
  apply bind_Ok_inv in H as (i3 & _ & H). apply bind_Ok_inv in H as (r3 & G3 & H).
  apply bind_Ok_inv in H as (i4 & _ & H). apply bind_Ok_inv in H as (r4 & G4 & H). inversion H; subst b.
  cbn. repeat split; eapply getitem_In; eassumption.
Qed.
Lemma pbm_inv {N : Num} stackR synO draw res P Ps a b c sp fmt bm :
  pb_printed (@plotbestmodel N stackR synO draw res (P :: Ps) a b c sp fmt) = Some bm ->
  exists W, length (concat res) <= length (wp_HMoho P) * length (wp_KMoho P) /\
    rank (dflt a (nlit 4 10)) (dflt b (nlit 4 10)) (dflt c (nlit 2 10))
      (concat res ++ repeat zsol (length (wp_HMoho P) * length (wp_KMoho P) - length (concat res))) = Ok W /\ best_rows W = Ok bm.
Proof.
  unfold plotbestmodel. cbn [getitem nth_error bind]. rewrite fill_eq.
  destruct (Nat.leb_spec (length (concat res)) (length (wp_HMoho P) * length (wp_KMoho P))) as [L|L]; [|discriminate].
  cbn [bind]. destruct (rank _ _ _ _) as [W|e] eqn:ER; [|discriminate]. cbn [bind]. destruct (best_rows W) as [bm'|e] eqn:EB; [|discriminate].
  cbn [bind]. destruct (figures _ _) as [fs r]. cbn [pb_printed]. intro H. injection H as <-. exists W. repeat split; assumption.
Qed.
(** As many results as the grid has points: every reported row is a result. *)
Theorem C49_matching {N : Num} stackR synO draw res P Ps a b c sp fmt bm :
  length (concat res) = length (wp_HMoho P) * length (wp_KMoho P) ->
  pb_printed (@plotbestmodel N stackR synO draw res (P :: Ps) a b c sp fmt) = Some bm ->
  reported (b_corr bm) res /\ reported (b_rmse bm) res /\ reported (b_pg bm) res /\ reported (b_gof bm) res.
Proof.
  intros HL H. apply pbm_inv in H as (W & _ & HR & HB). rewrite <- HL, Nat.sub_diag in HR. cbn [repeat] in HR. rewrite app_nil_r in HR.
  apply strip_rank in HR. apply best_rows_In in HB as (I1 & I2 & I3 & I4). unfold reported. rewrite <- HR.
  repeat split; apply in_map; assumption.
Qed.
(** In general a reported row is a result or the zero row. *)
Theorem C49_general {N : Num} stackR synO draw res P Ps a b c sp fmt bm r :
  pb_printed (@plotbestmodel N stackR synO draw res (P :: Ps) a b c sp fmt) = Some bm ->
  In r [b_corr bm; b_rmse bm; b_pg bm; b_gof bm] -> reported r res \/ strip r = zsol.
Proof.
  intros H Hr. apply pbm_inv in H as (W & _ & HR & HB). apply strip_rank in HR. apply best_rows_In in HB as (I1 & I2 & I3 & I4).
  assert (I : In (strip r) (map strip W)).
  { apply in_map. cbn [In] in Hr. destruct Hr as [<-|[<-|[<-|[<-|[]]]]]; assumption. }
  rewrite HR in I. apply in_app_or in I as [I|I]; [left; exact I|right; eapply repeat_spec; exact I].
Qed.

(** C49 is refuted when there are fewer results than grid points (as when the depth grid
    given to run_waveformfitting is shorter than the one in the parameters): unless a
    model fits perfectly, the best model by RMSE is the never evaluated "0 km, Vp/Vs 0"
    (exact arithmetic). *)
Theorem C49_refuted stackR synO draw (res : list (list (@sol RN))) P Ps a b c sp fmt :
  length (concat res) < length (wp_HMoho P) * length (wp_KMoho P) ->
  (forall s, In s (concat res) -> (0 < so_rmse s)%R) ->
  exists bm, pb_printed (plotbestmodel stackR synO draw res (P :: Ps) a b c sp fmt) = Some bm /\
    sr_H (b_rmse bm) = 0%R /\ sr_K (b_rmse bm) = 0%R /\ sr_rmse (b_rmse bm) = 0%R /\ ~ reported (b_rmse bm) res.
Proof.
  intros HL Hpos. unfold plotbestmodel. cbn [getitem nth_error bind]. rewrite fill_eq.
  destruct (Nat.leb_spec (length (concat res)) (length (wp_HMoho P) * length (wp_KMoho P))) as [L|L]; [|lia]. cbn [bind].
  set (A := concat res ++ repeat zsol (length (wp_HMoho P) * length (wp_KMoho P) - length (concat res))).
  assert (HZ : In zsol A).
  { apply in_or_app. right. destruct (length (wp_HMoho P) * length (wp_KMoho P) - length (concat res)) eqn:E; [lia|left; reflexivity]. }
  assert (Hne : A <> []) by (intro E; rewrite E in HZ; destruct HZ).
  destruct (is_max_ex so_corr A Hne) as [mc Mc]. destruct (is_max_ex so_rmse A Hne) as [mr Mr]. destruct (is_max_ex so_pg A Hne) as [mp Mp].
  assert (HR : exists W, @rank RN (dflt a (nlit 4 10)) (dflt b (nlit 4 10)) (dflt c (nlit 2 10)) A = Ok W).
  { eexists. apply rank_spec. exists mc, mr, mp. repeat split; try apply Mc; try apply Mr; try apply Mp. }
  destruct HR as [W HR]. rewrite HR. cbn [bind]. pose proof (strip_rank _ _ _ _ _ HR) as ES.
  assert (HneW : W <> []) by (intro E; rewrite E in ES; cbn in ES; congruence).
  destruct (best_rows_ok W HneW) as [bm HB]. rewrite HB. cbn [bind]. destruct (figures _ _) as [fs r]. cbn [pb_printed].
  exists bm. split; [reflexivity|]. apply best_rows_spec in HB as (_ & (j & Hj & D1 & _) & _). apply nth_error_In in Hj.
  rewrite <- ES in HZ. apply in_map_iff in HZ as (z & Ez & Iz). specialize (D1 z Iz).
  assert (Rz : sr_rmse z = 0%R) by (change (sr_rmse z) with (so_rmse (strip z)); rewrite Ez; reflexivity).
  assert (Ib : In (strip (b_rmse bm)) A) by (rewrite <- ES; apply in_map; exact Hj).
  assert (NR : ~ reported (b_rmse bm) res).
  { intro I. specialize (Hpos _ I). cbn [strip so_rmse] in Hpos. change (F RN) with R in *. lra. }
  apply in_app_or in Ib as [Ib|Ib]; [contradiction (NR Ib)|]. apply repeat_spec in Ib. unfold strip, zsol in Ib. injection Ib as E1 E2 E3 E4 E5.
  split; [exact E4|]. split; [exact E5|]. split; [exact E2|exact NR].
Qed.
