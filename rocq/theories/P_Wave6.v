(** * P_Wave6: the fit completes on well-formed input (C73); concrete cases for C47, C68-C72. *)

From Coq Require Import Reals Lra Psatz.
From Verif Require Import Base Num NumPy Spec HkModel PlotModel PoolModel WaveModel WaveProofs P_Wave P_Wave2 P_Wave3 P_Wave4 P_Wave5.

Lemma mapM_total {A B} (f : A -> res B) l : (forall a, In a l -> exists b, f a = Ok b) -> exists r, mapM f l = Ok r.
Proof.
  induction l as [|a l IH]; intro H; cbn [mapM]; [eexists; reflexivity|].
  destruct (H a (or_introl eq_refl)) as [b ->]. destruct IH as [r ->]; [intros; apply H; right; assumption|]. eexists. reflexivity.
Qed.
Lemma slice_len {A B} (l : list A) (m : list B) s e : length l = length m -> length (slice l s e) = length (slice m s e).
Proof. intro H. unfold slice. rewrite !firstn_length, !skipn_length, H. reflexivity. Qed.

(** C73: with P on a sample k of the stream and of the stack, at least one sample in 25 s,
    a non-empty grid, and a forward model and phase criterion that answer at the grid points
    (the forward model with as many samples as it was asked for), WaveformFitting returns. *)
Theorem C73_completes stackR synO pgO (rf : stream RN) (po HS VpS VpC rp : R) (Ks Hs : list RN) (ga a b c : R) tr0 rf' st0 SR k :
  rf = tr0 :: rf' -> stackR rf = Ok (st0 :: SR) -> (0 < tr_delta tr0 <= 25)%R ->
  (po = tr_delta tr0 * INR k)%R -> k < length (tr_data tr0) -> k < length (tr_data st0) -> Ks <> [] -> Hs <> [] ->
  (forall h k, In h Hs -> In k Ks -> exists d, synthetic_for synO po HS VpS VpC rp ga tr0 st0 h k = Ok d /\ length d = length (tr_data st0)) ->
  (forall x y dt, exists v, pgO x y dt = Ok v) ->
  exists wf, WaveformFitting stackR synO pgO rf po HS VpS VpC rp Ks Hs ga a b c = Ok wf.
Proof.
  intros E1 E2 [Hd Hd'] Ep L1 L2 HK HH Hsy Hpg. rewrite WaveformFitting_eq.
  destruct (proj2 (C44_succeeds stackR rf po HS VpS VpC rp Ks Hs ga tr0 rf' st0 SR E1 E2 Hd)) as [Ps HP]; [exists k; split; assumption|].
  rewrite HP. cbn [bind]. destruct (para_synth stackR synO _ _ _ _ _ _ _ _ _ _ HP) as (tr0' & rf'' & st0' & SR' & s & e & P & F1 & F2 & F5 & F4 & ES & D1 & D2 & D3 & D4).
  rewrite E1 in F1. injection F1 as <- <-. rewrite E2 in F2. injection F2 as <- <-.
  assert (W : s = k /\ s < e).
  { apply C44_any_arithmetic in F4 as ((x & Hx & Hz) & _ & _ & z & Hzt & Hz0 & ->).
    cbn [neqb RN nofZ] in Hz. apply Reqb_true in Hz. subst x. apply taxis_nth in Hx as [_ Hx].
    assert (Ez : Rtrunc (25 / tr_delta tr0) = z) by (change (@ntrunc RN (@ndiv RN (@nofZ RN 25) (tr_delta tr0))) with (Some (Rtrunc (25 / tr_delta tr0))) in Hzt; congruence).
    change (F RN) with R in *. split.
    - apply INR_eq. apply (Rmult_eq_reg_l (tr_delta tr0)); lra.
    - assert (Q : (1 <= 25 / tr_delta tr0)%R).
      { apply (Rmult_le_reg_r (tr_delta tr0)); [exact Hd|]. unfold Rdiv. rewrite Rmult_assoc, Rinv_l, Rmult_1_r, Rmult_1_l by lra. exact Hd'. }
      destruct (Rtrunc_pos (25 / tr_delta tr0)) as [_ [_ B]]; [lra|]. rewrite Ez in B.
      assert (0 < z)%Z by (apply lt_IZR; lra). lia. }
  destruct W as [-> We]. rewrite F5. cbn [getitem nth_error bind].
  destruct (mapM_total (fun kh => eval_node synO pgO P (snd kh) (fst kh)) (list_prod Ks Hs)) as [T HT].
  { intros [kk hh] Ig. apply in_prod_iff in Ig as [Ik Ih]. cbn [fst snd]. unfold eval_node. rewrite ES, D1, D2, D3.
    destruct (Hsy hh kk Ih Ik) as (d & -> & Ld). cbn [bind].
    set (x := @slice (F RN) (tr_data st0) k e). set (y := @slice (F RN) d k e).
    assert (L : length x = length y) by (apply slice_len; symmetry; exact Ld).
    assert (Lx : 0 < length x) by (unfold x, slice; rewrite firstn_length, skipn_length; lia).
    assert (Hc : exists v, @corrcoef RN x y = Ok v) by (unfold corrcoef; change (F RN) with R in *; rewrite L, Nat.eqb_refl; eexists; reflexivity).
    destruct Hc as [v1 ->]. cbn [bind].
    assert (Hr : exists v, @rmse RN x y = Ok v).
    { eexists. apply C70_rmse; [exact L|]. intro Z. rewrite Z in Lx. cbn in Lx. lia. }
    destruct Hr as [v2 ->]. cbn [bind]. destruct (Hpg (signs x) (signs y) (wp_delta P)) as [v3 ->]. cbn [bind]. eexists. reflexivity. }
  rewrite HT. cbn [bind].
  assert (HneT : T <> []).
  { intro Z. apply mapM_length in HT. rewrite Z, prod_length in HT. destruct Ks, Hs; cbn in HT; congruence || lia. }
  destruct (is_max_ex so_corr T HneT) as [mc Mc]. destruct (is_max_ex so_rmse T HneT) as [mr Mr]. destruct (is_max_ex so_pg T HneT) as [mp Mp].
  assert (HR : @rank RN a b c T = Ok (map (with_gof a b c mc mr mp) T)).
  { apply rank_spec. exists mc, mr, mp. repeat split; try apply Mc; try apply Mr; try apply Mp. }
  rewrite HR. cbn [bind]. destruct (best_rows_ok (map (with_gof a b c mc mr mp) T)) as [bm HB].
  { intro Z. apply map_eq_nil in Z. contradiction. }
  rewrite HB. cbn [bind]. eexists. reflexivity.
Qed.

(** ** A concrete run in exact arithmetic *)
Definition rtrace (d : list R) : trace RN := mkTrace (N := RN) d 5%R 0%R PyF 0%R 0%R 0%R "STA"%string "BHR"%string None.
(** The forward model of the example: the data for depth 30, twice the data otherwise. *)
Definition rdata : list R := [1; 2; 3; 5; 4; 0]%R.
Definition rbody (dp : list R) : list R :=
  match dp with [_; h; _] => if Reqb h 30 then rdata else map (Rmult 2) rdata | _ => rdata end.
Definition rsyn (dp vp vs rho : list RN) (rp dt : RN) (n : nat) (po ga : RN) : res (list RN) :=
  Ok (firstn n (rbody dp) ++ repeat 0%R (n - 6)).
Lemma rbody_len dp : length (rbody dp) = 6.
Proof. unfold rbody. destruct dp as [|u1 [|u2 [|u3 [|]]]]; try reflexivity. destruct (Reqb u2 30); reflexivity. Qed.
Definition rpg (x y : list RN) (dt : RN) : res RN := Ok 1%R.
Lemma rsyn_total dp vp vs rho rp dt n po ga : exists d, rsyn dp vp vs rho rp dt n po ga = Ok d /\ length d = n.
Proof.
  unfold rsyn. eexists. split; [reflexivity|]. rewrite app_length, firstn_length, repeat_length.
  pose proof (rbody_len dp) as L. change (F RN) with R in *. rewrite L. lia.
Qed.
Lemma rfit_window : fit_window (@taxis RN 5%R 6 0%R) 5%R = Ok (0, 5).
Proof.
  apply C44_any_arithmetic. split; [|split; [|split]].
  - exists 0%R. split; [cbn; f_equal; ring|apply Reqb_true; reflexivity].
  - intros j t Hj. lia.
  - cbn [neqb RN nofZ]. unfold Reqb. destruct (Req_EM_T 5 0); [lra|reflexivity].
  - exists 5%Z. split; [|split; [lia|reflexivity]]. cbn [ntrunc RN ndiv nofZ]. f_equal. 
    assert (E : (25 / 5 = 5)%R) by field. rewrite E. destruct (Rtrunc_pos 5) as [A [B C]]; [lra|].
    assert (X : (IZR (Rtrunc 5) < 6)%R) by lra. assert (Y : (4 < IZR (Rtrunc 5))%R) by lra. apply lt_IZR in X, Y. lia.
Qed.

(** The example run exists, reports (30, 2) as the RMSE-best model (C68), and meets the
    hypothesis of C47. *)
Example wave_example : exists wf,
  WaveformFitting (fun rf => Ok rf) rsyn rpg [rtrace rdata] 0%R 1%R 2%R 6%R 0%R [2%R] [30%R; 40%R] 1%R (4/10)%R (4/10)%R (2/10)%R = Ok wf /\
  sr_H (b_rmse (wf_printed wf)) = 30%R /\ sr_K (b_rmse (wf_printed wf)) = 2%R /\ sr_rmse (b_rmse (wf_printed wf)) = 0%R /\
  sr_corr (b_corr (wf_printed wf)) = 1%R /\ normalisable wf.
Proof.
  assert (X : exists wf, WaveformFitting (fun rf => Ok rf) rsyn rpg [rtrace rdata] 0%R 1%R 2%R 6%R 0%R [2%R] [30%R; 40%R] 1%R (4/10)%R (4/10)%R (2/10)%R = Ok wf).
  { apply (C73_completes _ _ _ _ _ _ _ _ _ _ _ _ _ _ _ (rtrace rdata) [] (rtrace rdata) [] 0); try reflexivity; cbn [rtrace tr_delta tr_data rdata length]; try discriminate; try lia; cbn [INR]; try lra.
    - intros. unfold synthetic_for. apply rsyn_total.
    - intros. exists 1%R. reflexivity. }
  destruct X as [wf HW]. exists wf. split; [exact HW|].
  assert (Vd : varies (slice rdata 0 5)) by (exists 1%R, 2%R; cbn; repeat split; auto; lra).
  destruct (C68_reproduced _ _ _ _ _ _ _ _ _ _ _ _ _ _ _ _ HW (rtrace rdata) [] (rtrace rdata) [] 0 5 30%R 2%R rdata eq_refl eq_refl rfit_window) as (Z & I1 & I2 & _ & U & Cc).
  - left. reflexivity.
  - left. reflexivity.
  - unfold synthetic_for, rsyn, rbody. cbn [rtrace tr_data rdata length]. replace (Reqb 30 30) with true by (symmetry; apply Reqb_true; reflexivity). reflexivity.
  - reflexivity.
  - cbn [rtrace tr_data] in U, Cc. specialize (Cc Vd).
    assert (U' : sr_H (b_rmse (wf_printed wf)) = 30%R /\ sr_K (b_rmse (wf_printed wf)) = 2%R).
    { apply U. intros h' k' sy' [<-|[<-|[]]] [<-|[]] Hs Hw; [split; reflexivity|]. exfalso.
      unfold synthetic_for, rsyn, rbody in Hs. cbn [rtrace tr_data rdata length] in Hs. replace (Reqb 40 30) with false in Hs by (symmetry; unfold Reqb; destruct (Req_EM_T 40 30); [lra|reflexivity]).
      injection Hs as <-. cbn in Hw. injection Hw as Hw _. lra. }
    destruct U' as [U1 U2]. repeat split; try assumption.
    + exists (b_corr (wf_printed wf)). destruct (wf_inv _ _ _ _ _ _ _ _ _ _ _ _ _ _ _ _ HW) as (_ & _ & _ & _ & _ & _ & _ & HB & _).
      apply best_rows_In in HB as (I & _). split; [exact I|]. rewrite Cc. lra.
    + destruct (C70_rows _ _ _ _ _ _ _ _ _ _ _ _ _ _ _ _ HW) as (tr0 & rf' & st0 & SR & s & e & F1 & F2 & F3 & FG & FR).
      injection F1 as <- <-. injection F2 as <- <-. cbn [rtrace tr_delta tr_data rdata length] in F3. rewrite rfit_window in F3. injection F3 as <- <-.
      assert (I : In (2%R, 40%R) (map (fun r => (sr_K r, sr_H r)) (wf_sols wf))) by (rewrite FG; right; left; reflexivity).
      apply in_map_iff in I as (r & Er & Ir). injection Er as Ek Eh. exists r. split; [exact Ir|].
      destruct (FR r Ir) as (sy & Q & L & Ne & Rr & _). rewrite Ek, Eh in Q. unfold synthetic_for, rsyn, rbody in Q. cbn [rtrace tr_data rdata length] in Q.
      replace (Reqb 40 30) with false in Q by (symmetry; unfold Reqb; destruct (Req_EM_T 40 30); [lra|reflexivity]). injection Q as <-.
      rewrite Rr. destruct (Rle_lt_or_eq_dec 0 (rms_diff (slice (tr_data (rtrace rdata)) 0 5) (slice (firstn 6 (map (Rmult 2) rdata) ++ repeat 0%R (6 - 6)) 0 5))) as [H|H]; [apply sqrt_pos|exact H|].
      exfalso. symmetry in H. apply rms_diff_zero in H; [|reflexivity|discriminate]. cbn in H. injection H as H _. lra.
    + destruct (C70_rows _ _ _ _ _ _ _ _ _ _ _ _ _ _ _ _ HW) as (tr0 & rf' & st0 & SR & s & e & F1 & F2 & F3 & FG & FR).
      assert (I : In (2%R, 40%R) (map (fun r => (sr_K r, sr_H r)) (wf_sols wf))) by (rewrite FG; right; left; reflexivity).
      apply in_map_iff in I as (r & Er & Ir). exists r. split; [exact Ir|]. destruct (FR r Ir) as (sy & _ & _ & _ & _ & _ & Hp). unfold rpg in Hp. injection Hp as <-. lra.
Qed.

(** ** C69: the headers matter *)
(** A forward model that depends on the pre-onset it is given; the trace header says P is
    10 s after the first sample, the caller said 0 s.  The figure shows another record
    than the one scored: the best RMSE is 0, but the plotted record differs from the data. *)
Definition syn_po (dp vp vs rho : list B64) (rp dt : B64) (n : nat) (po ga : B64) : res (list B64) :=
  Ok (map z2 (if @neqb B64 po (z2 0) then [1;2;3;5;4;0]%Z else [0;0;1;2;3;5]%Z)).
Definition trace_b (d : list Z) (b : Z) : trace B64 :=
  mkTrace (N := B64) (map z2 d) (z2 5) (z2 6) PyF (z2 b) (z2 0) (z2 0) "STA"%string "BHR"%string None.
Theorem C69_serial_refuted : exists wf f0 f1 f2 f3,
  WaveformFitting ex_stack syn_po pg1 [trace_b [1;2;3;5;4;0]%Z (-10)] (z2 0) (z2 1) (z2 2) (z2 6) (z2 0) [z2 2] [z2 30] (z2 1) (z2 1) (z2 0) (z2 0) = Ok wf /\
  PlotWaveformFitting ex_stack syn_po (fun _ => Ok tt) wf (z2 1) (z2 0) (z2 0) "." "png" = ([f0; f1; f2; f3], Ok tt) /\
  @neqb B64 (sr_rmse (b_rmse (wf_printed wf))) (z2 0) = true /\
  forallb (fun p => @neqb B64 (fst p) (snd p)) (combine (slice (f_data f1) 0 5) (slice (f_synth f1) 0 5)) = false.
Proof.
  assert (E : chk (WaveformFitting ex_stack syn_po pg1 [trace_b [1;2;3;5;4;0]%Z (-10)] (z2 0) (z2 1) (z2 2) (z2 6) (z2 0) [z2 2] [z2 30] (z2 1) (z2 1) (z2 0) (z2 0))
    (fun wf => match PlotWaveformFitting ex_stack syn_po (fun _ => Ok tt) wf (z2 1) (z2 0) (z2 0) "." "png" with
       | ([f0; f1; f2; f3], Ok tt) => @neqb B64 (sr_rmse (b_rmse (wf_printed wf))) (z2 0) && negb (forallb (fun p => @neqb B64 (fst p) (snd p)) (combine (slice (f_data f1) 0 5) (slice (f_synth f1) 0 5)))
       | _ => false end) = true) by (vm_compute; reflexivity).
  apply chk_true in E as (wf & E & Hb).
  destruct (PlotWaveformFitting _ _ _ _ _ _ _ _ _) as [figs en] eqn:Ep.
  destruct figs as [|f0 [|f1 [|f2 [|f3 [|]]]]]; try discriminate Hb. destruct en as [[]|]; [|discriminate Hb].
  apply andb_true_iff in Hb as [H1 H2]. apply negb_true_iff in H2. exists wf, f0, f1, f2, f3. repeat split; assumption.
Qed.
