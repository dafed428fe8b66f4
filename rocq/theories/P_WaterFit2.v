(** * P_WaterFit2: C153 for the parallel waveform fit. *)

From Coq Require Import Reals Lra Lia Permutation.
From Verif Require Import Base Num NumPy Spec HkModel PlotModel PoolModel PoolProofs P_Pool WaveModel WaveProofs P_Wave P_Wave2 P_Wave3 P_Wave4 P_Wave5 P_Wave6 P_Wave10.
From Verif Require Import Cplx DFT DFT2 SpecSignal SpecConv LeastSquares P_Reverb7 P_Reverb8 DeconModel DeconProofs DeconProofs2 DeconProofs3 DeconProofs4 DeconProofs5 DeconConv
  P_Decon P_Decon2 P_Conv P_Shift P_WlNoise P_DeconHk P_DeconHkNoise P_IterNoise P_IterYu P_WaterYu P_WaterFit.
Local Open Scope R_scope.

Section Par.
Context (stackR : stream RN -> res (list (trace RN)))
        (synO : list RN -> list RN -> list RN -> list RN -> RN -> RN -> nat -> RN -> RN -> res (list RN))
        (pgO : list RN -> list RN -> RN -> res RN) (draw : @figure RN -> res unit).
Variables (rf : stream RN) (po HS VpS VpC rp : R) (Ks Hs : list RN) (ga : R) (a b c : option R) (sp fmt : string).

(** Every number of processes and every schedule of the pool; [bm] is what plotbestmodel prints. *)
Theorem C153_parallel nproc res bm tr0 rf' st0 SR s t h k sy D : (0 < nproc)%nat ->
  parallel_fit stackR synO pgO draw rf po HS VpS VpC rp Ks Hs ga a b c sp fmt nproc res bm ->
  rf = tr0 :: rf' -> stackR rf = Ok (st0 :: SR) ->
  fit_window (@taxis RN (tr_delta tr0) (length (tr_data tr0)) po) (tr_delta tr0) = Ok (s, t) ->
  In h Hs -> In k Ks -> synthetic_for synO po HS VpS VpC rp ga tr0 st0 h k = Ok sy ->
  length sy = length (tr_data st0) -> sqrt (dist2 sy (tr_data st0)) <= D ->
  let best := b_rmse bm in
  let e := D / sqrt (INR (length (slice sy s t))) in
  sr_rmse best <= e /\
  (exists sy', synthetic_for synO po HS VpS VpC rp ga tr0 st0 (sr_H best) (sr_K best) = Ok sy' /\
    rms_diff (slice sy s t) (slice sy' s t) <= 2 * e) /\
  ((forall h' k' sy', In h' Hs -> In k' Ks -> synthetic_for synO po HS VpS VpC rp ga tr0 st0 h' k' = Ok sy' ->
      rms_diff (slice sy s t) (slice sy' s t) <= 2 * e -> h' = h /\ k' = k) ->
   sr_H best = h /\ sr_K best = k).
Proof.
  intros Hn Hp E1 E2 E3 Ih Ik Hsy Ld HD. cbv zeta.
  destruct (serial_of_parallel _ _ _ _ _ _ _ _ _ _ _ _ _ _ _ _ _ _ _ _ _ Hn Hp) as [wf HW].
  destruct (C153_fit _ _ _ _ _ _ _ _ _ _ _ _ _ _ _ wf tr0 rf' st0 SR s t h k sy D HW E1 E2 E3 Ih Ik Hsy Ld HD) as (Nsy & B1 & _ & _).
  destruct (C45_best_models _ _ _ draw _ _ _ _ _ _ _ _ _ _ _ _ _ sp fmt HW) as (Ps & res' & bm' & HP & Hr & Hb & _ & (S2 & _) & _).
  destruct Hp as (Ps1 & Q1 & R1 & Bb). assert (Ps1 = Ps) by congruence. subst Ps1. apply (Hr _ Hn) in R1.
  assert (X : map Some res = map Some res') by congruence. apply map_Some_inj in X. subst res'.
  rewrite pbm_dflt in Bb. assert (bm' = bm) by congruence. subst bm'.
  set (e := D / sqrt (INR (length (slice sy s t)))) in *.
  assert (Zb : sr_rmse (b_rmse bm) <= e) by (rewrite <- S2; exact B1).
  destruct (C70_rows _ _ _ _ _ _ _ _ _ _ _ _ _ _ _ _ HW) as (tr0' & rf'' & st0' & SR' & s' & t' & F1 & F2 & F3 & FG & FR).
  assert (tr0' = tr0) as -> by congruence. assert (st0' = st0) as -> by congruence.
  assert (s' = s /\ t' = t) as [-> ->] by (rewrite E3 in F3; split; congruence).
  destruct (C45_same_solutions _ _ _ _ _ _ _ _ _ _ _ _ _ _ _ _ Ps nproc (map Some res) HW Q1 Hn) as (res2 & X & PT & _); [apply (Hr _ Hn); reflexivity|].
  apply map_Some_inj in X. subst res2.
  destruct (para_synth stackR synO _ _ _ _ _ _ _ _ _ _ Q1) as (_ & _ & _ & _ & _ & _ & P & _ & _ & EP & _). rewrite EP in *.
  assert (LM : length (concat res) = (length (wp_HMoho P) * length (wp_KMoho P))%nat).
  { destruct (wf_inv _ _ _ _ _ _ _ _ _ _ _ _ _ _ _ _ HW) as (P' & T & HP' & EK & EH & _). rewrite Q1 in HP'. injection HP' as <-.
    rewrite EK, EH, (Permutation_length PT), map_length. rewrite Nat.mul_comm, <- prod_length, <- FG, map_length. reflexivity. }
  destruct (C49_matching _ _ _ _ _ _ _ _ _ _ _ _ LM Bb) as (_ & In2 & _). unfold reported in In2.
  apply (Permutation_in _ PT) in In2. apply in_map_iff in In2 as (r & Er & Ir).
  assert (Eh : sr_H r = sr_H (b_rmse bm)) by (apply (f_equal so_H) in Er; exact Er).
  assert (Ek : sr_K r = sr_K (b_rmse bm)) by (apply (f_equal so_K) in Er; exact Er).
  assert (Em : sr_rmse r = sr_rmse (b_rmse bm)) by (apply (f_equal so_rmse) in Er; exact Er).
  destruct (FR r Ir) as (sy2 & Qs & L2 & Ne2 & R2 & _). rewrite Eh, Ek in Qs. change (F RN) with R in *.
  assert (T : rms_diff (slice sy s t) (slice sy2 s t) <= 2 * e).
  { pose proof (slice_len sy (tr_data st0) s t Ld) as L1.
    pose proof (rms_window sy (tr_data st0) s t D Ld Nsy HD) as M. fold e in M.
    assert (Z2 : rms_diff (slice (tr_data st0) s t) (slice sy2 s t) <= e) by (pose proof Zb as Z3; rewrite <- Em, R2 in Z3; exact Z3).
    eapply Rle_trans; [apply (rms_triangle (slice sy s t) (slice (tr_data st0) s t) (slice sy2 s t) L1 L2 Nsy)|].
    pose proof (Rle_trans _ _ _ (Req_le _ _ (rms_sym (slice sy s t) (slice (tr_data st0) s t) L1)) M) as M'.
    clear - M' Z2. apply Rle_trans with (e + e); [apply Rplus_le_compat; [exact M'|exact Z2]|lra]. }
  split; [exact Zb|]. split; [exists sy2; split; [exact Qs|exact T]|].
  intro U. assert (G : In (sr_K (b_rmse bm), sr_H (b_rmse bm)) (list_prod Ks Hs)).
  { rewrite <- FG, <- Eh, <- Ek. exact (in_map (fun r => (sr_K r, sr_H r)) _ _ Ir). }
  apply in_prod_iff in G as [G1 G2]. exact (U _ _ _ G2 G1 Qs T).
Qed.
End Par.

(** ** Example: the run of C153_example through the parallel route, two processes, default weights. *)
Lemma wf_near rf rms : deconv_waterlevel iy_noisy iy_win 1 0 (1 / 2) 1000 false = Ok (rf, rms) -> length rf = 500%nat /\ sqrt (dist2 wf_sy rf) <= 15 / 10000.
Proof.
  intro E.
  assert (EC : (2 ^ Nat.log2_up (length ex_record))%nat = 512%nat) by reflexivity.
  assert (MP : max_power 512 (dft 512 iy_win) 1).
  { split; [intros k _; rewrite iy_dft; lra|]. exists 0%nat. split; [lia|apply iy_dft]. }
  assert (RM : removed 1 512 1000 (1 / 2) 1 iy_win iy_r = 0).
  { unfold removed. rewrite (rsum_nil 512), Rmult_0_r; [apply sqrt_0|]. intros k _. unfold taken. rewrite iy_dft, Rmax_left by lra. ring. }
  assert (EW : energy_of iy_win = 1).
  { unfold energy_of. change (length iy_win) with 500%nat. unfold ssq. rewrite (rsum_single 500 _ 0); [rewrite iy_win_nth; cbn [Nat.eqb]; ring|lia|].
    intros j _ Nj. rewrite iy_win_nth, (proj2 (Nat.eqb_neq j 0) Nj). ring. }
  assert (SQ : sqrt (1 / 1000000 / (1 / 2 * 1)) <= 15 / 10000).
  { rewrite <- (sqrt_Rsqr (15 / 10000)) by lra. apply sqrt_le_1_alt. unfold Rsqr. lra. }
  pose proof (C151_close ex_record iy_noisy iy_win 1 0 (1 / 2) 1000 false rf rms iy_r 0 1 (1 / 1000000) E ltac:(lra) ltac:(lra) eq_refl (Req_le _ _ iy_dist)) as B.
  cbv zeta in B. rewrite EC in B. change (rf_scale false 1 512 1000) with 1 in B. rewrite RM, EW in B.
  change (length ex_record) with 500%nat in B. fold wf_sy in B.
  destruct (B ltac:(ring) iy_convolved MP) as (_ & L & Q). split; [exact L|]. lra.
Qed.
Lemma wf_far : 1 / 10 <= rms_diff (slice wf_sy 0 25) (slice (repeat 0 500) 0 25).
Proof.
  assert (LS : length (slice wf_sy 0 25) = 25%nat).
  { unfold slice. rewrite firstn_length. cbn [skipn]. rewrite wf_sy_len. reflexivity. }
  assert (SI : wf_sy = ideal 1 512 1000 iy_r 0 500).
  { unfold wf_sy, scaled. rewrite (map_ext (Rmult 1) (fun v => v)) by (intro; ring). apply map_id. }
  assert (S25 : sqrt (INR 25) = 5) by (replace (INR 25) with (5 * 5) by (rewrite INR_IZR_INZ; simpl; lra); apply sqrt_square; lra).
  assert (Ls : length (slice wf_sy 0 25) = length (slice (repeat 0 500) 0 25)) by (rewrite LS; reflexivity).
  assert (Ne : slice wf_sy 0 25 <> []) by (intro Z; rewrite Z in LS; discriminate).
  rewrite (rms_nrm _ _ Ls Ne), LS, S25.
  assert (A : Rabs (rnth wf_sy 1) <= nrm 25 (fun j => rnth (slice wf_sy 0 25) j - rnth (slice (repeat 0 500) 0 25) j)).
  { unfold nrm. rewrite <- sqrt_Rsqr_abs. apply sqrt_le_1_alt.
    eapply Rle_trans; [|apply (ssq_term 25 (fun j => rnth (slice wf_sy 0 25) j - rnth (slice (repeat 0 500) 0 25) j) 1); lia].
    assert (H1 : rnth (slice wf_sy 0 25) 1 = rnth wf_sy 1) by (rewrite rnth_slice by (rewrite LS; lia); reflexivity).
    assert (H2 : rnth (slice (repeat 0 500) 0 25) 1 = 0) by reflexivity.
    cbv beta. rewrite H1, H2. unfold Rsqr. apply Req_le. ring. }
  pose proof (dist2_sample ex_record (ideal 1 512 1000 iy_r 0 500) 1 ltac:(rewrite ex_rec_len; lia)) as C. pose proof iy_ideal as I.
  rewrite <- SI in C, I. change (rnth ex_record 1) with 1 in C.
  assert (1 - 6 / 10000 <= Rabs (rnth wf_sy 1)).
  { pose proof (Rle_abs (rnth wf_sy 1)). unfold Rabs in C at 1. destruct (Rcase_abs (rnth wf_sy 1 - 1)) in C; lra. }
  lra.
Qed.

Theorem C153_parallel_example : exists rf rms res bm,
  dist2 ex_record iy_noisy = 1 / 1000000 /\ convolved 1 512 ex_record iy_win iy_r /\
  deconv_waterlevel iy_noisy iy_win 1 0 (1 / 2) 1000 false = Ok (rf, rms) /\
  parallel_fit (fun x => Ok x) wf_syn rpg (fun _ => Ok tt) [wf_trace rf] 0 1 2 6 0 [2] [30; 40] 1 None None None "." "png" 2 res bm /\
  sr_rmse (b_rmse bm) <= 3 / 10000 /\ sr_H (b_rmse bm) = 30 /\ sr_K (b_rmse bm) = 2.
Proof.
  destruct C153_example as (rf & rms & wf & D & CV & E & HW & _). destruct (wf_near rf rms E) as (Lf & N).
  assert (P2 : (0 < 2)%nat) by lia.
  destruct (proj2 (C130_completes_iff (fun x => Ok x) wf_syn rpg (fun _ => Ok tt) [wf_trace rf] 0 1 2 6 0 [2] [30; 40] 1 None None None "." "png" 2 P2) ltac:(exists wf; exact HW)) as (res & bm & Pf).
  exists rf, rms, res, bm. split; [exact D|]. split; [exact CV|]. split; [exact E|]. split; [exact Pf|].
  assert (S30 : synthetic_for wf_syn 0 1 2 6 0 1 (wf_trace rf) (wf_trace rf) 30 2 = Ok wf_sy).
  { unfold synthetic_for, wf_syn. replace (Reqb 30 30) with true by (symmetry; apply Reqb_true; reflexivity). reflexivity. }
  assert (S40 : synthetic_for wf_syn 0 1 2 6 0 1 (wf_trace rf) (wf_trace rf) 40 2 = Ok (repeat 0 500)).
  { unfold synthetic_for, wf_syn. replace (Reqb 40 30) with false by (symmetry; unfold Reqb; destruct (Req_EM_T 40 30); [lra|reflexivity]). reflexivity. }
  assert (LS : length (slice wf_sy 0 25) = 25%nat).
  { unfold slice. rewrite firstn_length. cbn [skipn]. rewrite wf_sy_len. reflexivity. }
  assert (S25 : sqrt (INR 25) = 5) by (replace (INR 25) with (5 * 5) by (rewrite INR_IZR_INZ; simpl; lra); apply sqrt_square; lra).
  assert (W : fit_window (@taxis RN (tr_delta (wf_trace rf)) (length (tr_data (wf_trace rf))) 0) (tr_delta (wf_trace rf)) = Ok (0%nat, 25%nat)).
  { cbn [wf_trace tr_delta tr_data]. change (F RN) with R in *. rewrite Lf. exact wf_window. }
  destruct (C153_parallel _ _ _ _ _ _ _ _ _ _ _ _ _ _ _ _ _ _ 2 res bm (wf_trace rf) [] (wf_trace rf) [] 0 25 30 2 wf_sy (15 / 10000) P2 Pf eq_refl eq_refl W
    ltac:(now left) ltac:(now left) S30 ltac:(rewrite wf_sy_len; symmetry; exact Lf) N) as (B1 & _ & B3).
  change (F RN) with R in *. rewrite LS, S25 in B1, B3. split; [lra|].
  apply B3. intros h' k' sy' [<-|[<-|[]]] [<-|[]] Hs Hd; [split; reflexivity|]. exfalso.
  change (F RN) with R in *. rewrite S40 in Hs. assert (Es : sy' = repeat 0 500) by congruence. rewrite Es in Hd. pose proof wf_far as Far. clear - Hd Far. lra.
Qed.
