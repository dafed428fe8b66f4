(** * P_WaterFit: from a noisy seismogram through deconvolution to the waveform fit (C153). *)

From Coq Require Import Reals Lra Lia.
From Verif Require Import Base Num NumPy Spec HkModel PlotModel PoolModel WaveModel WaveProofs P_Wave P_Wave2 P_Wave3 P_Wave4 P_Wave5 P_Wave6.
From Verif Require Import Cplx DFT DFT2 SpecSignal SpecConv LeastSquares P_Reverb7 P_Reverb8 DeconModel DeconProofs DeconProofs2 DeconProofs3 DeconProofs4 DeconProofs5 DeconConv
  P_Decon P_Decon2 P_Conv P_Shift P_WlNoise P_DeconHk P_DeconHkNoise P_IterNoise P_IterYu P_WaterYu.
Local Open Scope R_scope.

(** ** Root mean square over a window, root sum square over the record *)
Lemma sum2_ssq x y : length x = length y -> sum2 (fun a b => (a - b) ^ 2) x y = ssq (length x) (fun j => rnth x j - rnth y j).
Proof.
  revert y. induction x as [|a x IH]; intros [|b y] L; try discriminate; [reflexivity|]. cbn [sum2 length].
  rewrite IH by (cbn in L; lia). unfold ssq. change (Datatypes.S (length x)) with (1 + length x)%nat. rewrite rsum_split. cbn [rsum Nat.add]. unfold rnth. cbn [nth]. ring.
Qed.
Lemma rms_nrm x y : length x = length y -> x <> [] -> rms_diff x y = nrm (length x) (fun j => rnth x j - rnth y j) / sqrt (INR (length x)).
Proof.
  intros L Ne. unfold rms_diff, nrm. rewrite sum2_ssq by exact L. apply sqrt_div_alt. apply lt_0_INR. destruct x; [congruence|cbn; lia].
Qed.
Lemma rnth_slice (x : list R) s t j : (j < length (slice x s t))%nat -> rnth (slice x s t) j = rnth x (j + s).
Proof.
  unfold slice. rewrite firstn_length, skipn_length. intro H. rewrite rnth_firstn by lia. unfold rnth.
  revert x H. induction s as [|s IH]; intros x H; [rewrite Nat.add_0_r; reflexivity|].
  destruct x as [|a x]; [cbn in H; lia|]. cbn [skipn]. rewrite IH by (cbn [length] in H; lia). replace (j + Datatypes.S s)%nat with (Datatypes.S (j + s)) by lia. reflexivity.
Qed.
Lemma rms_window x y s t D : length x = length y -> slice x s t <> [] -> sqrt (dist2 x y) <= D ->
  rms_diff (slice y s t) (slice x s t) <= D / sqrt (INR (length (slice x s t))).
Proof.
  intros L Ne HD. pose proof (slice_len x y s t L) as Ls.
  assert (Ny : slice y s t <> []) by (intros E; rewrite E in Ls; destruct (slice x s t); [congruence|discriminate]).
  rewrite (rms_nrm _ _ (eq_sym Ls) Ny).
  rewrite <- Ls. set (m := length (slice x s t)) in *. assert (Hm : (0 < m)%nat) by (unfold m; destruct (slice x s t); [congruence|cbn; lia]).
  assert (Q : 0 < sqrt (INR m)) by (apply sqrt_lt_R0, lt_0_INR; exact Hm).
  apply Rmult_le_compat_r; [left; apply Rinv_0_lt_compat; exact Q|]. eapply Rle_trans; [|exact HD].
  rewrite (nrm_ext m _ (fun j => (fun i => rnth y i - rnth x i) (j + s)%nat)).
  2:{ intros j Hj. rewrite !rnth_slice by (fold m; lia). reflexivity. }
  unfold dist2. apply (nrm_mono (length x) m s (fun i => rnth y i - rnth x i)). 
  unfold m, slice in *. rewrite firstn_length, skipn_length in *. lia.
Qed.
Lemma rms_triangle x y z : length x = length y -> length y = length z -> x <> [] -> rms_diff x z <= rms_diff x y + rms_diff y z.
Proof.
  intros L1 L2 Ne. assert (Ny : y <> []) by (intros ->; destruct x; [congruence|discriminate]).
  rewrite (rms_nrm x z (eq_trans L1 L2) Ne), (rms_nrm x y L1 Ne), (rms_nrm y z L2 Ny). rewrite <- L1. set (m := length x) in *.
  assert (Hm : (0 < m)%nat) by (unfold m; destruct x; [congruence|cbn; lia]).
  assert (Q : 0 < sqrt (INR m)) by (apply sqrt_lt_R0, lt_0_INR; exact Hm).
  unfold Rdiv. rewrite <- Rmult_plus_distr_r. apply Rmult_le_compat_r; [left; apply Rinv_0_lt_compat; exact Q|].
  rewrite (nrm_ext m _ (fun j => (rnth x j - rnth y j) + (rnth y j - rnth z j))) by (intros; ring).
  apply (nrm_add m (fun j => rnth x j - rnth y j) (fun j => rnth y j - rnth z j)).
Qed.
Lemma rms_sym x y : length x = length y -> rms_diff x y = rms_diff y x.
Proof.
  intro L. unfold rms_diff. rewrite <- L. f_equal. f_equal. rewrite !sum2_ssq by congruence. rewrite <- L. unfold ssq. apply rsum_ext. intros. ring.
Qed.

(** ** The fit of a record that is near the synthetic of a model of the grid, root sum square *)
Theorem C153_fit stackR synO pgO (rf : stream RN) (po HS VpS VpC rp : R) (Ks Hs : list RN) (ga a b c : R) (wf : @wfit RN) tr0 rf' st0 SR s t h k sy D :
  WaveformFitting stackR synO pgO rf po HS VpS VpC rp Ks Hs ga a b c = Ok wf -> rf = tr0 :: rf' -> stackR rf = Ok (st0 :: SR) ->
  fit_window (@taxis RN (tr_delta tr0) (length (tr_data tr0)) po) (tr_delta tr0) = Ok (s, t) ->
  In h Hs -> In k Ks -> synthetic_for synO po HS VpS VpC rp ga tr0 st0 h k = Ok sy ->
  length sy = length (tr_data st0) -> sqrt (dist2 sy (tr_data st0)) <= D ->
  let best := b_rmse (wf_printed wf) in
  let e := D / sqrt (INR (length (slice sy s t))) in
  slice sy s t <> [] /\ sr_rmse best <= e /\
  (exists sy', synthetic_for synO po HS VpS VpC rp ga tr0 st0 (sr_H best) (sr_K best) = Ok sy' /\
    rms_diff (slice sy s t) (slice sy' s t) <= 2 * e) /\
  ((forall h' k' sy', In h' Hs -> In k' Ks -> synthetic_for synO po HS VpS VpC rp ga tr0 st0 h' k' = Ok sy' ->
      rms_diff (slice sy s t) (slice sy' s t) <= 2 * e -> h' = h /\ k' = k) ->
   sr_H best = h /\ sr_K best = k).
Proof.
  intros Run E1 E2 E3 Ih Ik Hsy Ld HD. cbv zeta.
  destruct (C70_rows _ _ _ _ _ _ _ _ _ _ _ _ _ _ _ _ Run) as (x0 & q & y0 & SR' & s' & t' & F1 & F2 & F3 & G & FR).
  assert (x0 = tr0) as -> by congruence. assert (y0 = st0) as -> by congruence.
  assert (s' = s /\ t' = t) as [-> ->] by (rewrite E3 in F3; split; congruence).
  destruct (wf_inv _ _ _ _ _ _ _ _ _ _ _ _ _ _ _ _ Run) as (_ & _ & _ & _ & _ & _ & _ & HB & _).
  apply best_rows_spec in HB as (_ & (i & Hi & Dm & _) & _). set (B := b_rmse (wf_printed wf)) in *.
  assert (Hr : exists r, In r (wf_sols wf) /\ sr_H r = h /\ sr_K r = k).
  { assert (I : In (k, h) (map (fun r => (sr_K r, sr_H r)) (wf_sols wf))) by (rewrite G; apply in_prod; assumption).
    apply in_map_iff in I as (r & Er & Ir). exists r. split; [exact Ir|]. split; congruence. }
  destruct Hr as (r & Ir & Rh & Rk). destruct (FR r Ir) as (sy1 & Q1 & L1 & Ne1 & R1 & _). rewrite Rh, Rk, Hsy in Q1. assert (sy1 = sy) as -> by congruence.
  pose proof (nth_error_In _ _ Hi) as IB.
  destruct (FR B IB) as (sy2 & Q2 & L2 & Ne2 & R2 & _).
  set (x := slice (tr_data st0) s t) in *. change (F RN) with R in *.
  assert (Nsy : slice sy s t <> []) by (intro X; rewrite X in L1; destruct x; [congruence|discriminate]).
  set (e := D / sqrt (INR (length (slice sy s t)))).
  pose proof (rms_window sy (tr_data st0) s t D Ld Nsy HD) as M. fold x e in M.
  assert (M1 : sr_rmse r <= e) by (rewrite R1; exact M).
  assert (M2 : sr_rmse B <= e) by (specialize (Dm r Ir); lra).
  assert (T : rms_diff (slice sy s t) (slice sy2 s t) <= 2 * e).
  { pose proof (rms_triangle (slice sy s t) x (slice sy2 s t) ltac:(congruence) L2 Nsy) as Tr.
    rewrite (rms_sym (slice sy s t) x) in Tr by congruence. rewrite R2 in M2. lra. }
  split; [exact Nsy|]. split; [exact M2|]. split; [exists sy2; split; [exact Q2|exact T]|].
  intro U. apply (U (sr_H B) (sr_K B) sy2); [| |exact Q2|exact T].
  - assert (I : In (sr_K B, sr_H B) (list_prod Ks Hs)) by (rewrite <- G; exact (in_map (fun r => (sr_K r, sr_H r)) _ _ IB)). apply in_prod_iff in I. apply I.
  - assert (I : In (sr_K B, sr_H B) (list_prod Ks Hs)) by (rewrite <- G; exact (in_map (fun r => (sr_K r, sr_H r)) _ _ IB)). apply in_prod_iff in I. apply I.
Qed.

(** ** C153, water level: the stacked trace is the receiver function of the noisy record, the synthetic of a
    model (h, k) of the grid the ideal receiver function of the arrivals. *)
Theorem C153_water stackR synO pgO (rf : stream RN) (po HS VpS VpC rp : R) (Ks Hs : list RN) (ga a b c : R) (wf : @wfit RN) tr0 rf' st0 SR s t h k
  uin uin' win dt preonset wlevel gaussian normalize rms r sh M noise :
  deconv_waterlevel uin' win dt preonset wlevel gaussian normalize = Ok (tr_data st0, rms) -> 0 < dt -> 0 < wlevel ->
  length uin' = length uin -> dist2 uin uin' <= noise ->
  let n := (2 ^ Nat.log2_up (length uin))%nat in
  preonset = dt * IZR sh -> convolved dt n uin win r -> max_power n (dft n win) M ->
  let sc := rf_scale normalize dt n gaussian in
  let sy := scaled sc (ideal dt n gaussian r sh (length uin)) in
  WaveformFitting stackR synO pgO rf po HS VpS VpC rp Ks Hs ga a b c = Ok wf -> rf = tr0 :: rf' -> stackR rf = Ok (st0 :: SR) ->
  fit_window (@taxis RN (tr_delta tr0) (length (tr_data tr0)) po) (tr_delta tr0) = Ok (s, t) ->
  In h Hs -> In k Ks -> synthetic_for synO po HS VpS VpC rp ga tr0 st0 h k = Ok sy ->
  let best := b_rmse (wf_printed wf) in
  let e := sc * (removed dt n gaussian wlevel M win r + sqrt (noise / (wlevel * energy_of win)) / dt) / sqrt (INR (length (slice sy s t))) in
  sr_rmse best <= e /\
  (exists sy', synthetic_for synO po HS VpS VpC rp ga tr0 st0 (sr_H best) (sr_K best) = Ok sy' /\
    rms_diff (slice sy s t) (slice sy' s t) <= 2 * e) /\
  ((forall h' k' sy', In h' Hs -> In k' Ks -> synthetic_for synO po HS VpS VpC rp ga tr0 st0 h' k' = Ok sy' ->
      rms_diff (slice sy s t) (slice sy' s t) <= 2 * e -> h' = h /\ k' = k) ->
   sr_H best = h /\ sr_K best = k).
Proof.
  intros E Hdt Hwl Hl Hno n Hp HC HM sc sy Run E1 E2 E3 Ih Ik Hsy.
  destruct (C151_close uin uin' win dt preonset wlevel gaussian normalize _ _ r sh M noise E Hdt Hwl Hl Hno Hp HC HM) as (_ & Lf & B).
  refine (proj2 (C153_fit stackR synO pgO rf po HS VpS VpC rp Ks Hs ga a b c wf tr0 rf' st0 SR s t h k sy _ Run E1 E2 E3 Ih Ik Hsy _ B)).
  unfold sy, scaled, ideal. rewrite !map_length, seq_length. symmetry. exact Lf.
Qed.

(** ** C153, iterative: once itmax is large enough, up to any margin m > 0 beyond the noise. *)
Theorem C153_iter stackR synO pgO (po HS VpS VpC rp : R) (Ks Hs : list RN) (ga a b c : R) h k uin uin' win dt gaussian phase r m0 noise :
  length uin = length win -> length uin' = length win -> 0 < dt -> ~ all_zero uin' -> dist2 uin uin' <= noise ->
  let n := (2 ^ Nat.log2_up (length uin))%nat in
  let lim := (if String.eqb phase "P" then n / 2 - 1 else n)%nat in
  0 < m0 -> (forall k, (k < n)%nat -> m0 <= Cnorm2 (dft n win k)) ->
  spikes_below n lim r -> convolved dt n uin win r ->
  forall m, 0 < m -> exists Nit, forall itmax preonset minderr rms it rf tr0 rf' st0 SR s t wf,
    (Nit <= itmax)%nat -> minderr <= 0 ->
    deconv_iterative uin' win dt None preonset gaussian itmax minderr phase = Ok (tr_data st0, rms, it) ->
    let sy := ideal dt n gaussian r (Rtrunc (preonset / dt)) (length uin) in
    WaveformFitting stackR synO pgO rf po HS VpS VpC rp Ks Hs ga a b c = Ok wf -> rf = tr0 :: rf' -> stackR rf = Ok (st0 :: SR) ->
    fit_window (@taxis RN (tr_delta tr0) (length (tr_data tr0)) po) (tr_delta tr0) = Ok (s, t) ->
    In h Hs -> In k Ks -> synthetic_for synO po HS VpS VpC rp ga tr0 st0 h k = Ok sy ->
    let best := b_rmse (wf_printed wf) in
    let e := (sqrt (noise / (dt * dt * m0)) + m) / sqrt (INR (length (slice sy s t))) in
    sr_rmse best <= e /\
    (exists sy', synthetic_for synO po HS VpS VpC rp ga tr0 st0 (sr_H best) (sr_K best) = Ok sy' /\
      rms_diff (slice sy s t) (slice sy' s t) <= 2 * e) /\
    ((forall h' k' sy', In h' Hs -> In k' Ks -> synthetic_for synO po HS VpS VpC rp ga tr0 st0 h' k' = Ok sy' ->
        rms_diff (slice sy s t) (slice sy' s t) <= 2 * e -> h' = h /\ k' = k) ->
     sr_H best = h /\ sr_K best = k).
Proof.
  intros L1 L2 Hdt Zu Hno n lim Hm0 HW HS' HC m Hm.
  destruct (C150_close_limit uin uin' win dt gaussian phase r m0 noise L1 L2 Hdt Zu Hno Hm0 HW HS' HC m Hm) as (Nit & HN).
  exists Nit. intros itmax preonset minderr rms it rf tr0 rf' st0 SR s t wf Hit Hmin E sy Run E1 E2 E3 Ih Ik Hsy.
  pose proof (HN itmax preonset minderr _ _ _ Hit Hmin E) as B.
  refine (proj2 (C153_fit stackR synO pgO rf po HS VpS VpC rp Ks Hs ga a b c wf tr0 rf' st0 SR s t h k sy _ Run E1 E2 E3 Ih Ik Hsy _ B)).
  destruct (C37_spikes _ _ _ _ _ _ _ _ _ _ _ E) as (_ & Lf & _). unfold sy, ideal. rewrite map_length, seq_length. rewrite L1, <- L2. symmetry. exact Lf.
Qed.

(** ** Example: the noisy record of C150 and C151, a forward model that gives the ideal receiver function for
    the depth 30 and zeros otherwise *)
Definition wf_sy : list R := scaled 1 (ideal 1 512 1000 iy_r 0 500).
Definition wf_syn (dp vp vs rho : list RN) (rp dt : RN) (n : nat) (po ga : RN) : res (list RN) :=
  Ok (match dp with [_; h; _] => if Reqb h 30 then wf_sy else repeat 0 500 | _ => repeat 0 500 end).
Definition wf_trace (d : list R) : trace RN := mkTrace (N := RN) d 1%R 0%R PyF 0%R 0%R 0%R "STA"%string "BHR"%string None.
Lemma wf_sy_len : length wf_sy = 500%nat.
Proof. unfold wf_sy, scaled, ideal. rewrite !map_length. apply seq_length. Qed.
Lemma wf_syn_len dp vp vs rho rp dt n po ga : exists d, wf_syn dp vp vs rho rp dt n po ga = Ok d /\ length d = 500%nat.
Proof.
  unfold wf_syn. eexists. split; [reflexivity|]. destruct dp as [|u1 [|u2 [|u3 [|]]]]; try apply repeat_length. destruct (Reqb u2 30); [apply wf_sy_len|apply repeat_length].
Qed.
Lemma wf_window : fit_window (@taxis RN 1 500 0) 1 = Ok (0%nat, 25%nat).
Proof.
  apply C44_any_arithmetic. split; [|split; [|split]].
  - exists 0. split; [cbn; f_equal; ring|apply Reqb_true; reflexivity].
  - intros j t Hj. lia.
  - cbn [neqb RN nofZ]. unfold Reqb. destruct (Req_EM_T 1 0); [lra|reflexivity].
  - exists 25%Z. split; [|split; [lia|reflexivity]]. cbn [ntrunc RN ndiv nofZ]. f_equal.
    assert (E : 25 / 1 = 25) by field. rewrite E. destruct (Rtrunc_pos 25) as [A [B C]]; [lra|].
    assert (X : IZR (Rtrunc 25) < 26) by lra. assert (Y : 24 < IZR (Rtrunc 25)) by lra. apply lt_IZR in X, Y. lia.
Qed.

Theorem C153_example : exists rf rms wf,
  dist2 ex_record iy_noisy = 1 / 1000000 /\ convolved 1 512 ex_record iy_win iy_r /\
  deconv_waterlevel iy_noisy iy_win 1 0 (1 / 2) 1000 false = Ok (rf, rms) /\
  WaveformFitting (fun x => Ok x) wf_syn rpg [wf_trace rf] 0 1 2 6 0 [2] [30; 40] 1 (4/10) (4/10) (2/10) = Ok wf /\
  sr_rmse (b_rmse (wf_printed wf)) <= 3 / 10000 /\ sr_H (b_rmse (wf_printed wf)) = 30 /\ sr_K (b_rmse (wf_printed wf)) = 2.
Proof.
  assert (Zw : ~ all_zero iy_win) by (intro A; specialize (A 0%nat); rewrite iy_win_nth in A; cbn [Nat.eqb] in A; lra).
  assert (Lw : length iy_win = 500%nat) by reflexivity. assert (Lu : length iy_noisy = 500%nat) by reflexivity.
  assert (EC : (2 ^ Nat.log2_up (length ex_record))%nat = 512%nat) by (rewrite ex_rec_len; reflexivity).
  assert (MP : max_power 512 (dft 512 iy_win) 1).
  { split; [intros k _; rewrite iy_dft; lra|]. exists 0%nat. split; [lia|apply iy_dft]. }
  assert (RM : removed 1 512 1000 (1 / 2) 1 iy_win iy_r = 0).
  { unfold removed. rewrite (rsum_nil 512), Rmult_0_r; [apply sqrt_0|]. intros k _. unfold taken. rewrite iy_dft, Rmax_left by lra. ring. }
  assert (EW : energy_of iy_win = 1).
  { unfold energy_of. rewrite Lw. unfold ssq. rewrite (rsum_single 500 _ 0); [rewrite iy_win_nth; cbn [Nat.eqb]; ring|lia|].
    intros j _ Nj. rewrite iy_win_nth, (proj2 (Nat.eqb_neq j 0) Nj). ring. }
  assert (SQ : sqrt (1 / 1000000 / (1 / 2 * 1)) <= 15 / 10000).
  { rewrite <- (sqrt_Rsqr (15 / 10000)) by lra. apply sqrt_le_1_alt. unfold Rsqr. lra. }
  assert (SI : wf_sy = ideal 1 512 1000 iy_r 0 500).
  { unfold wf_sy, scaled. rewrite (map_ext (Rmult 1) (fun v => v)) by (intro; ring). apply map_id. }
  destruct (C41_returns iy_noisy iy_win 1 0 (1 / 2) 1000 false eq_refl ltac:(rewrite Lu; lia) ltac:(lra) ltac:(lra) Zw ltac:(left; lra)) as (rf & rms & E).
  pose proof E as E1. apply deconv_waterlevel_inv in E1 as (M1 & D1 & Q1). pose proof (wr_lrf _ _ _ _ _ _ _ _ _ _ _ _ Q1) as Lf. rewrite Lu in Lf.
  assert (X : exists wf, WaveformFitting (fun x => Ok x) wf_syn rpg [wf_trace rf] 0 1 2 6 0 [2] [30; 40] 1 (4/10) (4/10) (2/10) = Ok wf).
  { apply (C73_completes _ _ _ _ _ _ _ _ _ _ _ _ _ _ _ (wf_trace rf) [] (wf_trace rf) [] 0); try reflexivity; cbn [wf_trace tr_delta tr_data]; try discriminate; try lra; change (F RN) with R in *; rewrite ?Lf; try lia; cbn [INR]; try lra.
    - intros. unfold synthetic_for. apply wf_syn_len.
    - intros. exists 1. reflexivity. }
  destruct X as [wf HW]. exists rf, rms, wf.
  assert (S30 : synthetic_for wf_syn 0 1 2 6 0 1 (wf_trace rf) (wf_trace rf) 30 2 = Ok wf_sy).
  { unfold synthetic_for, wf_syn. replace (Reqb 30 30) with true by (symmetry; apply Reqb_true; reflexivity). reflexivity. }
  assert (S40 : synthetic_for wf_syn 0 1 2 6 0 1 (wf_trace rf) (wf_trace rf) 40 2 = Ok (repeat 0 500)).
  { unfold synthetic_for, wf_syn. replace (Reqb 40 30) with false by (symmetry; unfold Reqb; destruct (Req_EM_T 40 30); [lra|reflexivity]). reflexivity. }
  assert (LS : length (slice wf_sy 0 25) = 25%nat).
  { unfold slice. rewrite firstn_length. cbn [skipn]. rewrite wf_sy_len. reflexivity. }
  pose proof (C153_water (fun x => Ok x) wf_syn rpg [wf_trace rf] 0 1 2 6 0 [2] [30; 40] 1 (4/10) (4/10) (2/10) wf (wf_trace rf) [] (wf_trace rf) [] 0 25 30 2
    ex_record iy_noisy iy_win 1 0 (1 / 2) 1000 false rms iy_r 0 1 (1 / 1000000)) as B.
  cbv zeta in B. rewrite EC in B. change (rf_scale false 1 512 1000) with 1 in B. rewrite RM, EW in B.
  change (length ex_record) with 500%nat in B. fold wf_sy in B. rewrite LS in B.
  assert (S25 : sqrt (INR 25) = 5) by (replace (INR 25) with (5 * 5) by (rewrite INR_IZR_INZ; simpl; lra); apply sqrt_square; lra).
  rewrite S25 in B.
  assert (Q : 1 * (0 + sqrt (1 / 1000000 / (1 / 2 * 1)) / 1) / 5 <= 3 / 10000) by lra.
  assert (Far : 1 / 10 <= rms_diff (slice wf_sy 0 25) (slice (repeat 0 500) 0 25)).
  { assert (Ls : length (slice wf_sy 0 25) = length (slice (repeat 0 500) 0 25)) by (rewrite LS; reflexivity).
    assert (Ne : slice wf_sy 0 25 <> []) by (intro Z; rewrite Z in LS; discriminate).
    rewrite (rms_nrm _ _ Ls Ne), LS, S25.
    assert (A : Rabs (rnth wf_sy 1) <= nrm 25 (fun j => rnth (slice wf_sy 0 25) j - rnth (slice (repeat 0 500) 0 25) j)).
    { unfold nrm. rewrite <- sqrt_Rsqr_abs. apply sqrt_le_1_alt.
      eapply Rle_trans; [|apply (ssq_term 25 (fun j => rnth (slice wf_sy 0 25) j - rnth (slice (repeat 0 500) 0 25) j) 1); lia].
      assert (H1 : rnth (slice wf_sy 0 25) 1 = rnth wf_sy 1) by (rewrite rnth_slice by (rewrite LS; lia); reflexivity).
      assert (H2 : rnth (slice (repeat 0 500) 0 25) 1 = 0) by reflexivity.
      cbv beta. rewrite H1, H2. unfold Rsqr. apply Req_le. ring. }
    pose proof (dist2_sample ex_record (ideal 1 512 1000 iy_r 0 500) 1 ltac:(rewrite ex_rec_len; lia)) as C. pose proof iy_ideal as I.
    rewrite <- SI in C, I. change (rnth ex_record 1) with 1 in C.
    assert (1 - 6 / 10000 <= Rabs (rnth wf_sy 1)).
    { pose proof (Rle_abs (rnth wf_sy 1)). unfold Rabs in C at 1. destruct (Rcase_abs (rnth wf_sy 1 - 1)) in C; lra. }
    lra. }
  destruct B as (B1 & _ & B3); try reflexivity; try exact E; try lra; try (ring_simplify; reflexivity); try exact iy_convolved; try exact MP; try exact HW; try exact S30.
  - apply Req_le. exact iy_dist.
  - cbn [wf_trace tr_delta tr_data]. change (F RN) with R in *. rewrite Lf. exact wf_window.
  - now left.
  - now left.
  - split; [exact iy_dist|]. split; [exact iy_convolved|]. split; [exact E|]. split; [exact HW|].
    split; [change (F RN) with R in *; lra|].
    apply B3. intros h' k' sy' [<-|[<-|[]]] [<-|[]] Hs Hd; [split; reflexivity|]. exfalso.
    change (F RN) with R in *. rewrite S40 in Hs. assert (Es : sy' = repeat 0 500) by congruence. rewrite Es in Hd. clear - Hd Far Q. lra.
Qed.
