(** * P_Wave10: the parallel fit completes exactly when the serial one does, and a model that
    reproduces the data wins there too (C130). *)

From Coq Require Import Reals Lra Permutation.
From Verif Require Import Base Num NumPy Spec HkModel PlotModel PoolModel PoolProofs P_Pool WaveModel WaveProofs P_Wave P_Wave2 P_Wave3 P_Wave4 P_Wave5 P_Wave6.

Section Parallel.
Context (stackR : stream RN -> res (list (trace RN)))
        (synO : list RN -> list RN -> list RN -> list RN -> RN -> RN -> nat -> RN -> RN -> res (list RN))
        (pgO : list RN -> list RN -> RN -> res RN) (draw : @figure RN -> res unit).
Variables (rf : stream RN) (po HS VpS VpC rp : R) (Ks Hs : list RN) (ga : R) (a b c : option R) (sp fmt : string).

(** The three calls of the parallel route: WaveformPara, run_waveformfitting (some schedule of the
    pool with nproc processes), plotbestmodel; [bm] is what the last one prints. *)
Definition parallel_fit (nproc : nat) (res : list (list (@sol RN))) (bm : @best RN) : Prop :=
  exists Ps, WaveformPara stackR rf po HS VpS VpC rp Ks Hs ga = Ok Ps /\
    run_waveformfitting synO pgO nproc Hs Ps (Ok (map Some res)) /\
    pb_printed (plotbestmodel stackR synO draw res Ps a b c sp fmt) = Some bm.
Definition wC : R := dflt a (4 / 10)%R.
Definition wR : R := dflt b (4 / 10)%R.
Definition wP : R := dflt c (2 / 10)%R.

Lemma lit4 : @nlit RN 4 10 = (4 / 10)%R. Proof. cbn. lra. Qed.
Lemma lit2 : @nlit RN 2 10 = (2 / 10)%R. Proof. cbn. lra. Qed.
Lemma pbm_dflt res Ps : plotbestmodel stackR synO draw res Ps a b c sp fmt = plotbestmodel stackR synO draw res Ps (Some wC) (Some wR) (Some wP) sp fmt.
Proof. unfold plotbestmodel, wC, wR, wP. cbn [dflt]. rewrite lit4, lit2. reflexivity. Qed.

Lemma map_Some_inj {A} (l m : list A) : map Some l = map Some m -> l = m.
Proof. revert m. induction l as [|x l IH]; intros [|y m] E; cbn in E; try discriminate; [reflexivity|]. injection E as -> E. f_equal. exact (IH _ E). Qed.

Lemma serial_of_parallel nproc res bm : 0 < nproc -> parallel_fit nproc res bm ->
  exists wf, WaveformFitting stackR synO pgO rf po HS VpS VpC rp Ks Hs ga wC wR wP = Ok wf.
Proof.
  intros Hn (Ps & HP & Hr & Hb). destruct (para_synth stackR synO _ _ _ _ _ _ _ _ _ _ HP) as (tr0 & rf' & st0 & SR & s & e & P & _ & _ & EP & _).
  rewrite WaveformFitting_eq, HP. rewrite EP in *. cbn [bind getitem nth_error].
  destruct (WaveformPara_inv _ _ _ _ _ _ _ _ _ _ _ HP) as (tr0' & rf'' & st0' & SR' & t0 & ts & s' & e' & _ & _ & _ & _ & E5).
  assert (EK : wp_KMoho P = Ks) by (apply (f_equal (hd P)) in E5; cbn [hd] in E5; rewrite E5; reflexivity).
  assert (EH : wp_HMoho P = Hs) by (apply (f_equal (hd P)) in E5; cbn [hd] in E5; rewrite E5; reflexivity).
  apply run_spec in Hr as (res' & Er & Eq); [|exact Hn]. apply map_Some_inj in Eq as <-. rewrite EK in Er.
  pose proof (multi_table _ _ _ _ Er) as Em.
  destruct (mapM_perm _ _ _ _ (Permutation_sym (prod_swap Ks Hs)) Em) as (T & ET & PT). rewrite mapM_map in ET. cbn [fst snd] in ET.
  rewrite ET. cbn [bind].
  assert (HneT : T <> []).
  { intro Z. rewrite Z in PT. apply Permutation_sym, Permutation_nil in PT.
    apply pbm_inv in Hb as (W & _ & HR & HB). rewrite EH, EK in HR.
    assert (L : length (concat res) = length Hs * length Ks) by (rewrite <- (mapM_length _ _ _ Em), prod_length; reflexivity).
    rewrite <- L, Nat.sub_diag, PT in HR. cbn in HR. discriminate. }
  destruct (is_max_ex so_corr T HneT) as [mc Mc]. destruct (is_max_ex so_rmse T HneT) as [mr Mr]. destruct (is_max_ex so_pg T HneT) as [mp Mp].
  assert (HR : @rank RN wC wR wP T = Ok (map (with_gof wC wR wP mc mr mp) T)).
  { apply rank_spec. exists mc, mr, mp. repeat split; try apply Mc; try apply Mr; try apply Mp. }
  rewrite HR. cbn [bind]. destruct (best_rows_ok (map (with_gof wC wR wP mc mr mp) T)) as [bm' HB].
  { intro Z. apply map_eq_nil in Z. contradiction. }
  rewrite HB. cbn [bind]. eexists. reflexivity.
Qed.

(** C130: for every number of processes, the parallel route prints best models exactly when the
    serial function (with the same weights) returns. *)
Theorem C130_completes_iff nproc : 0 < nproc ->
  (exists res bm, parallel_fit nproc res bm) <->
  (exists wf, WaveformFitting stackR synO pgO rf po HS VpS VpC rp Ks Hs ga wC wR wP = Ok wf).
Proof.
  intro Hn. split; [intros (res & bm & Hp); exact (serial_of_parallel _ _ _ Hn Hp)|].
  intros [wf HW]. destruct (C45_best_models _ _ _ draw _ _ _ _ _ _ _ _ _ _ _ _ _ sp fmt HW) as (Ps & res & bm & HP & Hr & Hb & _).
  exists res, bm, Ps. split; [exact HP|]. split; [apply (Hr _ Hn); reflexivity|]. rewrite pbm_dflt. exact Hb.
Qed.

(** C130: the results and the printed models do not depend on the schedule or the number of processes. *)
Theorem C130_deterministic n1 n2 res1 res2 bm1 bm2 : 0 < n1 -> 0 < n2 ->
  parallel_fit n1 res1 bm1 -> parallel_fit n2 res2 bm2 -> res1 = res2 /\ bm1 = bm2.
Proof.
  intros H1 H2 P1 P2. destruct (serial_of_parallel _ _ _ H1 P1) as [wf HW].
  destruct (C45_best_models _ _ _ draw _ _ _ _ _ _ _ _ _ _ _ _ _ sp fmt HW) as (Ps & res & bm & HP & Hr & Hb & _).
  destruct P1 as (Ps1 & Q1 & R1 & B1). destruct P2 as (Ps2 & Q2 & R2 & B2).
  assert (Ps1 = Ps) by congruence. assert (Ps2 = Ps) by congruence. subst Ps1 Ps2.
  apply (Hr _ H1) in R1. apply (Hr _ H2) in R2.
  assert (E1 : map Some res1 = map Some res) by congruence. assert (E2 : map Some res2 = map Some res) by congruence.
  apply map_Some_inj in E1, E2. subst res1 res2. split; [reflexivity|congruence].
Qed.

(** C130: with P on a sample of the stream and of the stack, at least one sample in 25 s, a
    non-empty grid, and a forward model and phase criterion that answer at the grid points, the
    parallel route completes whatever the schedule: the pool can only return the rows of the
    whole grid, depth by depth, and the best models are printed. *)
Theorem C130_completes tr0 rf' st0 SR k : 
  rf = tr0 :: rf' -> stackR rf = Ok (st0 :: SR) -> (0 < tr_delta tr0 <= 25)%R ->
  (po = tr_delta tr0 * INR k)%R -> k < length (tr_data tr0) -> k < length (tr_data st0) -> Ks <> [] -> Hs <> [] ->
  (forall h k, In h Hs -> In k Ks -> exists d, synthetic_for synO po HS VpS VpC rp ga tr0 st0 h k = Ok d /\ length d = length (tr_data st0)) ->
  (forall x y dt, exists v, pgO x y dt = Ok v) ->
  exists Ps res bm, WaveformPara stackR rf po HS VpS VpC rp Ks Hs ga = Ok Ps /\
    (forall nproc, 0 < nproc -> forall r, run_waveformfitting synO pgO nproc Hs Ps r <-> r = Ok (map Some res)) /\
    map (map (fun s => (so_H s, so_K s))) res = map (fun h => map (fun k => (h, k)) Ks) Hs /\
    pb_printed (plotbestmodel stackR synO draw res Ps a b c sp fmt) = Some bm.
Proof.
  intros E1 E2 Hd Ep L1 L2 HK HH Hsy Hpg.
  destruct (C73_completes stackR synO pgO rf po HS VpS VpC rp Ks Hs ga wC wR wP tr0 rf' st0 SR k E1 E2 Hd Ep L1 L2 HK HH Hsy Hpg) as [wf HW].
  destruct (C45_best_models _ _ _ draw _ _ _ _ _ _ _ _ _ _ _ _ _ sp fmt HW) as (Ps & res & bm & HP & Hr & Hb & _).
  exists Ps, res, bm. split; [exact HP|]. split; [exact Hr|]. split; [|rewrite pbm_dflt; exact Hb].
  apply wf_inv in HW as (P & T & HP' & EK & _). rewrite HP' in HP. injection HP as <-.
  assert (Hr1 : run_waveformfitting synO pgO 1 Hs [P] (Ok (map Some res))) by (apply (Hr 1); [lia|reflexivity]).
  apply run_spec in Hr1 as (res' & Er & Eq); [|lia]. apply map_Some_inj in Eq as <-. rewrite EK in Er.
  apply mapM_Ok in Er. clear -Er. induction Er as [|h rs l T Hsv F0 IH]; cbn [map]; [reflexivity|]. rewrite IH. f_equal.
  apply mapM_Ok in Hsv. clear -Hsv. induction Hsv as [|k s l T Hs F0 IH]; cbn [map]; [reflexivity|].
  apply eval_node_HK in Hs as [Q1 Q2]. rewrite Q1, Q2, IH. reflexivity.
Qed.

(** C130 (the parallel form of C68): if some grid point reproduces the data in the window, the model
    printed as best by RMSE has RMSE 0 and reproduces the data; it is that grid point when no
    other one does; if the data vary in the window, the printed best correlation is 1. *)
Theorem C130_reproduced nproc res bm tr0 rf' st0 SR s e h k sy : 0 < nproc -> parallel_fit nproc res bm ->
  rf = tr0 :: rf' -> stackR rf = Ok (st0 :: SR) ->
  fit_window (@taxis RN (tr_delta tr0) (length (tr_data tr0)) po) (tr_delta tr0) = Ok (s, e) ->
  In h Hs -> In k Ks -> synthetic_for synO po HS VpS VpC rp ga tr0 st0 h k = Ok sy -> slice sy s e = slice (tr_data st0) s e ->
  sr_rmse (b_rmse bm) = 0%R /\
  (exists sy', synthetic_for synO po HS VpS VpC rp ga tr0 st0 (sr_H (b_rmse bm)) (sr_K (b_rmse bm)) = Ok sy' /\ slice sy' s e = slice (tr_data st0) s e) /\
  ((forall h' k' sy', In h' Hs -> In k' Ks -> synthetic_for synO po HS VpS VpC rp ga tr0 st0 h' k' = Ok sy' -> slice sy' s e = slice (tr_data st0) s e -> h' = h /\ k' = k) ->
   sr_H (b_rmse bm) = h /\ sr_K (b_rmse bm) = k) /\
  (varies (slice (tr_data st0) s e) -> sr_corr (b_corr bm) = 1%R).
Proof.
  intros Hn Hp E1 E2 E3 Ih Ik Hsy Hw. destruct (serial_of_parallel _ _ _ Hn Hp) as [wf HW].
  destruct (C68_reproduced _ _ _ _ _ _ _ _ _ _ _ _ _ _ _ _ HW _ _ _ _ _ _ _ _ _ E1 E2 E3 Ih Ik Hsy Hw) as (Z & _ & _ & _ & _ & Cc).
  destruct (C45_best_models _ _ _ draw _ _ _ _ _ _ _ _ _ _ _ _ _ sp fmt HW) as (Ps & res' & bm' & HP & Hr & Hb & (S1 & _) & (S2 & _) & _).
  destruct Hp as (Ps1 & Q1 & R1 & B1). assert (Ps1 = Ps) by congruence. subst Ps1. apply (Hr _ Hn) in R1.
  assert (X : map Some res = map Some res') by congruence. apply map_Some_inj in X. subst res'.
  rewrite pbm_dflt in B1. assert (bm' = bm) by congruence. subst bm'.
  assert (Zb : sr_rmse (b_rmse bm) = 0%R) by (rewrite <- S2; exact Z).
  destruct (C70_rows _ _ _ _ _ _ _ _ _ _ _ _ _ _ _ _ HW) as (tr0' & rf'' & st0' & SR' & s' & e' & F1 & F2 & F3 & FG & FR).
  rewrite E1 in F1. injection F1 as <- <-. rewrite E2 in F2. injection F2 as <- <-. rewrite E3 in F3. injection F3 as <- <-.
  destruct (C45_same_solutions _ _ _ _ _ _ _ _ _ _ _ _ _ _ _ _ Ps nproc (map Some res) HW Q1 Hn) as (res2 & X & PT & _); [apply (Hr _ Hn); reflexivity|].
  apply map_Some_inj in X. subst res2.
  destruct (para_synth stackR synO _ _ _ _ _ _ _ _ _ _ Q1) as (_ & _ & _ & _ & _ & _ & P & _ & _ & EP & _). rewrite EP in *.
  assert (LM : length (concat res) = length (wp_HMoho P) * length (wp_KMoho P)).
  { destruct (wf_inv _ _ _ _ _ _ _ _ _ _ _ _ _ _ _ _ HW) as (P' & T & HP' & EK & EH & _). rewrite Q1 in HP'. injection HP' as <-.
    rewrite EK, EH, (Permutation_length PT), map_length. rewrite Nat.mul_comm, <- prod_length, <- FG, map_length. reflexivity. }
  destruct (C49_matching _ _ _ _ _ _ _ _ _ _ _ _ LM B1) as (_ & In2 & _). unfold reported in In2.
  apply (Permutation_in _ PT) in In2. apply in_map_iff in In2 as (r & Er & Ir).
  assert (Eh : sr_H r = sr_H (b_rmse bm)) by (apply (f_equal so_H) in Er; exact Er).
  assert (Ek : sr_K r = sr_K (b_rmse bm)) by (apply (f_equal so_K) in Er; exact Er).
  assert (Em : sr_rmse r = sr_rmse (b_rmse bm)) by (apply (f_equal so_rmse) in Er; exact Er).
  destruct (FR r Ir) as (sy2 & Qs & L2 & Ne2 & R2 & _). rewrite Eh, Ek in Qs.
  assert (W2 : slice sy2 s e = slice (tr_data st0) s e).
  { symmetry. apply rms_diff_zero; [exact L2|exact Ne2|rewrite <- R2, Em; exact Zb]. }
  split; [exact Zb|]. split; [exists sy2; split; assumption|]. split.
  - intro U. assert (G : In (sr_K (b_rmse bm), sr_H (b_rmse bm)) (list_prod Ks Hs)).
    { rewrite <- FG, <- Eh, <- Ek. apply (in_map (fun r => (sr_K r, sr_H r)) _ _ Ir). }
    apply in_prod_iff in G as [G1 G2]. exact (U _ _ _ G2 G1 Qs W2).
  - intro V. rewrite <- S1. exact (Cc V).
Qed.
End Parallel.

(** The run of P_Wave6 through the parallel route, two processes, default weights. *)
Theorem C130_example : exists res bm,
  parallel_fit (fun rf => Ok rf) rsyn rpg (fun _ => Ok tt) [rtrace rdata] 0%R 1%R 2%R 6%R 0%R [2%R] [30%R; 40%R] 1%R None None None "." "png" 2 res bm /\
  length (concat res) = 2 /\ sr_H (b_rmse bm) = 30%R /\ sr_K (b_rmse bm) = 2%R /\ sr_rmse (b_rmse bm) = 0%R /\ sr_corr (b_corr bm) = 1%R.
Proof.
  assert (X := C130_completes (fun rf => Ok rf) rsyn rpg (fun _ => Ok tt) [rtrace rdata] 0%R 1%R 2%R 6%R 0%R [2%R] [30%R; 40%R] 1%R None None None "."%string "png"%string
     (rtrace rdata) [] (rtrace rdata) [] 0 eq_refl eq_refl).
  destruct X as (Ps & res & bm & HP & Hr & Eg & Hb); try (cbn [rtrace tr_delta tr_data rdata length INR]; try discriminate; try lia; try lra).
  { intros. unfold synthetic_for. apply rsyn_total. }
  { intros. exists 1%R. reflexivity. }
  assert (PF : parallel_fit (fun rf => Ok rf) rsyn rpg (fun _ => Ok tt) [rtrace rdata] 0%R 1%R 2%R 6%R 0%R [2%R] [30%R; 40%R] 1%R None None None "." "png" 2 res bm).
  { exists Ps. split; [exact HP|]. split; [apply (Hr 2); [lia|reflexivity]|exact Hb]. }
  exists res, bm. split; [exact PF|]. split.
  { clear -Eg. destruct res as [|[|? [|? ?]] [|[|? [|? ?]] [|? ?]]]; cbn in Eg; try discriminate. reflexivity. }
  assert (Vd : varies (slice rdata 0 5)) by (exists 1%R, 2%R; cbn; repeat split; auto; lra).
  assert (H2 : 0 < 2) by lia.
  destruct (C130_reproduced _ _ _ _ _ _ _ _ _ _ _ _ _ _ _ _ _ _ _ _ _ (rtrace rdata) [] (rtrace rdata) [] 0 5 30%R 2%R rdata H2 PF eq_refl eq_refl rfit_window) as (Z & _ & U & Cc).
  - left. reflexivity.
  - left. reflexivity.
  - unfold synthetic_for, rsyn, rbody. cbn [rtrace tr_data rdata length]. replace (Reqb 30 30) with true by (symmetry; apply Reqb_true; reflexivity). reflexivity.
  - reflexivity.
  - cbn [rtrace tr_data] in U, Cc. specialize (Cc Vd).
    assert (U' : sr_H (b_rmse bm) = 30%R /\ sr_K (b_rmse bm) = 2%R).
    { apply U. intros h' k' sy' [<-|[<-|[]]] [<-|[]] Hs Hw; [split; reflexivity|]. exfalso.
      unfold synthetic_for, rsyn, rbody in Hs. cbn [rtrace tr_data rdata length] in Hs. replace (Reqb 40 30) with false in Hs by (symmetry; unfold Reqb; destruct (Req_EM_T 40 30); [lra|reflexivity]).
      injection Hs as <-. cbn in Hw. injection Hw as Hw _. lra. }
    destruct U' as [U1 U2]. repeat split; assumption.
Qed.
