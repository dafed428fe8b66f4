(** * P_WaveNoise: noise in the data moves the RMSE of the waveform fit and its best model only so much
      (C138).  Exact arithmetic. *)

From Coq Require Import Reals Lra Psatz.
From Verif Require Import Base Num NumPy Spec HkModel PlotModel PoolModel WaveModel WaveProofs P_Wave P_Wave2 P_Wave3 P_Wave4 P_Wave5 P_Wave6.
Local Open Scope R_scope.

(** ** Specification *)
(** Two records of the same length, at most [e] apart in every sample. *)
Definition near (e : R) (x y : list R) : Prop :=
  length x = length y /\ forall i a b, nth_error x i = Some a -> nth_error y i = Some b -> Rabs (b - a) <= e.

(** ** Minkowski *)
Lemma near_cons e a x b y : near e (a :: x) (b :: y) -> Rabs (b - a) <= e /\ near e x y.
Proof.
  intros [L H]. split; [apply (H 0%nat); reflexivity|]. split; [cbn in L; lia|]. intros i. apply (H (S i)).
Qed.
Lemma near_sym e x y : near e x y -> near e y x.
Proof. intros [L H]. split; [symmetry; exact L|]. intros i a b Ha Hb. rewrite Rabs_minus_sym. eapply H; eassumption. Qed.
Lemma near_slice e x y s t : near e x y -> near e (slice x s t) (slice y s t).
Proof.
  intros [L H]. split; [apply slice_len; exact L|]. unfold slice. intros i a b Ha Hb. 
  assert (K1 : forall m (l : list R) i v, nth_error (firstn m l) i = Some v -> nth_error l i = Some v).
  { clear. induction m as [|m IH]; intros [|w l] [|i] v E; cbn in *; try discriminate; [exact E|apply IH; exact E]. }
  assert (K2 : forall m (l : list R) i v, nth_error (skipn m l) i = Some v -> nth_error l (m + i) = Some v).
  { clear. induction m as [|m IH]; intros [|w l] i v E; cbn in *; try exact E; [destruct i; discriminate|apply IH; exact E]. }
  assert (K : forall (l : list R) i v, nth_error (firstn (t - s) (skipn s l)) i = Some v -> nth_error l (s + i) = Some v) by (intros; eapply K2, K1; eassumption).
  eapply H; eapply K; eassumption.
Qed.
Lemma sum_abs_sq x s : length x = length s ->
  sum2 (fun a b => Rabs (a - b)) x s * sum2 (fun a b => Rabs (a - b)) x s <= INR (length x) * sum2 (fun a b => (a - b) ^ 2) x s.
Proof.
  intro L. set (T := sum2 (fun a b => Rabs (a - b)) x s). set (Q := sum2 (fun a b => (a - b) ^ 2) x s). set (n := INR (length x)).
  assert (Hn : sum2 (fun _ _ => 1) x s = n).
  { unfold n. clear T Q n. revert s L. induction x as [|a x IH]; intros [|b s] L; try discriminate; [reflexivity|]. cbn [sum2 length]. rewrite S_INR, IH by (cbn in L; lia). ring. }
  assert (P : forall t, 0 <= Q + - (2 * t) * T + t * t * n).
  { intro t. replace (Q + - (2 * t) * T + t * t * n) with (sum2 (fun a b => (Rabs (a - b) - t) ^ 2) x s).
    - apply sum2_nonneg. intros. apply pow2_ge_0.
    - rewrite (sum2_ext _ (fun a b => (a - b) ^ 2 + ((- (2 * t)) * Rabs (a - b) + (t * t) * 1))).
      + rewrite !sum2_plus, !sum2_scal, Hn. fold T Q. ring.
      + intros a b. rewrite <- (pow2_abs (a - b)). ring. }
  assert (N0 : 0 <= n) by apply pos_INR. assert (T0 : 0 <= T) by (apply sum2_nonneg; intros; apply Rabs_pos).
  destruct (Req_dec n 0) as [Z|Z].
  - assert (x = []) as -> by (destruct x; [reflexivity|unfold n in Z; cbn [length] in Z; rewrite S_INR in Z; pose proof (pos_INR (length x)); lra]).
    unfold T, Q. cbn. lra.
  - specialize (P (T / n)). assert (Np : 0 < n) by lra.
    apply (Rmult_le_compat_l n) in P; [|lra]. rewrite Rmult_0_r in P.
    replace (n * (Q + - (2 * (T / n)) * T + T / n * (T / n) * n)) with (n * Q - T * T) in P by (field; lra). lra.
Qed.
Lemma sum_shifted e x y s : 0 <= e -> near e x y -> length x = length s ->
  sum2 (fun a b => (a - b) ^ 2) y s <= sum2 (fun a b => (a - b) ^ 2) x s + 2 * e * sum2 (fun a b => Rabs (a - b)) x s + INR (length x) * (e * e).
Proof.
  intro He. revert y s. induction x as [|a x IH]; intros [|b y] [|c s] Hn L; try (destruct Hn; discriminate); try discriminate; [cbn; lra|].
  apply near_cons in Hn as [H Hn]. cbn [sum2 length]. rewrite S_INR. cbn in L. injection L as L. specialize (IH y s Hn L).
  assert ((b - c) ^ 2 <= (a - c) ^ 2 + 2 * e * Rabs (a - c) + e * e).
  { replace (b - c) with ((b - a) + (a - c)) by ring. rewrite <- (pow2_abs (_ + _)).
    pose proof (Rabs_triang (b - a) (a - c)) as Tr. rewrite <- (pow2_abs (a - c)). pose proof (Rabs_pos (a - c)). pose proof (Rabs_pos ((b - a) + (a - c))).
    pose proof (Rabs_pos (b - a)). nra. }
  lra.
Qed.
Lemma rms_near_le e x y s : 0 <= e -> near e x y -> length x = length s -> x <> [] -> rms_diff y s <= rms_diff x s + e.
Proof.
  intros He Hn L Ne. pose proof (sum_shifted e x y s He Hn L) as B. pose proof (sum_abs_sq x s L) as C. unfold rms_diff.
  assert (Ly : length y = length x) by (symmetry; apply Hn). rewrite Ly. set (n := INR (length x)) in *.
  assert (N0 : 0 < n) by (apply lt_0_INR; destruct x; [congruence|cbn; lia]).
  set (T := sum2 (fun a b => Rabs (a - b)) x s) in *. set (Q := sum2 (fun a b => (a - b) ^ 2) x s) in *. set (Q' := sum2 (fun a b => (a - b) ^ 2) y s) in *.
  assert (T0 : 0 <= T) by (apply sum2_nonneg; intros; apply Rabs_pos). assert (Q0 : 0 <= Q) by (apply sum2_nonneg; intros; apply pow2_ge_0).
  assert (D0 : 0 <= Q / n) by (apply Rmult_le_pos; [exact Q0|left; apply Rinv_0_lt_compat; exact N0]).
  assert (X : sqrt (Q' / n) <= sqrt ((sqrt (Q / n) + e) * (sqrt (Q / n) + e))).
  { apply sqrt_le_1_alt. pose proof (sqrt_sqrt _ D0) as E. pose proof (sqrt_pos (Q / n)) as P. set (r := sqrt (Q / n)) in *.
    assert (EQ : Q = n * (r * r)) by (rewrite E; field; lra).
    assert (TT : T <= n * r). { apply Rsqr_incr_0_var; [unfold Rsqr|apply Rmult_le_pos; lra]. rewrite EQ in C. lra. }
    apply (Rmult_le_reg_l n); [exact N0|]. replace (n * (Q' / n)) with Q' by (field; lra).
    assert (e * T <= e * (n * r)) by (apply Rmult_le_compat_l; assumption). rewrite EQ in B. lra. }
  rewrite sqrt_square in X by (pose proof (sqrt_pos (Q / n)); lra). exact X.
Qed.
Lemma rms_near e x y s : 0 <= e -> near e x y -> length x = length s -> x <> [] -> Rabs (rms_diff y s - rms_diff x s) <= e.
Proof.
  intros He Hn L Ne. pose proof (rms_near_le e x y s He Hn L Ne).
  assert (Ly : length y = length x) by (symmetry; apply Hn).
  pose proof (rms_near_le e y x s He (near_sym _ _ _ Hn) ltac:(congruence) ltac:(intros ->; destruct x; [congruence|discriminate])).
  apply Rabs_le. lra.
Qed.

(** ** C138 *)
Section Noise.
Context (stackR : stream RN -> res (list (trace RN)))
        (synO : list RN -> list RN -> list RN -> list RN -> RN -> RN -> nat -> RN -> RN -> res (list RN))
        (pgO : list RN -> list RN -> RN -> res RN).
Variables (rf rf' : stream RN) (po HS VpS VpC rp : R) (Ks Hs : list RN) (ga a b c a' b' c' : R) (wf wf' : @wfit RN) (e : R).
Hypothesis Run : WaveformFitting stackR synO pgO rf po HS VpS VpC rp Ks Hs ga a b c = Ok wf.
Hypothesis Run' : WaveformFitting stackR synO pgO rf' po HS VpS VpC rp Ks Hs ga a' b' c' = Ok wf'.
(** Same sampling of the first traces; the stacked records (windows of which are fitted) at most [e] apart. *)
Variables (tr0 tr0' st0 st0' : trace RN).
Hypothesis First : nth_error rf 0 = Some tr0 /\ nth_error rf' 0 = Some tr0' /\ tr_delta tr0' = tr_delta tr0 /\ length (tr_data tr0') = length (tr_data tr0).
Hypothesis Stack : (exists SR, stackR rf = Ok (st0 :: SR)) /\ (exists SR, stackR rf' = Ok (st0' :: SR)) /\ near e (tr_data st0) (tr_data st0').
Hypothesis He : 0 <= e.

Lemma noise_rows : forall r r', In r (wf_sols wf) -> In r' (wf_sols wf') -> sr_H r' = sr_H r -> sr_K r' = sr_K r -> Rabs ((sr_rmse r' : R) - (sr_rmse r : R)) <= e.
Proof.
  destruct (C70_rows _ _ _ _ _ _ _ _ _ _ _ _ _ _ _ _ Run) as (x0 & q & y0 & SR & s & t & F1 & F2 & F3 & _ & FR).
  destruct (C70_rows _ _ _ _ _ _ _ _ _ _ _ _ _ _ _ _ Run') as (x0' & q' & y0' & SR' & s' & t' & F1' & F2' & F3' & _ & FR').
  destruct First as (N1 & N2 & Ed & El). destruct Stack as ((S1 & E1) & (S2 & E2) & Hn).
  assert (x0 = tr0) as -> by (rewrite F1 in N1; cbn in N1; congruence). assert (x0' = tr0') as -> by (rewrite F1' in N2; cbn in N2; congruence).
  assert (y0 = st0) as -> by congruence. assert (y0' = st0') as -> by congruence.
  rewrite Ed, El, F3 in F3'. assert (s' = s /\ t' = t) as [-> ->] by (split; congruence).
  intros r r' Ir Ir' EH EK. destruct (FR r Ir) as (sy & Q & L & Ne & R1 & _). destruct (FR' r' Ir') as (sy' & Q' & L' & Ne' & R1' & _).
  rewrite EH, EK in Q'. unfold synthetic_for in Q, Q'. rewrite Ed in Q'. pose proof (proj1 Hn) as Ln. change R with (F RN) in Ln. rewrite <- Ln, Q in Q'. assert (sy' = sy) as -> by congruence.
  rewrite R1, R1'. apply rms_near; [exact He|apply near_slice; exact Hn|exact L|exact Ne].
Qed.

(** The tables belong to the same grid, and the RMSE of every model moves by at most [e]. *)
Theorem C138_rmse : Forall2 (fun r r' : @srow RN => sr_H r' = sr_H r /\ sr_K r' = sr_K r /\ Rabs ((sr_rmse r' : R) - (sr_rmse r : R)) <= e) (wf_sols wf) (wf_sols wf').
Proof.
  destruct (C70_rows _ _ _ _ _ _ _ _ _ _ _ _ _ _ _ _ Run) as (x0 & q & y0 & SR & s & t & _ & _ & _ & G & _).
  destruct (C70_rows _ _ _ _ _ _ _ _ _ _ _ _ _ _ _ _ Run') as (x0' & q' & y0' & SR' & s' & t' & _ & _ & _ & G' & _).
  rewrite <- G' in G. pose proof noise_rows as NR. revert G NR. generalize (wf_sols wf) (wf_sols wf'). clear.
  induction l as [|r l IH]; intros [|r' l'] G NR; try discriminate; constructor.
  - cbn [map] in G. pose proof (f_equal (hd (0, 0)) G) as E. cbn [hd] in E.
    assert (EK : sr_K r' = sr_K r) by (symmetry; exact (f_equal fst E)). assert (EH : sr_H r' = sr_H r) by (symmetry; exact (f_equal snd E)).
    split; [exact EH|]. split; [exact EK|]. apply NR; [left; reflexivity|left; reflexivity|exact EH|exact EK].
  - apply IH; [exact (f_equal (@tl _) G)|]. intros. apply NR; [right; assumption|right; assumption|assumption|assumption].
Qed.

(** The model printed as best by RMSE for the noisy data misfits the noise-free data by at most [2e] more than the
    best one; it is the same model if all others are worse by more than [2e]. *)
Theorem C138_best :
  (exists r, In r (wf_sols wf) /\ sr_H r = sr_H (b_rmse (wf_printed wf')) /\ sr_K r = sr_K (b_rmse (wf_printed wf')) /\
     forall y, In y (wf_sols wf) -> (sr_rmse r : R) <= (sr_rmse y : R) + 2 * e) /\
  ((forall y, In y (wf_sols wf) -> (sr_H y, sr_K y) <> (sr_H (b_rmse (wf_printed wf)), sr_K (b_rmse (wf_printed wf))) ->
      (sr_rmse (b_rmse (wf_printed wf)) : R) + 2 * e < (sr_rmse y : R)) ->
   sr_H (b_rmse (wf_printed wf')) = sr_H (b_rmse (wf_printed wf)) /\ sr_K (b_rmse (wf_printed wf')) = sr_K (b_rmse (wf_printed wf))).
Proof.
  pose proof C138_rmse as Fo.
  destruct (wf_inv _ _ _ _ _ _ _ _ _ _ _ _ _ _ _ _ Run) as (_ & _ & _ & _ & _ & _ & _ & HB & _).
  destruct (wf_inv _ _ _ _ _ _ _ _ _ _ _ _ _ _ _ _ Run') as (_ & _ & _ & _ & _ & _ & _ & HB' & _).
  apply best_rows_spec in HB as (_ & (i & Hi & D & _) & _). apply best_rows_spec in HB' as (_ & (j & Hj & D' & _) & _).
  set (B := b_rmse (wf_printed wf)) in *. set (B' := b_rmse (wf_printed wf')) in *.
  assert (FL : forall l l' n (r' : @srow RN), Forall2 (fun r r' : @srow RN => sr_H r' = sr_H r /\ sr_K r' = sr_K r /\ Rabs ((sr_rmse r' : R) - (sr_rmse r : R)) <= e) l l' ->
     nth_error l' n = Some r' -> exists r, In r l /\ sr_H r' = sr_H r /\ sr_K r' = sr_K r /\ Rabs ((sr_rmse r' : R) - (sr_rmse r : R)) <= e).
  { clear. intros l l' n r' Fo. revert n. induction Fo as [|x y l l' Hxy Fo IH]; intros [|n] E; cbn in E; try discriminate.
    - injection E as <-. exists x. split; [left; reflexivity|exact Hxy].
    - destruct (IH n E) as (r & I & H). exists r. split; [right; exact I|exact H]. }
  assert (FR : forall l l' (r : @srow RN), Forall2 (fun r r' : @srow RN => sr_H r' = sr_H r /\ sr_K r' = sr_K r /\ Rabs ((sr_rmse r' : R) - (sr_rmse r : R)) <= e) l l' ->
     In r l -> exists r', In r' l' /\ Rabs ((sr_rmse r' : R) - (sr_rmse r : R)) <= e).
  { clear. intros l l' r Fo. induction Fo as [|x y l l' (_ & _ & Hxy) Fo IH]; intro I; [destruct I|]. destruct I as [->|I]; [exists y; split; [left; reflexivity|exact Hxy]|].
    destruct (IH I) as (r' & I' & H). exists r'. split; [right; exact I'|exact H]. }
  destruct (FL _ _ _ _ Fo Hj) as (r & Ir & EH & EK & ER).
  assert (Top : forall y, In y (wf_sols wf) -> (sr_rmse r : R) <= (sr_rmse y : R) + 2 * e).
  { intros y Iy. destruct (FR _ _ _ Fo Iy) as (y' & Iy' & Ey). specialize (D' y' Iy'). change (F RN) with R in *.
    unfold Rabs in ER, Ey. destruct (Rcase_abs _) in ER; destruct (Rcase_abs _) in Ey; lra. }
  split; [exists r; split; [exact Ir|]; split; [symmetry; exact EH|]; split; [symmetry; exact EK|exact Top]|].
  intro Lead. rewrite EH, EK.
  destruct (Req_EM_T (sr_H r) (sr_H B)) as [E1|N1]; [destruct (Req_EM_T (sr_K r) (sr_K B)) as [E2|N2]; [split; assumption|]|]; exfalso.
  - assert (X : (sr_H r, sr_K r) <> (sr_H B, sr_K B)) by (intro Q; apply N2; exact (f_equal snd Q)).
    specialize (Lead r Ir X). specialize (Top B (nth_error_In _ _ Hi)). lra.
  - assert (X : (sr_H r, sr_K r) <> (sr_H B, sr_K B)) by (intro Q; apply N1; exact (f_equal fst Q)).
    specialize (Lead r Ir X). specialize (Top B (nth_error_In _ _ Hi)). lra.
Qed.
End Noise.

(** Consequence: data that are the synthetic of a grid point plus noise of at most [e] per sample.  The best
    RMSE is at most [e], and the model printed reproduces the noise-free data with an RMSE of at most [2e]. *)
Theorem C138_true_model stackR synO pgO (rf : stream RN) (po HS VpS VpC rp : R) (Ks Hs : list RN) (ga a b c : R) (wf : @wfit RN) tr0 rf' st0 SR s t h k sy e :
  WaveformFitting stackR synO pgO rf po HS VpS VpC rp Ks Hs ga a b c = Ok wf -> rf = tr0 :: rf' -> stackR rf = Ok (st0 :: SR) ->
  fit_window (@taxis RN (tr_delta tr0) (length (tr_data tr0)) po) (tr_delta tr0) = Ok (s, t) -> 0 <= e ->
  In h Hs -> In k Ks -> synthetic_for synO po HS VpS VpC rp ga tr0 st0 h k = Ok sy -> near e sy (tr_data st0) ->
  let best := b_rmse (wf_printed wf) in
  sr_rmse best <= e /\
  exists sy', synthetic_for synO po HS VpS VpC rp ga tr0 st0 (sr_H best) (sr_K best) = Ok sy' /\
    rms_diff (slice sy s t) (slice sy' s t) <= 2 * e.
Proof.
  intros Run E1 E2 E3 He Ih Ik Hsy Hn. cbv zeta.
  destruct (C70_rows _ _ _ _ _ _ _ _ _ _ _ _ _ _ _ _ Run) as (x0 & q & y0 & SR' & s' & t' & F1 & F2 & F3 & G & FR).
  assert (x0 = tr0) as -> by congruence. assert (y0 = st0) as -> by congruence.
  assert (s' = s /\ t' = t) as [-> ->] by (rewrite E3 in F3; split; congruence).
  destruct (wf_inv _ _ _ _ _ _ _ _ _ _ _ _ _ _ _ _ Run) as (_ & _ & _ & _ & _ & _ & _ & HB & _).
  apply best_rows_spec in HB as (_ & (i & Hi & D & _) & _). set (B := b_rmse (wf_printed wf)) in *.
  assert (Hr : exists r, In r (wf_sols wf) /\ sr_H r = h /\ sr_K r = k).
  { assert (I : In (k, h) (map (fun r => (sr_K r, sr_H r)) (wf_sols wf))) by (rewrite G; apply in_prod; assumption).
    apply in_map_iff in I as (r & Er & Ir). exists r. split; [exact Ir|]. split; congruence. }
  destruct Hr as (r & Ir & Rh & Rk). destruct (FR r Ir) as (sy1 & Q1 & L1 & Ne1 & R1 & _). rewrite Rh, Rk, Hsy in Q1. assert (sy1 = sy) as -> by congruence.
  destruct (FR B (nth_error_In _ _ Hi)) as (sy2 & Q2 & L2 & Ne2 & R2 & _).
  set (x := slice (tr_data st0) s t) in *.
  assert (Nx : near e (slice sy s t) x) by (apply near_slice; exact Hn).
  assert (Z : forall l : list R, l <> [] -> rms_diff l l = 0) by (intros l Nl; apply rms_diff_zero; auto).
  assert (Nsy : slice sy s t <> []) by (intro X; rewrite X in L1; destruct x; [congruence|discriminate]).
  assert (M : sr_rmse r <= e).
  { rewrite R1. pose proof (rms_near_le e (slice sy s t) x (slice sy s t) He Nx eq_refl Nsy) as P. rewrite (Z _ Nsy) in P. change (F RN) with R in *. lra. }
  assert (M2 : sr_rmse B <= e) by (specialize (D r Ir); change (F RN) with R in *; lra).
  split; [exact M2|]. exists sy2. split; [exact Q2|].
  pose proof (rms_near_le e x (slice sy s t) (slice sy2 s t) He (near_sym _ _ _ Nx) L2 Ne2) as P. rewrite <- R2 in P. change (F RN) with R in *. lra.
Qed.

(** A concrete case: the run [wave_example] of P_Wave6 (data = synthetic of depth 30) and the same with every
    second sample changed by 1/10. *)
Definition rnoisy : list R := [11 / 10; 2; 31 / 10; 5; 41 / 10; 0]%R.
Theorem C138_example : exists wf wf',
  let run d := WaveformFitting (fun rf => Ok rf) rsyn rpg [rtrace d] 0 1 2 6 0 [2] [30; 40] 1 (4/10) (4/10) (2/10) in
  run rdata = Ok wf /\ run rnoisy = Ok wf' /\ near (1 / 10) rdata rnoisy /\ sr_rmse (b_rmse (wf_printed wf')) <= 1 / 10 /\
  Forall2 (fun r r' : @srow RN => sr_H r' = sr_H r /\ sr_K r' = sr_K r /\ Rabs ((sr_rmse r' : R) - (sr_rmse r : R)) <= 1 / 10) (wf_sols wf) (wf_sols wf').
Proof.
  destruct wave_example as (wf & HW & _).
  assert (exists wf', WaveformFitting (fun rf => Ok rf) rsyn rpg [rtrace rnoisy] 0 1 2 6 0 [2] [30; 40] 1 (4/10) (4/10) (2/10) = Ok wf') as [wf' HW'].
  { apply (C73_completes _ _ _ _ _ _ _ _ _ _ _ _ _ _ _ (rtrace rnoisy) [] (rtrace rnoisy) [] 0); try reflexivity; cbn [rtrace tr_delta tr_data rnoisy length]; try discriminate; try lia; cbn [INR]; try lra.
    - intros. unfold synthetic_for. apply rsyn_total.
    - intros. exists 1. reflexivity. }
  assert (Hn : near (1 / 10) rdata rnoisy).
  { split; [reflexivity|]. intros i x y Hx Hy. do 6 (destruct i as [|i]; [cbn in Hx, Hy; injection Hx as <-; injection Hy as <-; apply Rabs_le; lra|]). destruct i; discriminate. }
  exists wf, wf'. cbv zeta. split; [exact HW|]. split; [exact HW'|]. split; [exact Hn|]. split.
  - refine (proj1 (C138_true_model _ _ _ _ _ _ _ _ _ _ _ _ _ _ _ wf' (rtrace rnoisy) [] (rtrace rnoisy) [] 0%nat 5%nat 30 2 rdata (1 / 10) HW' eq_refl eq_refl _ _ _ _ _ _)).
    + exact rfit_window.
    + lra.
    + left. reflexivity.
    + left. reflexivity.
    + unfold synthetic_for, rsyn, rbody. cbn [rtrace tr_data rnoisy length]. replace (Reqb 30 30) with true by (symmetry; apply Reqb_true; reflexivity). reflexivity.
    + exact Hn.
  - apply (C138_rmse _ _ _ _ _ _ _ _ _ _ _ _ _ _ _ _ _ _ _ wf wf' (1 / 10) HW HW' (rtrace rdata) (rtrace rnoisy) (rtrace rdata) (rtrace rnoisy)).
    + repeat split.
    + split; [exists []; reflexivity|]. split; [exists []; reflexivity|exact Hn].
    + lra.
Qed.
