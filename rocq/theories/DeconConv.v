(** * DeconConv: convergence of the greedy spike fitting (for P_Conv.v). *)

From Coq Require Import Reals Lra Lia.
From Verif Require Import Base Cplx DFT DFT2 SpecSignal SpecConv LeastSquares DeconProofs DeconProofs2 DeconProofs3 DeconProofs4 DeconProofs5.
Local Open Scope R_scope.

(** ** Parseval and the transform of a convolution *)
Lemma parseval n x : (0 < n)%nat -> ssq n (rnth x) = / INR n * rsum n (fun k => Cnorm2 (dft n x k)).
Proof.
  intro Hn. apply RtoC_inj. unfold ssq. rewrite <- csum_RtoC.
  assert (HnR : INR n <> 0) by (apply not_0_INR; lia).
  rewrite (csum_ext n _ (fun j => RtoC (/ INR n) * csum n (fun k => RtoC (rnth x j) * (dft n x k * W n (Z.of_nat j * Z.of_nat k))))%C).
  - rewrite csum_scale, RtoC_mul. f_equal. rewrite csum_swap, <- csum_RtoC. apply csum_ext. intros k Hk.
    rewrite <- Cmul_conj. unfold dft at 3. rewrite csum_conj, <- csum_scale. apply csum_ext. intros j Hj.
    rewrite Cconj_mul, Cconj_RtoC, Cconj_W, Z.opp_involutive. ring.
  - intros j Hj. rewrite csum_scale. rewrite RtoC_mul.
    rewrite <- (cnth_map_RtoC x j) at 2. rewrite <- (ifft_fft (map RtoC x) n j Hj). rewrite ifft_nth by exact Hj.
    rewrite (csum_ext n (fun k => cnth (fft (map RtoC x) n) k * W n (Z.of_nat j * Z.of_nat k))%C (fun k => dft n x k * W n (Z.of_nat j * Z.of_nat k))%C).
    + ring.
    + intros k Hk. rewrite fft_dft by exact Hk. reflexivity.
Qed.

Lemma dft_cconv n x h k : (0 < n)%nat -> dft n (map (cconv n x h) (seq 0 n)) k = (dft n x k * dft n h k)%C.
Proof.
  intro Hn. unfold dft at 1.
  rewrite (csum_ext n _ (fun j => csum n (fun m => RtoC (rnth x m) * (RtoC (rnth h (circ n j (Z.of_nat m))) * W n (- (Z.of_nat j * Z.of_nat k)))))%C).
  2:{ intros j Hj. rewrite cconv_list by exact Hj. unfold cconv. rewrite <- csum_RtoC.
      rewrite (csum_ext n (fun m => RtoC (rnth x m) * _)%C (fun m => W n (- (Z.of_nat j * Z.of_nat k)) * RtoC (rnth x m * rnth h (circ n j (Z.of_nat m))))%C).
      - rewrite csum_scale. ring.
      - intros m _. rewrite RtoC_mul. ring. }
  rewrite csum_swap. unfold dft at 1. 
  rewrite (csum_ext n _ (fun m => dft n h k * (RtoC (rnth x m) * W n (- (Z.of_nat m * Z.of_nat k))))%C).
  - rewrite csum_scale. ring.
  - intros m Hm. rewrite csum_scale.
    rewrite (csum_ext n _ (fun j => W n (- (Z.of_nat m * Z.of_nat k)) *
       (fun i => RtoC (rnth h i) * W n (- (Z.of_nat i * Z.of_nat k)))%C (circ n j (Z.of_nat m)))%C).
    + rewrite csum_scale, (csum_circ n (fun i => RtoC (rnth h i) * W n (- (Z.of_nat i * Z.of_nat k)))%C) by exact Hn. fold (dft n h k). ring.
    + intros j Hj. cbv beta.
      replace (- (Z.of_nat (circ n j (Z.of_nat m)) * Z.of_nat k))%Z with (Z.of_nat (circ n j (Z.of_nat m)) * (- Z.of_nat k))%Z by ring.
      rewrite W_circ by exact Hn.
      replace (- (Z.of_nat j * Z.of_nat k))%Z with (- (Z.of_nat m * Z.of_nat k) + (Z.of_nat j - Z.of_nat m) * - Z.of_nat k)%Z by ring.
      rewrite W_add. ring.
Qed.

(** A source whose power is at least [mu] at every frequency. *)
Lemma cconv_power n x h mu : (0 < n)%nat -> (forall k, (k < n)%nat -> mu <= Cnorm2 (dft n h k)) ->
  mu * ssq n (rnth x) <= ssq n (cconv n x h).
Proof.
  intros Hn H. rewrite (ssq_ext n (cconv n x h) (rnth (map (cconv n x h) (seq 0 n)))) by (intros j Hj; symmetry; apply cconv_list; exact Hj).
  rewrite !parseval by exact Hn.
  assert (P : 0 < / INR n) by (apply Rinv_0_lt_compat; apply lt_0_INR; exact Hn).
  replace (mu * (/ INR n * rsum n (fun k => Cnorm2 (dft n x k)))) with (/ INR n * rsum n (fun k => mu * Cnorm2 (dft n x k))) by (rewrite rsum_scale; ring).
  apply Rmult_le_compat_l; [lra|]. apply rsum_le. intros k Hk. rewrite dft_cconv, Cnorm2_mul by exact Hn.
  specialize (H k Hk). pose proof (Cnorm2_pos (dft n x k)). nra.
Qed.

(** ** The spike fitting seen as a least-squares problem *)
Section Greedy.
Variables (dt : R) (n lim : nat) (u w : list R).
Hypothesis (Hn : (0 < n)%nat) (Hdt : dt <> 0) (Hlim : (lim <= n)%nat).

Let mf := misfit dt n u w.
Let pu := ssq n (rnth u).
Let pw := ssq n (rnth w).
Hypothesis (Hpu : 0 < pu) (Hpw : 0 < pw).

(** The source delayed by [l] samples. *)
Definition sh (l j : nat) : R := rnth w (circ n j (Z.of_nat l)).
Definition res_of (p : list R) (j : nat) : R := rnth u j - dt * cconv n p w j.
Definition X (p : list R) (l : nat) : R := ip n (res_of p) (sh l).

Lemma sh_power l : ip n (sh l) (sh l) = pw.
Proof. exact (ssq_circ n (rnth w) (Z.of_nat l) Hn). Qed.
Lemma mf_ip p : mf p = ip n (res_of p) (res_of p) / pu.
Proof. reflexivity. Qed.
Lemma cconv_comb p j : spikes_below n lim p -> cconv n p w j = comb sh (rnth p) lim j.
Proof.
  intros [_ H]. unfold cconv, comb. replace n with (lim + (n - lim))%nat at 1 by lia. rewrite rsum_split.
  rewrite (rsum_ext (n - lim) _ (fun _ => 0)); [rewrite rsum_0, Rplus_0_r; reflexivity|].
  intros k _. rewrite H by lia. ring.
Qed.

Lemma mf_spike p l : (l < n)%nat -> length p = n ->
  exists b p', spike_added n p p' l b /\ mf p' = mf p - X p l * X p l / (pw * pu).
Proof.
  intros Hl Lp. set (b := X p l / pw / dt). destruct (spike_exists n p l b Hl Lp) as [p' S].
  exists b, p'. split; [exact S|]. unfold mf. rewrite (misfit_spike dt n u w p p' l b Hl S).
  rewrite (ssq_ext n _ (fun j => res_of p j - (b * dt) * sh l j)) by (intros j _; unfold res_of, sh; ring).
  rewrite ssq_sub. change (ssq n (sh l)) with (ip n (sh l) (sh l)). rewrite sh_power.
  change (rsum n (fun j => res_of p j * sh l j)) with (X p l). unfold misfit. fold pu.
  change (ssq n (fun j => rnth u j - dt * cconv n p w j)) with (ssq n (res_of p)).
  unfold b. field. repeat split; lra.
Qed.

(** No spike train fits better exactly when the residual is uncorrelated with the source
    at all allowed lags. *)
Definition orthogonal (r : list R) : Prop := forall l, (l < lim)%nat -> X r l = 0.

Definition gap (r p : list R) (l : nat) : R := dt * (rnth r l - rnth p l).
Definition dev (r p : list R) : nat -> R := comb sh (gap r p) lim.

Lemma res_dev r p j : spikes_below n lim r -> spikes_below n lim p -> res_of p j = 1 * res_of r j + 1 * dev r p j.
Proof.
  intros Hr Hp. unfold res_of, dev. rewrite !cconv_comb by assumption.
  rewrite (comb_ext sh (gap r p) (fun l => dt * rnth r l + (- dt) * rnth p l)) by (intros; unfold gap; ring).
  rewrite comb_lin. ring.
Qed.
Lemma X_dev r p l : spikes_below n lim r -> spikes_below n lim p -> orthogonal r -> (l < lim)%nat ->
  X p l = ip n (dev r p) (sh l).
Proof.
  intros Hr Hp Ho Hl. unfold X. rewrite (ip_ext n (res_of p) (fun j => 1 * res_of r j + 1 * dev r p j) _ (sh l)); auto.
  - rewrite ip_lin. fold (X r l). rewrite Ho by exact Hl. ring.
  - intros j _. apply res_dev; assumption.
Qed.
Lemma mf_pyth r p : spikes_below n lim r -> spikes_below n lim p -> orthogonal r ->
  pu * (mf p - mf r) = ip n (dev r p) (dev r p).
Proof.
  intros Hr Hp Ho. rewrite !mf_ip.
  assert (E : ip n (res_of p) (res_of p) = ip n (res_of r) (res_of r) + ip n (dev r p) (dev r p)).
  { rewrite (ip_ext n (res_of p) (fun j => 1 * res_of r j + 1 * dev r p j) (res_of p) (fun j => 1 * res_of r j + 1 * dev r p j))
      by (intros; apply res_dev; assumption).
    rewrite ip_lin, !(ip_comm n _ (fun j => 1 * res_of r j + 1 * dev r p j)), !ip_lin.
    assert (Z : ip n (res_of r) (dev r p) = 0) by (apply ip_comb_0; exact Ho).
    rewrite (ip_comm n (dev r p) (res_of r)), Z. ring. }
  rewrite E. field. lra.
Qed.

Lemma orthogonal_best r : spikes_below n lim r -> orthogonal r -> best_fit dt n lim u w r.
Proof.
  intros Hr Ho. split; [exact Hr|]. intros p Hp. pose proof (mf_pyth r p Hr Hp Ho) as E.
  pose proof (ip_nonneg n (dev r p)) as P. rewrite <- E in P. fold mf. apply Rmult_le_reg_l with pu; [exact Hpu|]. lra.
Qed.
Lemma spike_below p p' l b : (l < lim)%nat -> spikes_below n lim p -> spike_added n p p' l b -> spikes_below n lim p'.
Proof.
  intros Hl [L H] (_&L'&E). split; [exact L'|]. intros k Hk. rewrite E, H by exact Hk.
  destruct (Nat.eqb_spec k l); [lia|]. ring.
Qed.
Lemma best_orthogonal r : best_fit dt n lim u w r -> orthogonal r.
Proof.
  intros [Hr Hb] l Hl. destruct (mf_spike r l ltac:(lia) (proj1 Hr)) as (b&p'&S&E).
  pose proof (Hb p' (spike_below r p' l b Hl Hr S)) as G. fold mf in G. rewrite E in G.
  assert (P : 0 < pw * pu) by (apply Rmult_lt_0_compat; assumption).
  assert (Z : X r l * X r l / (pw * pu) <= 0) by lra.
  assert (Z' : X r l * X r l <= 0).
  { apply Rmult_le_reg_r with (/ (pw * pu)); [apply Rinv_0_lt_compat; exact P|]. unfold Rdiv in Z. lra. }
  pose proof (Rle_0_sqr (X r l)) as S0. unfold Rsqr in S0.
  assert (Q : X r l * X r l = 0) by lra. apply Rmult_integral in Q. tauto.
Qed.
Lemma best_exists : exists r, best_fit dt n lim u w r.
Proof.
  destruct (proj_exists n sh lim (rnth u)) as [q Hq].
  set (r := map (fun k => if (k <? lim)%nat then q k / dt else 0) (seq 0 n)).
  assert (V : forall k, (k < n)%nat -> rnth r k = if (k <? lim)%nat then q k / dt else 0).
  { intros k Hk. unfold r. apply (rnth_map_seq (fun k => if (k <? lim)%nat then q k / dt else 0)). exact Hk. }
  assert (Hr : spikes_below n lim r).
  { split; [unfold r; rewrite map_length, seq_length; reflexivity|]. intros k Hk.
    destruct (Nat.lt_ge_cases k n) as [Hkn|Hkn]; [|apply rnth_over'; unfold r; rewrite map_length, seq_length; exact Hkn].
    rewrite V by exact Hkn. destruct (Nat.ltb_spec k lim); [lia|reflexivity]. }
  exists r. apply orthogonal_best; [exact Hr|]. intros l Hl. unfold X. rewrite <- (Hq l Hl). apply ip_ext; auto.
  intros j _. unfold res_of. rewrite cconv_comb by exact Hr. f_equal.
  rewrite <- (Rmult_1_l (comb sh q lim j)). rewrite <- (Rplus_0_r (1 * comb sh q lim j)), <- (Rmult_0_l (comb sh q lim j)), <- comb_lin.
  rewrite <- (Rplus_0_r (dt * comb sh (rnth r) lim j)), <- (Rmult_0_l (comb sh (rnth r) lim j)), <- comb_lin.
  apply comb_ext. intros k Hk. rewrite V by lia. destruct (Nat.ltb_spec k lim); [|lia]. field. exact Hdt.
Qed.

(** ** One greedy step *)
(** [c] is a lower frame bound of the delayed sources. *)
Definition frame (c : R) : Prop := 0 < c /\ forall q,
  c * ip n (comb sh q lim) (comb sh q lim) <= rsum lim (fun l => ip n (comb sh q lim) (sh l) * ip n (comb sh q lim) (sh l)).

Lemma greedy_below p p' : spikes_below n lim p -> greedy_step dt n lim u w p p' -> spikes_below n lim p'.
Proof. intros Hp (l&b&Hl&S&_). exact (spike_below p p' l b Hl Hp S). Qed.

Lemma greedy_drop p p' l : spikes_below n lim p -> greedy_step dt n lim u w p p' -> (l < lim)%nat ->
  X p l * X p l <= pw * pu * (mf p - mf p').
Proof.
  intros Hp (l0&b0&_&_&Hopt) Hl. destruct (mf_spike p l ltac:(lia) (proj1 Hp)) as (b&p''&S&E).
  destruct (Hopt l b p'' Hl S) as [G _]. fold mf in G. rewrite E in G.
  assert (P : 0 < pw * pu) by (apply Rmult_lt_0_compat; assumption).
  apply Rmult_le_reg_r with (/ (pw * pu)); [apply Rinv_0_lt_compat; exact P|].
  replace (pw * pu * (mf p - mf p') * / (pw * pu)) with (mf p - mf p') by (field; split; lra).
  unfold Rdiv in G. lra.
Qed.

Lemma greedy_contract c r p p' : frame c -> best_fit dt n lim u w r -> spikes_below n lim p -> greedy_step dt n lim u w p p' ->
  (0 < lim)%nat -> c / (INR lim * pw) * (mf p - mf r) <= mf p - mf p'.
Proof.
  intros [Hc HF] Hr Hp Hg Hl0. pose proof (best_orthogonal r Hr) as Ho. destruct Hr as [Hr _].
  pose proof (mf_pyth r p Hr Hp Ho) as E. specialize (HF (gap r p)). fold (dev r p) in HF. rewrite <- E in HF.
  assert (B : rsum lim (fun l => ip n (dev r p) (sh l) * ip n (dev r p) (sh l)) <= rsum lim (fun _ => pw * pu * (mf p - mf p'))).
  { apply rsum_le. intros l Hl. rewrite <- X_dev by assumption. apply greedy_drop; assumption. }
  rewrite rsum_const in B. assert (HL : 0 < INR lim) by (apply lt_0_INR; exact Hl0).
  assert (P : 0 < INR lim * pw) by (apply Rmult_lt_0_compat; assumption).
  apply Rmult_le_reg_l with (INR lim * pw * pu); [apply Rmult_lt_0_compat; assumption|].
  replace (INR lim * pw * pu * (c / (INR lim * pw) * (mf p - mf r))) with (c * (pu * (mf p - mf r))) by (field; split; lra).
  lra.
Qed.

Lemma kappa_le_1 c : frame c -> (0 < lim)%nat -> 0 < c / (INR lim * pw) <= 1.
Proof.
  intros [Hc HF] Hl0. assert (HL : 0 < INR lim) by (apply lt_0_INR; exact Hl0).
  assert (P : 0 < INR lim * pw) by (apply Rmult_lt_0_compat; assumption).
  split; [apply Rdiv_lt_0_compat; assumption|].
  specialize (HF (fun l => if (l =? 0)%nat then 1 else 0)). set (d := comb sh _ lim) in HF.
  assert (Ed : forall j, d j = sh 0 j).
  { intro j. unfold d, comb. rewrite (rsum_single lim _ 0%nat Hl0); [rewrite Nat.eqb_refl; ring|].
    intros k _ Hk. destruct (Nat.eqb_spec k 0); [contradiction|]. ring. }
  rewrite (ip_ext n d (sh 0) d (sh 0)), sh_power in HF by auto.
  assert (B : rsum lim (fun l => ip n d (sh l) * ip n d (sh l)) <= rsum lim (fun _ => pw * pw)).
  { apply rsum_le. intros l _. rewrite (ip_ext n d (sh 0) _ (sh l)) by auto.
    pose proof (ip_CS n (sh 0) (sh l)) as CS. rewrite !sh_power in CS. exact CS. }
  rewrite rsum_const in B. apply Rmult_le_reg_r with (INR lim * pw); [exact P|].
  replace (c / (INR lim * pw) * (INR lim * pw)) with c by (field; split; lra).
  apply Rmult_le_reg_r with pw; [exact Hpw|]. lra.
Qed.

Lemma frame_some : exists c, frame c.
Proof. destruct (frame_exists n sh lim) as (c&Hc&H). exists c. split; assumption. Qed.

(** With no weak frequency the smallest power is such a bound. *)
Lemma frame_spectral mu : 0 < mu -> (forall k, (k < n)%nat -> mu <= Cnorm2 (dft n w k)) -> frame mu.
Proof.
  intros Hmu H. split; [exact Hmu|]. intro q.
  set (p := map (fun k => if (k <? lim)%nat then q k else 0) (seq 0 n)).
  assert (V : forall k, (k < n)%nat -> rnth p k = if (k <? lim)%nat then q k else 0).
  { intros k Hk. unfold p. apply (rnth_map_seq (fun k => if (k <? lim)%nat then q k else 0)). exact Hk. }
  assert (Hp : spikes_below n lim p).
  { split; [unfold p; rewrite map_length, seq_length; reflexivity|]. intros k Hk.
    destruct (Nat.lt_ge_cases k n) as [Hkn|Hkn]; [|apply rnth_over'; unfold p; rewrite map_length, seq_length; exact Hkn].
    rewrite V by exact Hkn. destruct (Nat.ltb_spec k lim); [lia|reflexivity]. }
  assert (Ec : forall j, cconv n p w j = comb sh q lim j).
  { intro j. rewrite cconv_comb by exact Hp. apply comb_ext. intros k Hk. rewrite V by lia. destruct (Nat.ltb_spec k lim); [reflexivity|lia]. }
  set (d := comb sh q lim) in *. set (D := ip n d d).
  assert (PB : mu * rsum lim (fun l => q l * q l) <= D).
  { pose proof (cconv_power n p w mu Hn H) as B.
    rewrite (ssq_ext n (cconv n p w) d) in B by auto. change (ssq n d) with D in B.
    assert (ES : ssq n (rnth p) = rsum lim (fun l => q l * q l)).
    { unfold ssq. replace n with (lim + (n - lim))%nat by lia. rewrite rsum_split.
      rewrite (rsum_ext (n - lim) _ (fun _ => 0)); [|intros k _; rewrite (proj2 Hp) by lia; ring].
      rewrite rsum_0, Rplus_0_r. apply rsum_ext. intros k Hk. rewrite V by lia. destruct (Nat.ltb_spec k lim); [reflexivity|lia]. }
    rewrite ES in B. exact B. }
  assert (ED : D = ip lim q (fun l => ip n d (sh l))).
  { unfold D. unfold d at 2. rewrite ip_comb. reflexivity. }
  pose proof (ip_CS lim q (fun l => ip n d (sh l))) as CS. rewrite <- ED in CS.
  set (A := rsum lim (fun l => ip n d (sh l) * ip n d (sh l))). change (ip lim (fun l => ip n d (sh l)) (fun l => ip n d (sh l))) with A in CS.
  change (ip lim q q) with (rsum lim (fun l => q l * q l)) in CS. set (Q := rsum lim (fun l => q l * q l)) in *.
  assert (HD : 0 <= D) by apply ip_nonneg. assert (HA : 0 <= A) by (apply rsum_nonneg; intros; apply Rle_0_sqr).
  destruct (Req_dec D 0) as [Z|Z]; [rewrite Z; lra|]. assert (HD' : 0 < D) by lra.
  apply Rmult_le_reg_r with D; [exact HD'|].
  assert (mu * (D * D) <= mu * (Q * A)) by (apply Rmult_le_compat_l; lra).
  assert (mu * Q * A <= D * A) by (apply Rmult_le_compat_r; assumption). lra.
Qed.

(** ** The whole run *)
Lemma greedy_run_conv c r Ps : frame c -> best_fit dt n lim u w r -> (0 < lim)%nat ->
  forall p, spikes_below n lim p -> greedy_run dt n lim u w p Ps ->
  forall i q, nth_error (p :: Ps) i = Some q ->
    spikes_below n lim q /\ mf r <= mf q <= mf r + (1 - c / (INR lim * pw)) ^ i * (mf p - mf r).
Proof.
  intros HF Hr Hl0. pose proof (kappa_le_1 c HF Hl0) as HK. set (k := c / (INR lim * pw)) in *.
  induction Ps as [|p' Ps IH]; intros p Hp Hg i q Hq.
  - destruct i as [|[|i]]; cbn in Hq; try discriminate. injection Hq as <-. split; [exact Hp|].
    split; [apply Hr; exact Hp|]. cbn. lra.
  - destruct Hg as [Hs Hg]. destruct i as [|i].
    + cbn in Hq. injection Hq as <-. split; [exact Hp|]. split; [apply Hr; exact Hp|]. cbn. lra.
    + cbn in Hq. pose proof (greedy_below p p' Hp Hs) as Hp'. destruct (IH p' Hp' Hg i q Hq) as (H1&H2&H3).
      split; [exact H1|]. split; [exact H2|].
      pose proof (greedy_contract c r p p' HF Hr Hp Hs Hl0) as G. fold k in G.
      eapply Rle_trans; [exact H3|]. apply Rplus_le_compat_l. rewrite <- tech_pow_Rmult.
      replace ((1 - k) * (1 - k) ^ i * (mf p - mf r)) with ((1 - k) ^ i * ((1 - k) * (mf p - mf r))) by ring.
      apply Rmult_le_compat_l; [apply pow_le; lra|]. lra.
Qed.

Lemma run_step_at Ps : forall p, greedy_run dt n lim u w p Ps -> forall i q q',
  nth_error (p :: Ps) i = Some q -> nth_error (p :: Ps) (S i) = Some q' -> greedy_step dt n lim u w q q'.
Proof.
  induction Ps as [|p' Ps IH]; intros p Hg i q q' E1 E2.
  - destruct i as [|[|i]]; cbn in E2; discriminate.
  - destruct Hg as [Hs Hg]. destruct i as [|i].
    + cbn in E1, E2. injection E1 as <-. injection E2 as <-. exact Hs.
    + cbn in E1. exact (IH p' Hg i q q' E1 E2).
Qed.

(** Distance of the receiver functions, through the part of the source before the
    Gaussian filter. *)
Lemma rf_distance r p (g w0 : list R) m0 : best_fit dt n lim u w r -> spikes_below n lim p ->
  (forall j, (j < n)%nat -> rnth w j = cconv n w0 g j) ->
  (forall k, (k < n)%nat -> m0 <= Cnorm2 (dft n w0 k)) ->
  dt * dt * m0 * ssq n (fun j => cconv n p g j - cconv n r g j) <= pu * (mf p - mf r).
Proof.
  intros Hr Hp Hw H0. rewrite (mf_pyth r p (proj1 Hr) Hp (best_orthogonal r Hr)).
  set (q := map (fun k => rnth p k - rnth r k) (seq 0 n)).
  assert (V : forall k, (k < n)%nat -> rnth q k = 1 * rnth p k + (- 1) * rnth r k).
  { intros k Hk. unfold q. rewrite (rnth_map_seq (fun k => rnth p k - rnth r k)) by exact Hk. ring. }
  assert (E1 : ssq n (fun j => cconv n p g j - cconv n r g j) = ssq n (rnth (map (cconv n q g) (seq 0 n)))).
  { apply ssq_ext. intros j Hj. rewrite cconv_list by exact Hj. rewrite (cconv_add_l n p r q g 1 (-1) j V). ring. }
  assert (E2 : ip n (dev r p) (dev r p) = dt * dt * ssq n (cconv n (map (cconv n q g) (seq 0 n)) w0)).
  { rewrite <- ssq_scale. change (ip n (dev r p) (dev r p)) with (ssq n (dev r p)).
    rewrite (ssq_ext n (dev r p) (fun j => (-1) * (dt * cconv n (map (cconv n q g) (seq 0 n)) w0 j))).
    - rewrite ssq_scale. ring.
    - intros j Hj. unfold dev. rewrite (comb_ext sh (gap r p) (fun l => dt * rnth r l + (- dt) * rnth p l)) by (intros; unfold gap; ring).
      rewrite comb_lin, <- !cconv_comb by (exact Hp || exact (proj1 Hr)).
      rewrite cconv_assoc by exact Hn.
      rewrite (cconv_ext n q q (map (cconv n g w0) (seq 0 n)) w j Hn).
      + rewrite (cconv_add_l n p r q w 1 (-1) j V). ring.
      + reflexivity.
      + intros m Hm. rewrite cconv_list, Hw by exact Hm. apply cconv_comm. exact Hn. }
  rewrite E1, E2. rewrite Rmult_assoc. apply Rmult_le_compat_l; [apply Rle_0_sqr|].
  apply cconv_power; assumption.
Qed.
End Greedy.
