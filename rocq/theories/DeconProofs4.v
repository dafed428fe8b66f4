(** * DeconProofs4: the greedy run is unique; consequences (single spikes, scaling). *)

From Coq Require Import Reals Lra.
From Verif Require Import Base Num NumPy HkReal Cplx DFT DFT2 SpecSignal ReverbModel DeconModel DeconProofs DeconProofs2 DeconProofs3.
Local Open Scope R_scope.

Lemma spike_unique n p p' p'' l b : spike_added n p p' l b -> spike_added n p p'' l b -> p' = p''.
Proof.
  intros (_&L1&H1) (_&L2&H2). apply rlist_ext; [congruence|]. intros k _. rewrite H1, H2. reflexivity.
Qed.

Lemma spike_exists n p l b : (l < n)%nat -> length p = n -> exists p', spike_added n p p' l b.
Proof. intros Hl Lp. exists (upd p l (rnth p l + b)). apply (spike_upd n true p p); try assumption; lia. Qed.

Lemma misfit_spike dt n u w p p' l b : (l < n)%nat -> spike_added n p p' l b ->
  misfit dt n u w p'
  = ssq n (fun j => (rnth u j - dt * cconv n p w j) - b * (dt * rnth w (circ n j (Z.of_nat l)))) / ssq n (rnth u).
Proof.
  intros Hl S. unfold misfit. f_equal. apply ssq_ext. intros j Hj. rewrite (cconv_spike n p p' l b w j Hl S). ring.
Qed.

Lemma ssq_mid n f g : ssq n (fun j => (f j + g j) / 2) = (ssq n f + ssq n g) / 2 - ssq n (fun j => f j - g j) / 4.
Proof.
  unfold ssq. induction n as [|n IH]; [cbn; lra|]. cbn [rsum]. rewrite IH. field.
Qed.

Lemma greedy_step_unique dt n lim u w p p' p'' : dt <> 0 -> (lim <= n)%nat ->
  0 < ssq n (rnth u) -> 0 < ssq n (rnth w) ->
  greedy_step dt n lim u w p p' -> greedy_step dt n lim u w p p'' -> p' = p''.
Proof.
  intros Hdt Hlim Hu Hw (l1&b1&Hl1&S1&O1) (l2&b2&Hl2&S2&O2).
  assert (El : l1 = l2).
  { destruct (Nat.lt_trichotomy l1 l2) as [H|[H|H]]; [|exact H|]; exfalso.
    - destruct (O2 l1 b1 p' Hl1 S1) as [_ X]. specialize (X H). destruct (O1 l2 b2 p'' Hl2 S2) as [Y _]. lra.
    - destruct (O1 l2 b2 p'' Hl2 S2) as [_ X]. specialize (X H). destruct (O2 l1 b1 p' Hl1 S1) as [Y _]. lra. }
  subst l2. assert (Hn : (l1 < n)%nat) by lia.
  destruct (spike_exists n p l1 ((b1 + b2) / 2) Hn) as [q Sq]; [destruct S1; assumption|].
  destruct (O1 l1 _ q Hl1 Sq) as [X _]. destruct (O1 l1 b2 p'' Hl1 S2) as [Y _]. destruct (O2 l1 b1 p' Hl1 S1) as [Y' _].
  rewrite (misfit_spike _ _ _ _ _ _ _ _ Hn S1) in X, Y, Y'.
  rewrite (misfit_spike _ _ _ _ _ _ _ _ Hn S2) in Y, Y'. rewrite (misfit_spike _ _ _ _ _ _ _ _ Hn Sq) in X.
  set (r := fun j => rnth u j - dt * cconv n p w j) in *.
  set (y := fun j => dt * rnth w (circ n j (Z.of_nat l1))) in *.
  assert (EY : ssq n (fun j => r j - b1 * y j) = ssq n (fun j => r j - b2 * y j)).
  { apply (Rmult_eq_reg_r (/ ssq n (rnth u))); [|apply Rinv_neq_0_compat; lra]. unfold Rdiv in Y, Y'. fold (r 0%nat) in *. apply Rle_antisym; assumption. }
  assert (EX : ssq n (fun j => r j - b1 * y j) <= ssq n (fun j => r j - (b1 + b2) / 2 * y j)).
  { apply (Rmult_le_reg_r (/ ssq n (rnth u))); [apply Rinv_0_lt_compat; lra|exact X]. }
  assert (EM : ssq n (fun j => r j - (b1 + b2) / 2 * y j) = ssq n (fun j => ((r j - b1 * y j) + (r j - b2 * y j)) / 2)) by (apply ssq_ext; intros; field).
  rewrite EM, ssq_mid, <- EY in EX.
  assert (ED : ssq n (fun j => (r j - b1 * y j) - (r j - b2 * y j)) = (b2 - b1) * (b2 - b1) * (dt * dt) * ssq n (rnth w)).
  { rewrite (ssq_ext n _ (fun j => 0 - ((b1 - b2) * dt) * rnth w (circ n j (Z.of_nat l1)))) by (intros; unfold y; ring).
    rewrite (ssq_sub n (fun _ => 0)). rewrite (rsum_ext n _ (fun _ => 0)) by (intros; ring).
    rewrite rsum_0. rewrite (ssq_circ n (rnth w)) by lia. unfold ssq at 1. rewrite (rsum_ext n _ (fun _ => 0)) by (intros; ring). rewrite rsum_0. ring. }
  rewrite ED in EX.
  assert (Eb : b1 = b2).
  { destruct (Req_EM_T b1 b2) as [E|NE]; [exact E|]. exfalso.
    assert (0 < (b2 - b1) * (b2 - b1)) by (apply Rsqr_pos_lt; lra). assert (0 < dt * dt) by (apply Rsqr_pos_lt; exact Hdt).
    assert (0 < (b2 - b1) * (b2 - b1) * (dt * dt) * ssq n (rnth w)) by (apply Rmult_lt_0_compat; [apply Rmult_lt_0_compat|]; assumption). lra. }
  subst b2. exact (spike_unique _ _ _ _ _ _ S1 S2).
Qed.

(** ** A numerator that a single spike explains *)
Lemma misfit_0 dt n u w p : (forall j, (j < n)%nat -> rnth u j = dt * cconv n p w j) -> misfit dt n u w p = 0.
Proof.
  intro H. unfold misfit. rewrite (ssq_ext n _ (fun _ => 0)) by (intros j Hj; rewrite H by exact Hj; ring).
  unfold ssq at 1. rewrite (rsum_ext n _ (fun _ => 0)) by (intros; ring). rewrite rsum_0. unfold Rdiv. ring.
Qed.
Lemma misfit_0_inv dt n u w p : 0 < ssq n (rnth u) -> misfit dt n u w p = 0 ->
  forall j, (j < n)%nat -> rnth u j = dt * cconv n p w j.
Proof.
  intros Hu H j Hj. unfold misfit in H. apply Rmult_integral in H. destruct H as [H|H]; [|apply Rinv_neq_0_compat in H; [contradiction|lra]].
  pose proof (ssq_zero n _ H j Hj) as Z. cbv beta in Z. lra.
Qed.
Lemma misfit_nonneg dt n u w p : 0 < ssq n (rnth u) -> 0 <= misfit dt n u w p.
Proof. intro H. unfold misfit. apply Rmult_le_pos; [apply ssq_nonneg|left; apply Rinv_0_lt_compat; exact H]. Qed.

Lemma greedy_stays dt n lim u w p : (0 < lim)%nat -> (lim <= n)%nat -> 0 < ssq n (rnth u) -> length p = n ->
  misfit dt n u w p = 0 -> greedy_step dt n lim u w p p.
Proof.
  intros H0 Hl Hu Lp H. exists 0%nat, 0. split; [exact H0|]. split.
  - split; [exact Lp|]. split; [exact Lp|]. intro j. destruct (j =? 0)%nat; ring.
  - intros l' b' p'' _ _. split; [rewrite H; apply misfit_nonneg; exact Hu|lia].
Qed.

Lemma greedy_run_const dt n lim u w p Ps : dt <> 0 -> (0 < lim)%nat -> (lim <= n)%nat ->
  0 < ssq n (rnth u) -> 0 < ssq n (rnth w) -> length p = n -> misfit dt n u w p = 0 ->
  greedy_run dt n lim u w p Ps -> forall q, In q Ps -> q = p.
Proof.
  intros Hdt H0 Hl Hu Hw Lp Hm. induction Ps as [|q Ps IH]; intros H r Hr; [destruct Hr|].
  destruct H as [S R]. assert (E : q = p).
  { apply (greedy_step_unique dt n lim u w p q p Hdt Hl Hu Hw S). apply greedy_stays; assumption. }
  subst q. destruct Hr as [<-|Hr]; [reflexivity|]. exact (IH R r Hr).
Qed.

Lemma last_In {A} (l : list A) d : l <> [] -> In (last l d) l.
Proof.
  induction l as [|x l IH]; intro H; [contradiction|]. destruct l as [|y l]; [left; reflexivity|].
  right. apply IH. discriminate.
Qed.

Lemma last_cons_d {A} (p q : A) Ps : last (q :: Ps) p = last Ps q.
Proof.
  revert p q; induction Ps as [|r Ps IH]; intros p q; [reflexivity|].
  change (last (r :: Ps) p = last (r :: Ps) q). rewrite !IH. reflexivity.
Qed.

(** A spike train with one spike. *)
Definition spike (n l : nat) (b : R) : list R := map (fun j => if (j =? l)%nat then b else 0) (seq 0 n).
Lemma spike_length n l b : length (spike n l b) = n.
Proof. unfold spike. rewrite map_length, seq_length. reflexivity. Qed.
Lemma spike_nth n l b j : (l < n)%nat -> rnth (spike n l b) j = if (j =? l)%nat then b else 0.
Proof.
  intro Hl. destruct (Nat.lt_ge_cases j n) as [H|H].
  - unfold spike. rewrite rnth_map_seq by exact H. reflexivity.
  - rewrite rnth_over' by (rewrite spike_length; exact H). destruct (Nat.eqb_spec j l); [lia|reflexivity].
Qed.
Lemma spike_is_added n l b : (l < n)%nat -> spike_added n (repeat 0 n) (spike n l b) l b.
Proof.
  intro Hl. split; [apply repeat_length|]. split; [apply spike_length|]. intro j. rewrite rnth_repeat0, spike_nth by exact Hl. ring.
Qed.
Lemma cconv_spike1 n l b w j : (l < n)%nat -> cconv n (spike n l b) w j = b * rnth w (circ n j (Z.of_nat l)).
Proof. intro Hl. rewrite (cconv_spike n _ _ l b w j Hl (spike_is_added n l b Hl)), cconv_zero. ring. Qed.

(** If [u] is exactly one delayed, scaled copy of [w], and no smaller delay explains it,
    the greedy run consists of that spike. *)
Lemma greedy_single dt n lim u w l b Ps : dt <> 0 -> (l < lim)%nat -> (lim <= n)%nat ->
  0 < ssq n (rnth u) -> 0 < ssq n (rnth w) ->
  (forall j, (j < n)%nat -> rnth u j = dt * (b * rnth w (circ n j (Z.of_nat l)))) ->
  (forall l' b', (l' < l)%nat -> ~ (forall j, (j < n)%nat -> rnth u j = dt * (b' * rnth w (circ n j (Z.of_nat l'))))) ->
  greedy_run dt n lim u w (repeat 0 n) Ps -> forall q, In q Ps -> q = spike n l b.
Proof.
  intros Hdt Hl Hlim Hu Hw Hx Hsm R r Hr. destruct Ps as [|q Ps]; [destruct Hr|]. destruct R as [S R].
  assert (Hln : (l < n)%nat) by lia.
  assert (M0 : misfit dt n u w (spike n l b) = 0).
  { apply misfit_0. intros j Hj. rewrite cconv_spike1 by exact Hln. apply Hx. exact Hj. }
  assert (S0 : greedy_step dt n lim u w (repeat 0 n) (spike n l b)).
  { exists l, b. split; [exact Hl|]. split; [apply spike_is_added; exact Hln|].
    intros l' b' p'' Hl' S'. rewrite M0. split; [apply misfit_nonneg; exact Hu|]. intro Hlt.
    destruct (Req_EM_T (misfit dt n u w p'') 0) as [E|NE].
    - exfalso. apply (Hsm l' b' Hlt). intros j Hj. rewrite (misfit_0_inv dt n u w p'' Hu E j Hj).
      rewrite (cconv_spike n _ p'' l' b' w j) by (try lia; exact S'). rewrite cconv_zero. ring.
    - pose proof (misfit_nonneg dt n u w p'' Hu). lra. }
  assert (E : q = spike n l b) by exact (greedy_step_unique dt n lim u w _ _ _ Hdt Hlim Hu Hw S S0). subst q.
  destruct Hr as [<-|Hr]; [reflexivity|]. apply (greedy_run_const dt n lim u w _ Ps); auto; [lia|apply spike_length].
Qed.

(** ** Filtering is injective and commutes with delays *)
Lemma cconv_scale_l n x h c j : cconv n (map (fun v => c * v) x) h j = c * cconv n x h j.
Proof.
  unfold cconv. rewrite <- rsum_scale. apply rsum_ext. intros m _.
  replace (rnth (map (fun v => c * v) x) m) with (c * rnth x m); [ring|].
  unfold rnth. rewrite <- (Rmult_0_r c) at 2. symmetry. apply (map_nth (fun v => c * v)).
Qed.
Lemma cconv_add_l n x y z h c d j : (forall m, (m < n)%nat -> rnth z m = c * rnth x m + d * rnth y m) ->
  cconv n z h j = c * cconv n x h j + d * cconv n y h j.
Proof.
  intro H. unfold cconv. rewrite <- !rsum_scale, <- rsum_add. apply rsum_ext. intros m Hm. rewrite H by exact Hm. ring.
Qed.
Lemma cconv_delay n x y h L j : (0 < n)%nat -> (forall m, (m < n)%nat -> rnth y m = rnth x (circ n m L)) ->
  cconv n y h j = cconv n x h (circ n j L).
Proof.
  intros Hn H. unfold cconv.
  rewrite <- (rsum_circ n (fun m => rnth x m * rnth h (circ n (circ n j L) (Z.of_nat m))) L Hn).
  apply rsum_ext. intros m Hm. rewrite H by exact Hm. f_equal. f_equal.
  rewrite circ_circ by exact Hn. destruct (circ_q n m L Hn) as [q E].
  apply (circ_cong n _ _ _ _ q); [exact Hn|]. lia.
Qed.

Lemma gfilt_nth dt n a x j : (j < n)%nat -> rnth (gfilt dt n a x) j = cconv n (zpad n x) (gauss_pulse dt n a) j.
Proof. intro H. unfold gfilt. apply cconv_list. exact H. Qed.

(** Two padded signals with the same filtered version are equal. *)
Lemma gfilt_inj dt n a x y : (0 < n)%nat -> dt <> 0 -> (length x <= n)%nat -> (length y <= n)%nat ->
  (forall j, (j < n)%nat -> rnth (gfilt dt n a x) j = rnth (gfilt dt n a y) j) -> forall j, rnth x j = rnth y j.
Proof.
  intros Hn Hdt Lx Ly H.
  set (z := map (fun j => rnth x j - rnth y j) (seq 0 n)).
  assert (Lz : length z = n) by (unfold z; rewrite map_length, seq_length; reflexivity).
  assert (Hz : forall j, rnth z j = rnth x j - rnth y j).
  { intro j. destruct (Nat.lt_ge_cases j n) as [Hj|Hj].
    - unfold z. apply (rnth_map_seq (fun j => rnth x j - rnth y j)). exact Hj.
    - rewrite !rnth_over' by lia. ring. }
  assert (A : all_zero z).
  { assert (D : all_zero z \/ ~ all_zero z).
    { destruct (Req_EM_T (ssq n (rnth z)) 0) as [E|NE].
      - left. intro j. destruct (Nat.lt_ge_cases j n) as [Hj|Hj]; [exact (ssq_zero n _ E j Hj)|apply rnth_over'; lia].
      - right. intro A. apply NE. unfold ssq. rewrite (rsum_ext n _ (fun _ => 0)) by (intros j _; rewrite A; ring). apply rsum_0. }
    destruct D as [D|D]; [exact D|]. exfalso.
    pose proof (gfilt_nonzero dt n a z Hn Hdt ltac:(lia) D) as P.
    rewrite (ssq_ext n _ (fun _ => 0)) in P.
    - unfold ssq in P. rewrite (rsum_ext n _ (fun _ => 0)) in P by (intros; ring). rewrite rsum_0 in P. lra.
    - intros j Hj. rewrite gfilt_nth by exact Hj.
      rewrite (cconv_add_l n (zpad n x) (zpad n y) (zpad n z) (gauss_pulse dt n a) 1 (-1) j).
      + rewrite <- !gfilt_nth by exact Hj. rewrite H by exact Hj. ring.
      + intros m _. rewrite !zpad_nth, Hz. ring. }
  intro j. specialize (A j). rewrite Hz in A. lra.
Qed.

(** ** Scaling *)
Definition rscale (c : R) (l : list R) : list R := map (fun v => c * v) l.
Lemma rscale_nth c l j : rnth (rscale c l) j = c * rnth l j.
Proof. unfold rscale, rnth. rewrite <- (Rmult_0_r c) at 1. apply (map_nth (fun v => c * v)). Qed.
Lemma rscale_length c l : length (rscale c l) = length l.
Proof. apply map_length. Qed.
Lemma rscale_inv c l : c <> 0 -> rscale (/ c) (rscale c l) = l.
Proof.
  intro H. apply rlist_ext; [rewrite !rscale_length; reflexivity|]. intros k _. rewrite !rscale_nth. field. exact H.
Qed.
Lemma rscale_repeat0 c n : rscale c (repeat 0 n) = repeat 0 n.
Proof.
  apply rlist_ext; [rewrite rscale_length; reflexivity|]. intros k _. rewrite rscale_nth, rnth_repeat0. ring.
Qed.

Lemma ssq_scale n c f : ssq n (fun j => c * f j) = c * c * ssq n f.
Proof. unfold ssq. rewrite <- rsum_scale. apply rsum_ext. intros; ring. Qed.

Lemma cconv_rscale2 n x h c d j : (0 < n)%nat -> cconv n (rscale c x) (rscale d h) j = c * d * cconv n x h j.
Proof.
  intro Hn. unfold cconv. rewrite <- rsum_scale. apply rsum_ext. intros m _. rewrite !rscale_nth. ring.
Qed.

Lemma misfit_scale dt n u w p c d : (0 < n)%nat -> c <> 0 -> d <> 0 ->
  misfit dt n (rscale c u) (rscale d w) (rscale (c / d) p) = misfit dt n u w p.
Proof.
  intros Hn Hc Hd. unfold misfit.
  rewrite (ssq_ext n _ (fun j => c * (rnth u j - dt * cconv n p w j))).
  - rewrite (ssq_ext n (rnth (rscale c u)) (fun j => c * rnth u j)) by (intros; apply rscale_nth).
    rewrite !ssq_scale. destruct (Req_EM_T (ssq n (rnth u)) 0) as [E|E].
    + rewrite E, Rmult_0_r. unfold Rdiv. rewrite Rinv_0. ring.
    + field. split; assumption.
  - intros j Hj. rewrite cconv_rscale2, rscale_nth by exact Hn. field. exact Hd.
Qed.

Lemma spike_scale n p p' l b c : spike_added n p p' l b -> spike_added n (rscale c p) (rscale c p') l (c * b).
Proof.
  intros (L1&L2&H). split; [rewrite rscale_length; exact L1|]. split; [rewrite rscale_length; exact L2|].
  intro j. rewrite !rscale_nth, H. destruct (j =? l)%nat; ring.
Qed.

Lemma greedy_step_scale dt n lim u w p p' c d : (0 < n)%nat -> c <> 0 -> d <> 0 ->
  greedy_step dt n lim u w p p' ->
  greedy_step dt n lim (rscale c u) (rscale d w) (rscale (c / d) p) (rscale (c / d) p').
Proof.
  intros Hn Hc Hd (l&b&Hl&S&O). exists l, (c / d * b). split; [exact Hl|]. split; [apply spike_scale; exact S|].
  intros l' b' p'' Hl' S'. assert (Hcd : c / d <> 0) by (apply Rmult_integral_contrapositive; split; [exact Hc|apply Rinv_neq_0_compat; exact Hd]).
  assert (E : p'' = rscale (c / d) (rscale (/ (c / d)) p'')).
  { symmetry. rewrite <- (rscale_inv (/ (c / d)) p'') at 2 by (apply Rinv_neq_0_compat; exact Hcd). rewrite Rinv_inv. reflexivity. }
  apply (spike_scale _ _ _ _ _ (/ (c / d))) in S'. rewrite rscale_inv in S' by exact Hcd.
  rewrite E, !misfit_scale by assumption. exact (O l' _ _ Hl' S').
Qed.
Lemma greedy_run_scale dt n lim u w c d Ps : (0 < n)%nat -> c <> 0 -> d <> 0 -> forall p,
  greedy_run dt n lim u w p Ps ->
  greedy_run dt n lim (rscale c u) (rscale d w) (rscale (c / d) p) (map (rscale (c / d)) Ps).
Proof.
  intros Hn Hc Hd. induction Ps as [|q Ps IH]; intros p H; [exact I|].
  destruct H as [S R]. split; [apply greedy_step_scale; assumption|apply IH; exact R].
Qed.

(** Two greedy runs of the same data: one is a prefix of the other. *)
Lemma greedy_run_unique dt n lim u w Ps : dt <> 0 -> (lim <= n)%nat -> 0 < ssq n (rnth u) -> 0 < ssq n (rnth w) ->
  forall p Qs, greedy_run dt n lim u w p Ps -> greedy_run dt n lim u w p Qs -> (length Ps <= length Qs)%nat ->
  Ps = firstn (length Ps) Qs.
Proof.
  intros Hdt Hl Hu Hw. induction Ps as [|q Ps IH]; intros p Qs H1 H2 HL; [reflexivity|].
  destruct Qs as [|r Qs]; [cbn in HL; lia|]. destruct H1 as [S1 R1]. destruct H2 as [S2 R2].
  assert (E : q = r) by exact (greedy_step_unique dt n lim u w _ _ _ Hdt Hl Hu Hw S1 S2). subst r. cbn [length firstn]. f_equal.
  apply (IH q Qs R1 R2). cbn in HL. lia.
Qed.
