(** * P_Reverb5: are the reported lag and strength those of the sediment reverberation? (C140)

    The docstring of [ResonanceFilt] calls [tlag] "2 way travel time of the sediment reverberation" and [r] its
    strength.  A record reverberates with lag [L] (in samples) and strength [rho] when every sample is the sample
    of the record without reverberation minus [rho] times the record [L] samples earlier (the free surface
    reflects with reversed sign).  The claim is refuted by a pulse that starts one sample after the beginning of
    the record.  Proved instead: how far [r] is from [rho] when the lag is right (only the end of the record
    contributes), what is then left in the filtered record, and that for separated pulses of zero mean the
    reported lag is always shorter than the pulse, whatever the reverberation. *)

From Coq Require Import Reals Lra.
From Verif Require Import Base Num NumPy Spec HkModel HkReal Cplx DFT DFT2 SpecSignal ReverbModel ReverbProofs ReverbProofs2 P_Reverb P_Reverb2 P_Reverb3.
Local Open Scope R_scope.

(** ** Vocabulary *)

Definition reverberates (L : nat) (rho : R) (S data : list R) : Prop :=
  length S = length data /\
  forall j, (j < length data)%nat ->
    rnth data j = rnth S j - (if (L <=? j)%nat then rho * rnth data (j - L) else 0).

(** The last [L] samples of a record. *)
Definition tail (L : nat) (d : list R) (i : nat) : R := rnth d (length d - L + i).

(** ** The autocorrelation at the reverberation lag *)

(** [D] is the record minus the straight line [a + b j].  Apart from the samples of the pulse that lie [L] or
    more samples after other signal, only the last [L] samples keep [acorr D L] from being [- rho * acorr D 0]. *)
Theorem C140_autocorrelation data D S L rho a b :
  ls_residual data D -> (forall j, (j < length data)%nat -> rnth D j = rnth data j - (a + b * INR j)) ->
  reverberates L rho S data -> (L <= length data)%nat ->
  acorr D L = - rho * (acorr D 0 - rsum L (fun i => tail L D i * tail L D i))
              + rsum L (fun i => ((a + b * INR (length data + i)) + rho * (a + b * INR (length data - L + i))) * tail L D i)
              + rsum (length data - L) (fun j => rnth S (j + L) * rnth D j).
Proof.
  intros (LD & _ & S0 & S1) HD (LS & HR) HL. set (n := length data) in *.
  unfold tail. rewrite LD. fold n. unfold acorr. rewrite LD. fold n. rewrite Nat.sub_0_r.
  set (q := fun j => (a + b * INR (j + L)) + rho * (a + b * INR j)).
  assert (Q : rsum n (fun j => q j * rnth D j) = 0).
  { rewrite (rsum_ext n _ (fun j => (a + b * INR L + rho * a) * rnth D j + (b + rho * b) * (INR j * rnth D j))).
    2:{ intros j Hj. unfold q. rewrite plus_INR. ring. }
    rewrite rsum_add, !rsum_scale, S0, S1. ring. }
  assert (Z : n = (n - L + L)%nat) by lia.
  rewrite (rsum_ext n (fun j => rnth D (j + 0) * rnth D j) (fun j => rnth D j * rnth D j)) by (intros; rewrite Nat.add_0_r; reflexivity).
  rewrite Z in Q at 1. rewrite rsum_split in Q.
  assert (E2 : rsum n (fun j => rnth D j * rnth D j) = rsum (n - L) (fun j => rnth D j * rnth D j) + rsum L (fun i => rnth D (n - L + i) * rnth D (n - L + i))).
  { rewrite Z at 1. apply rsum_split. }
  rewrite E2.
  rewrite (rsum_ext (n - L) (fun j => rnth D (j + L) * rnth D j)
    (fun j => (- rho * (rnth D j * rnth D j) + -1 * (q j * rnth D j)) + rnth S (j + L) * rnth D j)).
  2:{ intros j Hj. rewrite (HD (j + L)%nat) by lia. rewrite (HR (j + L)%nat) by lia.
      replace (L <=? j + L)%nat with true by (symmetry; apply Nat.leb_le; lia). replace (j + L - L)%nat with j by lia.
      assert (X : rnth data j = rnth D j + (a + b * INR j)) by (rewrite (HD j) by lia; ring).
      rewrite X. unfold q. ring. }
  rewrite !rsum_add, !rsum_scale.
  assert (E3 : rsum L (fun i => (a + b * INR (n + i) + rho * (a + b * INR (n - L + i))) * rnth D (n - L + i))
             = rsum L (fun i => q (n - L + i)%nat * rnth D (n - L + i))).
  { apply rsum_ext. intros i Hi. unfold q. replace (n - L + i + L)%nat with (n + i)%nat by lia. reflexivity. }
  rewrite E3. lra.
Qed.

(** The same line for every use: the one the program subtracts. *)
Lemma residual_line data D : ls_residual data D -> exists a b,
  (forall j, (j < length data)%nat -> rnth D j = rnth data j - (a + b * INR j)).
Proof. intros (_ & H & _). exact H. Qed.

(** If the reported lag is the reverberation lag, the reported strength is the autocorrelation there. *)
Lemma strength_at data delta time o L D : run_of data delta time o -> ~ straight data -> fl_tlag o = INR L * delta -> ls_residual data D ->
  (1 <= L <= length data - 2)%nat /\ 0 < acorr D 0 /\ fl_r o = Rabs (acorr D L) / acorr D 0.
Proof.
  intros H NS Et HD. destruct (C87_resonance_found data delta time o H NS) as (ac & a & b & Ea & _ & _ & HL & Et' & Er).
  destruct (run_of_core data delta time o H) as (Hd & _ & _).
  assert (EL : L = ((a + b) / 2)%nat).
  { apply INR_eq. apply (Rmult_eq_reg_r delta); [|exact Hd]. rewrite <- Et, <- Et'. reflexivity. }
  cbn zeta in *. rewrite <- EL in *. split; [exact HL|].
  destruct (C26_first_trough data delta time o H) as (D' & HD' & Hm). rewrite Ea in Hm.
  rewrite (ls_residual_unique data D' D HD' HD) in Hm. destruct Hm as ((_ & Hac) & Hnz & _).
  assert (P : 0 < acorr D 0).
  { destruct (Rle_lt_or_eq_dec 0 (acorr D 0)) as [P|P]; [|exact P|].
    - rewrite <- energy_acorr. apply rsum_nonneg. intros. apply Rle_0_sqr.
    - exfalso. apply Hnz. apply energy_zero. rewrite energy_acorr. symmetry. exact P. }
  split; [exact P|]. rewrite Er, Hac by lia. unfold Rdiv. rewrite Rabs_mult. f_equal.
  apply Rabs_right. left. apply Rinv_0_lt_compat. exact P.
Qed.

(** ** C140: the strength *)
Theorem C140_strength data delta time o S L rho :
  run_of data delta time o -> ~ straight data -> reverberates L rho S data -> 0 <= rho -> fl_tlag o = INR L * delta ->
  exists D a b, ls_residual data D /\ (forall j, (j < length data)%nat -> rnth D j = rnth data j - (a + b * INR j)) /\
    0 < acorr D 0 /\
    Rabs (fl_r o - rho) * acorr D 0 <=
      rho * rsum L (fun i => tail L D i * tail L D i)
      + Rabs (rsum L (fun i => ((a + b * INR (length data + i)) + rho * (a + b * INR (length data - L + i))) * tail L D i))
      + Rabs (rsum (length data - L) (fun j => rnth S (j + L) * rnth D j)).
Proof.
  intros H NS HR Hr Et. pose proof (detrend_ls data) as HD. set (D := detrend data) in *.
  destruct (residual_line data D HD) as (a & b & Hab). exists D, a, b.
  split; [exact HD|]. split; [exact Hab|].
  destruct (strength_at data delta time o L D H NS Et HD) as (HL & P & Er). split; [exact P|].
  pose proof (C140_autocorrelation data D S L rho a b HD Hab HR ltac:(lia)) as A.
  set (T := rsum L (fun i => tail L D i * tail L D i)) in *.
  set (X := rsum L (fun i => ((a + b * INR (length data + i)) + rho * (a + b * INR (length data - L + i))) * tail L D i)) in *.
  set (B := rsum (length data - L) (fun j => rnth S (j + L) * rnth D j)) in *.
  assert (T0 : 0 <= T) by (apply rsum_nonneg; intros; apply Rle_0_sqr).
  assert (RT : 0 <= rho * T) by (apply Rmult_le_pos; assumption).
  match goal with |- _ <= ?g => set (G0 := g) end.
  rewrite <- (Rabs_right (acorr D 0)) by lra. rewrite <- Rabs_mult.
  replace ((fl_r o - rho) * acorr D 0) with (Rabs (acorr D L) - rho * acorr D 0).
  2:{ rewrite Er. field. lra. }
  assert (RE : 0 <= rho * acorr D 0) by (apply Rmult_le_pos; lra).
  pose proof (Rabs_triang_inv (acorr D L) (- rho * acorr D 0)) as T1.
  pose proof (Rabs_triang_inv (- rho * acorr D 0) (acorr D L)) as T2.
  assert (EA : Rabs (- rho * acorr D 0) = rho * acorr D 0).
  { replace (- rho * acorr D 0) with (- (rho * acorr D 0)) by ring. rewrite Rabs_Ropp. apply Rabs_right. lra. }
  rewrite EA in T1, T2. rewrite (Rabs_minus_sym (- rho * acorr D 0)) in T2.
  assert (G : Rabs (acorr D L - - rho * acorr D 0) <= rho * T + Rabs X + Rabs B).
  { replace (acorr D L - - rho * acorr D 0) with (rho * T + X + B) by (rewrite A; ring).
    eapply Rle_trans; [apply Rabs_triang|]. apply Rplus_le_compat_r.
    eapply Rle_trans; [apply Rabs_triang|]. rewrite (Rabs_right (rho * T)) by lra. lra. }
  unfold G0. apply Rabs_le. lra.
Qed.

(** ** C140: what is left of the reverberation in the filtered record *)
Theorem C140_removed data delta time o S L rho :
  run_of data delta time o -> ~ straight data -> reverberates L rho S data -> fl_tlag o = INR L * delta ->
  exists D a b, ls_residual data D /\ (forall j, (j < length data)%nat -> rnth D j = rnth data j - (a + b * INR j)) /\
  forall j, (j < length data)%nat ->
    rnth (fl_filtered o) j =
      if (L <=? j)%nat
      then rnth S j + (fl_r o - rho) * rnth data (j - L) - ((a + b * INR j) + fl_r o * (a + b * INR (j - L)))
      else rnth S j - (a + b * INR j) + fl_r o * tail L D j.
Proof.
  intros H NS HR Et. destruct (C24_two_tap data delta time o H) as (D & L' & HD & Et' & Lf & Hf).
  destruct (run_of_core data delta time o H) as (Hd & _ & _).
  assert (EL : L' = L).
  { apply INR_eq. apply (Rmult_eq_reg_r delta); [|exact Hd]. rewrite <- Et, <- Et'. reflexivity. }
  subst L'. destruct (strength_at data delta time o L D H NS Et HD) as (HL & _).
  destruct (residual_line data D HD) as (a & b & Hab). exists D, a, b. split; [exact HD|]. split; [exact Hab|].
  assert (LD : length D = length data) by apply HD. destruct HR as (_ & HR).
  intros j Hj. specialize (Hf j Hj). apply (nth_error_nth _ _ 0) in Hf. unfold rnth at 1. rewrite Hf.
  destruct (Nat.leb_spec L j) as [Lj|Lj].
  - replace (circ (length data) j (Z.of_nat L)) with (j - L)%nat.
    2:{ apply (proj1 (circ_unique (length data) j (Z.of_nat L) (j - L) ltac:(lia) ltac:(lia))).
        replace (Z.of_nat j - Z.of_nat (j - L) - Z.of_nat L)%Z with 0%Z by lia. apply Z.mod_0_l. lia. }
    rewrite (Hab j Hj), (Hab (j - L)%nat) by lia. rewrite (HR j Hj).
    replace (L <=? j)%nat with true by (symmetry; apply Nat.leb_le; lia). ring.
  - replace (circ (length data) j (Z.of_nat L)) with (length data - L + j)%nat.
    2:{ apply (proj1 (circ_unique (length data) j (Z.of_nat L) (length data - L + j) ltac:(lia) ltac:(lia))).
        replace (Z.of_nat j - Z.of_nat (length data - L + j) - Z.of_nat L)%Z with (- 1 * Z.of_nat (length data))%Z by lia. apply Z.mod_mul. lia. }
    unfold tail. rewrite LD. rewrite (Hab j Hj). rewrite (HR j Hj).
    replace (L <=? j)%nat with false by (symmetry; apply Nat.leb_gt; lia). ring.
Qed.

(** ** C140: an explicit bound for pulses that end before the first reverberation *)

Lemma rsum_abs n f : Rabs (rsum n f) <= rsum n (fun j => Rabs (f j)).
Proof.
  induction n as [|n IH]; simpl rsum; [rewrite Rabs_R0; lra|]. eapply Rle_trans; [apply Rabs_triang|]. lra.
Qed.
Lemma rsum_INR2 n : rsum n (fun j => INR j * INR j) = INR n * (INR n - 1) * (2 * INR n - 1) / 6.
Proof. induction n as [|n IH]; simpl rsum; [simpl; field|]. rewrite IH, S_INR. field. Qed.
Lemma centred_sq n : rsum n (fun j => (INR j - centre n) * (INR j - centre n)) = INR n * (INR n * INR n - 1) / 12.
Proof.
  rewrite (rsum_ext n _ (fun j => INR j * INR j + ((- 2 * centre n) * INR j + centre n * centre n))) by (intros; ring).
  rewrite rsum_add, rsum_INR2, rsum_add, rsum_scale, rsum_INR, rsum_const. unfold centre. field.
Qed.

(** The subtracted line, extended by half a record, is at most seven times the mean absolute amplitude. *)
Lemma line_bound data D a b j : ls_residual data D -> (2 <= length data)%nat ->
  (forall j, (j < length data)%nat -> rnth D j = rnth data j - (a + b * INR j)) ->
  2 * INR j <= 3 * INR (length data) ->
  Rabs (a + b * INR j) <= 7 * rsum (length data) (fun i => Rabs (rnth data i)) / INR (length data).
Proof.
  intros HD Hn Hab Hj. set (n := length data) in *. set (M := rsum n (fun i => Rabs (rnth data i))).
  assert (HN : 2 <= INR n) by (change 2 with (INR 2); apply le_INR; exact Hn).
  rewrite (ls_residual_unique data D (detrend data) HD (detrend_ls data)) in Hab.
  pose proof (Hab 0%nat ltac:(lia)) as E0. pose proof (Hab 1%nat ltac:(lia)) as E1.
  rewrite detrend_nth in E0, E1 by lia. fold n in E0, E1. simpl INR in E0, E1.
  assert (Eb : b = slope data) by lra. assert (Ea : a = rmean data - slope data * centre n) by lra.
  replace (a + b * INR j) with (rmean data + slope data * (INR j - centre n)) by (rewrite Ea, Eb; ring).
  assert (M0 : 0 <= M) by (apply rsum_nonneg; intros; apply Rabs_pos).
  assert (Hi : 0 < / INR n) by (apply Rinv_0_lt_compat; lra).
  assert (B1 : Rabs (rmean data) <= M / INR n).
  { unfold rmean. fold n. unfold Rdiv. rewrite Rabs_mult, (Rabs_right (/ INR n)) by lra.
    apply Rmult_le_compat_r; [lra|]. apply rsum_abs. }
  assert (PQ : 0 < INR n * (INR n * INR n - 1) / 12).
  { unfold Rdiv. apply Rmult_lt_0_compat; [|lra]. apply Rmult_lt_0_compat; [lra|]. nra. }
  assert (B2 : Rabs (slope data) <= 6 * M / (INR n * (INR n + 1))).
  { replace (6 * M / (INR n * (INR n + 1))) with (((INR n - 1) / 2 * M) * / (INR n * (INR n * INR n - 1) / 12)).
    2:{ field. repeat split; nra. }
    unfold slope. fold n. rewrite centred_sq. unfold Rdiv at 1. rewrite Rabs_mult.
    rewrite (Rabs_right (/ _)) by (left; apply Rinv_0_lt_compat; exact PQ).
    apply Rmult_le_compat_r; [left; apply Rinv_0_lt_compat; exact PQ|].
    eapply Rle_trans; [apply rsum_abs|]. unfold M. rewrite <- rsum_scale. apply rsum_le. intros i Hi'.
    rewrite Rabs_mult. apply Rmult_le_compat_r; [apply Rabs_pos|].
    assert (INR i <= INR n - 1) by (pose proof (le_INR (S i) n Hi') as X; rewrite S_INR in X; lra).
    pose proof (pos_INR i). unfold centre. apply Rabs_le. lra. }
  assert (B3 : Rabs (INR j - centre n) <= INR n + 1).
  { pose proof (pos_INR j). unfold centre. apply Rabs_le. lra. }
  eapply Rle_trans; [apply Rabs_triang|]. rewrite Rabs_mult.
  assert (B4 : Rabs (slope data) * Rabs (INR j - centre n) <= 6 * M / (INR n * (INR n + 1)) * (INR n + 1)).
  { apply Rmult_le_compat; try apply Rabs_pos; assumption. }
  replace (6 * M / (INR n * (INR n + 1)) * (INR n + 1)) with (6 * (M / INR n)) in B4 by (field; lra).
  replace (7 * M / INR n) with (M / INR n + 6 * (M / INR n)) by (field; lra). lra.
Qed.

(** The amplitude of the [q]-th reverberation of a pulse shorter than the lag. *)
Lemma train_decay L rho S data P : (1 <= L)%nat -> 0 <= rho -> reverberates L rho S data ->
  (forall j, (j < L)%nat -> Rabs (rnth S j) <= P) -> (forall j, (L <= j < length data)%nat -> rnth S j = 0) ->
  forall q i, (i < L)%nat -> (q * L + i < length data)%nat -> Rabs (rnth data (q * L + i)) <= P * rho ^ q.
Proof.
  intros HL Hr (_ & HR) HP HS q. induction q as [|q IH]; intros i Hi Hn.
  - rewrite HR by exact Hn. simpl Nat.mul in *. rewrite Nat.add_0_l in *.
    replace (L <=? i)%nat with false by (symmetry; apply Nat.leb_gt; lia). simpl pow. rewrite Rminus_0_r, Rmult_1_r. apply HP. lia.
  - rewrite HR by exact Hn. cbn [Nat.mul] in Hn |- *. replace (L <=? L + q * L + i)%nat with true by (symmetry; apply Nat.leb_le; lia).
    rewrite HS by lia. replace (L + q * L + i - L)%nat with (q * L + i)%nat by lia.
    rewrite Rminus_0_l, Rabs_Ropp, Rabs_mult, (Rabs_right rho) by lra. cbn [pow].
    pose proof (IH i Hi ltac:(lia)) as X. replace (P * (rho * rho ^ q)) with (rho * (P * rho ^ q)) by ring.
    apply Rmult_le_compat_l; assumption.
Qed.

(** A pulse of amplitude at most [P], over before its first reverberation, in a record of [m + 1] lags or
    more: if the reported lag is the reverberation lag, the reported strength is that of the reverberation up
    to the amplitude at the end of the record and the trend that the program removed. *)
Theorem C140_strength_bound data delta time o S L rho P m :
  run_of data delta time o -> ~ straight data -> reverberates L rho S data -> 0 <= rho <= 1 -> fl_tlag o = INR L * delta ->
  (forall j, (j < L)%nat -> Rabs (rnth S j) <= P) -> (forall j, (L <= j < length data)%nat -> rnth S j = 0) ->
  ((m + 1) * L <= length data)%nat -> (1 <= m)%nat ->
  exists D, ls_residual data D /\ 0 < acorr D 0 /\
    Rabs (fl_r o - rho) * acorr D 0 <=
      3 * INR L * (P * rho ^ m + 7 * rsum (length data) (fun i => Rabs (rnth data i)) / INR (length data)) ^ 2.
Proof.
  intros H NS HR (Hr0 & Hr1) Et HP HS Hm Hm1.
  destruct (C140_strength data delta time o S L rho H NS HR Hr0 Et) as (D & a & b & HD & Hab & P0 & G).
  destruct (strength_at data delta time o L D H NS Et HD) as (HL & _).
  exists D. split; [exact HD|]. split; [exact P0|]. eapply Rle_trans; [exact G|]. clear G.
  set (n := length data) in *. set (q := 7 * rsum n (fun i => Rabs (rnth data i)) / INR n).
  assert (H2L : (2 * L <= n)%nat) by nia.
  assert (HN : 2 * INR L <= INR n) by (pose proof (le_INR _ _ H2L) as X; rewrite mult_INR in X; simpl INR in X; lra).
  assert (PP : 0 <= P) by (eapply Rle_trans; [apply Rabs_pos|apply (HP 0%nat); lia]).
  set (t := P * rho ^ m). assert (T0 : 0 <= t) by (apply Rmult_le_pos; [exact PP|apply pow_le; exact Hr0]).
  assert (LB : forall j, (j < n + L)%nat -> Rabs (a + b * INR j) <= q).
  { intros j Hj. apply (line_bound data D a b j HD); [fold n; lia|exact Hab|]. fold n.
    pose proof (lt_INR _ _ Hj) as X. rewrite plus_INR in X. lra. }
  assert (Q0 : 0 <= q) by (eapply Rle_trans; [apply Rabs_pos|apply (LB 0%nat); lia]).
  assert (LD : length D = n) by apply HD.
  assert (TB : forall i, (i < L)%nat -> Rabs (tail L D i) <= t + q).
  { intros i Hi. unfold tail. rewrite LD. rewrite Hab by lia. set (j := (n - L + i)%nat).
    assert (Hj : (m * L <= j < n)%nat) by (unfold j; nia).
    assert (DB : Rabs (rnth data j) <= t).
    { pose proof (Nat.div_mod_eq j L) as DM. pose proof (Nat.mod_upper_bound j L ltac:(lia)) as MB.
      pose proof (train_decay L rho S data P ltac:(lia) Hr0 HR HP HS (j / L) (j mod L) MB) as X.
      replace (j / L * L + j mod L)%nat with j in X by lia. specialize (X (proj2 Hj)).
      eapply Rle_trans; [exact X|]. unfold t. apply Rmult_le_compat_l; [exact PP|].
      assert (m <= j / L)%nat by (apply Nat.div_le_lower_bound; lia).
      replace (j / L)%nat with (m + (j / L - m))%nat by lia. rewrite pow_add.
      rewrite <- (Rmult_1_r (rho ^ m)) at 2. apply Rmult_le_compat_l; [apply pow_le; exact Hr0|].
      rewrite <- (pow1 (j / L - m)). apply pow_incr. lra. }
    unfold Rminus. eapply Rle_trans; [apply Rabs_triang|]. rewrite Rabs_Ropp.
    apply Rplus_le_compat; [exact DB|apply LB; lia]. }
  assert (B1 : rho * rsum L (fun i => tail L D i * tail L D i) <= INR L * (t + q) ^ 2).
  { assert (X : rsum L (fun i => tail L D i * tail L D i) <= INR L * (t + q) ^ 2).
    { rewrite <- rsum_const. apply rsum_le. intros i Hi. pose proof (TB i Hi) as Y.
      rewrite <- (Rabs_right (tail L D i * tail L D i)) by (apply Rle_ge, Rle_0_sqr). rewrite Rabs_mult. simpl pow. rewrite Rmult_1_r.
      apply Rmult_le_compat; try apply Rabs_pos; exact Y. }
    assert (0 <= rsum L (fun i => tail L D i * tail L D i)) by (apply rsum_nonneg; intros; apply Rle_0_sqr).
    pose proof (Rmult_le_compat_r _ _ _ H0 Hr1). lra. }
  assert (B2 : Rabs (rsum L (fun i => ((a + b * INR (n + i)) + rho * (a + b * INR (n - L + i))) * tail L D i)) <= INR L * (2 * (t + q) ^ 2)).
  { eapply Rle_trans; [apply rsum_abs|]. rewrite <- rsum_const. apply rsum_le. intros i Hi. rewrite Rabs_mult.
    assert (X : Rabs ((a + b * INR (n + i)) + rho * (a + b * INR (n - L + i))) <= 2 * (t + q)).
    { eapply Rle_trans; [apply Rabs_triang|]. rewrite Rabs_mult, (Rabs_right rho) by lra.
      pose proof (LB (n + i)%nat ltac:(lia)) as X1. pose proof (LB (n - L + i)%nat ltac:(lia)) as X2.
      pose proof (Rmult_le_compat_r _ _ _ (Rabs_pos (a + b * INR (n - L + i))) Hr1). lra. }
    replace (2 * (t + q) ^ 2) with ((2 * (t + q)) * (t + q)) by ring.
    apply Rmult_le_compat; try apply Rabs_pos; [exact X|apply TB; exact Hi]. }
  assert (B3 : rsum (n - L) (fun j => rnth S (j + L) * rnth D j) = 0).
  { rewrite (rsum_ext _ _ (fun _ => 0)); [apply rsum_0|]. intros j Hj. rewrite HS by lia. ring. }
  rewrite B3, Rabs_R0. lra.
Qed.
