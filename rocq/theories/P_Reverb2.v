(** * P_Reverb2: the resonance filter can be undone (C79), and a concrete run. *)

From Coq Require Import Reals Lra Psatz.
From Verif Require Import Base Num NumPy Spec HkModel HkReal Cplx DFT SpecSignal ReverbModel ReverbProofs ReverbProofs2 P_Reverb.
Local Open Scope R_scope.

(** ** The autocorrelation of a finite signal is strictly largest at lag 0 *)

Lemma acorr_sq D k s : (k <= length D)%nat -> s * s = 1 ->
  2 * acorr D 0 + 2 * s * acorr D k =
  rsum (length D - k) (fun j => (rnth D (j + k) + s * rnth D j) * (rnth D (j + k) + s * rnth D j)) +
  rsum k (fun j => rnth D j * rnth D j) +
  rsum k (fun j => rnth D (length D - k + j) * rnth D (length D - k + j)).
Proof.
  intros Hk Hs. unfold acorr. rewrite Nat.sub_0_r. set (n := length D) in *.
  assert (E1 : rsum n (fun j => rnth D (j + 0) * rnth D j) =
     rsum (n - k) (fun j => rnth D j * rnth D j) + rsum k (fun j => rnth D (n - k + j) * rnth D (n - k + j))).
  { replace n with ((n - k) + k)%nat at 1 by lia. rewrite rsum_split. f_equal; apply rsum_ext; intros j _; rewrite Nat.add_0_r; reflexivity. }
  assert (E2 : rsum n (fun j => rnth D (j + 0) * rnth D j) =
     rsum k (fun j => rnth D j * rnth D j) + rsum (n - k) (fun j => rnth D (j + k) * rnth D (j + k))).
  { replace n with (k + (n - k))%nat at 1 by lia. rewrite rsum_split. f_equal; apply rsum_ext; intros j _;
      rewrite Nat.add_0_r; [reflexivity|]. replace (k + j)%nat with (j + k)%nat by lia. reflexivity. }
  replace (2 * rsum n (fun j => rnth D (j + 0) * rnth D j)) with
    (rsum n (fun j => rnth D (j + 0) * rnth D j) + rsum n (fun j => rnth D (j + 0) * rnth D j)) by ring.
  rewrite E1 at 1. rewrite E2 at 1.
  rewrite (rsum_ext (n - k) (fun j => (rnth D (j + k) + s * rnth D j) * (rnth D (j + k) + s * rnth D j))
     (fun j => (rnth D (j + k) * rnth D (j + k) + rnth D j * rnth D j) + (2 * s) * (rnth D (j + k) * rnth D j))).
  - rewrite !rsum_add, rsum_scale. ring.
  - intros j _. transitivity (rnth D (j + k) * rnth D (j + k) + (s * s) * (rnth D j * rnth D j) + 2 * s * (rnth D (j + k) * rnth D j)); [ring|].
    rewrite Hs. ring.
Qed.

Lemma acorr_strict D k : ~ all_zero D -> (1 <= k <= length D)%nat -> Rabs (acorr D k) < acorr D 0.
Proof.
  intros Hz Hk.
  assert (G : forall s, s * s = 1 -> 0 < acorr D 0 + s * acorr D k).
  { intros s Hs. pose proof (acorr_sq D k s ltac:(lia) Hs) as E.
    set (n := length D) in *.
    assert (P1 := rsum_nonneg (n - k) (fun j => (rnth D (j + k) + s * rnth D j) * (rnth D (j + k) + s * rnth D j)) ltac:(intros; apply Rle_0_sqr)).
    assert (P2 := rsum_nonneg k (fun j => rnth D j * rnth D j) ltac:(intros; apply Rle_0_sqr)).
    assert (P3 := rsum_nonneg k (fun j => rnth D (n - k + j) * rnth D (n - k + j)) ltac:(intros; apply Rle_0_sqr)).
    destruct (Rlt_dec 0 (acorr D 0 + s * acorr D k)) as [?|Hn]; [assumption|exfalso].
    assert (Z1 : rsum (n - k) (fun j => (rnth D (j + k) + s * rnth D j) * (rnth D (j + k) + s * rnth D j)) = 0) by lra.
    assert (Z2 : rsum k (fun j => rnth D j * rnth D j) = 0) by lra.
    assert (Q1 : forall j, (j < n - k)%nat -> rnth D (j + k) = - s * rnth D j).
    { intros j Hj. pose proof (rsum_zero_all (n - k) _ (fun j _ => Rle_0_sqr (rnth D (j + k) + s * rnth D j)) Z1 j Hj) as Z.
      apply Rmult_integral in Z. lra. }
    assert (Q2 : forall j, (j < k)%nat -> rnth D j = 0).
    { intros j Hj. pose proof (rsum_zero_all k _ (fun j _ => Rle_0_sqr (rnth D j)) Z2 j Hj) as Z.
      apply Rmult_integral in Z. lra. }
    apply Hz. intro j. induction j as [j IH] using (well_founded_induction Wf_nat.lt_wf).
    destruct (Nat.lt_ge_cases j k) as [Hj|Hj]; [apply Q2; exact Hj|].
    destruct (Nat.lt_ge_cases j n) as [Hj'|Hj']; [|apply rnth_over; exact Hj'].
    replace j with ((j - k) + k)%nat by lia. rewrite Q1 by lia. rewrite IH by lia. ring. }
  pose proof (G 1 ltac:(ring)). pose proof (G (-1) ltac:(ring)). apply Rabs_def1; lra.
Qed.

(** ** C79 *)

(** The reverberation strength is always below one. *)
Theorem C79_r_below_one data delta time o : run_of data delta time o -> 0 <= fl_r o < 1.
Proof.
  intro H. pose proof (C26_first_trough data delta time o H) as (D & HD & Hm).
  pose proof (C25_no_trough data delta time o H) as H25.
  destruct (fl_autoc o) as [ac|] eqn:Eac; [|destruct (H25 I) as (-> & _); lra].
  destruct Hm as ((Lac & Hac) & Hnz & _ & _ & Ht).
  destruct (Classical_Prop.classic (exists a b, trough ac a b)) as [T|T].
  - destruct (Ht T) as (a & b & _ & _ & HL & _ & Hr & Hr0 & _).
    split; [exact Hr0|]. rewrite Hr. rewrite Hac by lia.
    assert (LD : length D = length data) by (destruct HD; assumption).
    pose proof (acorr_strict D ((a + b) / 2) Hnz ltac:(lia)) as B.
    assert (P : 0 < acorr D 0) by (pose proof (Rabs_pos (acorr D ((a + b) / 2))); lra).
    unfold Rdiv. rewrite Rabs_mult, (Rabs_right (/ acorr D 0)) by (left; apply Rinv_0_lt_compat; exact P).
    apply (Rmult_lt_reg_r (acorr D 0)); [exact P|]. rewrite Rmult_assoc, Rinv_l by lra. lra.
  - destruct H25 as (-> & _); [|lra]. intros a b C. apply T. eauto.
Qed.

(** No frequency is nulled: the filter's gain lies between 1-r > 0 and 1+r. *)
Theorem C79_gain_bounds data delta time o k z : run_of data delta time o -> nth_error (fl_res o) k = Some z ->
  (1 - fl_r o) * (1 - fl_r o) <= Re z * Re z + Im z * Im z <= (1 + fl_r o) * (1 + fl_r o).
Proof.
  intros H Ez. destruct (C79_r_below_one data delta time o H) as [R0 R1].
  destruct (C23_response data delta time o H) as (L & _ & Ll & Hk).
  assert (Hlt : (k < length data)%nat) by (rewrite <- Ll; apply nth_error_Some; congruence).
  rewrite (Hk k Hlt) in Ez. injection Ez as <-.
  unfold W. set (t := 2 * PI * IZR (- (Z.of_nat L * Z.of_nat k)) / INR (length data)).
  simpl. pose proof (sin2_cos2 t) as S. unfold Rsqr in S. pose proof (COS_bound t) as B.
  set (r := fl_r o) in *.
  match goal with |- _ <= ?e <= _ => replace e with (1 + 2 * r * cos t + r * r) by
    (transitivity (1 + 2 * r * cos t + r * r * (sin t * sin t + cos t * cos t)); [rewrite S; ring|ring]) end.
  assert (r * cos t <= r * 1) by (apply Rmult_le_compat_l; lra).
  assert (r * (-1) <= r * cos t) by (apply Rmult_le_compat_l; lra). lra.
Qed.

Lemma circ_lt n j L : (0 < n)%nat -> (circ n j L < n)%nat.
Proof. intro Hn. unfold circ. pose proof (Z.mod_pos_bound (Z.of_nat j - L) (Z.of_nat n)). lia. Qed.

(** A fixed point of x[j] = -r x[j-L] (circularly) with 0 <= r < 1 is zero. *)
Lemma contraction_zero n L (r : R) (x : nat -> R) : 0 <= r < 1 ->
  (forall j, (j < n)%nat -> x j + r * x (circ n j L) = 0) -> forall j, (j < n)%nat -> x j = 0.
Proof.
  intros Hr H.
  assert (G : forall m j, (j < n)%nat -> exists i, (i < n)%nat /\ Rabs (x j) = r ^ m * Rabs (x i)).
  { induction m as [|m IH]; intros j Hj; [exists j; split; [exact Hj|simpl; ring]|].
    destruct (IH j Hj) as (i & Hi & E). exists (circ n i L). split; [apply circ_lt; lia|].
    rewrite E. assert (X : x i = - r * x (circ n i L)) by (specialize (H i Hi); lra).
    rewrite X, Rabs_mult, Rabs_Ropp, (Rabs_right r) by lra. simpl. ring. }
  assert (Bd : exists B, 0 <= B /\ forall i, (i < n)%nat -> Rabs (x i) <= B).
  { clear. exists (rsum n (fun i => Rabs (x i))). split; [apply rsum_nonneg; intros; apply Rabs_pos|].
    induction n as [|n IH]; intros i Hi; [lia|]. simpl.
    pose proof (rsum_nonneg n (fun i => Rabs (x i)) ltac:(intros; apply Rabs_pos)). pose proof (Rabs_pos (x n)).
    destruct (Nat.eq_dec i n) as [->|]; [lra|]. specialize (IH i ltac:(lia)). lra. }
  destruct Bd as (B & HB & Hx). intros j Hj.
  destruct (Req_dec (x j) 0) as [?|Hn]; [assumption|exfalso].
  assert (Hp : 0 < Rabs (x j)) by (apply Rabs_pos_lt; exact Hn).
  assert (HB' : 0 < B + 1) by lra.
  destruct (pow_lt_1_zero r ltac:(rewrite Rabs_right; lra) (Rabs (x j) / (B + 1))) as (M & HM).
  { apply Rmult_lt_0_compat; [exact Hp|apply Rinv_0_lt_compat; exact HB']. }
  specialize (HM M ltac:(lia)). rewrite Rabs_right in HM by (apply Rle_ge, pow_le; lra).
  destruct (G M j Hj) as (i & Hi & E). specialize (Hx i Hi).
  assert (HM' : r ^ M * (B + 1) < Rabs (x j)).
  { apply (Rmult_lt_compat_r (B + 1)) in HM; [|exact HB']. unfold Rdiv in HM. rewrite Rmult_assoc, Rinv_l in HM by lra. lra. }
  assert (P0 : 0 <= r ^ M) by (apply pow_le; lra).
  assert (r ^ M * Rabs (x i) <= r ^ M * (B + 1)) by (apply Rmult_le_compat_l; lra). lra.
Qed.

(** The filtered trace determines the detrended trace: the only signal S with
    S[j] + r S[j-L] = filtered[j] is the input minus its straight line. *)
Theorem C79_invertible data delta time o : run_of data delta time o ->
  exists L, fl_tlag o = INR L * delta /\
  forall S, length S = length data ->
    (forall j, (j < length data)%nat ->
       nth_error (fl_filtered o) j = Some (rnth S j + fl_r o * rnth S (circ (length data) j (Z.of_nat L)))) <->
    ls_residual data S.
Proof.
  intro H. destruct (C24_two_tap data delta time o H) as (D & L & HD & Ht & _ & Hf).
  exists L. split; [exact Ht|]. intros S HS. assert (LD : length D = length data) by (destruct HD; assumption). split.
  - intro HSf. replace S with D; [exact HD|]. apply rlist_ext; [congruence|]. rewrite LD. intros j Hj.
    assert (Z : rnth D j - rnth S j = 0); [|lra].
    apply (contraction_zero (length data) (Z.of_nat L) (fl_r o) (fun j => rnth D j - rnth S j)); [eapply C79_r_below_one; exact H| |exact Hj].
    intros i Hi. specialize (Hf i Hi). specialize (HSf i Hi). rewrite Hf in HSf. injection HSf as E. lra.
  - intros HR j Hj. rewrite (ls_residual_unique data S D HR HD). apply Hf. exact Hj.
Qed.

(** Exact removal: if the detrended trace is a signal S plus its own reverberation
    with the strength and lag that were found, the filter returns S. *)
Theorem C79_removes_reverberation data delta time o S : run_of data delta time o -> length S = length data ->
  (forall D L, ls_residual data D -> fl_tlag o = INR L * delta ->
     forall j, (j < length data)%nat -> rnth D j = rnth S j - fl_r o * rnth D (circ (length data) j (Z.of_nat L))) ->
  fl_filtered o = S.
Proof.
  intros H HS Hrev. destruct (C24_two_tap data delta time o H) as (D & L & HD & Ht & Lf & Hf).
  apply rlist_ext; [congruence|]. rewrite Lf. intros j Hj.
  pose proof (Hf j Hj) as E. apply (nth_error_nth _ _ 0) in E. unfold rnth at 1. rewrite E.
  rewrite (Hrev D L HD Ht j Hj) at 1. ring.
Qed.

(** ** A concrete run: the four-sample trace 1 0 1 4 at 2 Hz.
    Its residual is 1 -1 -1 1, the first autocorrelation trough is at lag 2, with
    value -1/2. *)
Theorem C79_example : exists o,
  ResonanceFiltSynth [1; 0; 1; 4] [0; 1 / 2; 1; 3 / 2] = Ok o /\
  fl_tlag o = 1 /\ fl_r o = 1 / 2 /\ fl_filtered o = [1 / 2; - (1 / 2); - (1 / 2); 1 / 2].
Proof.
  set (data := [1; 0; 1; 4]). set (time := [0; 1 / 2; 1; 3 / 2]).
  destruct (C24_ResonanceFiltSynth_returns data time 0 (1 / 2)) as [o E]; try reflexivity; [lra|discriminate|].
  exists o. split; [exact E|].
  assert (Ru : run_of data (1 / 2) time o).
  { right. split; [exact E|]. exists 0, (1 / 2). repeat split; lra. }
  set (D := [1; -1; -1; 1]).
  assert (HD : ls_residual data D).
  { split; [reflexivity|]. split; [exists 0, 1|split].
    - intros j Hj. unfold data, D in *. simpl in Hj. do 4 (destruct j as [|j]; [unfold rnth; simpl; lra|]). lia.
    - unfold D, rnth. simpl. lra.
    - unfold D, rnth. simpl. lra. }
  assert (A0 : acorr D 0 = 4) by (unfold acorr, D, rnth; simpl; lra).
  assert (A1 : acorr D 1 = -1) by (unfold acorr, D, rnth; simpl; lra).
  assert (A2 : acorr D 2 = -2) by (unfold acorr, D, rnth; simpl; lra).
  assert (A3 : acorr D 3 = 1) by (unfold acorr, D, rnth; simpl; lra).
  destruct (C26_first_trough data (1 / 2) time o Ru) as (D' & HD' & Hm).
  rewrite (ls_residual_unique data D' D HD' HD) in Hm. clear D' HD'.
  destruct (fl_autoc o) as [ac|].
  2:{ exfalso. specialize (Hm 0%nat). unfold D, rnth in Hm. simpl in Hm. lra. }
  destruct Hm as ((Lac & Hac) & _ & _ & _ & Ht). change (length data) with 4%nat in *.
  assert (B0 := Hac 0%nat ltac:(lia)). assert (B1 := Hac 1%nat ltac:(lia)).
  assert (B2 := Hac 2%nat ltac:(lia)). assert (B3 := Hac 3%nat ltac:(lia)).
  rewrite A0 in B0, B1, B2, B3. rewrite A1 in B1. rewrite A2 in B2. rewrite A3 in B3.
  assert (T22 : trough ac 2 2).
  { split; [lia|]. split; [lia|]. simpl. split; [lra|]. split; [|lra]. intros i Hi. replace i with 2%nat by lia. reflexivity. }
  destruct Ht as (a & b & T & Hfst & HL & Htl & Hr & _); [eauto|].
  assert (Ha : (a <= 2)%nat) by (apply (Hfst 2%nat 2%nat); exact T22).
  assert (Eab : a = 2%nat /\ b = 2%nat).
  { destruct T as ((T1 & T2) & T3 & T4 & T5 & T6). rewrite Lac in T3.
    destruct (Nat.eq_dec a 1) as [->|].
    - exfalso. destruct (Nat.eq_dec b 1) as [->|]; [simpl in T6; lra|]. assert (b = 2%nat) by lia. subst b.
      specialize (T5 2%nat ltac:(lia)). lra.
    - assert (a = 2%nat) by lia. split; [assumption|lia]. }
  destruct Eab as [-> ->]. change ((2 + 2) / 2)%nat with 2%nat in *.
  assert (Er : fl_r o = 1 / 2) by (rewrite Hr, B2, Rabs_left; lra).
  split; [rewrite Htl; simpl; lra|]. split; [exact Er|].
  destruct (C24_two_tap data (1 / 2) time o Ru) as (D' & L & HD' & Ht' & Lf & Hf).
  rewrite (ls_residual_unique data D' D HD' HD) in Hf. clear D' HD'.
  assert (EL : L = 2%nat) by (apply INR_eq; rewrite Htl in Ht'; lra). subst L.
  change (length data) with 4%nat in *.
  apply rlist_ext; [exact Lf|]. rewrite Lf. intros j Hj.
  pose proof (Hf j Hj) as Ej. apply (nth_error_nth _ _ 0) in Ej. unfold rnth at 1. rewrite Ej, Er.
  do 4 (destruct j as [|j]; [unfold D, rnth; simpl; lra|]). lia.
Qed.
