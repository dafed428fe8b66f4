(** * P_Reverb3: when does the resonance filter find a resonance? (C87)

    The autocorrelation a[0..n-1] of a trace from which the best straight line was removed
    satisfies a[0] + 2 sum a[k] = 0 and sum k^2 a[k] = 0.  A sequence without a trough and
    with its maximum at 0 would be decreasing, which Chebyshev's sum inequality excludes.
    So the filter reports a resonance for every trace that is not a straight line. *)

From Coq Require Import Reals Lra.
From Verif Require Import Base Num NumPy Spec HkModel HkReal Cplx DFT DFT2 SpecSignal ReverbModel ReverbProofs ReverbProofs2 P_Reverb.
Local Open Scope R_scope.

(** ** Vocabulary *)
(** All samples lie on one straight line. *)
Definition straight (d : list R) : Prop := exists a b, forall j, (j < length d)%nat -> rnth d j = a + b * INR j.

(** ** Autocorrelation as a double sum *)
Section Lag.
Context (x : nat -> R) (f : nat -> R).
Definition lagc (n k : nat) : R := rsum (n - k) (fun j => x (j + k)%nat * x j).
(** f 0 a[0] + 2 (f 1 a[1] + ... + f (n-1) a[n-1]) *)
Definition lagsum (n : nat) : R := f 0%nat * lagc n 0 + 2 * rsum (n - 1) (fun i => f (S i) * lagc n (S i)).
Definition dsum (n : nat) : R := rsum n (fun i => rsum n (fun j => x i * x j * f (Nat.max i j - Nat.min i j)%nat)).

Lemma rsum_rev n (g : nat -> R) : rsum n (fun i => g (n - 1 - i)%nat) = rsum n g.
Proof.
  induction n as [|n IH]; [reflexivity|]. change (S n) with (1 + n)%nat at 1. rewrite rsum_split. cbn [rsum].
  rewrite (rsum_ext n (fun j => g (S n - 1 - (1 + j))%nat) (fun i => g (n - 1 - i)%nat)) by (intros; f_equal; lia).
  rewrite IH. replace (S n - 1 - 0)%nat with n by lia. ring.
Qed.

Lemma lagc_S n k : (k <= n)%nat -> lagc (S n) k = lagc n k + x n * x (n - k)%nat.
Proof.
  intro H. unfold lagc. replace (S n - k)%nat with (S (n - k)) by lia. cbn [rsum].
  replace (n - k + k)%nat with n by lia. reflexivity.
Qed.
Lemma lagc_over n k : (n <= k)%nat -> lagc n k = 0.
Proof. intro H. unfold lagc. replace (n - k)%nat with 0%nat by lia. reflexivity. Qed.

Lemma dsum_lagsum n : dsum n = lagsum n.
Proof.
  induction n as [|n IH].
  - unfold dsum, lagsum, lagc. cbn. ring.
  - assert (E1 : dsum (S n) = dsum n + 2 * rsum n (fun j => x n * x j * f (n - j)%nat) + x n * x n * f 0%nat).
    { unfold dsum. cbn [rsum]. rewrite rsum_add.
      rewrite (rsum_ext n (fun j => x j * x n * f (Nat.max j n - Nat.min j n)%nat) (fun j => x n * x j * f (n - j)%nat))
        by (intros j Hj; rewrite Nat.max_r, Nat.min_l by lia; ring).
      rewrite (rsum_ext n (fun j => x n * x j * f (Nat.max n j - Nat.min n j)%nat) (fun j => x n * x j * f (n - j)%nat))
        by (intros j Hj; rewrite Nat.max_l, Nat.min_r by lia; reflexivity).
      rewrite Nat.max_id, Nat.min_id, Nat.sub_diag. ring. }
    rewrite E1, IH. unfold lagsum. rewrite (lagc_S n 0) by lia. rewrite Nat.sub_0_r.
    replace (S n - 1)%nat with n by lia.
    rewrite (rsum_ext n (fun i => f (S i) * lagc (S n) (S i)) (fun i => f (S i) * lagc n (S i) + x n * x (n - 1 - i)%nat * f (n - (n - 1 - i))%nat)).
    2:{ intros i Hi. rewrite lagc_S by lia. replace (n - (n - 1 - i))%nat with (S i) by lia.
        replace (n - S i)%nat with (n - 1 - i)%nat by lia. ring. }
    rewrite rsum_add, (rsum_rev n (fun j => x n * x j * f (n - j)%nat)).
    assert (E2 : rsum n (fun i => f (S i) * lagc n (S i)) = rsum (n - 1) (fun i => f (S i) * lagc n (S i))).
    { destruct n as [|n]; [reflexivity|]. cbn [rsum]. rewrite (lagc_over (S n) (S n)) by lia.
      replace (S n - 1)%nat with n by lia. ring. }
    rewrite E2. ring.
Qed.
End Lag.

Lemma dsum_one x n : dsum x (fun _ => 1) n = rsum n x * rsum n x.
Proof.
  unfold dsum. rewrite (rsum_ext n _ (fun i => rsum n x * x i)).
  - rewrite rsum_scale. reflexivity.
  - intros i _. rewrite (rsum_ext n _ (fun j => x i * x j)) by (intros; ring). rewrite rsum_scale. ring.
Qed.

Lemma lag_sq i j : INR (Nat.max i j - Nat.min i j) * INR (Nat.max i j - Nat.min i j) = (INR i - INR j) * (INR i - INR j).
Proof.
  destruct (Nat.le_ge_cases i j) as [H|H].
  - rewrite Nat.max_r, Nat.min_l by lia. rewrite minus_INR by lia. ring.
  - rewrite Nat.max_l, Nat.min_r by lia. rewrite minus_INR by lia. ring.
Qed.

Lemma dsum_square x n : rsum n x = 0 -> rsum n (fun j => INR j * x j) = 0 ->
  dsum x (fun k => INR k * INR k) n = 0.
Proof.
  intros S0 S1. unfold dsum. set (M := rsum n (fun j => INR j * INR j * x j)).
  rewrite (rsum_ext n _ (fun i => M * x i)).
  - rewrite rsum_scale, S0. ring.
  - intros i _.
    rewrite (rsum_ext n _ (fun j => x i * INR i * INR i * x j + (-2 * x i * INR i * (INR j * x j) + x i * (INR j * INR j * x j)))).
    + rewrite !rsum_add, !rsum_scale, S0, S1. unfold M. ring.
    + intros j _. rewrite lag_sq. ring.
Qed.

(** ** Chebyshev's sum inequality, decreasing against squares *)
Lemma chebyshev m (a w : nat -> R) :
  (forall i j, (i <= j < m)%nat -> a j <= a i) -> (forall i j, (i <= j < m)%nat -> w i <= w j) ->
  INR m * rsum m (fun i => w i * a i) <= rsum m w * rsum m a.
Proof.
  intros Ha Hw.
  assert (E : rsum m (fun i => rsum m (fun j => (w i - w j) * (a i - a j)))
            = 2 * (INR m * rsum m (fun i => w i * a i)) - 2 * (rsum m w * rsum m a)).
  { set (S := rsum m (fun i => w i * a i)). set (A := rsum m a). set (B := rsum m w).
    rewrite (rsum_ext m _ (fun i => INR m * (w i * a i) + (-1 * A * w i + (-1 * B * a i + S)))).
    - rewrite !rsum_add, !rsum_scale, rsum_const. unfold S, A, B. ring.
    - intros i _. rewrite (rsum_ext m _ (fun j => w i * a i + (- w i * a j + (- a i * w j + w j * a j)))) by (intros; ring).
      rewrite !rsum_add, !rsum_scale, rsum_const. unfold S, A, B. ring. }
  assert (N : rsum m (fun i => rsum m (fun j => (w i - w j) * (a i - a j))) <= rsum m (fun _ => 0)).
  { apply rsum_le. intros i Hi. rewrite <- (rsum_0 m). apply rsum_le. intros j Hj.
    destruct (Nat.le_ge_cases i j) as [H|H].
    - specialize (Ha i j ltac:(lia)). specialize (Hw i j ltac:(lia)).
      assert (0 <= (w j - w i) * (a i - a j)) by (apply Rmult_le_pos; lra). lra.
    - specialize (Ha j i ltac:(lia)). specialize (Hw j i ltac:(lia)).
      assert (0 <= (w i - w j) * (a j - a i)) by (apply Rmult_le_pos; lra). lra. }
  rewrite rsum_0 in N. lra.
Qed.

Lemma rsum_pos_one m (w : nat -> R) : (0 < m)%nat -> (forall i, (i < m)%nat -> 0 < w i) -> 0 < rsum m w.
Proof.
  induction m as [|m IH]; intros Hm Hw; [lia|]. cbn [rsum]. destruct m as [|m]; [cbn [rsum]; specialize (Hw 0%nat ltac:(lia)); lra|].
  assert (0 < rsum (S m) w) by (apply IH; [lia|intros; apply Hw; lia]). specialize (Hw (S m) ltac:(lia)). lra.
Qed.

Lemma rnth_fun_lagc D k : acorr D k = lagc (rnth D) (length D) k.
Proof. reflexivity. Qed.

(** The lagged products of a nonzero residual cannot decrease all the way. *)
Lemma not_decreasing D : rsum (length D) (rnth D) = 0 -> rsum (length D) (fun j => INR j * rnth D j) = 0 ->
  0 < acorr D 0 -> ~ (forall k, (k + 1 < length D)%nat -> acorr D (k + 1) <= acorr D k).
Proof.
  intros S0 S1 Hp Hd. set (n := length D) in *.
  assert (Q1 : acorr D 0 + 2 * rsum (n - 1) (fun i => acorr D (S i)) = 0).
  { transitivity (lagsum (rnth D) (fun _ => 1) n).
    - unfold lagsum. rewrite (rsum_ext (n - 1) (fun i => 1 * lagc (rnth D) n (S i)) (fun i => acorr D (S i))) by (intros; apply Rmult_1_l).
      rewrite Rmult_1_l. reflexivity.
    - rewrite <- dsum_lagsum, dsum_one, S0. ring. }
  assert (Q2 : rsum (n - 1) (fun i => INR (S i) * INR (S i) * acorr D (S i)) = 0).
  { pose proof (dsum_lagsum (rnth D) (fun k => INR k * INR k) n) as E. rewrite dsum_square in E by assumption.
    unfold lagsum in E. change (INR 0) with 0 in E. unfold acorr in *. fold n. unfold lagc in E. cbv beta in E. lra. }
  assert (Hm : (0 < n - 1)%nat).
  { destruct (n - 1)%nat eqn:En; [|lia]. cbn [rsum] in Q1. lra. }
  assert (Mono : forall i j, (i <= j)%nat -> (j < n - 1)%nat -> acorr D (S j) <= acorr D (S i)).
  { intros i j Hij. induction Hij as [|j Hij IH]; intro Hj; [lra|].
    pose proof (Hd (S j) ltac:(lia)) as X. replace (S j + 1)%nat with (S (S j)) in X by lia. specialize (IH ltac:(lia)). lra. }
  pose proof (chebyshev (n - 1) (fun i => acorr D (S i)) (fun i => INR (S i) * INR (S i))) as C. cbv beta in C.
  rewrite Q2 in C.
  assert (W : 0 < rsum (n - 1) (fun i => INR (S i) * INR (S i))).
  { apply rsum_pos_one; [exact Hm|]. intros i _. pose proof (lt_0_INR (S i) ltac:(lia)). apply Rmult_lt_0_compat; assumption. }
  assert (X : 0 <= rsum (n - 1) (fun i => INR (S i) * INR (S i)) * rsum (n - 1) (fun i => acorr D (S i))).
  { replace 0 with (INR (n - 1) * 0) by ring. apply C.
    - intros i j Hij. apply Mono; lia.
    - intros i j Hij. assert (INR (S i) <= INR (S j)) by (apply le_INR; lia). pose proof (pos_INR (S i)).
      apply Rmult_le_compat; assumption. }
  assert (Y : rsum (n - 1) (fun i => acorr D (S i)) < 0) by lra.
  assert (0 < rsum (n - 1) (fun i => INR (S i) * INR (S i)) * - rsum (n - 1) (fun i => acorr D (S i))) by (apply Rmult_lt_0_compat; lra).
  lra.
Qed.

(** A sequence whose first value is its largest either decreases throughout or has a trough. *)
Lemma decreasing_or_trough (x : list R) : (forall k, (k < length x)%nat -> rnth x k <= rnth x 0) ->
  (forall k, (k + 1 < length x)%nat -> rnth x (k + 1) <= rnth x k) \/ exists a b, trough x a b.
Proof.
  intro H0.
  assert (G : forall m, (m < length x)%nat ->
     (forall k, (k + 1 <= m)%nat -> rnth x (k + 1) <= rnth x k) \/ exists a b, trough x a b).
  { induction m as [|m IH]; intro Hm; [left; intros; lia|].
    destruct (IH ltac:(lia)) as [D|T]; [|right; exact T].
    destruct (Rle_lt_dec (rnth x (m + 1)) (rnth x m)) as [L|L].
    - left. intros k Hk. destruct (Nat.eq_dec k m) as [->|]; [exact L|apply D; lia].
    - (* x rises after m: look for the start of the plateau ending at m *)
      assert (P : forall s, (s <= m)%nat -> (forall i, (s <= i <= m)%nat -> rnth x i = rnth x m) ->
                    exists a b, trough x a b).
      { induction s as [|s IHs]; intros Hs Hc.
        - exfalso. pose proof (H0 (m + 1)%nat ltac:(lia)). rewrite <- (Hc 0%nat) in L by lia. lra.
        - destruct (Req_dec (rnth x s) (rnth x m)) as [E|E].
          + apply IHs; [lia|]. intros i Hi. destruct (Nat.eq_dec i s) as [->|]; [exact E|apply Hc; lia].
          + exists (S s), m. pose proof (D s ltac:(lia)) as X. replace (s + 1)%nat with (S s) in X by lia.
            assert (Es : rnth x (S s) = rnth x m) by (apply Hc; lia).
            split; [lia|]. split; [lia|]. split; [replace (S s - 1)%nat with s by lia; lra|].
            split; [intros i Hi; rewrite Es; apply Hc; exact Hi|lra]. }
      right. apply (P m); [lia|]. intros i Hi. replace i with m by lia. reflexivity. }
  destruct x as [|x0 x']; [left; intros k Hk; cbn in Hk; lia|].
  destruct (G (length (x0 :: x') - 1)%nat ltac:(cbn; lia)) as [D|T]; [left|right; exact T].
  intros k Hk. apply D. lia.
Qed.

Lemma straight_residual d D : ls_residual d D -> (all_zero D <-> straight d).
Proof.
  intro H. split.
  - intro Z. destruct H as (_ & (a & b & E) & _). exists a, b. intros j Hj. specialize (E j Hj). rewrite (Z j) in E. lra.
  - intros (a & b & E).
    assert (R0 : ls_residual d (repeat 0 (length d))).
    { assert (Z : forall j, rnth (repeat 0 (length d)) j = 0).
      { intro j. unfold rnth. apply nth_repeat. }
      split; [apply repeat_length|]. split; [exists a, b; intros j Hj; rewrite Z, (E j Hj); ring|].
      split; [rewrite (rsum_ext _ _ (fun _ => 0)) by (intros; apply Z); apply rsum_0|].
      rewrite (rsum_ext _ _ (fun _ => 0)) by (intros; rewrite Z; ring). apply rsum_0. }
    rewrite (ls_residual_unique d D _ H R0). intro j. unfold rnth. apply nth_repeat.
Qed.

(** ** C87 *)

(** Every trace that is not a straight line has an autocorrelation trough, and the filter uses
    the first one: the lag is at least one sample. *)
Theorem C87_resonance_found data delta time o : run_of data delta time o -> ~ straight data ->
  exists ac a b, fl_autoc o = Some ac /\ trough ac a b /\ (forall a' b', trough ac a' b' -> (a <= a')%nat) /\
    let L := ((a + b) / 2)%nat in
    (1 <= L <= length data - 2)%nat /\ fl_tlag o = INR L * delta /\ fl_r o = Rabs (rnth ac L).
Proof.
  intros H Hs. destruct (C26_first_trough data delta time o H) as (D & HD & Hm).
  destruct (fl_autoc o) as [ac|] eqn:Ea.
  2:{ exfalso. apply Hs. apply (straight_residual data D HD). exact Hm. }
  destruct Hm as ((Lac & Hac) & Hnz & H1 & Hb & Ht).
  destruct (decreasing_or_trough ac) as [Dec|T].
  { intros k _. rewrite H1. apply Hb. }
  - exfalso. destruct HD as (LD & _ & S0 & S1). rewrite <- LD in S0, S1.
    assert (P : 0 < acorr D 0).
    { destruct (Rle_lt_or_eq_dec 0 (acorr D 0)) as [P|P]; [|exact P|].
      - rewrite <- energy_acorr. apply rsum_nonneg. intros. apply Rle_0_sqr.
      - exfalso. apply Hnz. apply energy_zero. rewrite energy_acorr. symmetry. exact P. }
    apply (not_decreasing D S0 S1 P). intros k Hk. rewrite LD in Hk.
    pose proof (Dec k ltac:(lia)) as X. rewrite !Hac in X by lia.
    apply (Rmult_le_reg_r (/ acorr D 0)); [apply Rinv_0_lt_compat; exact P|exact X].
  - destruct (Ht T) as (a & b & T' & F & HL & E1 & E2 & _).
    exists ac, a, b. split; [reflexivity|]. split; [exact T'|]. split; [exact F|]. split; [exact HL|]. split; assumption.
Qed.

(** The filter reports no resonance exactly for the traces that are straight lines. *)
Theorem C87_no_resonance_iff data delta time o : run_of data delta time o -> (fl_tlag o = 0 <-> straight data).
Proof.
  intro H. destruct (run_of_core data delta time o H) as (Hd & _ & _). split; intro Q.
  - destruct (C26_first_trough data delta time o H) as (D & HD & Hm).
    apply (straight_residual data D HD).
    destruct (fl_autoc o) as [ac|] eqn:Ea; [|exact Hm]. exfalso.
    destruct Hm as (_ & Hnz & _).
    destruct (C87_resonance_found data delta time o H) as (ac' & a & b & _ & _ & _ & HL & Et & _).
    { intro S. apply Hnz. apply (straight_residual data D HD). exact S. }
    rewrite Q in Et. symmetry in Et. apply Rmult_integral in Et. destruct Et as [Et|Et]; [|contradiction].
    apply (INR_eq _ 0) in Et. lia.
  - destruct (C26_first_trough data delta time o H) as (D & HD & Hm). pose proof (proj2 (straight_residual data D HD) Q) as Z.
    destruct (fl_autoc o) as [ac|] eqn:Ea; [destruct Hm as (_ & Hnz & _); contradiction|].
    destruct (C25_no_trough data delta time o H) as (_ & E & _); [rewrite Ea; exact I|exact E].
Qed.

(** A lone spike, without any reverberation: the filter finds a resonance one sample long of
    strength 4/7 and adds it. *)
Theorem C87_lone_spike_example : exists o,
  ResonanceFiltSynth [0; 3; 0; 0] [0; 1 / 2; 1; 3 / 2] = Ok o /\
  ~ straight [0; 3; 0; 0] /\ fl_tlag o = 1 / 2 /\ fl_r o = 4 / 7.
Proof.
  set (data := [0; 3; 0; 0]). set (time := [0; 1 / 2; 1; 3 / 2]).
  destruct (C24_ResonanceFiltSynth_returns data time 0 (1 / 2)) as [o E]; try reflexivity; [lra|discriminate|].
  exists o. split; [exact E|].
  assert (NS : ~ straight data).
  { intros (a & b & S). pose proof (S 0%nat ltac:(cbn; lia)) as S0. pose proof (S 1%nat ltac:(cbn; lia)) as S1.
    pose proof (S 2%nat ltac:(cbn; lia)) as S2. unfold data, rnth in S0, S1, S2. simpl in S0, S1, S2. lra. }
  split; [exact NS|].
  assert (Ru : run_of data (1 / 2) time o).
  { right. split; [exact E|]. exists 0, (1 / 2). repeat split; lra. }
  set (D := [-12 / 10; 21 / 10; -6 / 10; -3 / 10]).
  assert (HD : ls_residual data D).
  { split; [reflexivity|]. split; [exists (12 / 10), (-3 / 10)|split].
    - intros j Hj. unfold data, D in *. simpl in Hj. do 4 (destruct j as [|j]; [unfold rnth; simpl; lra|]). lia.
    - unfold D, rnth. simpl. lra.
    - unfold D, rnth. simpl. lra. }
  destruct (C26_first_trough data (1 / 2) time o Ru) as (D' & HD' & Hm).
  rewrite (ls_residual_unique data D' D HD' HD) in Hm. clear D' HD'.
  destruct (C87_resonance_found data (1 / 2) time o Ru NS) as (ac & a & b & Ea & T & Fi & HL & Et & Er).
  rewrite Ea in Hm. destruct Hm as ((Lac & Hac) & _ & _ & _ & _).
  change (length data) with 4%nat in *.
  assert (A0 : acorr D 0 = 63 / 10) by (unfold acorr, D, rnth; simpl; lra).
  assert (A1 : acorr D 1 = -36 / 10) by (unfold acorr, D, rnth; simpl; lra).
  assert (A2 : acorr D 2 = 9 / 100) by (unfold acorr, D, rnth; simpl; lra).
  assert (B0 := Hac 0%nat ltac:(lia)). assert (B1 := Hac 1%nat ltac:(lia)). assert (B2 := Hac 2%nat ltac:(lia)).
  rewrite A0 in B0, B1, B2. rewrite A1 in B1. rewrite A2 in B2.
  assert (T1 : trough ac 1 1).
  { split; [lia|]. split; [lia|]. simpl. split; [lra|]. split; [|lra]. intros i Hi. replace i with 1%nat by lia. reflexivity. }
  assert (a = 1%nat) by (pose proof (Fi 1%nat 1%nat T1); destruct T as (T & _); lia). subst a.
  assert (b = 1%nat).
  { destruct T as ((_ & T2) & T3 & _ & T5 & _). destruct (Nat.eq_dec b 1) as [|]; [assumption|].
    exfalso. specialize (T5 2%nat ltac:(lia)). lra. }
  subst b. cbn zeta in *. change ((1 + 1) / 2)%nat with 1%nat in *. rewrite Et, Er, B1. split; [simpl; lra|].
  rewrite Rabs_left; lra.
Qed.

(** ** C88: what filtering does to the energy *)
Lemma circ_corr D L : (1 <= L < length D)%nat ->
  rsum (length D) (fun j => rnth D j * rnth D (circ (length D) j (Z.of_nat L))) = acorr D L + acorr D (length D - L).
Proof.
  intro HL. set (n := length D) in *. replace n with (L + (n - L))%nat at 1 by lia. rewrite rsum_split, Rplus_comm. f_equal.
  - unfold acorr. fold n. apply rsum_ext. intros j Hj. f_equal; [f_equal; lia|f_equal].
    unfold circ. rewrite Z.mod_small by lia. lia.
  - unfold acorr. fold n. replace (n - (n - L))%nat with L by lia. apply rsum_ext. intros j Hj. rewrite Rmult_comm. f_equal. f_equal.
    unfold circ. replace (Z.of_nat j - Z.of_nat L)%Z with (Z.of_nat (j + (n - L)) + (-1) * Z.of_nat n)%Z by lia.
    rewrite Z.mod_add by lia. rewrite Z.mod_small by lia. lia.
Qed.

(** Energy of the filtered trace: it is below the energy of the detrended trace exactly when
    the lag found is an anticorrelation strong enough (correlation with wrap-around). *)
Theorem C88_energy data delta time o : run_of data delta time o -> ~ straight data ->
  exists D L, ls_residual data D /\ fl_tlag o = INR L * delta /\ (1 <= L <= length data - 2)%nat /\
    let E := acorr D 0 in let Cw := acorr D L + acorr D (length data - L) in
    rsum (length data) (fun j => rnth (fl_filtered o) j * rnth (fl_filtered o) j)
      = E + fl_r o * (fl_r o * E + 2 * Cw).
Proof.
  intros H NS. destruct (C87_resonance_found data delta time o H NS) as (ac & a & b & _ & _ & _ & HL & Et & _).
  destruct (C24_two_tap data delta time o H) as (D & L & HD & Et' & Lf & Hf).
  destruct (run_of_core data delta time o H) as (Hd & _ & _).
  assert (EL : L = ((a + b) / 2)%nat).
  { apply INR_eq. apply (Rmult_eq_reg_r delta); [|exact Hd]. rewrite <- Et, <- Et'. reflexivity. }
  cbn zeta in HL, Et. rewrite <- EL in HL. exists D, L. split; [exact HD|]. split; [exact Et'|]. split; [exact HL|]. cbn zeta.
  assert (LD : length D = length data) by apply HD.
  rewrite (rsum_ext _ _ (fun j => rnth D j * rnth D j +
     (fl_r o * fl_r o * (rnth D (circ (length data) j (Z.of_nat L)) * rnth D (circ (length data) j (Z.of_nat L))) +
      2 * fl_r o * (rnth D j * rnth D (circ (length data) j (Z.of_nat L)))))).
  2:{ intros j Hj. pose proof (Hf j Hj) as Ej. apply (nth_error_nth _ _ 0) in Ej. unfold rnth at 1 2. rewrite Ej. ring. }
  rewrite !rsum_add, !rsum_scale.
  rewrite (rsum_circ (length data) (fun i => rnth D i * rnth D i)) by lia.
  rewrite <- LD. rewrite circ_corr by lia.
  assert (E0 : acorr D 0 = rsum (length D) (fun j => rnth D j * rnth D j)).
  { unfold acorr. rewrite Nat.sub_0_r. apply rsum_ext. intros j _. rewrite Nat.add_0_r. reflexivity. }
  rewrite E0. ring.
Qed.

(** The lag found need not be an anticorrelation, and filtering can add energy: the trace
    -1 0 -1 1 1 1 1 -1 0 -1 has its first trough at one sample, with the positive correlation
    1/8; its energy grows from 8 to 69/8. *)
Theorem C88_anticorrelation_refuted : exists o ac L,
  ResonanceFiltSynth [-1; 0; -1; 1; 1; 1; 1; -1; 0; -1] (map INR (seq 0 10)) = Ok o /\
  fl_autoc o = Some ac /\ fl_tlag o = INR L /\ L = 1%nat /\ rnth ac L = 1 / 8 /\ fl_r o = 1 / 8 /\
  ls_residual [-1; 0; -1; 1; 1; 1; 1; -1; 0; -1] [-1; 0; -1; 1; 1; 1; 1; -1; 0; -1] /\
  ssq 10 (rnth [-1; 0; -1; 1; 1; 1; 1; -1; 0; -1]) = 8 /\ ssq 10 (rnth (fl_filtered o)) = 69 / 8.
Proof.
  set (data := [-1; 0; -1; 1; 1; 1; 1; -1; 0; -1]). set (time := map INR (seq 0 10)).
  destruct (C24_ResonanceFiltSynth_returns data time 0 1) as [o E]; try reflexivity; [lra|discriminate|].
  assert (NS : ~ straight data).
  { intros (a & b & S). pose proof (S 0%nat ltac:(cbn; lia)) as S0. pose proof (S 1%nat ltac:(cbn; lia)) as S1.
    pose proof (S 2%nat ltac:(cbn; lia)) as S2. unfold data, rnth in S0, S1, S2. simpl in S0, S1, S2. lra. }
  assert (Ru : run_of data 1 time o).
  { right. split; [exact E|]. exists 0, 1. repeat split; lra. }
  assert (HD : ls_residual data data).
  { split; [reflexivity|]. split; [exists 0, 0; intros; ring|split]; unfold data, rnth; simpl; lra. }
  destruct (C26_first_trough data 1 time o Ru) as (D' & HD' & Hm).
  rewrite (ls_residual_unique data D' data HD' HD) in Hm. clear D' HD'.
  destruct (C87_resonance_found data 1 time o Ru NS) as (ac & a & b & Ea & T & Fi & HL & Et & Er).
  rewrite Ea in Hm. destruct Hm as ((Lac & Hac) & _ & _ & _ & _).
  change (length data) with 10%nat in *.
  assert (A0 : acorr data 0 = 8) by (unfold acorr, data, rnth; simpl; lra).
  assert (A1 : acorr data 1 = 1) by (unfold acorr, data, rnth; simpl; lra).
  assert (A2 : acorr data 2 = 2) by (unfold acorr, data, rnth; simpl; lra).
  assert (A9 : acorr data 9 = 1) by (unfold acorr, data, rnth; simpl; lra).
  assert (B0 := Hac 0%nat ltac:(lia)). assert (B1 := Hac 1%nat ltac:(lia)). assert (B2 := Hac 2%nat ltac:(lia)).
  rewrite A0 in B0, B1, B2. rewrite A1 in B1. rewrite A2 in B2.
  assert (T1 : trough ac 1 1).
  { split; [lia|]. split; [lia|]. simpl. split; [lra|]. split; [|lra]. intros i Hi. replace i with 1%nat by lia. reflexivity. }
  assert (a = 1%nat) by (pose proof (Fi 1%nat 1%nat T1); destruct T as (T & _); lia). subst a.
  assert (b = 1%nat).
  { destruct T as ((_ & T2) & T3 & _ & T5 & _). destruct (Nat.eq_dec b 1) as [|]; [assumption|].
    exfalso. specialize (T5 2%nat ltac:(lia)). lra. }
  subst b. cbn zeta in *. change ((1 + 1) / 2)%nat with 1%nat in *.
  assert (R8 : fl_r o = 1 / 8) by (rewrite Er, B1; rewrite Rabs_right; lra).
  exists o, ac, 1%nat. split; [exact E|]. split; [exact Ea|]. split; [rewrite Et; simpl; lra|]. split; [reflexivity|].
  split; [lra|]. split; [exact R8|]. split; [exact HD|]. split; [unfold ssq, data, rnth; simpl; lra|].
  destruct (C88_energy data 1 time o Ru NS) as (D & L & HD' & Et' & HL' & Q).
  rewrite (ls_residual_unique data D data HD' HD) in Q. clear D HD'. cbn zeta in Q. change (length data) with 10%nat in *.
  assert (L = 1%nat) by (apply INR_eq; rewrite Et in Et'; lra). subst L.
  change (10 - 1)%nat with 9%nat in Q. unfold ssq. rewrite Q, R8, A0, A1, A9. lra.
Qed.
