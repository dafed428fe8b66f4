(** * P_Reverb6: C140, the lag.  Records made of separated copies of one pulse; refutation; runs. *)

From Coq Require Import Reals Lra.
From Verif Require Import Base Num NumPy Spec HkModel HkReal Cplx DFT DFT2 SpecSignal ReverbModel ReverbProofs ReverbProofs2 P_Reverb P_Reverb2 P_Reverb3 P_Reverb5.
Local Open Scope R_scope.

Lemma nth_firstn_lt (l : list R) : forall k i d, (i < k)%nat -> nth i (firstn k l) d = nth i l d.
Proof.
  induction l as [|x l IH]; intros [|k] [|i] d H; try lia; try reflexivity; simpl. apply IH. lia.
Qed.

(** A record made of copies of one pulse [s]: position and amplitude of each copy. *)
Fixpoint copies (s : nat -> R) (l : list (nat * R)) (j : nat) : R :=
  match l with [] => 0 | (p, c) :: r => (if (p <=? j)%nat then c * s (j - p)%nat else 0) + copies s r j end.
(** Consecutive copies start at least [g] samples apart, and every copy ([w] samples) ends in the record. *)
Fixpoint separated (g w n : nat) (l : list (nat * R)) : Prop :=
  match l with
  | [] => True
  | (p, _) :: r => (p + w <= n)%nat /\ match r with [] => True | (p', _) :: _ => (p + g <= p')%nat end /\ separated g w n r
  end.

Lemma copies_later s w g n l : (forall i, (w <= i)%nat -> s i = 0) -> separated g w n l ->
  forall q j, match l with [] => True | (p, _) :: _ => (q <= p)%nat end -> (j < q)%nat -> copies s l j = 0.
Proof.
  intro Hs. induction l as [|[p c] r IH]; intros (* sep *) HS q j Hq Hj; [reflexivity|].
  cbn [copies]. cbn [separated] in HS. destruct HS as (Hp & Hr & HS).
  replace (p <=? j)%nat with false by (symmetry; apply Nat.leb_gt; lia).
  rewrite (IH HS q j); [ring| |exact Hj]. destruct r as [|[p' c'] r']; [exact I|lia].
Qed.

Lemma lagc_copy s w n p c k : (forall i, (w <= i)%nat -> s i = 0) -> (p + w <= n)%nat -> (k <= w)%nat ->
  lagc (fun j => if (p <=? j)%nat then c * s (j - p)%nat else 0) n k = c * c * lagc s w k.
Proof.
  intros Hs Hp Hk. unfold lagc. replace (n - k)%nat with (p + ((w - k) + (n - k - p - (w - k))))%nat by lia.
  rewrite !rsum_split.
  rewrite (rsum_ext p _ (fun _ => 0)), rsum_0.
  2:{ intros j Hj. replace (p <=? j)%nat with false by (symmetry; apply Nat.leb_gt; lia). ring. }
  rewrite (rsum_ext (n - k - p - (w - k)) _ (fun _ => 0)), rsum_0.
  2:{ intros j Hj. replace (p <=? p + (w - k + j) + k)%nat with true by (symmetry; apply Nat.leb_le; lia).
      rewrite (Hs (p + (w - k + j) + k - p)%nat) by lia. ring. }
  rewrite <- rsum_scale, Rplus_0_l, Rplus_0_r. apply rsum_ext. intros j Hj.
  replace (p <=? p + j + k)%nat with true by (symmetry; apply Nat.leb_le; lia).
  replace (p <=? p + j)%nat with true by (symmetry; apply Nat.leb_le; lia).
  replace (p + j + k - p)%nat with (j + k)%nat by lia. replace (p + j - p)%nat with j by lia. ring.
Qed.

Lemma lagc_copies s w n l k : (forall i, (w <= i)%nat -> s i = 0) -> separated (2 * w) w n l -> (k <= w)%nat ->
  lagc (copies s l) n k = fold_right (fun pc z => snd pc * snd pc + z) 0 l * lagc s w k.
Proof.
  intros Hs. induction l as [|[p c] r IH]; intros HS Hk.
  - cbn [fold_right]. rewrite Rmult_0_l. unfold lagc. rewrite (rsum_ext _ _ (fun _ => 0)) by (intros; cbn [copies]; ring). apply rsum_0.
  - cbn [separated] in HS. destruct HS as (Hp & Hr & HS). cbn [fold_right snd]. rewrite Rmult_plus_distr_r.
    rewrite <- (IH HS Hk). rewrite <- (lagc_copy s w n p c k Hs Hp Hk). unfold lagc. rewrite <- rsum_add.
    apply rsum_ext. intros j Hj. cbn [copies].
    assert (Z : forall i, (i < p + 2 * w)%nat -> copies s r i = 0).
    { intros i Hi. destruct r as [|[p' c'] r']; [reflexivity|].
      apply (copies_later s w (2 * w) n ((p', c') :: r') Hs HS (p + 2 * w)%nat i); [exact Hr|exact Hi]. }
    set (T := fun i => if (p <=? i)%nat then c * s (i - p)%nat else 0).
    change ((T (j + k)%nat + copies s r (j + k)) * (T j + copies s r j) = T (j + k)%nat * T j + copies s r (j + k) * copies s r j).
    destruct (Nat.lt_ge_cases j (p + w)) as [Hj1|Hj1].
    + rewrite (Z (j + k)%nat) by lia. rewrite (Z j) by lia. ring.
    + assert (T1 : forall i, (p + w <= i)%nat -> T i = 0).
      { intros i Hi. unfold T. destruct (p <=? i)%nat; [rewrite Hs by lia; ring|reflexivity]. }
      rewrite (T1 j), (T1 (j + k)%nat) by lia. ring.
Qed.

(** ** C140: pulses of zero mean *)

(** If the record that is analysed (the trend removed) consists of copies of a pulse of [w] samples and zero
    mean, at whatever places (no two closer than [2 w]) and with whatever amplitudes, the reported lag is shorter
    than the pulse: it is never the distance between two copies. *)
Theorem C140_zero_mean_pulse data delta time o D s w l :
  run_of data delta time o -> ls_residual data D -> ~ straight data ->
  (forall i, (w <= i)%nat -> s i = 0) -> rsum w s = 0 -> (w < length data)%nat ->
  separated (2 * w) w (length data) l -> (forall j, (j < length data)%nat -> rnth D j = copies s l j) ->
  exists L, fl_tlag o = INR L * delta /\ (1 <= L < w)%nat.
Proof.
  intros H HD NS Hs S0 Hw HS HDj. set (n := length data) in *.
  destruct (C87_resonance_found data delta time o H NS) as (ac & a & b & Ea & T & Fi & HL & Et & _).
  destruct (C26_first_trough data delta time o H) as (D' & HD' & Hm). rewrite Ea in Hm.
  rewrite (ls_residual_unique data D' D HD' HD) in Hm. clear D' HD'. destruct Hm as ((Lac & Hac) & Hnz & H1 & _). fold n in Hac, Lac.
  assert (LD : length D = n) by apply HD.
  set (c2 := fold_right (fun pc z => snd pc * snd pc + z) 0 l).
  assert (AC : forall k, (k <= w)%nat -> acorr D k = c2 * lagc s w k).
  { intros k Hk. rewrite rnth_fun_lagc, LD. unfold c2. rewrite <- (lagc_copies s w n l k Hs HS Hk).
    unfold lagc. apply rsum_ext. intros j Hj. rewrite !HDj by lia. reflexivity. }
  assert (P : 0 < acorr D 0).
  { destruct (Rle_lt_or_eq_dec 0 (acorr D 0)) as [P|P]; [|exact P|].
    - rewrite <- energy_acorr. apply rsum_nonneg. intros. apply Rle_0_sqr.
    - exfalso. apply Hnz. apply energy_zero. rewrite energy_acorr. symmetry. exact P. }
  assert (C2 : 0 <= c2) by (unfold c2; clear; induction l as [|[p c] r IH]; cbn [fold_right snd]; [lra|pose proof (Rle_0_sqr c) as X; unfold Rsqr in X; lra]).
  assert (LW : lagsum s (fun _ => 1) w = 0) by (rewrite <- dsum_lagsum, dsum_one, S0; ring).
  unfold lagsum in LW.
  assert (A0 : 0 < lagc s w 0).
  { destruct (Rle_lt_dec (lagc s w 0) 0) as [X|X]; [|exact X]. rewrite (AC 0%nat ltac:(lia)) in P.
    pose proof (Rmult_le_compat_l _ _ _ C2 X). lra. }
  assert (C2p : 0 < c2).
  { destruct (Rle_lt_or_eq_dec 0 c2 C2) as [X|X]; [exact X|]. rewrite (AC 0%nat ltac:(lia)), <- X in P. lra. }
  assert (Neg : exists k, (1 <= k < w)%nat /\ lagc s w k < 0).
  { destruct (Classical_Prop.classic (exists k, (1 <= k < w)%nat /\ lagc s w k < 0)) as [X|X]; [exact X|]. exfalso.
    assert (0 <= rsum (w - 1) (fun i => 1 * lagc s w (S i))).
    { apply rsum_nonneg. intros i Hi. rewrite Rmult_1_l. apply Rnot_lt_le. intro Y. apply X. exists (S i). split; [lia|exact Y]. }
    lra. }
  destruct Neg as (k & Hk & Nk).
  assert (Aw : lagc s w w = 0) by (unfold lagc; rewrite Nat.sub_diag; reflexivity).
  assert (Xk : rnth ac k < 0).
  { rewrite Hac by lia. rewrite AC by lia. unfold Rdiv. pose proof (Rinv_0_lt_compat _ P).
    assert (c2 * lagc s w k < 0) by nra. nra. }
  assert (Xw : rnth ac w = 0) by (rewrite Hac, AC, Aw by lia; unfold Rdiv; ring).
  (* a trough before [w] *)
  assert (TR : exists a' b', trough ac a' b' /\ (b' < w)%nat).
  { destruct (decreasing_or_trough (firstn (w + 1) ac)) as [Dec|(a' & b' & T')].
    - intros i Hi. rewrite firstn_length in Hi. unfold rnth. rewrite !nth_firstn_lt by lia. fold (rnth ac i) (rnth ac 0).
      rewrite H1. rewrite Hac by lia. apply (Rmult_le_reg_r (acorr D 0)); [exact P|]. unfold Rdiv. rewrite Rmult_assoc, Rinv_l by lra.
      destruct (Nat.eq_dec i 0) as [->|Ni]; [lra|].
      pose proof (acorr_strict D i Hnz ltac:(lia)) as Y. pose proof (Rle_abs (acorr D i)). lra.
    - exfalso.
      assert (Mono : forall m, (k + m <= w)%nat -> rnth ac (k + m) <= rnth ac k).
      { induction m as [|m IH]; intro Hm; [rewrite Nat.add_0_r; lra|].
        pose proof (Dec (k + m)%nat ltac:(rewrite firstn_length; lia)) as Y. unfold rnth in Y. rewrite !nth_firstn_lt in Y by lia.
        fold (rnth ac (k + m + 1)) (rnth ac (k + m)) in Y. replace (k + S m)%nat with (k + m + 1)%nat by lia. specialize (IH ltac:(lia)). lra. }
      specialize (Mono (w - k)%nat ltac:(lia)). replace (k + (w - k))%nat with w in Mono by lia. lra.
    - exists a', b'. destruct T' as (T1 & T2 & T3 & T4 & T5). rewrite firstn_length in T2.
      assert (G : forall i, (i <= w)%nat -> rnth (firstn (w + 1) ac) i = rnth ac i) by (intros; unfold rnth; apply nth_firstn_lt; lia).
      rewrite !G in T3 by lia. rewrite !G in T5 by lia.
      split; [|lia]. split; [exact T1|]. split; [lia|]. split; [exact T3|]. split; [|exact T5].
      intros i Hi. specialize (T4 i Hi). rewrite !G in T4 by lia. exact T4. }
  destruct TR as (a' & b' & T' & Hb').
  pose proof (Fi a' b' T') as Fa. destruct T as (T1 & T2 & T3 & T4 & T5). destruct T' as (U1 & U2 & U3 & U4 & U5).
  assert (Hb : (b < w)%nat).
  { apply Nat.nle_gt. intro Y. pose proof (T4 a' ltac:(lia)). pose proof (T4 (b' + 1)%nat ltac:(lia)). lra. }
  cbn zeta in HL, Et. exists ((a + b) / 2)%nat. split; [exact Et|]. split; [lia|]. apply Nat.div_lt_upper_bound; lia.
Qed.

(** ** Runs *)

(** A run on a record of unit sampling, its lag from the values of the autocorrelation. *)
Lemma unit_run data : (2 <= length data)%nat -> exists o,
  ResonanceFiltSynth data (map INR (seq 0 (length data))) = Ok o /\ run_of data 1 (map INR (seq 0 (length data))) o.
Proof.
  intro H. set (time := map INR (seq 0 (length data))).
  assert (N0 : nth_error time 0 = Some 0) by (unfold time; rewrite nth_error_map_seq by lia; reflexivity).
  assert (N1 : nth_error time 1 = Some 1) by (unfold time; rewrite nth_error_map_seq by lia; reflexivity).
  destruct (C24_ResonanceFiltSynth_returns data time 0 1 N0 N1) as [o E]; [lra|destruct data; [cbn in H; lia|discriminate]|].
  exists o. split; [exact E|]. right. split; [exact E|]. exists 0, 1. repeat split; try assumption; lra.
Qed.

Lemma lag_one data time o D : run_of data 1 time o -> ~ straight data -> ls_residual data D -> (3 <= length data)%nat ->
  acorr D 1 < acorr D 0 -> acorr D 1 < acorr D 2 -> fl_tlag o = 1 /\ fl_r o = Rabs (acorr D 1) / acorr D 0.
Proof.
  intros H NS HD Hn A1 A2.
  destruct (C87_resonance_found data 1 time o H NS) as (ac & a & b & Ea & T & Fi & HL & Et & _).
  destruct (C26_first_trough data 1 time o H) as (D' & HD' & Hm). rewrite Ea in Hm.
  rewrite (ls_residual_unique data D' D HD' HD) in Hm. destruct Hm as ((Lac & Hac) & _).
  assert (E1 : fl_tlag o = INR 1 * 1).
  { assert (P : 0 < acorr D 0).
    { assert (0 <= acorr D 0) by (rewrite <- energy_acorr; apply rsum_nonneg; intros; apply Rle_0_sqr).
      destruct (Rle_lt_or_eq_dec 0 (acorr D 0) H0) as [P|P]; [exact P|]. exfalso.
      assert (Z : all_zero D) by (apply energy_zero; rewrite energy_acorr; symmetry; exact P).
      apply (NS (proj1 (straight_residual data D HD) Z)). }
    pose proof (Rinv_0_lt_compat _ P) as P'.
    assert (B0 := Hac 0%nat ltac:(lia)). assert (B1 := Hac 1%nat ltac:(lia)). assert (B2 := Hac 2%nat ltac:(lia)). unfold Rdiv in *.
    assert (T1 : trough ac 1 1).
    { split; [lia|]. split; [lia|]. change (1 - 1)%nat with 0%nat. change (1 + 1)%nat with 2%nat.
      split; [rewrite B0, B1; apply Rmult_lt_compat_r; assumption|].
      split; [|rewrite B1, B2; apply Rmult_lt_compat_r; assumption]. intros i Hi. replace i with 1%nat by lia. reflexivity. }
    assert (a = 1%nat) by (pose proof (Fi 1%nat 1%nat T1); destruct T as (T & _); lia). subst a.
    assert (b = 1%nat).
    { destruct T as ((_ & T2) & T3 & _ & T5 & _). destruct (Nat.eq_dec b 1) as [|]; [assumption|].
      exfalso. specialize (T5 2%nat ltac:(lia)). destruct T1 as (_ & _ & _ & _ & X). change (1 + 1)%nat with 2%nat in X. lra. }
    subst b. exact Et. }
  destruct (strength_at data 1 time o 1 D H NS E1 HD) as (_ & _ & Er). simpl INR in E1. split; [lra|exact Er].
Qed.

(** A pulse one sample after the beginning of the record, and its reverberations of lag 4 and strength 1/2: the
    program reports lag 1 and strength 1/6. *)
Definition late_pulse : list R := [0; 1; 0; 0; 0; - (1 / 2); 0; 0; 0; 1 / 4].
Theorem C140_refuted : exists o,
  ResonanceFiltSynth late_pulse (map INR (seq 0 10)) = Ok o /\
  reverberates 4 (1 / 2) [0; 1; 0; 0; 0; 0; 0; 0; 0; 0] late_pulse /\
  fl_tlag o = 1 /\ fl_r o = 1 / 6.
Proof.
  destruct (unit_run late_pulse ltac:(cbn; lia)) as (o & E & Ru). exists o. split; [exact E|]. split.
  { split; [reflexivity|]. intros j Hj. cbn in Hj. do 10 (destruct j as [|j]; [unfold late_pulse, rnth; cbn; lra|]). lia. }
  assert (NS : ~ straight late_pulse).
  { intros (a & b & S). pose proof (S 0%nat ltac:(cbn; lia)) as S0. pose proof (S 1%nat ltac:(cbn; lia)) as S1.
    pose proof (S 2%nat ltac:(cbn; lia)) as S2. unfold late_pulse, rnth in S0, S1, S2. simpl in S0, S1, S2. lra. }
  set (D := [-12 / 55; 179 / 220; -17 / 110; -27 / 220; -1 / 11; -123 / 220; -3 / 110; 1 / 220; 2 / 55; 7 / 22]).
  assert (HD : ls_residual late_pulse D).
  { split; [reflexivity|]. split; [exists (12 / 55), (-7 / 220)|split; unfold D, rnth; simpl; lra].
    intros j Hj. unfold late_pulse, D in *. simpl in Hj. do 10 (destruct j as [|j]; [unfold rnth; simpl; lra|]). lia. }
  assert (A0 : acorr D 0 = 129 / 110) by (unfold acorr, D, rnth; simpl; lra).
  assert (A1 : acorr D 1 = - (43 / 220)) by (unfold acorr, D, rnth; simpl; lra).
  assert (A2 : - (43 / 220) < acorr D 2) by (unfold acorr, D, rnth; simpl; lra).
  destruct (lag_one late_pulse _ o D Ru NS HD ltac:(cbn; lia) ltac:(lra) ltac:(lra)) as (Et & Er).
  split; [exact Et|]. rewrite Er, A1, A0. rewrite Rabs_Ropp, Rabs_right by lra. lra.
Qed.

(** A pulse of zero mean and its reverberation of lag 6 and strength 1/2: the reported lag is 1, as
    [C140_zero_mean_pulse] says (the pulse has three samples). *)
Definition mexican : list R := [1; -2; 1; 0; 0; 0; - (1 / 2); 1; - (1 / 2)].
Theorem C140_zero_mean_example : exists o,
  ResonanceFiltSynth mexican (map INR (seq 0 9)) = Ok o /\
  reverberates 6 (1 / 2) [1; -2; 1; 0; 0; 0; 0; 0; 0] mexican /\ fl_tlag o = 1 /\ fl_r o = 2 / 3 /\
  (exists s l, (forall i, (3 <= i)%nat -> s i = 0) /\ rsum 3 s = 0 /\ separated (2 * 3) 3 (length mexican) l /\
     ls_residual mexican mexican /\ forall j, (j < length mexican)%nat -> rnth mexican j = copies s l j).
Proof.
  destruct (unit_run mexican ltac:(cbn; lia)) as (o & E & Ru). exists o. split; [exact E|]. split.
  { split; [reflexivity|]. intros j Hj. cbn in Hj. do 9 (destruct j as [|j]; [unfold mexican, rnth; cbn; lra|]). lia. }
  assert (NS : ~ straight mexican).
  { intros (a & b & S). pose proof (S 0%nat ltac:(cbn; lia)) as S0. pose proof (S 1%nat ltac:(cbn; lia)) as S1.
    pose proof (S 2%nat ltac:(cbn; lia)) as S2. unfold mexican, rnth in S0, S1, S2. simpl in S0, S1, S2. lra. }
  assert (HD : ls_residual mexican mexican).
  { split; [reflexivity|]. split; [exists 0, 0; intros; ring|split; unfold mexican, rnth; simpl; lra]. }
  assert (A0 : acorr mexican 0 = 15 / 2) by (unfold acorr, mexican, rnth; simpl; lra).
  assert (A1 : acorr mexican 1 = - 5) by (unfold acorr, mexican, rnth; simpl; lra).
  assert (A2 : - 5 < acorr mexican 2) by (unfold acorr, mexican, rnth; simpl; lra).
  destruct (lag_one mexican _ o mexican Ru NS HD ltac:(cbn; lia) ltac:(lra) ltac:(lra)) as (Et & Er).
  split; [exact Et|]. split; [rewrite Er, A1, A0, Rabs_left by lra; lra|].
  exists (rnth [1; -2; 1]), [(0%nat, 1); (6%nat, - (1 / 2))]. split; [intros i Hi; unfold rnth; apply nth_overflow; exact Hi|].
  split; [unfold rnth; simpl; lra|]. split; [cbn; lia|]. split; [exact HD|].
  intros j Hj. cbn in Hj. do 9 (destruct j as [|j]; [unfold mexican, rnth; cbn; lra|]). lia.
Qed.

(** A spike and its reverberation of lag 2 and strength 1/2: the lag is found, the strength comes out as 111/230.
    All hypotheses of [C140_strength_bound] and [C140_removed] hold here. *)
Theorem C140_example : exists o,
  ResonanceFiltSynth [1; 0; - (1 / 2); 0] (map INR (seq 0 4)) = Ok o /\
  reverberates 2 (1 / 2) [1; 0; 0; 0] [1; 0; - (1 / 2); 0] /\ ~ straight [1; 0; - (1 / 2); 0] /\
  fl_tlag o = INR 2 * 1 /\ fl_r o = 111 / 230.
Proof.
  set (data := [1; 0; - (1 / 2); 0]).
  destruct (unit_run data ltac:(cbn; lia)) as (o & E & Ru). exists o. split; [exact E|]. split.
  { split; [reflexivity|]. intros j Hj. cbn in Hj. do 4 (destruct j as [|j]; [unfold data, rnth; cbn; lra|]). lia. }
  assert (NS : ~ straight data).
  { intros (a & b & S). pose proof (S 0%nat ltac:(cbn; lia)) as S0. pose proof (S 1%nat ltac:(cbn; lia)) as S1.
    pose proof (S 2%nat ltac:(cbn; lia)) as S2. unfold data, rnth in S0, S1, S2. simpl in S0, S1, S2. lra. }
  split; [exact NS|]. set (D := [7 / 20; -3 / 10; -9 / 20; 2 / 5]).
  assert (HD : ls_residual data D).
  { split; [reflexivity|]. split; [exists (13 / 20), (-7 / 20)|split; unfold D, rnth; simpl; lra].
    intros j Hj. unfold data, D in *. simpl in Hj. do 4 (destruct j as [|j]; [unfold rnth; simpl; lra|]). lia. }
  assert (A0 : acorr D 0 = 23 / 40) by (unfold acorr, D, rnth; simpl; lra).
  assert (A1 : acorr D 1 = -3 / 20) by (unfold acorr, D, rnth; simpl; lra).
  assert (A2 : acorr D 2 = -111 / 400) by (unfold acorr, D, rnth; simpl; lra).
  assert (A3 : acorr D 3 = 7 / 50) by (unfold acorr, D, rnth; simpl; lra).
  destruct (C87_resonance_found data 1 _ o Ru NS) as (ac & a & b & Ea & T & Fi & HL & Et & _).
  destruct (C26_first_trough data 1 _ o Ru) as (D' & HD' & Hm). rewrite Ea in Hm.
  rewrite (ls_residual_unique data D' D HD' HD) in Hm. destruct Hm as ((Lac & Hac) & _).
  change (length data) with 4%nat in *.
  assert (B1 := Hac 1%nat ltac:(lia)). assert (B2 := Hac 2%nat ltac:(lia)). assert (B3 := Hac 3%nat ltac:(lia)).
  rewrite A0, A1 in B1. rewrite A0, A2 in B2. rewrite A0, A3 in B3.
  assert (E2 : fl_tlag o = INR 2 * 1).
  { rewrite Et. f_equal. f_equal. destruct T as (T1 & T2 & T3 & T4 & T5). rewrite Lac in T2.
    assert (Hab : (a = 1 /\ b = 1 \/ a = 1 /\ b = 2 \/ a = 2 /\ b = 2)%nat) by lia.
    destruct Hab as [(-> & ->)|[(-> & ->)|(-> & ->)]]; [exfalso|exfalso|reflexivity].
    - change (1 + 1)%nat with 2%nat in T5. lra.
    - specialize (T4 2%nat ltac:(lia)). lra. }
  split; [exact E2|]. destruct (strength_at data 1 _ o 2 D Ru NS E2 HD) as (_ & _ & Er). rewrite Er, A2, A0.
  replace (-111 / 400) with (- (111 / 400)) by field. rewrite Rabs_Ropp, Rabs_right by lra. lra.
Qed.
