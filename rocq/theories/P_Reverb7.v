(** * P_Reverb7: C141, H-k stacking of a record with sediment reverberations: ResonanceFilt, then hkYu.

    Hypothesis on the lag: the program reports the lag of the reverberation (C140 says when this fails). *)

From Coq Require Import Reals Lra.
From Verif Require Import Base Num NumPy Spec HkModel HkProofs HkReal HkFacts HkFacts2 HkFacts4 P_Hk DrawSpec P_Hk2 P_Hk3 P_Hk4 P_Hk5 P_Hk6 P_HkEx P_Hk7 P_Noise.
From Verif Require Import DrawSpec P_Float3.
From Verif Require Import Cplx DFT DFT2 SpecSignal ReverbModel ReverbProofs ReverbProofs2 P_Reverb P_Reverb2 P_Reverb3 P_Reverb5 P_Reverb6.
Local Open Scope R_scope.

(** ** Vocabulary *)

(** [stands_out] of C123 by more than [m]. *)
Definition stands_out_by (m s : R) (data axis : list R) (T : R -> R -> R) (H K : list R) (H0 K0 : R) : Prop :=
  forall h k i i0 a a0, In h H -> In k K ->
    @nearest_first RN axis (T h k) i -> @nearest_first RN axis (T H0 K0) i0 ->
    nth_error data i = Some a -> nth_error data i0 = Some a0 -> i <> i0 -> s * a + m < s * a0.
Definition clear_phases_by (m : R) (data axis : list R) (T1 T2 T3 : R -> R -> R) (H K : list R) (H0 K0 : R) : Prop :=
  stands_out_by m 1 data axis T1 H K H0 K0 /\ stands_out_by m 1 data axis T2 H K H0 K0 /\ stands_out_by m (-1) data axis T3 H K H0 K0.

Lemma near_stands e s x y axis T H K H0 K0 : s * s = 1 -> near e x y ->
  stands_out_by (2 * e) s x axis T H K H0 K0 -> stands_out s y axis T H K H0 K0.
Proof.
  intros Hs (L & N) HS h k i i0 a a0 Ih Ik M M0 E E0 Ne.
  destruct (nth_error x i) as [b|] eqn:X; [|apply nth_error_None in X; assert (nth_error y i = None) by (apply nth_error_None; lia); congruence].
  destruct (nth_error x i0) as [b0|] eqn:X0; [|apply nth_error_None in X0; assert (nth_error y i0 = None) by (apply nth_error_None; lia); congruence].
  pose proof (HS h k i i0 b b0 Ih Ik M M0 X X0 Ne) as Q.
  pose proof (N i b a X E) as A. pose proof (N i0 b0 a0 X0 E0) as A0.
  apply Rabs_def2b in A. apply Rabs_def2b in A0.
  assert (Hs' : s = 1 \/ s = -1). { assert (Z : (s - 1) * (s + 1) = 0) by lra. apply Rmult_integral in Z. lra. }
  destruct Hs' as [-> | ->]; lra.
Qed.

(** ** C141 *)

(** What the filter leaves besides the signal: at most the mis-estimated part of the strength times the
    largest sample, twice the removed trend and the last [L] samples of the record. *)
Theorem C141_filtered data delta time o S L rho A t :
  run_of data delta time o -> ~ straight data -> reverberates L rho S data -> fl_tlag o = INR L * delta -> (2 * L <= length data)%nat ->
  (forall j, (j < length data)%nat -> Rabs (rnth data j) <= A) ->
  (forall j, (length data - L <= j < length data)%nat -> Rabs (rnth data j) <= t) ->
  near (Rabs (fl_r o - rho) * A + 21 * rsum (length data) (fun i => Rabs (rnth data i)) / INR (length data) + t) S (fl_filtered o).
Proof.
  intros H NS HR Et H2 HA Ht.
  destruct (C140_removed data delta time o S L rho H NS HR Et) as (D & a & b & HD & Hab & Hf).
  destruct (strength_at data delta time o L D H NS Et HD) as (HL & _).
  destruct (C79_r_below_one data delta time o H) as (R0 & R1).
  destruct (C24_two_tap data delta time o H) as (_ & _ & _ & _ & Lf & _). pose proof HR as (LS & _).
  set (n := length data) in *. set (q := 7 * rsum n (fun i => Rabs (rnth data i)) / INR n).
  replace (21 * rsum n (fun i => Rabs (rnth data i)) / INR n) with (3 * q) by (unfold q, Rdiv; ring).
  assert (LB : forall j, (j < n)%nat -> Rabs (a + b * INR j) <= q).
  { intros j Hj. apply (line_bound data D a b j HD); [fold n; lia|exact Hab|]. fold n. pose proof (lt_INR _ _ Hj) as X. pose proof (pos_INR j). pose proof (pos_INR n). lra. }
  assert (Q0 : 0 <= q) by (eapply Rle_trans; [apply Rabs_pos|apply (LB 0%nat); lia]).
  assert (T0 : 0 <= t) by (eapply Rle_trans; [apply Rabs_pos|apply (Ht (n - 1)%nat); lia]).
  assert (LD : length D = n) by apply HD.
  split; [congruence|]. intros i x y Ex Ey.
  assert (Hi : (i < n)%nat) by (rewrite <- LS; apply nth_error_Some; congruence).
  assert (Ex' : rnth S i = x) by (unfold rnth; apply nth_error_nth; exact Ex).
  assert (Ey' : rnth (fl_filtered o) i = y) by (unfold rnth; apply nth_error_nth; exact Ey).
  rewrite <- Ex', <- Ey', (Hf i Hi). clear x y Ex Ey Ex' Ey'.
  set (rr := fl_r o) in *.
  assert (RA : forall z, Rabs z <= A -> Rabs ((rr - rho) * z) <= Rabs (rr - rho) * A).
  { intros z Hz. rewrite Rabs_mult. apply Rmult_le_compat_l; [apply Rabs_pos|exact Hz]. }
  assert (RQ : forall z c, 0 <= c -> Rabs z <= c -> Rabs (rr * z) <= c).
  { intros z c Hc Hz. rewrite Rabs_mult, (Rabs_right rr) by lra. pose proof (Rmult_le_compat_r _ _ _ Hc (Rlt_le _ _ R1)) as Y.
    pose proof (Rmult_le_compat_l _ _ _ R0 Hz). lra. }
  destruct (Nat.leb_spec L i) as [Li|Li].
  - pose proof (RA _ (HA (i - L)%nat ltac:(lia))) as B1. pose proof (LB i Hi) as B2.
    pose proof (RQ _ q Q0 (LB (i - L)%nat ltac:(lia))) as B3.
    pose proof (Rabs_pos ((rr - rho) * rnth data (i - L))).
    apply Rabs_def2b in B1. apply Rabs_def2b in B2. apply Rabs_def2b in B3. apply Rabs_le. lra.
  - assert (TB : Rabs (tail L D i) <= t + q).
    { unfold tail. rewrite LD. rewrite Hab by lia. pose proof (Ht (n - L + i)%nat ltac:(lia)) as X1. pose proof (LB (n - L + i)%nat ltac:(lia)) as X2.
      apply Rabs_def2b in X1. apply Rabs_def2b in X2. apply Rabs_le. lra. }
    pose proof (RQ _ (t + q) ltac:(lra) TB) as B3. pose proof (LB i Hi) as B2.
    pose proof (RA _ (HA i Hi)) as B1. pose proof (Rabs_pos ((rr - rho) * rnth data i)).
    apply Rabs_def2b in B2. apply Rabs_def2b in B3. apply Rabs_le. lra.
Qed.

Section Pipeline.
Context (delta : R) (l : nat) (pre : R) (Hd : 0 < delta) (Hl : (1 <= l)%nat).
Let axis := @uniform_axis RN delta l pre.

(** ResonanceFilt (either version), then hkYu with the fields of its result: if the signal without
    reverberation has its three phases at the two-layer delays of (H0,K0), the sediment delays following from the
    true lag, and they stand out by more than twice the remainder, the best model is (H0,K0). *)
Theorem C141_from_remainder draw data S e L o tk (p : R) pk (H K : list R) (VM VS vs w1 w2 w3 : R) r (H0 K0 : R) :
  run_of data delta axis o -> fl_tlag o = INR L * delta -> near e S (fl_filtered o) ->
  @hkYu RN draw (fl_filtered o) (fl_time o) (fl_tlag o) tk p pk H K (Some VM) (Some VS) (Some vs) (Some w1) (Some w2) (Some w3) = Ok r ->
  0 < w1 -> 0 < w2 -> 0 < w3 -> In H0 H -> In K0 K -> (forall k, In k K -> 1 <= k) ->
  precritical VM p -> 0 < vs -> vs <= VS ->
  let hs := INR L * delta * vs / 2 in
  let T1 h k := t_Ps VS 0 hs (VS / vs) + t_Ps VM p h k in
  let T2 h k := t_PpPs VS 0 hs (VS / vs) + t_PpPs VM p h k in
  let T3 h k := t_PsPs VS 0 hs (VS / vs) + t_PsPs VM p h k in
  clear_phases_by (2 * e) S axis T1 T2 T3 H K H0 K0 ->
  (forall h k, In h H -> In k K -> covered delta l pre (T1 h k) /\ covered delta l pre (T2 h k) /\ covered delta l pre (T3 h k)) ->
  (forall h k, In h H -> In k K -> (h, k) <> (H0, K0) -> resolved delta VM p H0 K0 h k) ->
  exists v, nth_error (yr_stk r) (yr_best r) = Some (@mkRow RN H0 K0 v).
Proof.
  intros Ru Et Hn E H1 H2 H3 HH0 HK0 HK1 HP Hv HvS hs T1 T2 T3 (S1 & S2 & S3) HC Hres.
  destruct (run_of_facts data delta axis o Ru) as (L' & r' & _ & _ & _ & Etime & _).
  rewrite Etime, Et in E.
  apply (C123_hkYu delta l pre Hd Hl draw (fl_filtered o) (INR L * delta) tk p pk H K VM VS vs w1 w2 w3 r H0 K0 E); try assumption.
  - apply Rmult_le_pos; [apply pos_INR|lra].
  - split; [|split].
    + apply (near_stands e 1 S); [lra|exact Hn|exact S1].
    + apply (near_stands e 1 S); [lra|exact Hn|exact S2].
    + apply (near_stands e (-1) S); [lra|exact Hn|exact S3].
Qed.

Theorem C141_recovers draw data S L rho A t o tk (p : R) pk (H K : list R) (VM VS vs w1 w2 w3 : R) r (H0 K0 : R) :
  run_of data delta axis o -> ~ straight data -> reverberates L rho S data -> fl_tlag o = INR L * delta -> (2 * L <= length data)%nat ->
  (forall j, (j < length data)%nat -> Rabs (rnth data j) <= A) ->
  (forall j, (length data - L <= j < length data)%nat -> Rabs (rnth data j) <= t) ->
  @hkYu RN draw (fl_filtered o) (fl_time o) (fl_tlag o) tk p pk H K (Some VM) (Some VS) (Some vs) (Some w1) (Some w2) (Some w3) = Ok r ->
  0 < w1 -> 0 < w2 -> 0 < w3 -> In H0 H -> In K0 K -> (forall k, In k K -> 1 <= k) ->
  precritical VM p -> 0 < vs -> vs <= VS ->
  let hs := INR L * delta * vs / 2 in
  let T1 h k := t_Ps VS 0 hs (VS / vs) + t_Ps VM p h k in
  let T2 h k := t_PpPs VS 0 hs (VS / vs) + t_PpPs VM p h k in
  let T3 h k := t_PsPs VS 0 hs (VS / vs) + t_PsPs VM p h k in
  let e := Rabs (fl_r o - rho) * A + 21 * rsum (length data) (fun i => Rabs (rnth data i)) / INR (length data) + t in
  clear_phases_by (2 * e) S axis T1 T2 T3 H K H0 K0 ->
  (forall h k, In h H -> In k K -> covered delta l pre (T1 h k) /\ covered delta l pre (T2 h k) /\ covered delta l pre (T3 h k)) ->
  (forall h k, In h H -> In k K -> (h, k) <> (H0, K0) -> resolved delta VM p H0 K0 h k) ->
  exists v, nth_error (yr_stk r) (yr_best r) = Some (@mkRow RN H0 K0 v).
Proof.
  intros Ru NS HR Et H2 HA Ht E W1 W2 W3 HH0 HK0 HK1 HP Hv HvS hs T1 T2 T3 e HS HC Hres.
  exact (C141_from_remainder draw data S e L o tk p pk H K VM VS vs w1 w2 w3 r H0 K0 Ru Et
           (C141_filtered data delta axis o S L rho A t Ru NS HR Et H2 HA Ht) E W1 W2 W3 HH0 HK0 HK1 HP Hv HvS HS HC Hres).
Qed.
End Pipeline.

(** ** A concrete case: 500 samples at 1 s, a crust of thickness 1 and Vp/Vs 2 (Vp 1, vertical incidence) below a
    layer of two-way time 2 and reverberation strength 3/8. *)
Definition ex_direct : list R := [0; 1; -1; -5 / 8; -3 / 8; 13 / 8; -1; 3 / 4; -3 / 8] ++ repeat 0 491.
Definition ex_record : list R := [0; 1; -1; -1; 0; 2; -1; 0; 0] ++ repeat 0 491.

Lemma rnth_pad (l : list R) m j : rnth (l ++ repeat 0 m) j = rnth l j.
Proof.
  unfold rnth. destruct (Nat.lt_ge_cases j (length l)) as [H|H].
  - apply app_nth1. exact H.
  - rewrite app_nth2 by exact H. rewrite (nth_overflow l) by exact H. apply nth_repeat.
Qed.
Lemma rsum_pad m n (f : nat -> R) : (m <= n)%nat -> (forall j, (m <= j)%nat -> f j = 0) -> rsum n f = rsum m f.
Proof.
  intros H Z. replace n with (m + (n - m))%nat by lia. rewrite rsum_split.
  rewrite (rsum_ext (n - m) _ (fun _ => 0)) by (intros; apply Z; lia). rewrite rsum_0. ring.
Qed.
Lemma ex_rec_len : length ex_record = 500%nat. Proof. reflexivity. Qed.
Lemma ex_dir_len : length ex_direct = 500%nat. Proof. reflexivity. Qed.
Lemma ex_rec_nth j : rnth ex_record j = rnth [0; 1; -1; -1; 0; 2; -1; 0; 0] j. Proof. apply rnth_pad. Qed.
Lemma ex_dir_nth j : rnth ex_direct j = rnth [0; 1; -1; -5 / 8; -3 / 8; 13 / 8; -1; 3 / 4; -3 / 8] j. Proof. apply rnth_pad. Qed.
Lemma ex_rec_0 j : (7 <= j)%nat -> rnth ex_record j = 0.
Proof. intro H. rewrite ex_rec_nth. do 7 (destruct j as [|j]; [lia|]). destruct j as [|[|j]]; [reflexivity|reflexivity|]. unfold rnth. apply nth_overflow. simpl. lia. Qed.
Lemma ex_dir_0 j : (9 <= j)%nat -> rnth ex_direct j = 0.
Proof. intro H. rewrite ex_dir_nth. unfold rnth. apply nth_overflow. simpl. lia. Qed.
Lemma ex_acorr k : (k <= 400)%nat -> acorr ex_record k = rsum 9 (fun j => rnth [0; 1; -1; -1; 0; 2; -1; 0; 0] (j + k) * rnth [0; 1; -1; -1; 0; 2; -1; 0; 0] j).
Proof.
  intro H. unfold acorr. rewrite ex_rec_len. rewrite (rsum_pad 9) by (try lia; intros j Hj; rewrite (ex_rec_0 j) by lia; ring).
  apply rsum_ext. intros j _. rewrite !ex_rec_nth. reflexivity.
Qed.
Lemma ex_residual : ls_residual ex_record ex_record.
Proof.
  split; [reflexivity|]. split; [exists 0, 0; intros; ring|]. rewrite ex_rec_len. split.
  - rewrite (rsum_pad 9) by (try lia; intros; apply ex_rec_0; lia). rewrite (rsum_ext 9 _ _ (fun j _ => ex_rec_nth j)). unfold rnth. simpl. lra.
  - rewrite (rsum_pad 9) by (try lia; intros j Hj; rewrite (ex_rec_0 j) by lia; ring).
    rewrite (rsum_ext 9 _ (fun j => INR j * rnth [0; 1; -1; -1; 0; 2; -1; 0; 0] j)) by (intros; rewrite ex_rec_nth; reflexivity). unfold rnth. simpl. lra.
Qed.
Lemma ex_not_straight : ~ straight ex_record.
Proof.
  intros (a & b & S). rewrite ex_rec_len in S. pose proof (S 0%nat ltac:(lia)) as S0. pose proof (S 1%nat ltac:(lia)) as S1.
  pose proof (S 2%nat ltac:(lia)) as S2. rewrite ex_rec_nth in S0, S1, S2. unfold rnth in S0, S1, S2. simpl in S0, S1, S2. lra.
Qed.
Lemma ex_reverberates : reverberates 2 (3 / 8) ex_direct ex_record.
Proof.
  split; [reflexivity|]. intros j _. destruct (Nat.le_gt_cases 9 j) as [H|H].
  - rewrite (ex_rec_0 j), (ex_dir_0 j) by lia. rewrite (proj2 (Nat.leb_le 2 j)) by lia. rewrite (ex_rec_0 (j - 2)) by lia. ring.
  - rewrite !ex_rec_nth, ex_dir_nth. do 9 (destruct j as [|j]; [unfold rnth; cbn; lra|]). lia.
Qed.

(** What the resonance filter reports. *)
Lemma ex_filter time o : run_of ex_record 1 time o -> fl_tlag o = INR 2 * 1 /\ fl_r o = 3 / 8.
Proof.
  intro Ru. pose proof ex_residual as HD. pose proof ex_not_straight as NS.
  assert (A0 : acorr ex_record 0 = 8) by (rewrite ex_acorr by lia; unfold rnth; simpl; lra).
  assert (A1 : acorr ex_record 1 = -2) by (rewrite ex_acorr by lia; unfold rnth; simpl; lra).
  assert (A2 : acorr ex_record 2 = -3) by (rewrite ex_acorr by lia; unfold rnth; simpl; lra).
  assert (A3 : acorr ex_record 3 = -1) by (rewrite ex_acorr by lia; unfold rnth; simpl; lra).
  destruct (C87_resonance_found ex_record 1 _ o Ru NS) as (ac & a & b & Ea & T & Fi & HL & Et & _).
  destruct (C26_first_trough ex_record 1 _ o Ru) as (D' & HD' & Hm). rewrite Ea in Hm.
  rewrite (ls_residual_unique ex_record D' _ HD' HD) in Hm. destruct Hm as ((Lac & Hac) & _).
  rewrite ex_rec_len in *.
  assert (B0 := Hac 0%nat ltac:(lia)). assert (B1 := Hac 1%nat ltac:(lia)). assert (B2 := Hac 2%nat ltac:(lia)). assert (B3 := Hac 3%nat ltac:(lia)).
  rewrite A0 in B0, B1, B2, B3. rewrite A1 in B1. rewrite A2 in B2. rewrite A3 in B3.
  assert (T2 : trough ac 2 2).
  { split; [lia|]. split; [lia|]. change (2 - 1)%nat with 1%nat. change (2 + 1)%nat with 3%nat.
    split; [lra|]. split; [|lra]. intros i Hi. replace i with 2%nat by lia. reflexivity. }
  assert (E2 : fl_tlag o = INR 2 * 1).
  { rewrite Et. f_equal. f_equal. pose proof (Fi 2%nat 2%nat T2) as Q. destruct T as (T1 & Tl & T3 & T4 & T5).
    assert (Ha : (a = 1 \/ a = 2)%nat) by lia. destruct Ha as [-> | ->].
    - destruct (Nat.eq_dec b 1) as [-> |Nb].
      + exfalso. change (1 + 1)%nat with 2%nat in T5. lra.
      + exfalso. specialize (T4 2%nat ltac:(lia)). lra.
    - destruct (Nat.eq_dec b 2) as [-> |Nb]; [reflexivity|]. exfalso. specialize (T4 3%nat ltac:(lia)). lra. }
  split; [exact E2|]. destruct (strength_at ex_record 1 _ o 2 ex_record Ru NS E2 HD) as (_ & _ & Er). rewrite Er, A2, A0.
  rewrite Rabs_left by lra. lra.
Qed.

(** Travel times of the four models of the grid. *)
Lemma ex_qs (k : R) : 0 <= k -> qs 1 k 0 = k.
Proof. intro H. unfold qs. replace ((k / 1) ^ 2 - 0 ^ 2) with (Rsqr k) by (unfold Rsqr; field). apply sqrt_Rsqr. exact H. Qed.
Lemma ex_qp1 : qp 1 0 = 1.
Proof. unfold qp. replace ((1 / 1) ^ 2 - 0 ^ 2) with 1 by field. apply sqrt_1. Qed.
Lemma ex_read m i : (m < 500)%nat -> @nearest_first RN (@uniform_axis RN 1 500 0) (INR m) i -> i = m.
Proof.
  intros Hm N. apply (nearest_first_unique RN_laws _ _ i m N). apply (nearest_R_intro (@taxis RN 1 500 0) _ m (1 * INR m - 0)).
  - apply taxis_R_nth. exact Hm.
  - intros j tj _. replace (1 * INR m - 0 - INR m) with 0 by ring. rewrite Rabs_R0. apply Rabs_pos.
  - intros j tj Hj Hn. apply taxis_R_inv in Hn. destruct Hn as [_ ->].
    replace (1 * INR m - 0 - INR m) with 0 by ring. rewrite Rabs_R0.
    apply Rabs_pos_lt. assert (INR j < INR m) by (apply lt_INR; exact Hj). lra.
Qed.
Lemma ex_dir_read i a : nth_error ex_direct i = Some a -> a = rnth [0; 1; -1; -5 / 8; -3 / 8; 13 / 8; -1; 3 / 4; -3 / 8] i.
Proof. intro E. rewrite <- ex_dir_nth. unfold rnth. symmetry. apply nth_error_nth. exact E. Qed.

(** The delays of the four models, sediment included, and what the signal shows there. *)
Definition exT1 (h k : R) : R := t_Ps 1 0 (INR 2 * 1 * 1 / 2) (1 / 1) + t_Ps 1 0 h k.
Definition exT2 (h k : R) : R := t_PpPs 1 0 (INR 2 * 1 * 1 / 2) (1 / 1) + t_PpPs 1 0 h k.
Definition exT3 (h k : R) : R := t_PsPs 1 0 (INR 2 * 1 * 1 / 2) (1 / 1) + t_PsPs 1 0 h k.
Lemma ex_sed h k : 0 <= k -> exT1 h k = h * (k - 1) /\ exT2 h k = 2 + h * (k + 1) /\ exT3 h k = 2 + 2 * h * k.
Proof.
  intro Hk. destruct (sed_closed 2 1 1 ltac:(lra) ltac:(lra)) as (D1 & D2 & D3).
  replace (2 * 1 / 2) with (INR 2 * 1 * 1 / 2) in * by (simpl; field).
  unfold exT1, exT2, exT3. rewrite D1, D2, D3. unfold t_Ps, t_PpPs, t_PsPs. rewrite ex_qp1, (ex_qs k Hk).
  rewrite (INR_IZR_INZ 2). simpl (IZR (Z.of_nat 2)). repeat split; field.
Qed.
Lemma ex_clear m : m < 5 / 8 -> clear_phases_by m ex_direct (@uniform_axis RN 1 500 0) exT1 exT2 exT3 [1; 2] [2; 3] 1 2.
Proof.
  intro Hm. destruct (ex_sed 1 2 ltac:(lra)) as (G1 & G2 & G3).
  assert (I : forall (x : R) m i, x = INR m -> (m < 500)%nat -> @nearest_first RN (@uniform_axis RN 1 500 0) x i -> i = m) by (intros x n i -> Hn Hi; apply ex_read; assumption).
  split; [|split]; intros h k i i0 a a0 Ih Ik M M0 Ea Ea0 Ne; apply ex_dir_read in Ea; apply ex_dir_read in Ea0;
    destruct (ex_sed h k ltac:(destruct Ik as [<-|[<-|[]]]; lra)) as (F1 & F2 & F3).
  + rewrite F1 in M. rewrite G1 in M0. apply (I _ 1%nat) in M0; [|simpl; field|lia]. subst i0.
    destruct Ih as [<-|[<-|[]]]; destruct Ik as [<-|[<-|[]]];
      [apply (I _ 1%nat) in M|apply (I _ 2%nat) in M|apply (I _ 2%nat) in M|apply (I _ 4%nat) in M]; try (simpl; field); try lia; subst i; try congruence;
      unfold rnth in Ea, Ea0; simpl in Ea, Ea0; lra.
  + rewrite F2 in M. rewrite G2 in M0. apply (I _ 5%nat) in M0; [|simpl; field|lia]. subst i0.
    destruct Ih as [<-|[<-|[]]]; destruct Ik as [<-|[<-|[]]];
      [apply (I _ 5%nat) in M|apply (I _ 6%nat) in M|apply (I _ 8%nat) in M|apply (I _ 10%nat) in M]; try (simpl; field); try lia; subst i; try congruence;
      unfold rnth in Ea, Ea0; simpl in Ea, Ea0; lra.
  + rewrite F3 in M. rewrite G3 in M0. apply (I _ 6%nat) in M0; [|simpl; field|lia]. subst i0.
    destruct Ih as [<-|[<-|[]]]; destruct Ik as [<-|[<-|[]]];
      [apply (I _ 6%nat) in M|apply (I _ 8%nat) in M|apply (I _ 10%nat) in M|apply (I _ 14%nat) in M]; try (simpl; field); try lia; subst i; try congruence;
      unfold rnth in Ea, Ea0; simpl in Ea, Ea0; lra.
Qed.
Lemma ex_cov h k : In h [1; 2] -> In k [2; 3] -> covered 1 500 0 (exT1 h k) /\ covered 1 500 0 (exT2 h k) /\ covered 1 500 0 (exT3 h k).
Proof.
  intros Ih Ik. destruct (ex_sed h k ltac:(destruct Ik as [<-|[<-|[]]]; lra)) as (-> & -> & ->).
  unfold covered. change (500 - 1)%nat with 499%nat. rewrite (INR_IZR_INZ 499). simpl (IZR (Z.of_nat 499)).
  destruct Ih as [<-|[<-|[]]]; destruct Ik as [<-|[<-|[]]]; lra.
Qed.
Lemma ex_res h k : In h [1; 2] -> In k [2; 3] -> (h, k) <> (1, 2) -> resolved 1 1 0 1 2 h k.
Proof.
  intros Ih Ik Ne. right. rewrite (ex_qs k), (ex_qs 2) by (destruct Ik as [<-|[<-|[]]]; lra).
  destruct Ih as [<-|[<-|[]]]; destruct Ik as [<-|[<-|[]]]; [congruence| | |]; rewrite Rabs_right; lra.
Qed.
Lemma ex_pyplot : draws (@pyplot RN) [2; 3] [1; 2].
Proof. apply (pyplot_draws_R [2; 3] [1; 2] 1 2 2 3); try (simpl; auto; fail); lra. Qed.
Lemma ex_axis_len : length (@uniform_axis RN 1 500 0) = 500%nat.
Proof. unfold uniform_axis. rewrite map_length, seq_length. reflexivity. Qed.
Lemma ex_run data : length data = 500%nat -> exists o, ResonanceFiltSynth data (@uniform_axis RN 1 500 0) = Ok o /\ run_of data 1 (@uniform_axis RN 1 500 0) o.
Proof.
  intro L. assert (N0 : nth_error (@uniform_axis RN 1 500 0) 0 = Some (1 * INR 0 - 0)) by (apply taxis_R_nth; lia).
  assert (N1 : nth_error (@uniform_axis RN 1 500 0) 1 = Some (1 * INR 1 - 0)) by (apply taxis_R_nth; lia).
  destruct (C24_ResonanceFiltSynth_returns data _ _ _ N0 N1) as [o E]; [simpl; lra|intros ->; discriminate|].
  exists o. split; [exact E|]. right. split; [exact E|]. exists (1 * INR 0 - 0)%R, (1 * INR 1 - 0)%R. repeat split; try assumption. simpl. ring.
Qed.
Lemma ex_searched data o : length data = 500%nat -> run_of data 1 (@uniform_axis RN 1 500 0) o -> exists r,
  @hkYu RN (@pyplot RN) (fl_filtered o) (fl_time o) (fl_tlag o) NpF 0 PyF [1; 2] [2; 3] (Some 1) (Some 1) (Some 1) (Some 1) (Some 1) (Some 1) = Ok r.
Proof.
  intros L Ru. destruct (run_of_facts _ _ _ o Ru) as (L' & r' & _ & _ & _ & Etime & _).
  destruct (C24_two_tap _ _ _ o Ru) as (_ & _ & _ & _ & Lf & _).
  eapply (drawn_R (@pyplot RN) [2; 3] [1; 2] _ yr_stk ex_pyplot).
  eapply (C77_hkYu_completes RN (@pyplot RN) (fl_filtered o) (fl_time o) (fl_tlag o) NpF 0 PyF [1; 2] [2; 3] (Some 1) (Some 1) 1 1 1 1); try discriminate.
  - rewrite Etime. intro Q. apply (f_equal (@length R)) in Q. change (length (@uniform_axis RN 1%R 500 0%R) = 0%nat) in Q. rewrite ex_axis_len in Q. discriminate.
  - rewrite Etime. change (length (@uniform_axis RN 1%R 500 0%R) <= length (fl_filtered o))%nat. rewrite ex_axis_len, Lf, L. apply le_n.
  - cbn [dflt]. simpl. unfold Reqb. destruct (Req_EM_T 1 0) as [C|]; [lra|reflexivity].
Qed.
Lemma ex_mean : rsum (length ex_record) (fun i => Rabs (rnth ex_record i)) = 6.
Proof.
  rewrite ex_rec_len, (rsum_pad 9) by (try lia; intros j Hj; rewrite (ex_rec_0 j) by lia; apply Rabs_R0).
  rewrite (rsum_ext 9 _ (fun j => Rabs (rnth [0; 1; -1; -1; 0; 2; -1; 0; 0] j))) by (intros; rewrite ex_rec_nth; reflexivity).
  unfold rnth. simpl. rewrite ?Rabs_R0, ?Rabs_R1. rewrite (Rabs_left (-1)) by lra. rewrite (Rabs_right 2) by lra. ring.
Qed.
Lemma ex_large j : (j < length ex_record)%nat -> Rabs (rnth ex_record j) <= 2.
Proof.
  intros _. destruct (Nat.le_gt_cases 9 j) as [H|H]; [rewrite ex_rec_0 by lia; rewrite Rabs_R0; lra|].
  rewrite ex_rec_nth. apply Rabs_le. do 9 (destruct j as [|j]; [unfold rnth; cbn; lra|]). lia.
Qed.
Lemma ex_late j : (length ex_record - 2 <= j < length ex_record)%nat -> Rabs (rnth ex_record j) <= 0.
Proof. rewrite ex_rec_len. intro Hj. rewrite ex_rec_0 by lia. rewrite Rabs_R0. lra. Qed.

(** All hypotheses of [C141_recovers] hold. *)
Theorem C141_example : exists o r,
  ResonanceFiltSynth ex_record (@uniform_axis RN 1 500 0) = Ok o /\
  run_of ex_record 1 (@uniform_axis RN 1 500 0) o /\ ~ straight ex_record /\ reverberates 2 (3 / 8) ex_direct ex_record /\
  fl_tlag o = INR 2 * 1 /\ fl_r o = 3 / 8 /\
  @hkYu RN (@pyplot RN) (fl_filtered o) (fl_time o) (fl_tlag o) NpF 0 PyF [1; 2] [2; 3] (Some 1) (Some 1) (Some 1) (Some 1) (Some 1) (Some 1) = Ok r /\
  exists v, nth_error (yr_stk r) (yr_best r) = Some (@mkRow RN 1 2 v).
Proof.
  destruct (ex_run ex_record ex_rec_len) as (o & E & Ru). destruct (ex_filter _ o Ru) as (Et & Er).
  destruct (ex_searched ex_record o ex_rec_len Ru) as (r & Er'). exists o, r.
  split; [exact E|]. split; [exact Ru|]. split; [exact ex_not_straight|]. split; [exact ex_reverberates|].
  split; [exact Et|]. split; [exact Er|]. split; [exact Er'|].
  assert (Rem : Rabs (fl_r o - 3 / 8) * 2 + 21 * rsum (length ex_record) (fun i => Rabs (rnth ex_record i)) / INR (length ex_record) + 0 = 126 / 500).
  { rewrite Er, ex_mean, ex_rec_len. replace (3 / 8 - 3 / 8) with 0 by ring. rewrite Rabs_R0. rewrite INR_IZR_INZ. simpl. field. }
  refine (C141_recovers 1 500 0 ltac:(lra) ltac:(lia) (@pyplot RN) ex_record ex_direct 2 (3 / 8) 2 0 o NpF 0 PyF [1; 2] [2; 3] 1 1 1 1 1 1 r 1 2
    Ru ex_not_straight ex_reverberates Et _ ex_large ex_late Er' _ _ _ _ _ _ _ _ _ _ ex_cov ex_res); try lra.
  - rewrite ex_rec_len. lia.
  - now left.
  - now left.
  - intros k [<-|[<-|[]]]; lra.
  - split; lra.
  - rewrite Rem. apply ex_clear. lra.
Qed.
