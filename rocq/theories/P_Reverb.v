(** * P_Reverb: resonance filter properties (C23-C28, C57). *)

From Coq Require Import Reals Lra.
From Verif Require Import Base Num NumPy Spec HkModel HkReal Cplx DFT SpecSignal ReverbModel ReverbProofs ReverbProofs2.
Local Open Scope R_scope.

Lemma detrend_ls d : ls_residual d (detrend d).
Proof.
  split; [apply detrend_length|]. split; [|split; [apply detrend_sum|apply detrend_moment]].
  exists (rmean d - slope d * centre (length d)), (slope d). intros j Hj. rewrite detrend_nth by exact Hj. ring.
Qed.

(** The least-squares residual is unique. *)
Lemma ls_residual_unique d D D' : ls_residual d D -> ls_residual d D' -> D = D'.
Proof.
  intros (L1&(a&b&H1)&S1&M1) (L2&(a'&b'&H2)&S2&M2). set (n := length d) in *.
  assert (E : rsum n (fun j => (rnth D j - rnth D' j) * (rnth D j - rnth D' j)) = 0).
  { rewrite (rsum_ext n _ (fun j => (a' - a) * (rnth D j + -1 * rnth D' j) + (b' - b) * (INR j * rnth D j + -1 * (INR j * rnth D' j)))).
    2:{ intros j Hj. assert (X : rnth D j - rnth D' j = (a' - a) + (b' - b) * INR j) by (rewrite H1, H2 by exact Hj; ring).
        rewrite X at 1. ring. }
    rewrite rsum_add, !rsum_scale, !rsum_add, !rsum_scale, S1, S2, M1, M2. ring. }
  apply rlist_ext; [congruence|]. rewrite L1. intros j Hj.
  pose proof (rsum_zero_all n _ (fun j _ => Rle_0_sqr (rnth D j - rnth D' j)) E j Hj) as Z.
  apply Rmult_integral in Z. lra.
Qed.

Lemma corr_acorr D k : (k <= length D)%nat -> corr_at D (Z.of_nat k) = acorr D k.
Proof.
  intro Hk. unfold corr_at, acorr. replace (length D) with ((length D - k) + k)%nat at 1 by lia.
  rewrite rsum_split. rewrite (rsum_ext k _ (fun _ => 0)).
  - rewrite rsum_0, Rplus_0_r. apply rsum_ext. intros j Hj.
    destruct (Z.leb_spec 0 (Z.of_nat j + Z.of_nat k)); [|lia].
    replace (Z.to_nat (Z.of_nat j + Z.of_nat k)) with (j + k)%nat by lia. reflexivity.
  - intros j Hj. destruct (Z.leb_spec 0 (Z.of_nat (length D - k + j) + Z.of_nat k)); [|lia].
    rewrite rnth_over by lia. ring.
Qed.

Lemma energy_acorr D : energy D = acorr D 0.
Proof. rewrite <- corr_0. apply (corr_acorr D 0). lia. Qed.

Lemma energy_zero D : energy D = 0 <-> all_zero D.
Proof.
  split; intro H.
  - intro j. destruct (Nat.lt_ge_cases j (length D)) as [Hj|Hj]; [|apply rnth_over; exact Hj].
    pose proof (rsum_zero_all (length D) _ (fun j _ => Rle_0_sqr (rnth D j)) H j Hj) as Z.
    apply Rmult_integral in Z. lra.
  - unfold energy. rewrite (rsum_ext _ _ (fun _ => 0)) by (intros j _; rewrite H; ring). apply rsum_0.
Qed.

Lemma autoc_nth D k : (k < length D)%nat -> rnth (autoc_of D) k = acorr D k / acorr D 0.
Proof.
  intro Hk. unfold autoc_of, rnth at 1. rewrite nth_map_seq by exact Hk.
  rewrite corr_acorr by lia. rewrite energy_acorr. reflexivity.
Qed.

Lemma plateau_trough x a b : @plateau RN (map Ropp x) a b <-> trough x a b.
Proof.
  unfold plateau, trough. rewrite map_length.
  assert (A : forall i, (i < length x)%nat -> @at_ RN (map Ropp x) i = - rnth x i).
  { intros i Hi. unfold at_. change (@nofZ RN 0) with 0. apply (rnth_map Ropp x i Hi). }
  cbn [nltb neqb RN]. split.
  - intros (H1&H2&H3&H4&H5&H6). rewrite !A in H4, H6 by lia. apply Rltb_true in H4, H6.
    split; [lia|]. split; [lia|]. split; [lra|]. split; [|lra].
    intros i Hi. destruct (Nat.eq_dec i a) as [->|]; [reflexivity|].
    specialize (H5 i ltac:(lia) ltac:(lia)). rewrite !A in H5 by lia. apply Reqb_true in H5. lra.
  - intros (H1&H2&H3&H4&H5). repeat split; try lia.
    + rewrite !A by lia. apply Rltb_true. lra.
    + intros i Hi1 Hi2. rewrite !A by lia. apply Reqb_true. rewrite (H4 i) by lia. reflexivity.
    + rewrite !A by lia. apply Rltb_true. lra.
Qed.

Lemma first_peak_spec D : match first_peak D with
  | None => forall a b, ~ trough (autoc_of D) a b
  | Some L => exists a b, trough (autoc_of D) a b /\ L = ((a + b) / 2)%nat /\
                (forall a' b', trough (autoc_of D) a' b' -> (a <= a')%nat)
  end.
Proof.
  unfold first_peak. pose proof (find_peaks_spec RN_laws (map Ropp (autoc_of D))) as H.
  destruct (@find_peaks RN (map Ropp (autoc_of D))) as [|p ps].
  - intros a b T. apply (H a b). apply plateau_trough. exact T.
  - destruct H as (a&b&P&E&M). exists a, b. split; [apply plateau_trough; exact P|]. split; [exact E|].
    intros a' b' T. apply (M a' b'). apply plateau_trough. exact T.
Qed.

(** ** What a call returns, for both entry points *)

(** [run_of data delta time o]: [o] is the dictionary returned for the (stacked)
    trace [data], sampling interval [delta] and axis [time]. *)
Definition run_of (data : list R) (delta : R) (time : list R) (o : fltout) : Prop :=
  (exists stackO rf pre tr0 st0 SR, ResonanceFilt stackO rf pre = Ok o /\
     nth_error rf 0 = Some tr0 /\ stackO rf = Ok (st0 :: SR) /\ data = tr_data st0 /\ delta = tr_delta tr0 /\
     time = @uniform_axis RN (tr_delta tr0) (length (tr_data tr0)) pre)
  \/
  (ResonanceFiltSynth data time = Ok o /\
   exists t0 t1, nth_error time 0 = Some t0 /\ nth_error time 1 = Some t1 /\ delta = t1 - t0).

Lemma run_of_core data delta time o : run_of data delta time o ->
  delta <> 0 /\ data <> [] /\ rcore data delta time = Ok o.
Proof.
  intros [H|H].
  - destruct H as (stackO&rf&pre&tr0&st0&SR&E&H0&HS&->&->&->).
    apply ResonanceFilt_Ok_inv in E. destruct E as (tr0'&st0'&SR'&H0'&HS'&Hd&Hn&E).
    rewrite H0 in H0'. injection H0' as <-. rewrite HS in HS'. injection HS' as <- <-. auto.
  - destruct H as (E&t0&t1&H0&H1&->). apply ResonanceFiltSynth_Ok_inv in E.
    destruct E as (t0'&t1'&H0'&H1'&Hd&Hn&E). rewrite H0 in H0'. injection H0' as <-.
    rewrite H1 in H1'. injection H1' as <-. auto.
Qed.

Lemma run_of_facts data delta time o : run_of data delta time o ->
  let n := length data in let D := detrend data in
  exists L r, data <> [] /\ delta <> 0 /\
    fl_rf o = data /\ fl_time o = time /\ fl_delta o = delta /\
    fl_r o = r /\ fl_tlag o = INR L * delta /\
    fl_res o = map (fun k => C1 + RtoC r * W n (- (Z.of_nat L * Z.of_nat k)))%C (seq 0 n) /\
    fl_filtered o = map (fun j => rnth D j + r * rnth D (circ n j (Z.of_nat L))) (seq 0 n) /\
    ((energy D = 0 /\ fl_autoc o = None /\ r = 0 /\ L = 0%nat) \/
     (energy D <> 0 /\ fl_autoc o = Some (autoc_of D) /\
      ((first_peak D = None /\ r = 0 /\ L = 0%nat) \/
       (first_peak D = Some L /\ (L < n)%nat /\ r = Rabs (rnth (autoc_of D) L))))).
Proof.
  intro H. apply run_of_core in H. destruct H as (Hd&Hn&E).
  destruct (rcore_run data delta time Hd Hn) as (L&r&o'&E'&P). rewrite E in E'. injection E' as <-.
  exists L, r. repeat split; try assumption; apply P.
Qed.

(** A call returns for every non-empty stacked trace and non-zero sampling interval
    (so the theorems below are about all such inputs). *)
Theorem C24_ResonanceFilt_returns stackO rf pre tr0 st0 SR :
  nth_error rf 0 = Some tr0 -> stackO rf = Ok (st0 :: SR) -> tr_delta tr0 <> 0 -> tr_data st0 <> [] ->
  exists o, ResonanceFilt stackO rf pre = Ok o.
Proof.
  intros H0 HS Hd Hn. rewrite (ResonanceFilt_core stackO rf pre tr0 st0 SR) by assumption.
  destruct (rcore_run (tr_data st0) (tr_delta tr0) (@taxis RN (tr_delta tr0) (length (tr_data tr0)) pre) Hd Hn) as (L&r&o&E&_).
  eauto.
Qed.
Theorem C24_ResonanceFiltSynth_returns data time t0 t1 :
  nth_error time 0 = Some t0 -> nth_error time 1 = Some t1 -> t1 <> t0 -> data <> [] ->
  exists o, ResonanceFiltSynth data time = Ok o.
Proof.
  intros H0 H1 Hd Hn. assert (Hd' : t1 - t0 <> 0) by lra.
  rewrite (ResonanceFiltSynth_core data time t0 t1) by assumption.
  destruct (rcore_run data (t1 - t0) time Hd' Hn) as (L&r&o&E&_). eauto.
Qed.

(** ** C23 *)

(** The frequency index vector has one entry per FFT bin, congruent to the bin. *)
Theorem C23_frequency_vector n : (1 <= n)%nat ->
  length (freq_index n) = n /\
  forall k, (k < n)%nat -> (nth k (freq_index n) 0 mod Z.of_nat n = Z.of_nat k)%Z.
Proof.
  intro Hn. split; [apply freq_index_length; exact Hn|]. intros k Hk.
  destruct (freq_index_nth n k Hk) as [q ->]. rewrite Z.mod_add by lia. apply Z.mod_small. lia.
Qed.

(** Observable form: the returned filter has [n] entries, entry [k] being the
    response of a delay by [tlag] at the frequency of FFT bin [k]. *)
Theorem C23_response data delta time o : run_of data delta time o ->
  exists L, fl_tlag o = INR L * delta /\ length (fl_res o) = length data /\
    forall k, (k < length data)%nat ->
      nth_error (fl_res o) k = Some (C1 + RtoC (fl_r o) * W (length data) (- (Z.of_nat L * Z.of_nat k)))%C.
Proof.
  intro H. apply run_of_facts in H. cbn zeta in H.
  destruct H as (L&r&_&_&_&_&_&Hr&Ht&Hres&_&_). exists L. split; [exact Ht|].
  rewrite Hres, Hr. split; [rewrite map_length, seq_length; reflexivity|].
  intros k Hk. rewrite nth_error_map_seq by exact Hk. reflexivity.
Qed.

(** ** C24 *)
Theorem C24_two_tap data delta time o : run_of data delta time o ->
  exists D L, ls_residual data D /\ fl_tlag o = INR L * delta /\
    length (fl_filtered o) = length data /\
    forall j, (j < length data)%nat ->
      nth_error (fl_filtered o) j = Some (rnth D j + fl_r o * rnth D (circ (length data) j (Z.of_nat L))).
Proof.
  intro H. apply run_of_facts in H. cbn zeta in H.
  destruct H as (L&r&_&_&_&_&_&Hr&Ht&_&Hf&_). exists (detrend data), L.
  split; [apply detrend_ls|]. split; [exact Ht|]. rewrite Hf, Hr.
  split; [rewrite map_length, seq_length; reflexivity|].
  intros j Hj. rewrite nth_error_map_seq by exact Hj. reflexivity.
Qed.

Lemma nth_repeat_C (a d : C) n k : (k < n)%nat -> nth k (repeat a n) d = a.
Proof. revert k; induction n as [|n IH]; intros [|k] H; simpl; try lia; [reflexivity|apply IH; lia]. Qed.

(** ** C25 *)
Theorem C25_no_trough data delta time o : run_of data delta time o ->
  match fl_autoc o with None => True | Some ac => forall a b, ~ trough ac a b end ->
  fl_r o = 0 /\ fl_tlag o = 0 /\ fl_res o = repeat C1 (length data) /\ ls_residual data (fl_filtered o).
Proof.
  intros H Hno. apply run_of_facts in H. cbn zeta in H.
  destruct H as (L&r&_&_&_&_&_&Hr&Ht&Hres&Hf&Hc).
  assert (HrL : r = 0 /\ L = 0%nat).
  { destruct Hc as [(_&_&A&B)|(_&Ha&Hc)]; [auto|]. rewrite Ha in Hno.
    destruct Hc as [(_&A&B)|(Hp&_&_)]; [auto|]. exfalso.
    pose proof (first_peak_spec (detrend data)) as S. rewrite Hp in S. destruct S as (a&b&T&_). exact (Hno a b T). }
  destruct HrL as [-> ->]. change (INR 0) with 0 in Ht. rewrite Rmult_0_l in Ht.
  split; [exact Hr|]. split; [exact Ht|]. split.
  - rewrite Hres. apply clist_ext; [rewrite map_length, seq_length, repeat_length; reflexivity|].
    rewrite map_length, seq_length. intros k Hk. unfold cnth. rewrite nth_map_seq by exact Hk.
    rewrite nth_repeat_C by exact Hk. change (RtoC 0) with C0. ring.
  - replace (fl_filtered o) with (detrend data); [apply detrend_ls|].
    rewrite Hf. apply rlist_ext; [rewrite map_length, seq_length; apply detrend_length|].
    rewrite detrend_length. intros j Hj. unfold rnth at 2. rewrite nth_map_seq by exact Hj. ring.
Qed.

(** ** C26 *)
Theorem C26_first_trough data delta time o : run_of data delta time o ->
  exists D, ls_residual data D /\
  match fl_autoc o with
  | None => all_zero D
  | Some ac =>
      (length ac = length data /\ (forall k, (k < length data)%nat -> rnth ac k = acorr D k / acorr D 0)) /\
      ~ all_zero D /\ rnth ac 0 = 1 /\ (forall k, - 1 <= rnth ac k <= 1) /\
      ((exists a b, trough ac a b) ->
       exists a b, trough ac a b /\ (forall a' b', trough ac a' b' -> (a <= a')%nat) /\
         let L := ((a + b) / 2)%nat in
         (1 <= L <= length data - 2)%nat /\ fl_tlag o = INR L * delta /\
         fl_r o = Rabs (rnth ac L) /\ 0 <= fl_r o <= 1)
  end.
Proof.
  intro H. apply run_of_facts in H. cbn zeta in H.
  destruct H as (L&r&Hne&_&_&_&_&Hr&Ht&_&_&Hc).
  set (D := detrend data) in *. exists D. split; [apply detrend_ls|].
  assert (HD : length D = length data) by apply detrend_length.
  assert (Hn : (1 <= length data)%nat) by (destruct data; [congruence|simpl; lia]).
  destruct Hc as [(E0&Ha&_&_)|(E0&Ha&Hc)]; rewrite Ha.
  { apply energy_zero. exact E0. }
  assert (Hpos : 0 < energy D).
  { pose proof (rsum_nonneg (length D) (fun j => rnth D j * rnth D j) ltac:(intros; apply Rle_0_sqr)) as P.
    unfold energy in *. lra. }
  assert (HL : length (autoc_of D) = length data) by (unfold autoc_of; rewrite map_length, seq_length; exact HD).
  assert (Hb : forall k, - 1 <= rnth (autoc_of D) k <= 1).
  { intro k. destruct (Nat.lt_ge_cases k (length D)) as [Hk|Hk].
    - assert (X : rnth (autoc_of D) k = corr_at D (Z.of_nat k) / energy D)
        by (unfold autoc_of, rnth; rewrite nth_map_seq by exact Hk; reflexivity).
      rewrite X.
      pose proof (corr_bound D (Z.of_nat k)) as [B1 B2]. split.
      + apply (Rmult_le_reg_r (energy D)); [exact Hpos|]. unfold Rdiv. rewrite Rmult_assoc, Rinv_l by lra. lra.
      + apply (Rmult_le_reg_r (energy D)); [exact Hpos|]. unfold Rdiv. rewrite Rmult_assoc, Rinv_l by lra. lra.
    - rewrite rnth_over by lia. lra. }
  split; [split; [exact HL|]; intros k Hk; apply autoc_nth; lia|].
  split; [intro Z; apply E0; apply energy_zero; exact Z|].
  split.
  { rewrite autoc_nth by lia. rewrite <- energy_acorr. field. lra. }
  split; [exact Hb|]. intros [a0 [b0 T0]].
  pose proof (first_peak_spec D) as S.
  destruct Hc as [(Hp&_&_)|(Hp&Hlt&Hrr)]; rewrite Hp in S; [exfalso; exact (S a0 b0 T0)|].
  destruct S as (a&b&T&EL&M). exists a, b. split; [exact T|]. split; [exact M|]. cbn zeta. rewrite <- EL.
  destruct T as ((T1&T2)&T3&_). rewrite HL in T3.
  split. { rewrite EL. split; [apply Nat.div_le_lower_bound; lia|]. apply Nat.div_le_upper_bound; lia. }
  split; [exact Ht|]. split; [congruence|]. rewrite Hr, Hrr. split; [apply Rabs_pos|].
  apply Rabs_le. apply Hb.
Qed.

(** ** C27 *)
(** The filter sees only the least-squares residual of the trace: adding any straight
    line changes nothing but the stored input. *)
Theorem C27_line_invariant data data' delta time time' o o' a b :
  run_of data delta time o -> run_of data' delta time' o' ->
  length data' = length data ->
  (forall j, (j < length data)%nat -> rnth data' j = rnth data j + (a + b * INR j)) ->
  fl_autoc o' = fl_autoc o /\ fl_r o' = fl_r o /\ fl_tlag o' = fl_tlag o /\
  fl_res o' = fl_res o /\ fl_filtered o' = fl_filtered o.
Proof.
  intros H H' HL Hline. apply run_of_core in H, H'. destruct H as (Hd&Hn&E), H' as (_&Hn'&E').
  assert (HD : detrend data' = detrend data).
  { apply (detrend_affine data data' a b HL). intros j Hj. rewrite Hline by exact Hj. ring. }
  unfold rcore in E, E'. rewrite detrend_demean in E, E'. rewrite HD, HL in E'. cbn zeta in E, E'.
  destruct (rmax (correlate_full (detrend data))) as [mx|]; [|discriminate]. cbn [bind] in E, E'.
  match type of E with bind ?x _ = _ => destruct x as [[r0 tl]|]; [|discriminate] end. cbn [bind] in E, E'.
  match type of E with bind ?x _ = _ => destruct x as [pr|]; [|discriminate] end. cbn [bind] in E, E'.
  injection E as <-. injection E' as <-. cbn. auto.
Qed.

Theorem C27_zero_mean data delta time o : run_of data delta time o ->
  exists D, ls_residual data D /\ rsum (length data) (rnth D) = 0 /\
    rsum (length data) (rnth (fl_filtered o)) = 0.
Proof.
  intro H. apply run_of_facts in H. cbn zeta in H.
  destruct H as (L&r&Hne&_&_&_&_&Hr&Ht&_&Hf&_). exists (detrend data). split; [apply detrend_ls|].
  split; [apply detrend_sum|].
  assert (Hn : (0 < length data)%nat) by (destruct data; [congruence|simpl; lia]).
  rewrite Hf. rewrite (rsum_ext _ _ (fun j => rnth (detrend data) j + r * rnth (detrend data) (circ (length data) j (Z.of_nat L)))).
  2:{ intros j Hj. unfold rnth at 1. rewrite nth_map_seq by exact Hj. reflexivity. }
  rewrite rsum_add, rsum_scale, detrend_sum.
  set (n := length data) in *. set (s := (n - L mod n)%nat).
  assert (Hs : (L mod n < n)%nat) by (apply Nat.mod_upper_bound; lia).
  rewrite (rsum_ext n (fun j => rnth (detrend data) (circ n j (Z.of_nat L))) (fun j => rnth (detrend data) ((j + s) mod n)%nat)).
  - rewrite (rsum_rot n s) by (unfold s; lia). unfold n at 1. rewrite detrend_sum. ring.
  - intros j Hj. f_equal. unfold circ, s.
    pose proof (Nat.div_mod L n ltac:(lia)) as DM.
    replace (Z.of_nat j - Z.of_nat L)%Z with (Z.of_nat (j + (n - L mod n)) + (- Z.of_nat (L / n) - 1) * Z.of_nat n)%Z.
    + rewrite Z.mod_add by lia. rewrite <- Nat2Z.inj_mod. apply Nat2Z.id.
    + assert (Z.of_nat L = Z.of_nat n * Z.of_nat (L / n) + Z.of_nat (L mod n))%Z by lia. nia.
Qed.

(** ** C28 *)
Theorem C28_stream_synth stackO rf pre tr0 st0 SR :
  nth_error rf 0 = Some tr0 -> stackO rf = Ok (st0 :: SR) ->
  tr_delta tr0 <> 0 -> (2 <= length (tr_data tr0))%nat -> tr_data st0 <> [] ->
  ResonanceFilt stackO rf pre
  = ResonanceFiltSynth (tr_data st0) (@uniform_axis RN (tr_delta tr0) (length (tr_data tr0)) pre).
Proof.
  intros H0 HS Hd Hl Hn. rewrite (ResonanceFilt_core stackO rf pre tr0 st0 SR) by assumption.
  assert (T0 : nth_error (@uniform_axis RN (tr_delta tr0) (length (tr_data tr0)) pre) 0 = Some (tr_delta tr0 * INR 0 - pre))
    by (apply taxis_R_nth; lia).
  assert (T1 : nth_error (@uniform_axis RN (tr_delta tr0) (length (tr_data tr0)) pre) 1 = Some (tr_delta tr0 * INR 1 - pre))
    by (apply taxis_R_nth; lia).
  assert (Ed : tr_delta tr0 * INR 1 - pre - (tr_delta tr0 * INR 0 - pre) = tr_delta tr0) by (simpl; ring).
  assert (Ed' : tr_delta tr0 * INR 1 - pre - (tr_delta tr0 * INR 0 - pre) <> 0) by (rewrite Ed; exact Hd).
  rewrite (ResonanceFiltSynth_core _ _ _ _ T0 T1 Ed' Hn). rewrite Ed. reflexivity.
Qed.

(** ** C57: the resonance filter does not depend on the amplitude unit *)
Lemma acorr_scale D c k : acorr (map (Rmult c) D) k = c * c * acorr D k.
Proof.
  unfold acorr. rewrite map_length. rewrite <- rsum_scale. apply rsum_ext. intros j Hj.
  rewrite !rnth_map by lia. ring.
Qed.
Lemma autoc_scale D c : c <> 0 -> energy D <> 0 -> autoc_of (map (Rmult c) D) = autoc_of D.
Proof.
  intros Hc HE. apply rlist_ext; [unfold autoc_of; rewrite ?map_length, ?seq_length, ?map_length; reflexivity|].
  intros k Hk. unfold autoc_of in Hk. rewrite ?map_length, ?seq_length, ?map_length in Hk.
  rewrite !autoc_nth by (rewrite ?map_length; exact Hk). rewrite !acorr_scale.
  rewrite energy_acorr in HE. field. split; assumption.
Qed.
Lemma energy_scale D c : energy (map (Rmult c) D) = c * c * energy D.
Proof. rewrite !energy_acorr. apply acorr_scale. Qed.

Theorem C57_unit_free data delta time time' o o' c : c <> 0 ->
  run_of data delta time o -> run_of (map (Rmult c) data) delta time' o' ->
  fl_autoc o' = fl_autoc o /\ fl_r o' = fl_r o /\ fl_tlag o' = fl_tlag o /\ fl_res o' = fl_res o /\
  fl_filtered o' = map (Rmult c) (fl_filtered o).
Proof.
  intros Hc H H'. apply run_of_facts in H, H'. cbn zeta in H, H'.
  destruct H as (L&r&Hne&_&_&_&_&Hr&Ht&Hres&Hf&Hcase).
  destruct H' as (L'&r'&_&_&_&_&_&Hr'&Ht'&Hres'&Hf'&Hcase').
  rewrite detrend_scale in *. rewrite energy_scale in Hcase'. rewrite map_length in *.
  assert (K : fl_autoc o' = fl_autoc o /\ r' = r /\ L' = L).
  { destruct Hcase as [(E&A&B&C)|(E&A&B)].
    - destruct Hcase' as [(E'&A'&B'&C')|(E'&_)]; [repeat split; congruence|]. exfalso. apply E'. rewrite E. ring.
    - destruct Hcase' as [(E'&_)|(E'&A'&B')].
      { exfalso. apply Rmult_integral in E'. destruct E' as [E'|E']; [|contradiction]. apply Rmult_integral in E'. tauto. }
      unfold first_peak in B'. rewrite (autoc_scale _ _ Hc E) in *.
      split; [congruence|].
      destruct B as [(P&Q&S)|(P&Q&S)], B' as [(P'&Q'&S')|(P'&Q'&S')]; unfold first_peak in P; try congruence.
      + split; congruence.
      + rewrite P in P'. injection P' as <-. split; congruence. }
  destruct K as (K1&->&->). split; [exact K1|]. split; [congruence|]. split; [congruence|].
  split; [congruence|]. rewrite Hf, Hf'. rewrite map_map. apply map_ext_in. intros j Hj.
  apply in_seq in Hj. assert (Hn : (0 < length data)%nat) by lia.
  rewrite !rnth_map by (rewrite detrend_length; try apply circ_lt; lia). ring.
Qed.

(** ** A concrete run meets the hypotheses: the trace 0, 3, 0, 0 sampled at 1/2 s. *)
Example C26_example : exists o, run_of [0; 3; 0; 0] (1 / 2) [0; 1 / 2] o.
Proof.
  destruct (C24_ResonanceFiltSynth_returns [0; 3; 0; 0] [0; 1 / 2] 0 (1 / 2) eq_refl eq_refl ltac:(lra) ltac:(discriminate)) as [o E].
  exists o. right. split; [exact E|]. exists 0, (1 / 2). repeat split. lra.
Qed.
