(** * HkReal: travel times and sampling in exact arithmetic. *)

From Coq Require Import Reals Lra Psatz.
From Verif Require Import Base Num NumPy Spec HkModel HkProofs.
Local Open Scope R_scope.

Lemma Rltb_0_false x : 0 <= x -> Rltb x 0 = false.
Proof. intro H. apply Rltb_false. exact H. Qed.

Lemma pyinv_R (v : R) : v <> 0 -> @pyinv RN v = Ok (1 / v).
Proof.
  intro H. unfold pyinv. simpl. unfold Reqb. destruct (Req_EM_T v 0); [contradiction|reflexivity].
Qed.

Lemma proot_R k (x : R) : 0 <= x -> @proot RN k x = TR (sqrt x).
Proof. intro H. unfold proot. simpl. rewrite Rltb_0_false by assumption. destruct k; reflexivity. Qed.

Lemma sq_pow2 (x : R) : x * x = x ^ 2. Proof. ring. Qed.

Lemma ok3 (a b c a' b' c' : R) : a = a' -> b = b' -> c = c' ->
  @Ok (tval RN * tval RN * tval RN) (TR a, TR b, TR c) = Ok (TR a', TR b', TR c').
Proof. intros -> -> ->. reflexivity. Qed.

Lemma hk_times_R Vp p k (H K : R) : precritical Vp p ->
  @hk_times RN Vp p k H K = Ok (TR (t_Ps Vp p H K), TR (t_PpPs Vp p H K), TR (t_PsPs Vp p H K)).
Proof.
  intros [HV Hp]. unfold hk_times. rewrite pyinv_R by lra. cbn [bind].
  rewrite proot_R by (simpl in *; lra). simpl.
  unfold t_Ps, t_PpPs, t_PsPs, qs, qp. rewrite !sq_pow2.
  apply ok3; ring.
Qed.

Lemma hkSynth_times_eq {N : Num} Vp p k (H K : N) : hkSynth_times Vp p k H K = hk_times Vp p k H K.
Proof. reflexivity. Qed.
Lemma hkSeqSed_times_eq {N : Num} Vp p k (H K : N) : hkSeqSed_times Vp p k H K = hk_times Vp p k H K.
Proof. reflexivity. Qed.
Lemma hkSeqSynthSed_times_eq {N : Num} Vp p k (H K : N) :
  hkSeqSynthSed_times Vp p k H K = hk_times Vp p k H K.
Proof. reflexivity. Qed.
Lemma hkSeqSynthMoho_times_eq {N : Num} H1 K1 Vs Vm p k (H K : N) :
  hkSeqSynthMoho_times H1 K1 Vs Vm p k H K = hkSeqMoho_times H1 K1 Vs Vm p k H K.
Proof. reflexivity. Qed.

Lemma hkSeqMoho_times_R (H1 K1 V1 V2 p : R) k (H K : R) : precritical V1 p -> precritical V2 p ->
  @hkSeqMoho_times RN H1 K1 V1 (Some V2) p k H K
  = Ok (TR (t2_Ps V1 H1 K1 V2 p H K), TR (t2_PpPs V1 H1 K1 V2 p H K), TR (t2_PsPs V1 H1 K1 V2 p H K)).
Proof.
  intros [HV1 Hp1] [HV2 Hp2]. unfold hkSeqMoho_times.
  rewrite pyinv_R by lra. cbn [bind need]. rewrite pyinv_R by lra. cbn [bind].
  rewrite !proot_R by (simpl in *; lra). simpl.
  unfold t2_Ps, t2_PpPs, t2_PsPs, t_Ps, t_PpPs, t_PsPs, qs, qp. rewrite !sq_pow2.
  apply ok3; ring.
Qed.

(** ** Analytic facts *)

Lemma qp_lt_qs Vp K p : precritical Vp p -> 1 < K -> qp Vp p < qs Vp K p.
Proof.
  intros [HV Hp] HK. unfold qp, qs. apply sqrt_lt_1_alt. split; [lra|].
  assert (Hi : 0 < / Vp) by (apply Rinv_0_lt_compat; assumption).
  unfold Rdiv. set (i := / Vp) in *.
  assert (0 < (K * K - 1) * (i * i)) by (apply Rmult_lt_0_compat; nra).
  simpl. nra.
Qed.

Lemma qp_nonneg Vp p : 0 <= qp Vp p.
Proof. apply sqrt_pos. Qed.

Lemma qp_pos Vp p : 0 < Vp -> p ^ 2 < (1 / Vp) ^ 2 -> 0 < qp Vp p.
Proof. intros HV Hp. apply sqrt_lt_R0. lra. Qed.

Lemma qs_mono Vp p K K' : precritical Vp p -> 1 <= K -> K < K' -> qs Vp K p < qs Vp K' p.
Proof.
  intros [HV Hp] HK HKK. unfold qs. apply sqrt_lt_1_alt.
  assert (Hi : 0 < / Vp) by (apply Rinv_0_lt_compat; assumption).
  unfold Rdiv in *. set (i := / Vp) in *.
  assert (0 < (K' * K' - K * K) * (i * i)) by (apply Rmult_lt_0_compat; nra).
  assert (0 <= (K * K - 1) * (i * i)) by (apply Rmult_le_pos; nra).
  simpl in *. split; nra.
Qed.

Lemma qs_inj Vp p K K' : precritical Vp p -> 1 <= K -> 1 <= K' -> qs Vp K p = qs Vp K' p -> K = K'.
Proof.
  intros HP HK HK' E. destruct (Rtotal_order K K') as [H|[H|H]]; auto; exfalso.
  - pose proof (qs_mono Vp p K K' HP HK H). lra.
  - pose proof (qs_mono Vp p K' K HP HK' H). lra.
Qed.

Lemma times_order Vp p H K : precritical Vp p -> 1 < K -> 0 < H -> p ^ 2 < (1 / Vp) ^ 2 ->
  0 < t_Ps Vp p H K < t_PpPs Vp p H K /\ t_PpPs Vp p H K < t_PsPs Vp p H K /\
  t_Ps Vp p H K + t_PpPs Vp p H K = t_PsPs Vp p H K.
Proof.
  intros HP HK HH Hs. pose proof (qp_lt_qs Vp K p HP HK) as Hq.
  pose proof (qp_pos Vp p (proj1 HP) Hs) as Hp0. unfold t_Ps, t_PpPs, t_PsPs.
  repeat split; try nra.
Qed.

Lemma times_mono_H Vp p H H' K : precritical Vp p -> 1 < K -> H < H' ->
  t_Ps Vp p H K < t_Ps Vp p H' K /\ t_PpPs Vp p H K < t_PpPs Vp p H' K /\
  t_PsPs Vp p H K < t_PsPs Vp p H' K.
Proof.
  intros HP HK HH. pose proof (qp_lt_qs Vp K p HP HK). pose proof (qp_nonneg Vp p).
  unfold t_Ps, t_PpPs, t_PsPs. repeat split; nra.
Qed.

Lemma times_mono_K Vp p H K K' : precritical Vp p -> 1 <= K -> K < K' -> 0 < H ->
  t_Ps Vp p H K < t_Ps Vp p H K' /\ t_PpPs Vp p H K < t_PpPs Vp p H K' /\
  t_PsPs Vp p H K < t_PsPs Vp p H K'.
Proof.
  intros HP HK HKK HH. pose proof (qs_mono Vp p K K' HP HK HKK).
  unfold t_Ps, t_PpPs, t_PsPs. repeat split; nra.
Qed.

Lemma times_identify Vp p H K H' K' : 0 < Vp -> p ^ 2 < (1 / Vp) ^ 2 ->
  0 < H -> 1 <= K -> 0 < H' -> 1 <= K' ->
  t_Ps Vp p H K = t_Ps Vp p H' K' -> t_PpPs Vp p H K = t_PpPs Vp p H' K' -> H = H' /\ K = K'.
Proof.
  intros HV Hp HH HK HH' HK' E1 E2.
  pose proof (qp_pos Vp p HV Hp) as Hq. unfold t_Ps, t_PpPs in *.
  assert (EH : H = H') by nra. split; [assumption|]. subst H'.
  apply (qs_inj Vp p); auto; [split; lra|]. nra.
Qed.

(** At grazing incidence identifiability is lost. *)
Lemma times_not_identify_grazing Vp p H K K' : 0 < Vp -> p ^ 2 = (1 / Vp) ^ 2 ->
  0 < H -> 1 < K -> 1 < K' ->
  let H' := H * qs Vp K p / qs Vp K' p in
  t_Ps Vp p H K = t_Ps Vp p H' K' /\ t_PpPs Vp p H K = t_PpPs Vp p H' K' /\
  t_PsPs Vp p H K = t_PsPs Vp p H' K'.
Proof.
  intros HV Hp HH HK HK' H'.
  assert (HP : precritical Vp p) by (split; lra).
  assert (Hq : qp Vp p = 0).
  { unfold qp. rewrite Hp. replace ((1 / Vp) ^ 2 - (1 / Vp) ^ 2) with 0 by ring. apply sqrt_0. }
  pose proof (qp_lt_qs Vp K' p HP HK') as H1. rewrite Hq in H1.
  unfold t_Ps, t_PpPs, t_PsPs, H'. rewrite Hq. repeat split; field; lra.
Qed.

(** ** The uniform axis *)

Lemma taxis_R_nth delta l pre i : (i < l)%nat ->
  nth_error (@taxis RN delta l pre) i = Some (delta * INR i - pre).
Proof.
  intro H. unfold taxis. rewrite nth_error_map.
  replace (nth_error (seq 0 l) i) with (Some i).
  - simpl. rewrite <- INR_IZR_INZ. reflexivity.
  - symmetry. rewrite (nth_error_nth' _ 0%nat) by (rewrite seq_length; assumption).
    rewrite seq_nth by assumption. reflexivity.
Qed.

Lemma taxis_length {N : Num} (delta : N) l pre : length (taxis delta l pre) = l.
Proof. unfold taxis. rewrite map_length, seq_length. reflexivity. Qed.

Lemma nearest_R (axis : list R) x i : nearest_first axis x i ->
  exists ti, nth_error axis i = Some ti /\
    (forall j tj, nth_error axis j = Some tj -> Rabs (ti - x) <= Rabs (tj - x)) /\
    (forall j tj, (j < i)%nat -> nth_error axis j = Some tj -> Rabs (ti - x) < Rabs (tj - x)).
Proof.
  intros [ti [Hi [Ha Hs]]]. exists ti. split; [assumption|]. split.
  - intros j tj Hj. apply Rleb_true. exact (Ha j tj Hj).
  - intros j tj Hlt Hj. apply Rltb_true. exact (Hs j tj Hlt Hj).
Qed.

Lemma nearest_R_intro (axis : list R) x i ti : nth_error axis i = Some ti ->
    (forall j tj, nth_error axis j = Some tj -> Rabs (ti - x) <= Rabs (tj - x)) ->
    (forall j tj, (j < i)%nat -> nth_error axis j = Some tj -> Rabs (ti - x) < Rabs (tj - x)) ->
    nearest_first axis x i.
Proof.
  intros Hi Ha Hs. exists ti. split; [assumption|]. split.
  - intros j tj Hj. apply Rleb_true. exact (Ha j tj Hj).
  - intros j tj Hlt Hj. apply Rltb_true. exact (Hs j tj Hlt Hj).
Qed.

Lemma taxis_R_inv delta l pre j tj : nth_error (@taxis RN delta l pre) j = Some tj ->
  (j < l)%nat /\ tj = delta * INR j - pre.
Proof.
  intro H. assert (Hj : (j < l)%nat).
  { rewrite <- (taxis_length (N := RN) delta l pre). apply nth_error_Some. congruence. }
  split; [assumption|]. rewrite taxis_R_nth in H by assumption. congruence.
Qed.

(** Inside the axis: at most half a sample away. *)
Lemma near_half delta l pre x i : 0 < delta -> (1 <= l)%nat ->
  - pre <= x <= delta * INR (l - 1) - pre ->
  nearest_first (@taxis RN delta l pre) x i ->
  Rabs (delta * INR i - pre - x) <= delta / 2.
Proof.
  intros Hd Hl Hx Hn. apply nearest_R in Hn. destruct Hn as [ti [Hi [Ha _]]].
  apply taxis_R_inv in Hi. destruct Hi as [Hil ->].
  set (y := (x + pre) / delta).
  assert (Hy : x = delta * y - pre) by (unfold y; field; lra).
  assert (Hy0 : 0 <= y) by nra.
  assert (Hyl : y <= INR (l - 1)) by nra.
  destruct (archimed y) as [A1 A2].
  set (z := (up y - 1)%Z).
  assert (Hz : IZR z <= y < IZR z + 1) by (unfold z; rewrite minus_IZR; lra).
  assert (Hz0 : (0 <= z)%Z). { apply le_IZR. apply Znot_gt_le in A1 || idtac.
    destruct (Z_lt_le_dec z 0) as [C|C]; [|apply IZR_le; exact C].
    exfalso. assert (z + 1 <= 0)%Z by lia. apply IZR_le in H. rewrite plus_IZR in H. lra. }
  set (j := Z.to_nat z).
  assert (Hj : INR j = IZR z) by (unfold j; rewrite INR_IZR_INZ, Z2Nat.id by assumption; reflexivity).
  assert (Hjl : (j <= l - 1)%nat). { apply INR_le. lra. }
  destruct (Rle_dec (y - IZR z) (1 / 2)) as [Hh|Hh].
  - specialize (Ha j (delta * INR j - pre)). rewrite taxis_R_nth in Ha by lia.
    specialize (Ha eq_refl). eapply Rle_trans; [exact Ha|].
    rewrite Hy, Hj. apply Rabs_le. nra.
  - assert (Hjl2 : (j + 1 <= l - 1)%nat).
    { destruct (Nat.eq_dec j (l - 1)) as [E|E]; [|lia]. exfalso. rewrite <- E in Hyl. lra. }
    specialize (Ha (j + 1)%nat (delta * INR (j + 1) - pre)). rewrite taxis_R_nth in Ha by lia.
    specialize (Ha eq_refl). eapply Rle_trans; [exact Ha|].
    rewrite Hy, plus_INR, Hj. simpl. apply Rabs_le. nra.
Qed.

Lemma near_after delta l pre x i : 0 < delta -> (1 <= l)%nat ->
  delta * INR (l - 1) - pre <= x ->
  nearest_first (@taxis RN delta l pre) x i -> i = (l - 1)%nat.
Proof.
  intros Hd Hl Hx Hn. apply nearest_R in Hn. destruct Hn as [ti [Hi [Ha _]]].
  apply taxis_R_inv in Hi. destruct Hi as [Hil ->].
  specialize (Ha (l - 1)%nat (delta * INR (l - 1) - pre)). rewrite taxis_R_nth in Ha by lia.
  specialize (Ha eq_refl).
  destruct (Nat.eq_dec i (l - 1)) as [E|E]; [assumption|exfalso].
  assert (INR i < INR (l - 1)) by (apply lt_INR; lia).
  assert (delta * INR i < delta * INR (l - 1)) by (apply Rmult_lt_compat_l; assumption).
  rewrite !Rabs_left1 in Ha by lra. lra.
Qed.

Lemma near_before delta l pre x i : 0 < delta -> (1 <= l)%nat ->
  x <= - pre ->
  nearest_first (@taxis RN delta l pre) x i -> i = 0%nat.
Proof.
  intros Hd Hl Hx Hn. apply nearest_R in Hn. destruct Hn as [ti [Hi [Ha _]]].
  apply taxis_R_inv in Hi. destruct Hi as [Hil ->].
  specialize (Ha 0%nat (delta * INR 0 - pre)). rewrite taxis_R_nth in Ha by lia.
  specialize (Ha eq_refl). simpl in Ha.
  destruct i as [|i]; [reflexivity|exfalso].
  assert (0 < INR (S i)) by (apply lt_0_INR; lia).
  assert (0 < delta * INR (S i)) by (apply Rmult_lt_0_compat; assumption).
  simpl INR in *. rewrite !Rabs_right in Ha by lra. lra.
Qed.

Lemma taxis_nonempty {N : Num} (delta : N) l pre : (1 <= l)%nat -> taxis delta l pre <> [].
Proof. intros H C. apply (f_equal (@length _)) in C. rewrite taxis_length in C. simpl in C. lia. Qed.
