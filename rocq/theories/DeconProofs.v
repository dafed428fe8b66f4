(** * DeconProofs: facts about the filters and the iterative deconvolution loop. *)

From Coq Require Import Reals Lra.
From Verif Require Import Base Num NumPy HkReal Cplx DFT DFT2 SpecSignal ReverbModel DeconModel.
Local Open Scope R_scope.

(** ** gaussFilter *)
Lemma gaussFilter_even dt m g : (0 < m)%nat -> dt <> 0 -> g <> 0 ->
  gaussFilter dt (2 * m) g = Ok (map (fun k => gauss_gain dt (2 * m) g k / dt) (seq 0 (2 * m))).
Proof.
  intros Hm Hdt Hg. unfold gaussFilter.
  assert (Hn : INR (2 * m) <> 0) by (apply not_0_INR; lia).
  destruct (Req_EM_T (INR (2 * m) * dt) 0) as [E|_]; [apply Rmult_integral in E; tauto|].
  destruct (Req_EM_T g 0) as [E|_]; [contradiction|].
  assert (E1 : ((2 * m + 1) / 2 = m)%nat) by (symmetry; apply (Nat.div_unique _ 2 m 1); lia).
  assert (E2 : (2 * m / 2 = m)%nat) by (rewrite Nat.mul_comm; apply Nat.div_mul; lia).
  rewrite E1, E2, !map_map.
  set (h := fun x => exp (- (1 / 4) * (2 * PI * (1 / (INR (2 * m) * dt) * INR x) / g) ^ 2) / dt).
  change (map _ (seq 0 (m + 1))) with (map h (seq 0 (m + 1))).
  rewrite map_length, seq_length.
  replace (Nat.min (m + 1) (2 * m)) with (m + 1)%nat by lia. rewrite Nat.eqb_refl.
  assert (L1 : length (map h (seq 0 (m + 1))) = (m + 1)%nat) by (rewrite map_length, seq_length; reflexivity).
  assert (EF : slice (map h (seq 0 (m + 1)) ++ repeat 0 (2 * m - (m + 1))) 1 (m + 1 - 1) = map h (seq 1 (m - 1))).
  { unfold slice. replace (m + 1)%nat with (S m) by lia. cbn [seq map app skipn].
    rewrite firstn_app, map_length, seq_length.
    replace (S m - 1 - 1 - m)%nat with 0%nat by lia. rewrite firstn_O, app_nil_r, firstn_map.
    replace (S m - 1 - 1)%nat with (m - 1)%nat by lia.
    f_equal. replace m with ((m - 1) + 1)%nat at 2 by lia. rewrite seq_app, firstn_app, seq_length.
    rewrite firstn_all2 by (rewrite seq_length; lia). rewrite Nat.sub_diag, firstn_O, app_nil_r. reflexivity. }
  rewrite EF, rev_length, map_length, seq_length.
  replace (2 * m - (m + 1))%nat with (m - 1)%nat by lia. rewrite Nat.eqb_refl. f_equal.
  apply rlist_ext; [rewrite app_length, rev_length, !map_length, !seq_length; lia|].
  rewrite app_length, rev_length, !map_length, !seq_length. intros k Hk.
  assert (Hh : forall i, h i = exp (- (2 * PI * (INR i / (INR (2 * m) * dt)) / (2 * g)) ^ 2) / dt).
  { intro i. unfold h. f_equal. f_equal. field. repeat split; assumption. }
  rewrite rnth_map_seq by lia. unfold gauss_gain.
  destruct (Nat.lt_ge_cases k (m + 1)) as [H|H].
  - unfold rnth. rewrite app_nth1 by lia. rewrite nth_map_seq by exact H.
    rewrite Hh. replace (Nat.min k (2 * m - k)) with k by lia. reflexivity.
  - unfold rnth. rewrite app_nth2 by lia. rewrite L1, rev_nth by (rewrite map_length, seq_length; lia).
    rewrite map_length, seq_length.
    rewrite (nth_indep _ 0 (h 0%nat)) by (rewrite map_length, seq_length; lia).
    rewrite map_nth, seq_nth by lia. rewrite Hh.
    replace (Nat.min k (2 * m - k)) with (1 + (m - 1 - S (k - (m + 1))))%nat by lia. reflexivity.
Qed.

Lemma gaussFilter_odd dt m g : dt <> 0 -> g <> 0 -> gaussFilter dt (2 * m + 1) g = Err ValueError.
Proof.
  intros Hdt Hg. unfold gaussFilter.
  assert (Hn : INR (2 * m + 1) <> 0) by (apply not_0_INR; lia).
  destruct (Req_EM_T (INR (2 * m + 1) * dt) 0) as [E|_]; [apply Rmult_integral in E; tauto|].
  destruct (Req_EM_T g 0) as [E|_]; [contradiction|].
  rewrite !map_length, seq_length.
  assert (E1 : ((2 * m + 1 + 1) / 2 = m + 1)%nat) by (symmetry; apply (Nat.div_unique _ 2 (m + 1) 0); lia).
  assert (E2 : ((2 * m + 1) / 2 = m)%nat) by (symmetry; apply (Nat.div_unique _ 2 m 1); lia).
  rewrite E1, E2. destruct (Nat.eqb_spec (m + 1 + 1) (Nat.min (m + 1) (2 * m + 1))); [lia|reflexivity].
Qed.

Lemma gaussFilter_Ok_inv dt n g G : gaussFilter dt n g = Ok G ->
  (0 < n)%nat /\ Nat.even n = true /\ dt <> 0 /\ g <> 0 /\
  G = map (fun k => gauss_gain dt n g k / dt) (seq 0 n).
Proof.
  intro H.
  assert (Hd : INR n * dt <> 0 /\ g <> 0).
  { unfold gaussFilter in H. destruct (Req_EM_T (INR n * dt) 0); [discriminate|].
    destruct (Req_EM_T g 0); [discriminate|]. auto. }
  destruct Hd as [Hd Hg]. assert (Hdt : dt <> 0) by (intros ->; apply Hd; ring).
  assert (Hn : n <> 0%nat) by (intros ->; apply Hd; simpl; ring).
  destruct (Nat.Even_or_Odd n) as [[m ->]|[m ->]].
  - rewrite gaussFilter_even in H by (auto; lia). injection H as <-.
    repeat split; try assumption; try lia. apply Nat.even_spec. exists m; reflexivity.
  - rewrite gaussFilter_odd in H by assumption. discriminate.
Qed.

(** ** Powers of two *)
Lemma pow2_even k : (1 <= k)%nat -> exists m, (0 < m)%nat /\ (2 ^ k = 2 * m)%nat.
Proof.
  intro H. destruct k as [|k]; [lia|]. exists (2 ^ k)%nat. split; [|reflexivity].
  pose proof (Nat.pow_nonzero 2 k). lia.
Qed.
Lemma next_pow_2_Ok i n : next_pow_2 i = Ok n ->
  (0 < i)%nat /\ (i <= n)%nat /\ n = (2 ^ Nat.log2_up i)%nat.
Proof.
  unfold next_pow_2. destruct (Nat.eqb_spec i 0); [discriminate|]. intro H. injection H as <-.
  split; [lia|]. split; [|reflexivity].
  destruct (Nat.eq_dec i 1) as [->|]; [simpl; lia|]. pose proof (Nat.log2_up_spec i ltac:(lia)). lia.
Qed.

(** ** The Gaussian gain as a Hermitian spectrum *)
Definition ggains (dt : R) (n : nat) (a : R) : list C := map (fun k => RtoC (gauss_gain dt n a k)) (seq 0 n).

Lemma gauss_gain_sym dt n a k : (k < n)%nat -> gauss_gain dt n a (circ n 0 (Z.of_nat k)) = gauss_gain dt n a k.
Proof.
  intro H. unfold gauss_gain. destruct k as [|k].
  - change (Z.of_nat 0) with 0%Z. rewrite circ_0 by exact H. reflexivity.
  - assert (E : circ n 0 (Z.of_nat (S k)) = (n - S k)%nat).
    { apply Nat2Z.inj. rewrite circ_spec by lia. rewrite <- (Z.mod_add _ 1) by lia. rewrite Z.mod_small; lia. }
    rewrite E. replace (Nat.min (n - S k) (n - (n - S k))) with (Nat.min (S k) (n - S k)) by lia. reflexivity.
Qed.
Lemma ggains_herm dt n a : (0 < n)%nat -> herm (ggains dt n a) n.
Proof.
  intros Hn k Hk. unfold ggains. rewrite !cnth_map_seq by (try apply circ_lt; lia).
  rewrite Cconj_RtoC, gauss_gain_sym by exact Hk. reflexivity.
Qed.
Lemma ggains_length dt n a : length (ggains dt n a) = n.
Proof. unfold ggains. rewrite map_length, seq_length. reflexivity. Qed.

Lemma ggains_pulse dt n a : (0 < n)%nat -> map Re (ifft (ggains dt n a) n) = gauss_pulse dt n a.
Proof.
  intro Hn. apply rlist_ext; [unfold gauss_pulse; rewrite !map_length, ifft_length, seq_length; reflexivity|].
  rewrite map_length, ifft_length. intros j Hj. rewrite rnth_map_Re, ifft_nth by exact Hj.
  unfold gauss_pulse. rewrite rnth_map_seq by exact Hj. rewrite Re_scale, Re_csum. f_equal.
  apply rsum_ext. intros k Hk. unfold ggains. rewrite cnth_map_seq by exact Hk. rewrite Re_scale.
  f_equal. unfold W, cis, Re. cbn [fst]. f_equal. rewrite mult_IZR, <- !INR_IZR_INZ. unfold Rdiv. ring.
Qed.

Lemma gauss_pulse_length dt n a : length (gauss_pulse dt n a) = n.
Proof. unfold gauss_pulse. rewrite map_length, seq_length. reflexivity. Qed.

(** ** gfilter *)
Lemma cprod_Ok a b : length a = length b -> cprod a b = Ok (cmul2 a b).
Proof. intro H. unfold cprod. rewrite H, Nat.eqb_refl. reflexivity. Qed.
Lemma cprod_Ok_inv a b c : cprod a b = Ok c -> length a = length b /\ c = cmul2 a b.
Proof. unfold cprod. destruct (Nat.eqb_spec (length a) (length b)); [|discriminate]. intro H. injection H as <-. auto. Qed.

Definition response (G : list C) (n : nat) (dt : R) : list R := map Re (ifft (map (fun z => z * RtoC dt)%C G) n).

Lemma gfilter_herm (x : list R) n G dt : (0 < n)%nat -> length G = n -> herm G n ->
  gfilter x n G dt = Ok (map (cconv n x (response G n dt)) (seq 0 n)) /\
  map RtoC (map (cconv n x (response G n dt)) (seq 0 n))
  = ifft (cmul2 (fft (map RtoC x) n) (map (fun z => z * RtoC dt)%C G)) n.
Proof.
  intros Hn LG HG. unfold gfilter. rewrite cprod_Ok by (rewrite fft_length; congruence). cbn [bind].
  rewrite cmul2_scale by (rewrite fft_length; congruence).
  set (G' := map (fun z => (z * RtoC dt)%C) G).
  assert (LG' : length G' = n) by (unfold G'; rewrite map_length; exact LG).
  assert (HG' : herm G' n) by (apply herm_scale; assumption).
  assert (E : map RtoC (map (cconv n x (response G n dt)) (seq 0 n)) = ifft (cmul2 (fft (map RtoC x) n) G') n).
  { apply clist_ext; [rewrite !map_length, seq_length, ifft_length; reflexivity|].
    rewrite !map_length, seq_length. intros j Hj. rewrite cnth_map_RtoC, rnth_map_seq by exact Hj.
    rewrite real_filter by assumption. reflexivity. }
  split; [|exact E]. rewrite <- E. f_equal. rewrite map_map. rewrite map_id. reflexivity.
Qed.

Lemma response_gauss dt n a : (0 < n)%nat -> dt <> 0 ->
  response (map RtoC (map (fun k => gauss_gain dt n a k / dt) (seq 0 n))) n dt = gauss_pulse dt n a.
Proof.
  intros Hn Hdt. unfold response. rewrite <- ggains_pulse by exact Hn. f_equal. f_equal.
  rewrite !map_map. unfold ggains. apply map_ext. intro k. rewrite <- RtoC_mul. f_equal. field. exact Hdt.
Qed.

Lemma gain_herm dt n a : (0 < n)%nat -> herm (map RtoC (map (fun k => gauss_gain dt n a k / dt) (seq 0 n))) n.
Proof.
  intros Hn k Hk. rewrite !cnth_map_RtoC, !rnth_map_seq by (try apply circ_lt; lia).
  rewrite gauss_gain_sym, Cconj_RtoC by exact Hk. reflexivity.
Qed.

Lemma gfilter_gauss x dt n a : (0 < n)%nat -> dt <> 0 ->
  gfilter x n (map RtoC (map (fun k => gauss_gain dt n a k / dt) (seq 0 n))) dt
  = Ok (map (cconv n x (gauss_pulse dt n a)) (seq 0 n)).
Proof.
  intros Hn Hdt. rewrite <- response_gauss by assumption.
  apply gfilter_herm; [exact Hn|rewrite !map_length, seq_length; reflexivity|apply gain_herm; exact Hn].
Qed.

Lemma response_fft w0 n dt : (0 < n)%nat -> length w0 = n ->
  response (fft (map RtoC w0) n) n dt = map (fun x => x * dt) w0.
Proof.
  intros Hn Lw. unfold response. apply rlist_ext; [rewrite !map_length, ifft_length; congruence|].
  rewrite map_length, ifft_length. intros j Hj. rewrite rnth_map_Re, rnth_map' by lia.
  assert (E : cnth (ifft (map (fun z => z * RtoC dt)%C (fft (map RtoC w0) n)) n) j
              = (RtoC dt * cnth (ifft (fft (map RtoC w0) n) n) j)%C).
  { rewrite !ifft_nth by exact Hj. rewrite (csum_ext n _ (fun k => RtoC dt * (cnth (fft (map RtoC w0) n) k * W n (Z.of_nat j * Z.of_nat k)))%C).
    - rewrite csum_scale. ring.
    - intros k Hk. rewrite cnth_map by (rewrite fft_length; exact Hk). ring. }
  rewrite E, ifft_fft by exact Hj. rewrite cnth_map_RtoC. cunf. ring.
Qed.

(** ** Circular convolution *)
Lemma circ_q n j L : (0 < n)%nat -> exists q, (Z.of_nat (circ n j L) = Z.of_nat j - L + q * Z.of_nat n)%Z.
Proof.
  intro Hn. rewrite circ_spec by exact Hn. exists (- ((Z.of_nat j - L) / Z.of_nat n))%Z.
  pose proof (Z.div_mod (Z.of_nat j - L) (Z.of_nat n)). lia.
Qed.
Lemma circ_is n j L m q : (m < n)%nat -> (Z.of_nat j - L = Z.of_nat m + q * Z.of_nat n)%Z -> circ n j L = m.
Proof.
  intros Hm E. apply Nat2Z.inj. rewrite circ_spec by lia. rewrite E, Z.mod_add by lia. apply Z.mod_small. lia.
Qed.
Lemma circ_cong n j L j' L' q : (0 < n)%nat ->
  (Z.of_nat j - L = Z.of_nat j' - L' + q * Z.of_nat n)%Z -> circ n j L = circ n j' L'.
Proof. intros Hn E. apply circ_eq; [exact Hn|]. rewrite E. apply Z.mod_add. lia. Qed.

Lemma cconv_comm n x h j : (0 < n)%nat -> cconv n x h j = cconv n h x j.
Proof.
  intro Hn. unfold cconv.
  rewrite <- (rsum_neg n (fun m => rnth h m * rnth x (circ n j (Z.of_nat m)))) by exact Hn.
  rewrite <- (rsum_circ n (fun m => rnth h (circ n 0 (Z.of_nat m)) * rnth x (circ n j (Z.of_nat (circ n 0 (Z.of_nat m))))) (Z.of_nat j)) by exact Hn.
  apply rsum_ext. intros m Hm. rewrite Rmult_comm.
  destruct (circ_q n m (Z.of_nat j) Hn) as [q1 E1].
  destruct (circ_q n 0 (Z.of_nat (circ n m (Z.of_nat j))) Hn) as [q2 E2]. f_equal; f_equal.
  - symmetry. apply (circ_cong n _ _ _ _ (- q1)); [exact Hn|]. lia.
  - symmetry. apply (circ_is n _ _ _ (q1 - q2)); [exact Hm|]. lia.
Qed.

Lemma cconv_list n x h j : (j < n)%nat -> rnth (map (cconv n x h) (seq 0 n)) j = cconv n x h j.
Proof. apply rnth_map_seq. Qed.

Lemma cconv_assoc n x g h j : (0 < n)%nat ->
  cconv n (map (cconv n x g) (seq 0 n)) h j = cconv n x (map (cconv n g h) (seq 0 n)) j.
Proof.
  intro Hn. unfold cconv at 1.
  rewrite (rsum_ext n _ (fun m => rsum n (fun l => rnth x l * (rnth g (circ n m (Z.of_nat l)) * rnth h (circ n j (Z.of_nat m)))))).
  2:{ intros m Hm. rewrite cconv_list by exact Hm. unfold cconv. rewrite Rmult_comm, <- rsum_scale. apply rsum_ext. intros l _. ring. }
  rewrite rsum_swap. unfold cconv at 1. apply rsum_ext. intros l Hl. rewrite rsum_scale. f_equal.
  rewrite cconv_list by (apply circ_lt; exact Hn). unfold cconv.
  rewrite <- (rsum_circ n (fun m => rnth g m * rnth h (circ n (circ n j (Z.of_nat l)) (Z.of_nat m))) (Z.of_nat l)) by exact Hn.
  apply rsum_ext. intros m Hm. f_equal. f_equal. rewrite circ_circ by exact Hn. destruct (circ_q n m (Z.of_nat l) Hn) as [q E].
  apply (circ_cong n _ _ _ _ q); [exact Hn|]. lia.
Qed.

Lemma cconv_ext n x x' h h' j : (0 < n)%nat -> (forall m, (m < n)%nat -> rnth x m = rnth x' m) ->
  (forall m, (m < n)%nat -> rnth h m = rnth h' m) -> cconv n x h j = cconv n x' h' j.
Proof.
  intros Hn Hx Hh. unfold cconv. apply rsum_ext. intros m Hm. rewrite Hx by exact Hm.
  rewrite Hh by (apply circ_lt; exact Hn). reflexivity.
Qed.

Lemma cconv_scale_r n x h c j : (0 < n)%nat -> length h = n ->
  cconv n x (map (fun v => v * c) h) j = c * cconv n x h j.
Proof.
  intros Hn Lh. unfold cconv. rewrite <- rsum_scale. apply rsum_ext. intros m Hm.
  rewrite rnth_map' by (rewrite Lh; apply circ_lt; exact Hn). ring.
Qed.
