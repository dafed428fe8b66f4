(** * DFT: the discrete Fourier transform in exact arithmetic.

    The meaning given to [numpy.fft.fft]/[ifft] and [scipy.fft.fft]/[ifft] in the
    models: the textbook sums.  [fft(x, n)] truncates or zero-pads [x] to [n]
    points, which reading the list with default 0 does. *)

From Coq Require Import Reals Lra.
From Verif Require Import Base Cplx.
Local Open Scope R_scope.

(** [W n m = exp(2 pi i m / n)] *)
Definition W (n : nat) (m : Z) : C := cis (2 * PI * IZR m / INR n).

Lemma W_0 n : W n 0 = C1.
Proof. unfold W. replace (2 * PI * 0 / INR n) with 0 by (unfold Rdiv; ring). apply cis_0. Qed.
Lemma W_add n a b : W n (a + b) = (W n a * W n b)%C.
Proof.
  unfold W. rewrite plus_IZR, <- cis_add. f_equal. unfold Rdiv; ring.
Qed.
Lemma W_opp n a : W n (- a) = Cconj (W n a).
Proof. unfold W. rewrite opp_IZR, <- cis_neg. f_equal. unfold Rdiv; ring. Qed.
Lemma W_period n k : (0 < n)%nat -> W n (Z.of_nat n * k) = C1.
Proof.
  intro Hn. unfold W. rewrite mult_IZR, <- INR_IZR_INZ.
  replace (2 * PI * (INR n * IZR k) / INR n) with (2 * PI * IZR k); [apply cis_2PI|].
  field. apply not_0_INR. lia.
Qed.
Lemma W_mod n m : (0 < n)%nat -> W n (m mod Z.of_nat n) = W n m.
Proof.
  intro Hn. rewrite (Z.div_mod m (Z.of_nat n)) at 2 by lia.
  rewrite W_add, W_period by exact Hn. ring.
Qed.
Lemma W_congr n a b : (0 < n)%nat -> (a mod Z.of_nat n = b mod Z.of_nat n)%Z -> W n a = W n b.
Proof. intros Hn E. rewrite <- (W_mod n a Hn), <- (W_mod n b Hn), E. reflexivity. Qed.
Lemma W_conj_inv n a : (W n a * Cconj (W n a))%C = C1.
Proof. rewrite <- W_opp, <- W_add. replace (a + - a)%Z with 0%Z by lia. apply W_0. Qed.
Lemma W_norm n a : Cnorm2 (W n a) = 1.
Proof. apply cis_norm. Qed.

Lemma W_eq_1 n m : (0 < n)%nat -> W n m = C1 -> (m mod Z.of_nat n = 0)%Z.
Proof.
  intros Hn H. unfold W in H. apply cis_eq_1 in H. destruct H as [k Hk].
  assert (Hn' : INR n <> 0) by (apply not_0_INR; lia).
  assert (E : IZR m = INR n * IZR k).
  { pose proof PI_RGT_0. apply (Rmult_eq_reg_l (2 * PI)); [|lra].
    replace (2 * PI * IZR m) with (2 * PI * IZR m / INR n * INR n) by (field; exact Hn').
    rewrite Hk. ring. }
  rewrite INR_IZR_INZ, <- mult_IZR in E. apply eq_IZR in E. subst m.
  rewrite Z.mul_comm. apply Z.mod_mul. lia.
Qed.

(** Powers of [W n m] along an index. *)
Lemma geom_sum n m N :
  ((W n m - C1) * csum N (fun k => W n (m * Z.of_nat k)))%C = (W n (m * Z.of_nat N) - C1)%C.
Proof.
  induction N as [|N IH].
  - simpl. rewrite Z.mul_0_r, W_0. ring.
  - simpl csum. replace (m * Z.of_nat (S N))%Z with (m + m * Z.of_nat N)%Z by lia.
    rewrite W_add.
    replace ((W n m - C1) * (csum N (fun k => W n (m * Z.of_nat k)) + W n (m * Z.of_nat N)))%C
      with ((W n m - C1) * csum N (fun k => W n (m * Z.of_nat k)) + (W n m - C1) * W n (m * Z.of_nat N))%C by ring.
    rewrite IH. ring.
Qed.

(** Orthogonality of the harmonics. *)
Lemma W_orth n m : (0 < n)%nat ->
  csum n (fun k => W n (m * Z.of_nat k)) =
  if (m mod Z.of_nat n =? 0)%Z then RtoC (INR n) else C0.
Proof.
  intro Hn. destruct (Z.eqb_spec (m mod Z.of_nat n) 0) as [E|E].
  - rewrite (csum_ext n _ (fun _ => C1)).
    + rewrite csum_const. ring.
    + intros k _. apply Z.mod_divide in E; [|lia]. destruct E as [q ->].
      replace (q * Z.of_nat n * Z.of_nat k)%Z with (Z.of_nat n * (q * Z.of_nat k))%Z by ring.
      apply W_period. exact Hn.
  - pose proof (geom_sum n m n) as G.
    replace (m * Z.of_nat n)%Z with (Z.of_nat n * m)%Z in G by ring.
    rewrite W_period in G by exact Hn.
    replace (C1 - C1)%C with C0 in G by ring. apply Cmul_0 in G. destruct G as [G|G]; [|exact G].
    exfalso. apply E. apply W_eq_1; [exact Hn|].
    replace (W n m) with ((W n m - C1) + C1)%C by ring. rewrite G. ring.
Qed.

(** ** Transforms of lists (numpy) *)

Definition cnth (x : list C) (j : nat) : C := nth j x C0.
Definition rnth (x : list R) (j : nat) : R := nth j x 0.

(** [np.fft.fft(x, n)] *)
Definition fft (x : list C) (n : nat) : list C :=
  map (fun k => csum n (fun j => cnth x j * W n (- (Z.of_nat j * Z.of_nat k)))%C) (seq 0 n).
(** [np.fft.ifft(X, n)] *)
Definition ifft (X : list C) (n : nat) : list C :=
  map (fun j => (RtoC (/ INR n) * csum n (fun k => cnth X k * W n (Z.of_nat j * Z.of_nat k)))%C) (seq 0 n).

(** Elementwise product of equal-length arrays. *)
Definition cmul2 (a b : list C) : list C := map (fun p => (fst p * snd p)%C) (combine a b).

Lemma nth_map_seq {A} (f : nat -> A) (d : A) n k : (k < n)%nat -> nth k (map f (seq 0 n)) d = f k.
Proof.
  intro H. rewrite (nth_indep _ d (f 0%nat)) by (rewrite map_length, seq_length; exact H).
  rewrite map_nth, seq_nth by exact H. reflexivity.
Qed.
Lemma nth_error_map_seq {A} (f : nat -> A) n k : (k < n)%nat -> nth_error (map f (seq 0 n)) k = Some (f k).
Proof.
  intro H. rewrite (nth_error_nth' _ (f 0%nat)) by (rewrite map_length, seq_length; exact H).
  rewrite (nth_map_seq f _ n k H). reflexivity.
Qed.

Lemma fft_length x n : length (fft x n) = n.
Proof. unfold fft. rewrite map_length, seq_length. reflexivity. Qed.
Lemma ifft_length x n : length (ifft x n) = n.
Proof. unfold ifft. rewrite map_length, seq_length. reflexivity. Qed.
Lemma fft_nth x n k : (k < n)%nat ->
  cnth (fft x n) k = csum n (fun j => cnth x j * W n (- (Z.of_nat j * Z.of_nat k)))%C.
Proof. intro H. unfold cnth at 1, fft. rewrite nth_map_seq by exact H. reflexivity. Qed.
Lemma ifft_nth X n j : (j < n)%nat ->
  cnth (ifft X n) j = (RtoC (/ INR n) * csum n (fun k => cnth X k * W n (Z.of_nat j * Z.of_nat k)))%C.
Proof. intro H. unfold cnth at 1, ifft. rewrite nth_map_seq by exact H. reflexivity. Qed.

Lemma cmul2_length a b : length (cmul2 a b) = Nat.min (length a) (length b).
Proof. unfold cmul2. rewrite map_length, combine_length. reflexivity. Qed.
Lemma cmul2_nth a b k : (k < length a)%nat -> (k < length b)%nat ->
  cnth (cmul2 a b) k = (cnth a k * cnth b k)%C.
Proof.
  revert b k; induction a as [|x a IH]; intros [|y b] k Ha Hb; simpl in *; try lia.
  destruct k as [|k]; [reflexivity|]. cbn. apply (IH b k); lia.
Qed.

Lemma clist_ext (a b : list C) : length a = length b ->
  (forall k, (k < length a)%nat -> cnth a k = cnth b k) -> a = b.
Proof.
  intros L H. apply (nth_ext _ _ C0 C0 L). exact H.
Qed.
Lemma rlist_ext (a b : list R) : length a = length b ->
  (forall k, (k < length a)%nat -> rnth a k = rnth b k) -> a = b.
Proof. intros L H. apply (nth_ext _ _ 0 0 L). exact H. Qed.

(** The kernel of a frequency response [G]: a function on all integers, periodic. *)
Definition kernel (G : list C) (n : nat) (t : Z) : C :=
  (RtoC (/ INR n) * csum n (fun k => cnth G k * W n (t * Z.of_nat k)))%C.

Lemma kernel_mod G n t : (0 < n)%nat -> kernel G n (t mod Z.of_nat n) = kernel G n t.
Proof.
  intro Hn. unfold kernel. f_equal. apply csum_ext. intros k _. f_equal.
  apply W_congr; [exact Hn|]. rewrite Z.mul_mod_idemp_l by lia. reflexivity.
Qed.

(** Convolution theorem: multiplying the spectrum by [G] convolves circularly with
    the kernel of [G]. *)
Lemma fft_filter (x : list C) (G : list C) n j : (j < n)%nat -> length G = n ->
  cnth (ifft (cmul2 (fft x n) G) n) j
  = csum n (fun m => cnth x m * kernel G n (Z.of_nat j - Z.of_nat m))%C.
Proof.
  intros Hj HG. rewrite ifft_nth by exact Hj.
  rewrite (csum_ext n _ (fun k => csum n (fun m =>
     cnth x m * (cnth G k * W n ((Z.of_nat j - Z.of_nat m) * Z.of_nat k))))%C).
  2:{ intros k Hk. rewrite cmul2_nth by (rewrite ?fft_length; lia). rewrite fft_nth by exact Hk.
      replace (csum n (fun j0 => cnth x j0 * W n (- (Z.of_nat j0 * Z.of_nat k))) * cnth G k *
               W n (Z.of_nat j * Z.of_nat k))%C
        with ((cnth G k * W n (Z.of_nat j * Z.of_nat k)) *
              csum n (fun j0 => cnth x j0 * W n (- (Z.of_nat j0 * Z.of_nat k))))%C by ring.
      rewrite <- csum_scale. apply csum_ext. intros m _.
      replace ((Z.of_nat j - Z.of_nat m) * Z.of_nat k)%Z
        with (Z.of_nat j * Z.of_nat k + - (Z.of_nat m * Z.of_nat k))%Z by ring.
      rewrite W_add. ring. }
  rewrite csum_swap, <- csum_scale. apply csum_ext. intros m _.
  unfold kernel. rewrite csum_scale. ring.
Qed.

(** Inversion. *)
Lemma ifft_fft (x : list C) n j : (j < n)%nat -> cnth (ifft (fft x n) n) j = cnth x j.
Proof.
  intro Hj. rewrite ifft_nth by exact Hj.
  rewrite (csum_ext n _ (fun k => csum n (fun m =>
     cnth x m * W n ((Z.of_nat j - Z.of_nat m) * Z.of_nat k)))%C).
  2:{ intros k Hk. rewrite fft_nth by exact Hk.
      replace (csum n (fun j0 => cnth x j0 * W n (- (Z.of_nat j0 * Z.of_nat k))) *
               W n (Z.of_nat j * Z.of_nat k))%C
        with ((W n (Z.of_nat j * Z.of_nat k)) *
              csum n (fun j0 => cnth x j0 * W n (- (Z.of_nat j0 * Z.of_nat k))))%C by ring.
      rewrite <- csum_scale. apply csum_ext. intros m _.
      replace ((Z.of_nat j - Z.of_nat m) * Z.of_nat k)%Z
        with (Z.of_nat j * Z.of_nat k + - (Z.of_nat m * Z.of_nat k))%Z by ring.
      rewrite W_add. ring. }
  rewrite csum_swap.
  rewrite (csum_single n _ j Hj).
  - rewrite csum_scale, W_orth by lia. rewrite Z.sub_diag, Z.mod_0_l by lia. simpl.
    assert (Hn : INR n <> 0) by (apply not_0_INR; lia).
    rewrite RtoC_inv by exact Hn. field. apply RtoC_neq0. exact Hn.
  - intros m Hm Hne. rewrite csum_scale, W_orth by lia.
    destruct (Z.eqb_spec ((Z.of_nat j - Z.of_nat m) mod Z.of_nat n) 0) as [E|E]; [|ring].
    exfalso. apply Z.mod_divide in E; [|lia]. destruct E as [q E].
    assert (q = 0)%Z by nia. nia.
Qed.

Lemma fft_ifft (X : list C) n k : (k < n)%nat -> cnth (fft (ifft X n) n) k = cnth X k.
Proof.
  intro Hk. rewrite fft_nth by exact Hk.
  rewrite (csum_ext n _ (fun j => RtoC (/ INR n) * csum n (fun m =>
     cnth X m * W n ((Z.of_nat m - Z.of_nat k) * Z.of_nat j))))%C.
  2:{ intros j Hj. rewrite ifft_nth by exact Hj.
      replace (RtoC (/ INR n) * csum n (fun k0 => cnth X k0 * W n (Z.of_nat j * Z.of_nat k0)) *
               W n (- (Z.of_nat j * Z.of_nat k)))%C
        with (RtoC (/ INR n) * (W n (- (Z.of_nat j * Z.of_nat k)) *
              csum n (fun k0 => cnth X k0 * W n (Z.of_nat j * Z.of_nat k0))))%C by ring.
      rewrite <- csum_scale. f_equal. apply csum_ext. intros m _.
      replace ((Z.of_nat m - Z.of_nat k) * Z.of_nat j)%Z
        with (- (Z.of_nat j * Z.of_nat k) + Z.of_nat j * Z.of_nat m)%Z by ring.
      rewrite W_add. ring. }
  rewrite csum_scale, csum_swap.
  rewrite (csum_single n _ k Hk).
  - rewrite csum_scale, W_orth by lia. rewrite Z.sub_diag, Z.mod_0_l by lia. simpl.
    assert (Hn : INR n <> 0) by (apply not_0_INR; lia).
    rewrite RtoC_inv by exact Hn. field. apply RtoC_neq0. exact Hn.
  - intros m Hm Hne. rewrite csum_scale, W_orth by lia.
    destruct (Z.eqb_spec ((Z.of_nat m - Z.of_nat k) mod Z.of_nat n) 0) as [E|E]; [|ring].
    exfalso. apply Z.mod_divide in E; [|lia]. destruct E as [q E].
    assert (q = 0)%Z by nia. nia.
Qed.

(** The kernel of a pure phase ramp is a shifted unit impulse. *)
Lemma kernel_shift n L t (G : list C) : (0 < n)%nat ->
  (forall k, (k < n)%nat -> cnth G k = W n (- (L * Z.of_nat k))) ->
  kernel G n t = if ((t - L) mod Z.of_nat n =? 0)%Z then C1 else C0.
Proof.
  intros Hn HG. unfold kernel.
  rewrite (csum_ext n _ (fun k => W n ((t - L) * Z.of_nat k))).
  2:{ intros k Hk. rewrite HG by exact Hk. rewrite <- W_add. f_equal. ring. }
  rewrite W_orth by exact Hn.
  destruct (Z.eqb_spec ((t - L) mod Z.of_nat n) 0) as [E|E]; [|ring].
  assert (Hn' : INR n <> 0) by (apply not_0_INR; lia).
  rewrite RtoC_inv by exact Hn'. field. apply RtoC_neq0; exact Hn'.
Qed.

(** [circ n j L]: the index [(j - L) mod n]. *)
Definition circ (n j : nat) (L : Z) : nat := Z.to_nat ((Z.of_nat j - L) mod Z.of_nat n).
Lemma circ_lt n j L : (0 < n)%nat -> (circ n j L < n)%nat.
Proof. intro Hn. unfold circ. pose proof (Z.mod_pos_bound (Z.of_nat j - L) (Z.of_nat n)). lia. Qed.

Lemma circ_unique n j L m : (0 < n)%nat -> (m < n)%nat ->
  ((Z.of_nat j - Z.of_nat m - L) mod Z.of_nat n = 0)%Z <-> m = circ n j L.
Proof.
  intros Hn Hm. unfold circ. split; intro H.
  - apply Z.mod_divide in H; [|lia]. destruct H as [q H].
    replace (Z.of_nat j - L)%Z with (Z.of_nat m + q * Z.of_nat n)%Z by lia.
    rewrite Z.mod_add by lia. rewrite Z.mod_small by lia. lia.
  - subst m. pose proof (Z.mod_pos_bound (Z.of_nat j - L) (Z.of_nat n)).
    rewrite Z2Nat.id by lia.
    replace (Z.of_nat j - (Z.of_nat j - L) mod Z.of_nat n - L)%Z
      with ((Z.of_nat j - L) - (Z.of_nat j - L) mod Z.of_nat n)%Z by ring.
    rewrite Zminus_mod_idemp_r. rewrite Z.sub_diag. apply Z.mod_0_l. lia.
Qed.

Lemma csum_shift_pick n j L (x : nat -> C) : (0 < n)%nat ->
  csum n (fun m => x m * (if ((Z.of_nat j - Z.of_nat m - L) mod Z.of_nat n =? 0)%Z then C1 else C0))%C
  = x (circ n j L).
Proof.
  intro Hn. rewrite (csum_single n _ (circ n j L) (circ_lt n j L Hn)).
  - assert (E : ((Z.of_nat j - Z.of_nat (circ n j L) - L) mod Z.of_nat n = 0)%Z)
      by (apply circ_unique; auto using circ_lt).
    rewrite E. simpl. ring.
  - intros m Hm Hne. destruct (Z.eqb_spec ((Z.of_nat j - Z.of_nat m - L) mod Z.of_nat n) 0) as [E|E]; [|ring].
    apply circ_unique in E; auto. contradiction.
Qed.
