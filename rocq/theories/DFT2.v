(** * DFT2: real signals, Hermitian spectra, correlation (mathematics only). *)

From Coq Require Import Reals Lra.
From Verif Require Import Base Cplx DFT.
Local Open Scope R_scope.

Lemma rnth_over' (x : list R) j : (length x <= j)%nat -> rnth x j = 0.
Proof. intro H. unfold rnth. apply nth_overflow. exact H. Qed.
Lemma cnth_over (x : list C) j : (length x <= j)%nat -> cnth x j = C0.
Proof. intro H. unfold cnth. apply nth_overflow. exact H. Qed.
Lemma cnth_map_RtoC (x : list R) j : cnth (map RtoC x) j = RtoC (rnth x j).
Proof. unfold cnth, rnth. change C0 with (RtoC 0). apply map_nth. Qed.
Lemma cnth_map (f : C -> C) (x : list C) j : (j < length x)%nat -> cnth (map f x) j = f (cnth x j).
Proof.
  intro H. unfold cnth. rewrite (nth_indep _ C0 (f C0)) by (rewrite map_length; exact H). apply map_nth.
Qed.
Lemma rnth_map_Re (x : list C) j : rnth (map Re x) j = Re (cnth x j).
Proof. unfold cnth, rnth. change 0 with (Re C0). apply map_nth. Qed.
Lemma rnth_map' (f : R -> R) (x : list R) j : (j < length x)%nat -> rnth (map f x) j = f (rnth x j).
Proof.
  intro H. unfold rnth. rewrite (nth_indep _ 0 (f 0)) by (rewrite map_length; exact H). apply map_nth.
Qed.
Lemma cnth_map_seq (f : nat -> C) n k : (k < n)%nat -> cnth (map f (seq 0 n)) k = f k.
Proof. intro H. unfold cnth. rewrite nth_map_seq by exact H. reflexivity. Qed.
Lemma rnth_map_seq (f : nat -> R) n k : (k < n)%nat -> rnth (map f (seq 0 n)) k = f k.
Proof. intro H. unfold rnth. rewrite nth_map_seq by exact H. reflexivity. Qed.

Lemma Cconj_W n m : Cconj (W n m) = W n (- m).
Proof. rewrite W_opp. reflexivity. Qed.

(** ** Cyclic indices *)
Lemma circ_spec n j L : (0 < n)%nat -> Z.of_nat (circ n j L) = ((Z.of_nat j - L) mod Z.of_nat n)%Z.
Proof.
  intro Hn. unfold circ. pose proof (Z.mod_pos_bound (Z.of_nat j - L) (Z.of_nat n)). rewrite Z2Nat.id; lia.
Qed.
Lemma circ_eq n j j' L L' : (0 < n)%nat ->
  ((Z.of_nat j - L) mod Z.of_nat n = (Z.of_nat j' - L') mod Z.of_nat n)%Z -> circ n j L = circ n j' L'.
Proof. intros Hn E. unfold circ. rewrite E. reflexivity. Qed.
Lemma circ_circ n j L M : (0 < n)%nat -> circ n (circ n j L) M = circ n j (L + M).
Proof.
  intro Hn. apply Nat2Z.inj. rewrite !circ_spec by exact Hn. rewrite Zminus_mod_idemp_l. f_equal. lia.
Qed.
Lemma circ_0 n j : (j < n)%nat -> circ n j 0 = j.
Proof. intro H. apply Nat2Z.inj. rewrite circ_spec by lia. rewrite Z.sub_0_r. apply Z.mod_small. lia. Qed.
Lemma circ_small n j L : (0 <= Z.of_nat j - L < Z.of_nat n)%Z -> Z.of_nat (circ n j L) = (Z.of_nat j - L)%Z.
Proof. intro H. rewrite circ_spec by lia. apply Z.mod_small. lia. Qed.
Lemma circ_inv n j L : (j < n)%nat -> circ n (circ n j L) (- L) = j.
Proof. intro H. rewrite circ_circ by lia. rewrite Z.add_opp_diag_r. apply circ_0. exact H. Qed.
Lemma circ_inv' n j L : (j < n)%nat -> circ n (circ n j (- L)) L = j.
Proof. intro H. rewrite circ_circ by lia. rewrite Z.add_opp_diag_l. apply circ_0. exact H. Qed.

Lemma rsum_as_pick n (f : nat -> R) (g : nat -> nat) :
  (forall j, (j < n)%nat -> (g j < n)%nat) ->
  rsum n (fun j => f (g j)) = rsum n (fun m => f m * rsum n (fun j => if (g j =? m)%nat then 1 else 0)).
Proof.
  intro Hg. rewrite (rsum_ext n (fun m => f m * _) (fun m => rsum n (fun j => f m * (if (g j =? m)%nat then 1 else 0)))).
  2:{ intros m _. rewrite rsum_scale. reflexivity. }
  rewrite rsum_swap. apply rsum_ext. intros j Hj.
  rewrite (rsum_single n _ (g j) (Hg j Hj)).
  - rewrite Nat.eqb_refl. ring.
  - intros m Hm Hne. destruct (Nat.eqb_spec (g j) m); [congruence|ring].
Qed.

(** A sum over a full period does not depend on where it starts. *)
Lemma rsum_circ n (f : nat -> R) L : (0 < n)%nat -> rsum n (fun j => f (circ n j L)) = rsum n f.
Proof.
  intro Hn. rewrite (rsum_as_pick n f (fun j => circ n j L)) by (intros; apply circ_lt; exact Hn).
  apply rsum_ext. intros m Hm.
  rewrite (rsum_single n _ (circ n m (- L))).
  - rewrite circ_inv' by exact Hm. rewrite Nat.eqb_refl. ring.
  - apply circ_lt. exact Hn.
  - intros j Hj Hne. destruct (Nat.eqb_spec (circ n j L) m) as [E|E]; [|reflexivity].
    exfalso. apply Hne. rewrite <- E. rewrite circ_inv by exact Hj. reflexivity.
Qed.

Lemma csum_circ n (f : nat -> C) L : (0 < n)%nat -> csum n (fun j => f (circ n j L)) = csum n f.
Proof.
  intro Hn. apply C_eq.
  - rewrite !Re_csum. exact (rsum_circ n (fun j => Re (f j)) L Hn).
  - rewrite !Im_csum. exact (rsum_circ n (fun j => Im (f j)) L Hn).
Qed.

(** Reversal [j -> (-j) mod n] is also a bijection. *)
Lemma rsum_neg n (f : nat -> R) : (0 < n)%nat -> rsum n (fun j => f (circ n 0 (Z.of_nat j))) = rsum n f.
Proof.
  intro Hn. rewrite (rsum_as_pick n f (fun j => circ n 0 (Z.of_nat j))) by (intros; apply circ_lt; exact Hn).
  assert (I : forall j, (j < n)%nat -> circ n 0 (Z.of_nat (circ n 0 (Z.of_nat j))) = j).
  { intros j Hj. apply Nat2Z.inj. rewrite !circ_spec by exact Hn. rewrite Zminus_mod_idemp_r.
    rewrite <- (Z.mod_small (Z.of_nat j) (Z.of_nat n)) at 2 by lia. f_equal. lia. }
  apply rsum_ext. intros m Hm.
  rewrite (rsum_single n _ (circ n 0 (Z.of_nat m))).
  - rewrite I by exact Hm. rewrite Nat.eqb_refl. ring.
  - apply circ_lt. exact Hn.
  - intros j Hj Hne. destruct (Nat.eqb_spec (circ n 0 (Z.of_nat j)) m) as [E|E]; [|reflexivity].
    exfalso. apply Hne. rewrite <- E. rewrite I by exact Hj. reflexivity.
Qed.
Lemma csum_neg n (f : nat -> C) : (0 < n)%nat -> csum n (fun j => f (circ n 0 (Z.of_nat j))) = csum n f.
Proof.
  intro Hn. apply C_eq.
  - rewrite !Re_csum. exact (rsum_neg n (fun j => Re (f j)) Hn).
  - rewrite !Im_csum. exact (rsum_neg n (fun j => Im (f j)) Hn).
Qed.

Lemma W_circ n j L k : (0 < n)%nat -> W n (Z.of_nat (circ n j L) * k) = W n ((Z.of_nat j - L) * k).
Proof.
  intro Hn. apply W_congr; [exact Hn|]. rewrite circ_spec by exact Hn. apply Z.mul_mod_idemp_l. lia.
Qed.
Lemma W_circ_r n j L k : (0 < n)%nat -> W n (k * Z.of_nat (circ n j L)) = W n (k * (Z.of_nat j - L)).
Proof. intro Hn. rewrite !(Z.mul_comm k). apply W_circ. exact Hn. Qed.

(** ** Hermitian spectra *)
Definition herm (X : list C) (n : nat) : Prop :=
  forall k, (k < n)%nat -> cnth X (circ n 0 (Z.of_nat k)) = Cconj (cnth X k).

Lemma fft_real_herm (x : list R) n : (0 < n)%nat -> herm (fft (map RtoC x) n) n.
Proof.
  intros Hn k Hk. rewrite !fft_nth by (try apply circ_lt; lia). rewrite csum_conj. apply csum_ext.
  intros j _. rewrite Cconj_mul, cnth_map_RtoC, Cconj_RtoC, Cconj_W. f_equal.
  apply W_congr; [exact Hn|]. rewrite circ_spec by exact Hn.
  rewrite <- Z.mul_opp_l, Z.mul_mod_idemp_r by lia. f_equal. lia.
Qed.

Lemma herm_mul X Y n : (0 < n)%nat -> length X = n -> length Y = n -> herm X n -> herm Y n -> herm (cmul2 X Y) n.
Proof.
  intros Hn LX LY HX HY k Hk. rewrite !cmul2_nth by (rewrite ?LX, ?LY; try apply circ_lt; lia).
  rewrite HX, HY by exact Hk. rewrite Cconj_mul. reflexivity.
Qed.
Lemma herm_scale X n c : (0 < n)%nat -> length X = n -> herm X n -> herm (map (fun z => z * RtoC c)%C X) n.
Proof.
  intros Hn LX HX k Hk. rewrite !cnth_map by (rewrite LX; try apply circ_lt; lia).
  rewrite HX by exact Hk. rewrite Cconj_mul, Cconj_RtoC. reflexivity.
Qed.
Lemma herm_conj X n : (0 < n)%nat -> length X = n -> herm X n -> herm (map Cconj X) n.
Proof.
  intros Hn LX HX k Hk. rewrite !cnth_map by (rewrite LX; try apply circ_lt; lia). rewrite HX by exact Hk. reflexivity.
Qed.

Lemma ifft_herm_real X n j : (j < n)%nat -> herm X n -> Cconj (cnth (ifft X n) j) = cnth (ifft X n) j.
Proof.
  intros Hj HX. assert (Hn : (0 < n)%nat) by lia. rewrite !ifft_nth by exact Hj.
  rewrite Cconj_mul, Cconj_RtoC. f_equal. rewrite csum_conj.
  rewrite <- (csum_neg n (fun k => cnth X k * W n (Z.of_nat j * Z.of_nat k))%C Hn).
  apply csum_ext. intros k Hk. rewrite Cconj_mul, Cconj_W, <- HX by exact Hk. f_equal.
  rewrite W_circ_r by exact Hn. f_equal. lia.
Qed.
Lemma conj_real z : Cconj z = z -> z = RtoC (Re z).
Proof. intro H. apply real_part_iff. apply (f_equal Im) in H. destruct z; cunf. lra. Qed.

(** A Hermitian spectrum comes back as a real signal: nothing is lost by [.real]. *)
Lemma ifft_herm_RtoC X n : length X = n -> herm X n -> map RtoC (map Re (ifft X n)) = ifft X n.
Proof.
  intros LX HX. apply clist_ext; [rewrite !map_length; reflexivity|].
  rewrite !map_length, ifft_length. intros j Hj. rewrite cnth_map_RtoC, rnth_map_Re.
  symmetry. apply conj_real. apply ifft_herm_real; assumption.
Qed.

(** ** Kernels *)
Lemma kernel_ifft X n t : (0 < n)%nat -> kernel X n t = cnth (ifft X n) (Z.to_nat (t mod Z.of_nat n)).
Proof.
  intro Hn. pose proof (Z.mod_pos_bound t (Z.of_nat n)).
  rewrite ifft_nth by lia. rewrite <- kernel_mod by exact Hn. unfold kernel. f_equal. apply csum_ext. intros k _.
  rewrite Z2Nat.id by lia. reflexivity.
Qed.
Lemma kernel_circ X n j L : (0 < n)%nat -> kernel X n (Z.of_nat j - L) = cnth (ifft X n) (circ n j L).
Proof. intro Hn. apply kernel_ifft. exact Hn. Qed.

(** Circular convolution of a real signal with the (real) response of a Hermitian
    gain. *)
Lemma real_filter (x : list R) (G : list C) n j : (j < n)%nat -> length G = n -> herm G n ->
  cnth (ifft (cmul2 (fft (map RtoC x) n) G) n) j
  = RtoC (rsum n (fun m => rnth x m * rnth (map Re (ifft G n)) (circ n j (Z.of_nat m)))).
Proof.
  intros Hj LG HG. rewrite fft_filter by assumption. rewrite <- csum_RtoC. apply csum_ext. intros m Hm.
  rewrite RtoC_mul, cnth_map_RtoC. f_equal. rewrite kernel_circ by lia.
  rewrite rnth_map_Re. apply conj_real. apply ifft_herm_real; [apply circ_lt; lia|exact HG].
Qed.

Lemma cmul2_scale X G c : length X = length G ->
  map (fun z => z * RtoC c)%C (cmul2 X G) = cmul2 X (map (fun z => z * RtoC c)%C G).
Proof.
  intro L. apply clist_ext; [rewrite map_length, !cmul2_length, map_length; reflexivity|].
  rewrite map_length, cmul2_length. intros k Hk.
  rewrite cnth_map by (rewrite cmul2_length; exact Hk). rewrite !cmul2_nth by (rewrite ?map_length; lia).
  rewrite cnth_map by lia. ring.
Qed.

(** Correlation theorem. *)
Lemma real_correl (r w : list R) n l : (l < n)%nat ->
  cnth (ifft (cmul2 (fft (map RtoC r) n) (map Cconj (fft (map RtoC w) n))) n) l
  = RtoC (rsum n (fun m => rnth r m * rnth w (circ n m (Z.of_nat l)))).
Proof.
  intro Hl. assert (Hn : (0 < n)%nat) by lia.
  rewrite real_filter by (rewrite ?map_length, ?fft_length; auto; apply herm_conj; rewrite ?fft_length; auto using fft_real_herm).
  f_equal. apply rsum_ext. intros m Hm. f_equal. rewrite rnth_map_Re.
  assert (E : cnth (ifft (map Cconj (fft (map RtoC w) n)) n) (circ n l (Z.of_nat m))
              = cnth (map RtoC w) (circ n m (Z.of_nat l))).
  { rewrite ifft_nth by (apply circ_lt; exact Hn).
    rewrite <- (ifft_fft (map RtoC w) n (circ n m (Z.of_nat l))) by (apply circ_lt; exact Hn).
    rewrite ifft_nth by (apply circ_lt; exact Hn).
    f_equal. rewrite <- (csum_neg n (fun k => cnth (map Cconj (fft (map RtoC w) n)) k * _)%C Hn).
    apply csum_ext. intros k Hk. rewrite cnth_map by (rewrite fft_length; apply circ_lt; exact Hn).
    rewrite fft_real_herm by assumption. rewrite Cconj_conj. f_equal.
    apply W_congr; [exact Hn|]. rewrite !circ_spec by exact Hn.
    rewrite Z.mul_mod_idemp_l, Z.mul_mod_idemp_r by lia. rewrite Z.mul_mod_idemp_l by lia. f_equal. lia. }
  rewrite E, cnth_map_RtoC. reflexivity.
Qed.

(** Parseval is not needed; injectivity of the transform is. *)
Lemma fft_zero (x : list C) n : (forall k, (k < n)%nat -> cnth (fft x n) k = C0) -> forall j, (j < n)%nat -> cnth x j = C0.
Proof.
  intros H j Hj. rewrite <- (ifft_fft x n j Hj). rewrite ifft_nth by exact Hj.
  rewrite (csum_ext n _ (fun _ => C0)) by (intros k Hk; rewrite H by exact Hk; ring). rewrite csum_0. ring.
Qed.
