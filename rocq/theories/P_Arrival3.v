(** * P_Arrival3: from a layered medium to the receiver function of [synrf] (C95). *)

From Coq Require Import Reals Lra.
From Verif Require Import Base Num NumPy Spec HkModel HkReal Cplx Mat4 SpecElastic SpecArrival SpecSignal DFT DFT2 ReverbModel DeconModel HaskellModel HaskellProofs HaskellProofs2 HaskellProofs3 HaskellProofs4 HaskellProofs5 HaskellProofs6 P_Haskell P_Haskell2 DeconProofs5 P_Decon2 SynModel P_Syn P_Arrival P_Arrival2.
Local Open Scope R_scope.

(** ** Transforms of real parts *)
Lemma RtoC_Re z : RtoC (Re z) = (RtoC (/ 2) * (z + Cconj z))%C.
Proof. destruct z. apply C_eq; cunf; field. Qed.

Lemma orth_pick n (a : Z) : (0 < n)%nat -> (- Z.of_nat n < a < Z.of_nat n)%Z ->
  csum n (fun j => W n (a * Z.of_nat j)) = if (a =? 0)%Z then RtoC (INR n) else C0.
Proof.
  intros Hn Ha. rewrite W_orth by exact Hn. destruct (Z.eqb_spec a 0) as [->|N].
  - rewrite Z.mod_0_l by lia. reflexivity.
  - destruct (Z.eqb_spec (a mod Z.of_nat n) 0) as [E|]; [|reflexivity]. exfalso.
    apply Z.mod_divide in E; [|lia]. destruct E as [c Ec].
    assert (c = 0 \/ 1 <= c \/ c <= -1)%Z as [->|[C|C]] by lia; nia.
Qed.

(** Sum over harmonics [1..m] of a real signal, transformed back. *)
Lemma dft_harmonics n m (H : nat -> C) (x : list R) c k : (0 < n)%nat -> n = (2 * m)%nat -> (1 <= k < m)%nat ->
  (forall j, (j < n)%nat -> rnth x j = c * rsum m (fun i => Re (H (S i) * W n (- (Z.of_nat (S i) * Z.of_nat (j + 1))))%C)) ->
  dft n x k = (RtoC (c * INR n / 2) * (W n (Z.of_nat k) * Cconj (H k)))%C.
Proof.
  intros Hn Em Hk Hx. unfold dft.
  transitivity (csum n (fun j => csum m (fun i =>
     RtoC (c / 2) * (H (S i) * W n (- Z.of_nat (S i))) * W n ((- (Z.of_nat (S i) + Z.of_nat k)) * Z.of_nat j) +
     RtoC (c / 2) * (Cconj (H (S i)) * W n (Z.of_nat (S i))) * W n ((Z.of_nat (S i) - Z.of_nat k) * Z.of_nat j)))%C).
  { apply csum_ext. intros j Hj. rewrite Hx by exact Hj. rewrite RtoC_mul, <- csum_RtoC.
    transitivity (csum m (fun i => (RtoC c * W n (- (Z.of_nat j * Z.of_nat k))) * RtoC (Re (H (S i) * W n (- (Z.of_nat (S i) * Z.of_nat (j + 1))))%C))%C).
    { rewrite csum_scale. ring. }
    apply csum_ext. intros i Hi. rewrite RtoC_Re, Cconj_mul, Cconj_W, Z.opp_involutive.
    replace (- (Z.of_nat (S i) * Z.of_nat (j + 1)))%Z with (- Z.of_nat (S i) + - (Z.of_nat (S i)) * Z.of_nat j)%Z by lia.
    replace (Z.of_nat (S i) * Z.of_nat (j + 1))%Z with (Z.of_nat (S i) + Z.of_nat (S i) * Z.of_nat j)%Z by lia.
    replace (- (Z.of_nat (S i) + Z.of_nat k) * Z.of_nat j)%Z with (- (Z.of_nat j * Z.of_nat k) + - (Z.of_nat (S i)) * Z.of_nat j)%Z by lia.
    replace ((Z.of_nat (S i) - Z.of_nat k) * Z.of_nat j)%Z with (- (Z.of_nat j * Z.of_nat k) + Z.of_nat (S i) * Z.of_nat j)%Z by lia.
    rewrite !W_add. replace (c / 2) with (c * / 2) by reflexivity. rewrite RtoC_mul. ring. }
  rewrite csum_swap, (csum_single m _ (k - 1)).
  - replace (S (k - 1)) with k by lia. rewrite csum_add, !csum_scale, !orth_pick by lia.
    destruct (Z.eqb_spec (- (Z.of_nat k + Z.of_nat k)) 0); [lia|]. rewrite Z.sub_diag, Z.eqb_refl.
    replace (c * INR n / 2) with (c / 2 * INR n) by field. rewrite RtoC_mul. ring.
  - lia.
  - intros i Hi Ni. rewrite csum_add, !csum_scale, !orth_pick by lia.
    destruct (Z.eqb_spec (- (Z.of_nat (S i) + Z.of_nat k)) 0); [lia|]. destruct (Z.eqb_spec (Z.of_nat (S i) - Z.of_nat k) 0); [lia|]. ring.
Qed.

Lemma dft_series dt n m (H : nat -> C) (x : list R) (sg : R) k : dt <> 0 -> (0 < n)%nat -> n = (2 * m)%nat -> (1 <= k < m)%nat ->
  (forall j, (j < n)%nat -> rnth x j = sg * series dt n H (INR (j + 1) * dt)) ->
  dft n x k = (RtoC (sg / (2 * INR n)) * (W n (Z.of_nat k) * Cconj (H k)))%C.
Proof.
  intros Hd Hn Em Hk Hx. assert (Nn : INR n <> 0) by (apply not_0_INR; lia).
  rewrite (dft_harmonics n m H x (sg / (INR n * INR n)) k Hn Em Hk).
  - f_equal. f_equal. field. exact Nn.
  - intros j Hj. rewrite Hx by exact Hj. unfold series. rewrite Em. replace (2 * m / 2)%nat with m by (rewrite Nat.mul_comm, Nat.div_mul; lia). rewrite <- Em.
    assert (E : rsum m (fun i => Re (H (S i) * cis (- (freq dt n (S i) * (INR (j + 1) * dt))))%C) = rsum m (fun i => Re (H (S i) * W n (- (Z.of_nat (S i) * Z.of_nat (j + 1))))%C)).
    { apply rsum_ext. intros i Hi. rewrite (W_omg n dt) by assumption. reflexivity. }
    rewrite E. unfold Rdiv. ring.
Qed.

Lemma dft_synth n (F : nat -> C) (x : list R) c k : (0 < n)%nat -> (1 <= k < n)%nat ->
  (forall j, (j < n)%nat -> rnth x j = c * synth n F j) ->
  dft n x k = (RtoC (c / 2) * (F k + Cconj (F (n - k)%nat)))%C.
Proof.
  intros Hn Hk Hx. assert (Nn : INR n <> 0) by (apply not_0_INR; lia). unfold dft.
  transitivity (csum n (fun j => csum n (fun i =>
     RtoC (c / (2 * INR n)) * F i * W n ((Z.of_nat i - Z.of_nat k) * Z.of_nat j) +
     RtoC (c / (2 * INR n)) * Cconj (F i) * W n ((- (Z.of_nat i + Z.of_nat k)) * Z.of_nat j)))%C).
  { apply csum_ext. intros j Hj. rewrite Hx by exact Hj. unfold synth. rewrite <- Rmult_assoc, RtoC_mul, <- csum_RtoC.
    transitivity (csum n (fun i => (RtoC (c * / INR n) * W n (- (Z.of_nat j * Z.of_nat k))) * RtoC (Re (F i * W n (Z.of_nat j * Z.of_nat i))%C))%C).
    { rewrite csum_scale. ring. }
    apply csum_ext. intros i Hi. rewrite RtoC_Re, Cconj_mul, Cconj_W.
    replace (- (Z.of_nat i + Z.of_nat k) * Z.of_nat j)%Z with (- (Z.of_nat j * Z.of_nat k) + - (Z.of_nat j * Z.of_nat i))%Z by lia.
    replace ((Z.of_nat i - Z.of_nat k) * Z.of_nat j)%Z with (- (Z.of_nat j * Z.of_nat k) + Z.of_nat j * Z.of_nat i)%Z by lia.
    rewrite !W_add. replace (c / (2 * INR n)) with (c * / INR n * / 2) by (field; exact Nn). rewrite (RtoC_mul _ (/ 2)). ring. }
  rewrite csum_swap.
  transitivity (csum n (fun i => (RtoC (c / (2 * INR n)) * F i * (if (Z.of_nat i - Z.of_nat k =? 0)%Z then RtoC (INR n) else C0) +
                                  RtoC (c / (2 * INR n)) * Cconj (F i) * (if (Z.of_nat i =? Z.of_nat (n - k))%Z then RtoC (INR n) else C0))%C)).
  { apply csum_ext. intros i Hi. rewrite csum_add, !csum_scale. f_equal.
    - rewrite orth_pick by lia. reflexivity.
    - f_equal. rewrite W_orth by exact Hn. destruct (Z.eqb_spec (Z.of_nat i) (Z.of_nat (n - k))) as [E|E].
      + replace (- (Z.of_nat i + Z.of_nat k))%Z with ((-1) * Z.of_nat n)%Z by lia. rewrite Z_mod_mult. reflexivity.
      + destruct (Z.eqb_spec ((- (Z.of_nat i + Z.of_nat k)) mod Z.of_nat n) 0) as [D|]; [|reflexivity]. exfalso.
        apply Z.mod_divide in D; [|lia]. destruct D as [q Dq]. assert (0 <= q \/ q = -1 \/ q <= -2)%Z as [C|[->|C]] by lia; nia. }
  rewrite csum_add. rewrite (csum_single n _ k); [|lia|].
  - rewrite (csum_single n (fun i => (RtoC (c / (2 * INR n)) * Cconj (F i) * _)%C) (n - k)); [|lia|].
    + rewrite Z.sub_diag, !Z.eqb_refl. replace (c / 2) with (c / (2 * INR n) * INR n) by (field; exact Nn). rewrite RtoC_mul. ring.
    + intros i Hi Ni. destruct (Z.eqb_spec (Z.of_nat i) (Z.of_nat (n - k))); [lia|]. ring.
  - intros i Hi Ni. destruct (Z.eqb_spec (Z.of_nat i - Z.of_nat k) 0); [lia|]. ring.
Qed.

Lemma dft_conj n x k : (0 < n)%nat -> (1 <= k < n)%nat -> dft n x (n - k) = Cconj (dft n x k).
Proof.
  intros Hn Hk. unfold dft. rewrite csum_conj. apply csum_ext. intros j Hj. rewrite Cconj_mul, Cconj_RtoC, Cconj_W. f_equal.
  apply W_congr; [exact Hn|].
  replace (- (Z.of_nat j * Z.of_nat (n - k)))%Z with (- - (Z.of_nat j * Z.of_nat k) + (- Z.of_nat j) * Z.of_nat n)%Z by (rewrite Nat2Z.inj_sub by lia; ring).
  apply Z_mod_plus_full.
Qed.

(** The spectrum of the water-level receiver function of records as long as the transform. *)
Lemma waterlevel_spectrum uin win dt pre wl a norm rf rms n m M D k :
  wl_run uin win dt pre wl a norm rf rms n M D -> length uin = n -> n = (2 * m)%nat -> (1 <= k < m)%nat ->
  let scale := if norm then INR n * dt / rsum n (gauss_gain dt n a) else 1 in
  dft n rf k = (RtoC (scale * gauss_gain dt n a k / dt) * dft n uin k * Cconj (dft n win k) * RtoC (/ D k) * cis (- (omega dt n k * pre)))%C.
Proof.
  intros Rn Ln Em Hk scale. assert (Hn : (0 < n)%nat) by lia.
  rewrite (dft_synth n (fun k => RtoC (gauss_gain dt n a k / dt) * dft n uin k * Cconj (dft n win k) * RtoC (/ D k) * cis (- (omega dt n k * pre)))%C rf scale k Hn ltac:(lia)).
  2:{ intros j Hj. rewrite (wr_rf _ _ _ _ _ _ _ _ _ _ _ _ Rn j) by lia. reflexivity. }
  assert (G : gauss_gain dt n a (n - k) = gauss_gain dt n a k).
  { unfold gauss_gain. replace (n - (n - k))%nat with k by lia. rewrite Nat.min_comm. reflexivity. }
  assert (ED : D (n - k)%nat = D k).
  { rewrite !(wr_D _ _ _ _ _ _ _ _ _ _ _ _ Rn) by lia. rewrite dft_conj by lia. f_equal. destruct (dft n win k). unfold Cnorm2, Cconj. cunf. ring. }
  assert (EO : omega dt n (n - k) = - omega dt n k).
  { unfold omega. assert (n / 2 = m)%nat by (rewrite Em, Nat.mul_comm, Nat.div_mul; lia).
    destruct (Nat.leb_spec (n - k) (n / 2)); [lia|]. destruct (Nat.leb_spec k (n / 2)); [|lia]. rewrite minus_INR by lia. unfold Rdiv. ring. }
  rewrite G, ED, EO, !dft_conj by lia. rewrite !Cconj_mul, !Cconj_RtoC, !Cconj_conj, <- cis_neg.
  replace (- (- (- omega dt n k * pre))) with (- (omega dt n k * pre)) by ring.
  replace (scale * gauss_gain dt n a k / dt) with (scale / 2 * 2 * (gauss_gain dt n a k / dt)) by (unfold Rdiv; field_simplify; [field|..]; apply (wr_dt _ _ _ _ _ _ _ _ _ _ _ _ Rn)).
  rewrite !RtoC_mul. replace (RtoC 2) with (C1 + C1)%C by (apply C_eq; cunf; ring). ring.
Qed.

(** ** C95 *)
(** The spectrum of spikes of amplitudes [a] at the delays of the paths, in the usual
    convention (a spike at time t contributes exp(-i w t)). *)
Definition arrivals (w p : R) (ls : list layer) (a : list leg -> R) : C :=
  lsum (fun c => RtoC (a c) * cis (- (w * path_delay p ls c)))%C (paths (length ls)).
Lemma arrivals_conj w p ls a : arrivals w p ls a = Cconj (spikes w p ls a).
Proof.
  unfold arrivals, spikes. induction (paths (length ls)) as [|c l IH]; cbn [lsum]; [apply C_eq; cunf; ring|].
  rewrite Cconj_add, Cconj_mul, Cconj_RtoC, <- cis_neg, IH. reflexivity.
Qed.

(** One record of [npts = 2^q] samples, deconvolved with a water level.  The amplitudes
    depend on the medium, the slowness and the incident wave only - not on the sampling,
    the length of the record, the filter, the level or the onset.  [F k] is the discrete
    spectrum of the returned receiver function; bin [k] is any below the Nyquist
    frequency at which the vertical record is not below the water level. *)
Theorem C95_water p ls l ipha : ls <> [] -> Forall (fun l => admissible p (mat l)) (ls ++ [l]) ->
  let all := ls ++ [l] in
  exists aR aZ : list leg -> R,
  forall dt q preonset wlevel gaussian normalize ur uz rf rms,
  (1 <= q)%nat ->
  let n := (2 ^ q)%nat in
  fwd_seis p dt n ipha (vps all) (vss all) (rhos all) (thicks all) = Ok (ur, uz) ->
  deconv_waterlevel ur uz dt preonset wlevel gaussian normalize = Ok (rf, rms) ->
  forall k, (1 <= k < n / 2)%nat ->
  (forall k', (k' < n)%nat -> wlevel * Cnorm2 (dft n uz k') <= Cnorm2 (dft n uz k)) ->
  let w := 2 * PI * INR k / (INR n * dt) in
  let scale := if normalize then INR n * dt / rsum n (gauss_gain dt n gaussian) else 1 in
  arrivals w p ls aZ <> C0 /\
  (dft n rf k * arrivals w p ls aZ)%C =
  (RtoC (scale * gauss_gain dt n gaussian k / dt) * cis (- (w * preonset)) * arrivals w p ls aR)%C.
Proof.
  intros Hne HA all.
  assert (Neg : forall w a, spikes w p ls (fun c => - a c) = (- spikes w p ls a)%C).
  { intros w a. unfold spikes. rewrite <- (lsum_ext (fun c => (- C1) * (RtoC (a c) * cis (w * path_delay p ls c)))%C).
    - rewrite lsum_mul. ring.
    - intros c _. rewrite RtoC_opp. ring. }
  destruct (C94_receiver_function p ls l ipha Hne HA) as (aR & aZ & RF).
  exists (fun c => - aR c), aZ. intros dt q preonset wlevel gaussian normalize ur uz rf rms Hq n Hf Hd k Hk Hlev w scale.
  apply deconv_waterlevel_inv in Hd as (M & D & Rn).
  pose proof (wr_dt _ _ _ _ _ _ _ _ _ _ _ _ Rn) as Ndt.
  assert (Em : exists m, n = (2 * m)%nat) by (exists (2 ^ (q - 1))%nat; unfold n; replace q with (S (q - 1)) at 1 by lia; reflexivity).
  destruct Em as [m Em]. assert (H2 : (n / 2 = m)%nat) by (rewrite Em, Nat.mul_comm, Nat.div_mul; lia). rewrite H2 in Hk.
  assert (Hn : (0 < n)%nat) by lia.
  assert (Lq : Nat.log2_up n = q) by (unfold n; apply Nat.log2_up_pow2; lia).
  (* the spectra of the records *)
  set (val := fun i => match haskell (freq dt n i) p (length all) ipha (vps all) (vss all) (rhos all) (thicks all) with Ok v => v | Err _ => (C0, C0) end).
  assert (V : forall i, (1 <= i <= n / 2)%nat -> haskell (freq dt n i) p (length (thicks all)) ipha (vps all) (vss all) (rhos all) (thicks all) = Ok (fst (val i), snd (val i))).
  { intros i Hi. destruct (C60_defined (freq dt n i) p ipha all) as (a&b&E&_).
    - apply freq_nz; [exact Ndt|lia|lia].
    - unfold all. destruct ls; discriminate.
    - exact HA.
    - unfold val. assert (LT : length (thicks all) = length all) by apply map_length. rewrite LT, E. reflexivity. }
  pose proof (fwd_seis_spec p dt n ipha (vps all) (vss all) (rhos all) (thicks all) (fun i => fst (val i)) (fun i => snd (val i)) Hn Ndt) as X.
  cbv zeta in X. rewrite Lq in X. fold n in X. destruct (X V) as (ur' & uz' & E & L1 & L2 & Q). rewrite Hf in E. injection E as <- <-. clear X.
  assert (Dr : dft n ur k = (RtoC (1 / (2 * INR n)) * (W n (Z.of_nat k) * Cconj (fst (val k))))%C).
  { apply (dft_series dt n m (fun i => fst (val i))); try assumption. intros j Hj. rewrite (proj1 (Q j Hj)). ring. }
  assert (Dz : dft n uz k = (RtoC (-1 / (2 * INR n)) * (W n (Z.of_nat k) * Cconj (snd (val k))))%C).
  { apply (dft_series dt n m (fun i => snd (val i))); try assumption. intros j Hj. rewrite (proj2 (Q j Hj)). ring. }
  rewrite L1 in Rn. rewrite Lq in Rn. fold n in Rn.
  pose proof (waterlevel_spectrum _ _ _ _ _ _ _ _ _ _ m _ _ k Rn L1 Em Hk) as SP. cbv zeta in SP. fold scale in SP.
  assert (Ew : omega dt n k = w).
  { unfold omega, w. rewrite H2. destruct (Nat.leb_spec k m); [reflexivity|lia]. }
  assert (DK : D k = Cnorm2 (dft n uz k)).
  { rewrite (wr_D _ _ _ _ _ _ _ _ _ _ _ _ Rn) by lia. apply Rmax_left.
    destruct (wr_M _ _ _ _ _ _ _ _ _ _ _ _ Rn) as [_ (k'&Hk'&<-)]. apply Hlev. exact Hk'. }
  assert (NZ : dft n uz k <> C0).
  { intro Z. apply (wr_D0 _ _ _ _ _ _ _ _ _ _ _ _ Rn k ltac:(lia)). rewrite DK, Z. apply Cnorm2_0. reflexivity. }
  (* the medium *)
  destruct (RF (freq dt n k)) as (vr & vz & Eh & E1 & _ & E3).
  { apply freq_nz; [exact Ndt|lia|lia]. }
  fold all in Eh. assert (Ev : val k = (vr, vz)) by (unfold val; rewrite Eh; reflexivity).
  rewrite Ev in Dr, Dz. cbn [fst snd] in Dr, Dz.
  assert (Nvz : vz <> C0).
  { intro Z. apply NZ. rewrite Dz, Z. replace (Cconj C0) with C0 by (apply C_eq; cunf; ring). ring. }
  destruct (E3 Nvz) as [NaZ _]. change (freq dt n k) with w in *.
  assert (CZ : arrivals w p ls aZ <> C0).
  { rewrite arrivals_conj. intro Z. apply NaZ. rewrite <- (Cconj_conj (spikes w p ls aZ)), Z. apply C_eq; cunf; ring. }
  split; [exact CZ|].
  assert (QU : (dft n ur k * arrivals w p ls aZ)%C = (dft n uz k * arrivals w p ls (fun c => (- aR c)%R))%C).
  { rewrite Dr, Dz, !arrivals_conj, Neg. pose proof (f_equal Cconj E1) as CE. rewrite !Cconj_mul in CE.
    replace (Cconj (- spikes w p ls aR)%C) with (- Cconj (spikes w p ls aR))%C by (apply C_eq; cunf; ring).
    replace (-1 / (2 * INR n)) with (- (1 / (2 * INR n))) by (field; apply not_0_INR; lia). rewrite RtoC_opp.
    transitivity (RtoC (1 / (2 * INR n)) * W n (Z.of_nat k) * (Cconj vr * Cconj (spikes w p ls aZ)))%C; [ring|]. rewrite CE. ring. }
  rewrite SP, Ew, DK.
  transitivity (RtoC (scale * gauss_gain dt n gaussian k / dt) * (dft n ur k * arrivals w p ls aZ) * Cconj (dft n uz k) * RtoC (/ Cnorm2 (dft n uz k)) * cis (- (w * preonset)))%C; [ring|].
  rewrite QU.
  transitivity (RtoC (scale * gauss_gain dt n gaussian k / dt) * cis (- (w * preonset)) * (arrivals w p ls (fun c => (- aR c)%R) * Cconj (dft n uz k) * RtoC (/ Cnorm2 (dft n uz k)) * dft n uz k))%C; [ring|].
  rewrite (Cquot_exact _ (dft n uz k) _ NZ eq_refl). reflexivity.
Qed.

(** The same through the class [synrf]: after any history of calls, [run_fwd] and
    [run_deconvolution(pre_filt=None, preonset, gaussian, method='water', wlevel=..)] for
    any list of ray parameters. *)
Theorem C95_synrf p ls l ipha : ls <> [] -> Forall (fun l => admissible p (mat l)) (ls ++ [l]) ->
  let all := ls ++ [l] in
  exists aR aZ : list leg -> R,
  forall bp depth rayp dt q o cs o' preonset gaussian wlevel method ts i,
  (1 <= q)%nat -> thickness depth = thicks all ->
  let n := (2 ^ q)%nat in
  syn_init depth (vps all) (vss all) (rhos all) rayp dt n ipha = Ok o ->
  run_fwd (do_calls bp o cs) = (o', Ok tt) ->
  nocase method "water" ->
  snd (run_deconvolution bp o' None preonset gaussian (Some method)
        (mkKw None None None None None None (Some wlevel) None false)) = Ok ts ->
  nth_error (ray_list rayp) i = Some p ->
  exists t ur uz, nth_error ts i = Some t /\ rf_delta t = dt /\ length (rf_data t) = n /\
    fwd_seis p dt n ipha (vps all) (vss all) (rhos all) (thicks all) = Ok (ur, uz) /\
    forall k, (1 <= k < n / 2)%nat ->
    (forall k', (k' < n)%nat -> wlevel * Cnorm2 (dft n uz k') <= Cnorm2 (dft n uz k)) ->
    let w := 2 * PI * INR k / (INR n * dt) in
    arrivals w p ls aZ <> C0 /\
    dft n (rf_data t) k =
    (RtoC (gauss_gain dt n gaussian k / dt) * cis (- (w * preonset)) * (arrivals w p ls aR / arrivals w p ls aZ))%C.
Proof.
  intros Hne HA all. destruct (C95_water p ls l ipha Hne HA) as (aR & aZ & H). exists aR, aZ.
  intros bp depth rayp dt q o cs o' preonset gaussian wlevel method ts i Hq Ht n Ho Hf Hm Hd Hi.
  destruct (C43_receiver_functions _ _ _ _ _ _ _ _ _ _ _ _ _ _ _ _ _ Ho Hf Hd) as [_ Q].
  destruct (Q i p Hi) as (ur & uz & r & E1 & E2 & E3). rewrite Ht in E1. cbn [dflt] in E2.
  destruct (C40_dispatch ur uz dt method (with_po_ga (mkKw None None None None None None (Some wlevel) None false) preonset gaussian)) as (_ & DW & _).
  rewrite (DW Hm) in E2. unfold call_waterlevel in E2. cbn [with_po_ga kw_nt kw_itmax kw_minderr kw_other given orb kw_preonset kw_wlevel kw_gaussian kw_normalize dflt] in E2.
  apply bind_Ok_inv in E2. destruct E2 as ([rf rms] & E2 & Er). cbn [fst snd] in Er. injection Er as <-.
  exists (mkRf dt (RWater rf rms)), ur, uz. split; [exact E3|]. split; [reflexivity|]. cbn [rf_data rf_result].
  pose proof (deconv_waterlevel_inv _ _ _ _ _ _ _ _ _ E2) as (M & D & Rn).
  assert (Lu : length ur = n).
  { assert (Hn : (0 < n)%nat) by (unfold n; pose proof (Nat.pow_nonzero 2 q); lia).
    destruct (C64_seismograms p dt n ipha ls l Hn (wr_dt _ _ _ _ _ _ _ _ _ _ _ _ Rn) Hne HA) as (ur' & uz' & Hr & Hz & Ef & L & _).
    fold all in Ef. rewrite E1 in Ef. injection Ef as <- _. exact L. }
  split; [rewrite (wr_lrf _ _ _ _ _ _ _ _ _ _ _ _ Rn); exact Lu|]. split; [exact E1|].
  intros k Hk Hl. set (w := 2 * PI * INR k / (INR n * dt)). destruct (H dt q preonset wlevel gaussian false ur uz rf rms Hq E1 E2 k Hk Hl) as [N E]. fold n in N, E. fold w in N, E.
  split; [exact N|]. cbn [rf_data rf_result]. cbv zeta in E. rewrite Rmult_1_l in E.
  transitivity (dft n rf k * arrivals w p ls aZ / arrivals w p ls aZ)%C; [field; exact N|]. rewrite E. field. exact N.
Qed.

(** One layer: the numerator and denominator have four spikes, at 0 and at the three
    times at which [hk] reads the trace for this layer. *)
Definition four_arrivals (w t1 t2 t3 : R) (a : R * R * R * R) : C :=
  let '(a0, a1, a2, a3) := a in
  (RtoC a0 + RtoC a1 * cis (- (w * t1)) + RtoC a2 * cis (- (w * t2)) + RtoC a3 * cis (- (w * t3)))%C.
Lemma arrivals_one w p l a : arrivals w p [l] a =
  four_arrivals w (leg_delay p l LPs) (leg_delay p l LPpPs) (leg_delay p l LPsPs) (a [Direct], a [LPs], a [LPpPs], a [LPsPs]).
Proof.
  unfold arrivals, four_arrivals. cbn [length paths legs flat_map map app lsum path_delay leg_delay].
  rewrite !Rplus_0_r, Rmult_0_r, Ropp_0, cis_0. ring.
Qed.
Theorem C95_one_layer p pk rho Vp K H l : 1 <= K ->
  admissible p (mat (crust rho Vp K H)) -> admissible p (mat l) ->
  let all := [crust rho Vp K H; l] in
  exists tPs tPpPs tPsPs (aR aZ : R * R * R * R),
  @hk_times RN Vp p pk H K = Ok (TR tPs, TR tPpPs, TR tPsPs) /\
  forall dt q preonset wlevel gaussian ur uz rf rms,
  (1 <= q)%nat ->
  let n := (2 ^ q)%nat in
  fwd_seis p dt n 1 (vps all) (vss all) (rhos all) (thicks all) = Ok (ur, uz) ->
  deconv_waterlevel ur uz dt preonset wlevel gaussian false = Ok (rf, rms) ->
  forall k, (1 <= k < n / 2)%nat ->
  (forall k', (k' < n)%nat -> wlevel * Cnorm2 (dft n uz k') <= Cnorm2 (dft n uz k)) ->
  let w := 2 * PI * INR k / (INR n * dt) in
  four_arrivals w tPs tPpPs tPsPs aZ <> C0 /\
  (dft n rf k * four_arrivals w tPs tPpPs tPsPs aZ)%C =
  (RtoC (gauss_gain dt n gaussian k / dt) * cis (- (w * preonset)) * four_arrivals w tPs tPpPs tPsPs aR)%C.
Proof.
  intros HK A1 A2 all. set (c := crust rho Vp K H) in *.
  assert (HA : Forall (fun l => admissible p (mat l)) ([c] ++ [l])) by (constructor; [exact A1|constructor; [exact A2|constructor]]).
  destruct (C95_water p [c] l 1 ltac:(discriminate) HA) as (aR & aZ & Hh).
  exists (leg_delay p c LPs), (leg_delay p c LPpPs), (leg_delay p c LPsPs), (aR [Direct], aR [LPs], aR [LPpPs], aR [LPsPs]), (aZ [Direct], aZ [LPs], aZ [LPpPs], aZ [LPsPs]).
  split; [apply C94_hk_delays; assumption|]. intros dt q preonset wlevel gaussian ur uz rf rms Hq n Hf Hd k Hk Hl w.
  pose proof (Hh dt q preonset wlevel gaussian false ur uz rf rms Hq Hf Hd k Hk Hl) as Q. cbv zeta in Q. fold n in Q. fold w in Q.
  rewrite !arrivals_one, Rmult_1_l in Q. exact Q.
Qed.

(** ** The hypotheses are met *)
(** At every bin whose vertical response is not zero there is a water level above zero
    that the bin exceeds, and the run returns. *)
Lemma C95_runs p ls l ipha dt q preonset gaussian k vr vz : ls <> [] -> Forall (fun l => admissible p (mat l)) (ls ++ [l]) ->
  (1 <= q)%nat -> dt <> 0 -> gaussian <> 0 ->
  let all := ls ++ [l] in let n := (2 ^ q)%nat in (1 <= k < n / 2)%nat ->
  haskell (2 * PI * INR k / (INR n * dt)) p (length all) ipha (vps all) (vss all) (rhos all) (thicks all) = Ok (vr, vz) -> vz <> C0 ->
  exists ur uz, fwd_seis p dt n ipha (vps all) (vss all) (rhos all) (thicks all) = Ok (ur, uz) /\
  exists top, 0 < top /\ forall wlevel, 0 < wlevel <= top ->
    (forall k', (k' < n)%nat -> wlevel * Cnorm2 (dft n uz k') <= Cnorm2 (dft n uz k)) /\
    forall normalize, exists rf rms, deconv_waterlevel ur uz dt preonset wlevel gaussian normalize = Ok (rf, rms).
Proof.
  intros Hne HA Hq Ndt Ng all n Hk Eh Nz.
  assert (Em : exists m, n = (2 * m)%nat) by (exists (2 ^ (q - 1))%nat; unfold n; replace q with (S (q - 1)) at 1 by lia; reflexivity).
  destruct Em as [m Em]. assert (H2 : (n / 2 = m)%nat) by (rewrite Em, Nat.mul_comm, Nat.div_mul; lia). rewrite H2 in Hk.
  assert (Hn : (0 < n)%nat) by lia.
  assert (Lq : Nat.log2_up n = q) by (unfold n; apply Nat.log2_up_pow2; lia).
  set (val := fun i => match haskell (freq dt n i) p (length all) ipha (vps all) (vss all) (rhos all) (thicks all) with Ok v => v | Err _ => (C0, C0) end).
  assert (V : forall i, (1 <= i <= n / 2)%nat -> haskell (freq dt n i) p (length (thicks all)) ipha (vps all) (vss all) (rhos all) (thicks all) = Ok (fst (val i), snd (val i))).
  { intros i Hi. destruct (C60_defined (freq dt n i) p ipha all) as (a&b&E&_).
    - apply freq_nz; [exact Ndt|lia|lia].
    - unfold all. destruct ls; discriminate.
    - exact HA.
    - unfold val. assert (LT : length (thicks all) = length all) by apply map_length. rewrite LT, E. reflexivity. }
  pose proof (fwd_seis_spec p dt n ipha (vps all) (vss all) (rhos all) (thicks all) (fun i => fst (val i)) (fun i => snd (val i)) Hn Ndt) as X.
  cbv zeta in X. rewrite Lq in X. fold n in X. destruct (X V) as (ur & uz & E & L1 & L2 & Q). clear X.
  exists ur, uz. split; [exact E|].
  assert (Dz : dft n uz k = (RtoC (-1 / (2 * INR n)) * (W n (Z.of_nat k) * Cconj (snd (val k))))%C).
  { apply (dft_series dt n m (fun i => snd (val i))); try assumption. intros j Hj. rewrite (proj2 (Q j Hj)). ring. }
  assert (Ev : val k = (vr, vz)) by (unfold val, freq; rewrite Eh; reflexivity). rewrite Ev in Dz. cbn [snd] in Dz.
  assert (NZ : dft n uz k <> C0).
  { rewrite Dz. intro Z. apply Cmul_0 in Z as [Z|Z].
    - apply RtoC_neq0 in Z; [exact Z|]. assert (0 < INR n) by (apply lt_0_INR; lia). apply Rmult_integral_contrapositive_currified; [lra|apply Rinv_neq_0_compat; lra].
    - apply Cmul_0 in Z as [Z|Z]; [exact (cis_neq0 _ Z)|]. apply Nz. rewrite <- (Cconj_conj vz), Z. apply C_eq; cunf; ring. }
  assert (P0 : 0 < Cnorm2 (dft n uz k)).
  { pose proof (Cnorm2_pos (dft n uz k)) as P. rewrite <- Cnorm2_0 in NZ. lra. }
  assert (MX : forall a, exists B, 0 < B /\ forall j, (j < a)%nat -> Cnorm2 (dft n uz j) <= B).
  { induction a as [|a (B & HB & IH)]; [exists 1; split; [lra|lia]|]. exists (B + Cnorm2 (dft n uz a)).
    pose proof (Cnorm2_pos (dft n uz a)). split; [lra|]. intros j Hj. destruct (Nat.eq_dec j a) as [->|]; [lra|]. specialize (IH j ltac:(lia)). lra. }
  destruct (MX n) as (B & HB & HM). exists (Cnorm2 (dft n uz k) / B). split; [apply Rdiv_lt_0_compat; assumption|].
  intros wl [W0 W1]. split.
  - intros k' Hk'. specialize (HM k' Hk'). pose proof (Cnorm2_pos (dft n uz k')).
    apply Rle_trans with (wl * B); [apply Rmult_le_compat_l; lra|]. apply Rle_trans with (Cnorm2 (dft n uz k) / B * B); [apply Rmult_le_compat_r; lra|].
    right. field. lra.
  - intro normalize. apply C41_returns; [congruence|rewrite L1; lia|exact Ndt|exact Ng| |left; exact W0].
    intro Z. apply NZ. unfold dft. rewrite (csum_ext n _ (fun _ => C0)); [apply csum_0|]. intros j Hj. rewrite (Z j). apply C_eq; cunf; ring.
Qed.

(** A medium without contrast, at an inclined ray, never has a silent vertical. *)
Lemma uniform_vertical p m ls z omega ur uz : ls <> [] -> admissible p m -> Forall (fun l => mat l = m) ls -> omega <> 0 -> 0 < p -> 2 * vs_of m * vs_of m * p * p < 1 ->
  let all := ls ++ [mkLayer m z] in
  haskell omega p (length all) 1 (vps all) (vss all) (rhos all) (thicks all) = Ok (ur, uz) -> uz <> C0.
Proof.
  intros Hne HA HM Ho Hp H1 all E Z.
  destruct (C94_uniform p m ls z Hne HA HM omega Ho) as (ur' & uz' & E' & Q). fold all in E'. rewrite E in E'. injection E' as <- <-. rewrite Z in Q.
  assert (HAll : Forall (fun l => admissible p (mat l)) all).
  { unfold all. apply Forall_app. split; [eapply Forall_impl; [|exact HM]; intros l ->; exact HA|constructor; [exact HA|constructor]]. }
  destruct (C60_defined omega p 1 all Ho ltac:(unfold all; destruct ls; discriminate) HAll) as (a & b & E2 & N). rewrite E in E2. injection E2 as <- <-.
  apply N. rewrite Z. f_equal.
  assert (Q' : (ur * RtoC (1 - 2 * vs_of m * vs_of m * p * p))%C = C0) by (rewrite Q; ring).
  apply Cmul_0 in Q' as [Q'|Q']; [exact Q'|]. exfalso. apply RtoC_neq0 in Q'; [exact Q'|lra].
Qed.
Example C95_example : exists aR aZ ur uz wlevel rf rms,
  let ls := [mkLayer (mkMat 2.9 6.5 3.75) 10; mkLayer (mkMat 2.9 6.5 3.75) 25] in
  let all := ls ++ [mkLayer (mkMat 2.9 6.5 3.75) 50] in
  fwd_seis 0.06 0.1 8 1 (vps all) (vss all) (rhos all) (thicks all) = Ok (ur, uz) /\
  deconv_waterlevel ur uz 0.1 0.3 wlevel 2 false = Ok (rf, rms) /\ 0 < wlevel /\
  let w := 2 * PI * INR 3 / (INR 8 * 0.1) in
  arrivals w 0.06 ls aZ <> C0 /\
  (dft 8 rf 3 * arrivals w 0.06 ls aZ)%C = (RtoC (1 * gauss_gain 0.1 8 2 3 / 0.1) * cis (- (w * 0.3)) * arrivals w 0.06 ls aR)%C.
Proof.
  set (m := mkMat 2.9 6.5 3.75). set (ls := [mkLayer m 10; mkLayer m 25]). set (all := ls ++ [mkLayer m 50]).
  assert (HA : admissible 0.06 m) by (unfold admissible, m; cbn; lra).
  assert (HM : Forall (fun l => mat l = m) ls) by repeat constructor.
  assert (HAll : Forall (fun l => admissible 0.06 (mat l)) all) by (repeat constructor; cbn; unfold m; cbn; lra).
  assert (Ho : 2 * PI * INR 3 / (INR (2 ^ 3) * 0.1) <> 0) by (apply (freq_nz 0.1 (2 ^ 3) 3); [lra|cbn; lia|lia]).
  destruct (C60_defined _ 0.06 1 all Ho ltac:(discriminate) HAll) as (vr & vz & Eh & _).
  assert (Nz : vz <> C0) by (apply (uniform_vertical 0.06 m ls 50 _ vr vz ltac:(discriminate) HA HM Ho ltac:(lra)); [unfold m; cbn; lra|exact Eh]).
  destruct (C95_runs 0.06 ls (mkLayer m 50) 1 0.1 3 0.3 2 3 vr vz ltac:(discriminate) HAll ltac:(lia) ltac:(lra) ltac:(lra) ltac:(cbn; lia) Eh Nz) as (ur & uz & Ef & top & Ht & Hw).
  destruct (Hw top ltac:(lra)) as [Hl Hr]. destruct (Hr false) as (rf & rms & Ed).
  destruct (C95_water 0.06 ls (mkLayer m 50) 1 ltac:(discriminate) HAll) as (aR & aZ & T).
  exists aR, aZ, ur, uz, top, rf, rms. split; [exact Ef|]. split; [exact Ed|]. split; [exact Ht|].
  exact (T 0.1 3%nat 0.3 top 2 false ur uz rf rms ltac:(lia) Ef Ed 3%nat ltac:(cbn; lia) Hl).
Qed.
