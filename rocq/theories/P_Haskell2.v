(** * P_Haskell2: the seismograms of [fwd_seis] (C31, C32, C64), the one-layer exception to
    C30, and concrete instances. *)

From Coq Require Import Reals Lra.
From Verif Require Import Base Num NumPy Cplx Mat4 SpecElastic DFT DFT2 SpecSignal ReverbModel DeconModel HaskellModel HaskellProofs HaskellProofs2 HaskellProofs3 HaskellProofs4 HaskellProofs5 HaskellProofs6 P_Haskell.
Local Open Scope R_scope.

(** Angular frequency number [i] of an [n]-sample record. *)
Definition freq (dt : R) (n i : nat) : R := 2 * PI * INR i / (INR n * dt).
(** Sum over the frequencies 1..n/2 of a spectrum, synthesised with exp(-i omega t). *)
Definition series (dt : R) (n : nat) (H : nat -> C) (t : R) : R :=
  rsum (n / 2) (fun i => Re (H (S i) * cis (- (freq dt n (S i) * t)))%C) / (INR n * INR n).

Lemma freq_nz dt n i : dt <> 0 -> (0 < n)%nat -> (1 <= i)%nat -> freq dt n i <> 0.
Proof.
  intros Hd Hn Hi. unfold freq. pose proof PI_RGT_0 as P. assert (0 < INR i) by (apply lt_0_INR; lia). assert (0 < INR n) by (apply lt_0_INR; lia).
  apply Rmult_integral_contrapositive_currified.
  - assert (0 < 2 * PI * INR i) by (apply Rmult_lt_0_compat; [lra|assumption]). lra.
  - apply Rinv_neq_0_compat. apply Rmult_integral_contrapositive_currified; lra.
Qed.
Lemma rsum_band n (f : nat -> R) : (0 < n)%nat -> f 0%nat = 0 -> (forall i, (n / 2 < i < n)%nat -> f i = 0) ->
  rsum n f = rsum (n / 2) (fun i => f (S i)).
Proof.
  intros Hn H0 H1. assert (D : (n / 2 + 1 <= n)%nat).
  { pose proof (Nat.div_mod n 2 ltac:(lia)). pose proof (Nat.mod_upper_bound n 2 ltac:(lia)). lia. }
  replace n with (1 + (n / 2 + (n - n / 2 - 1)))%nat at 1 by lia.
  rewrite rsum_split. cbn [rsum]. rewrite H0, rsum_split.
  rewrite (rsum_ext (n - n / 2 - 1) _ (fun _ => 0)) by (intros j Hj; apply H1; lia).
  rewrite rsum_0. rewrite !Rplus_0_l, Rplus_0_r. reflexivity.
Qed.

Lemma fwd_seis_spec rayp dt npts ipha al be rh h (Hr Hz : nat -> C) : (0 < npts)%nat -> dt <> 0 ->
  let n := (2 ^ Nat.log2_up npts)%nat in
  (forall i, (1 <= i <= n / 2)%nat -> haskell (freq dt n i) rayp (length h) ipha al be rh h = Ok (Hr i, Hz i)) ->
  exists ur uz, fwd_seis rayp dt npts ipha al be rh h = Ok (ur, uz) /\ length ur = npts /\ length uz = npts /\
    forall k, (k < npts)%nat ->
      rnth ur k = series dt n Hr (INR (k + 1) * dt) /\ rnth uz k = - series dt n Hz (INR (k + 1) * dt).
Proof.
  intros Hp Hd n H.
  assert (Hn : (npts <= n)%nat) by (unfold n; destruct (Nat.eq_dec npts 1) as [->|]; [cbn; lia|apply Nat.log2_up_spec; lia]).
  assert (Hnn : INR n <> 0) by (apply not_0_INR; lia).
  assert (Hnd : INR n * dt <> 0) by (apply Rmult_integral_contrapositive_currified; assumption).
  assert (D : (n / 2 + 1 <= n)%nat).
  { pose proof (Nat.div_mod n 2 ltac:(lia)). pose proof (Nat.mod_upper_bound n 2 ltac:(lia)). lia. }
  unfold fwd_seis, next_pow_2. destruct (Nat.eqb_spec npts 0); [lia|]. cbn [bind]. fold n.
  replace (n / 2 + 1 - 1)%nat with (n / 2)%nat by lia.
  destruct (freq_loop_spec rayp dt n ipha al be rh h Hr Hz Hnd (n / 2) 1 (repeat C0 n) (repeat C0 n)) as (fr&fz&E&L1&L2&Q).
  - apply repeat_length.
  - apply repeat_length.
  - lia.
  - intros i Hi. apply H. lia.
  - rewrite E. cbn [bind fst snd]. eexists _, _. split; [reflexivity|].
    assert (R0 : forall j, cnth (repeat C0 n) j = C0) by (intro j; unfold cnth; destruct (Nat.lt_ge_cases j n); [apply nth_repeat|apply nth_overflow; rewrite repeat_length; assumption]).
    assert (G : forall F G' (sg : R), length F = n -> (forall j, cnth F j = if (1 <=? j)%nat && (j <? 1 + n / 2)%nat then G' j else C0) ->
      let l := slice (map (fun x => sg * x / INR n) (rev (map Re (ifft F n)))) 0 npts in
      length l = npts /\ forall k, (k < npts)%nat -> rnth l k = sg * series dt n G' (INR (k + 1) * dt)).
    { intros F G' sg LF HF l. split.
      - unfold l, slice. rewrite firstn_length, skipn_length, map_length, rev_length, map_length, ifft_length. lia.
      - intros k Hk. unfold l, slice, rnth. rewrite Nat.sub_0_r. cbn [skipn].
        assert (NF : forall (m : list R) a, (k < a)%nat -> nth k (firstn a m) 0 = nth k m 0).
        { clear. intros m. revert k. induction m as [|x m IH]; intros [|k] [|a] Hk; cbn; try lia; try reflexivity. apply IH. lia. }
        rewrite NF by exact Hk. fold (rnth (map (fun x => sg * x / INR n) (rev (map Re (ifft F n)))) k).
        rewrite rnth_map' by (rewrite rev_length, map_length, ifft_length; lia).
        rewrite rev_ifft_nth by (try lia; exact LF).
        rewrite rsum_band.
        + unfold series. unfold Rdiv. rewrite Rinv_mult.
          rewrite (rsum_ext (n / 2) _ (fun i => Re (G' (S i) * cis (- (freq dt n (S i) * (INR (k + 1) * dt))))%C)).
          * ring.
          * intros j Hj. rewrite HF. replace (1 <=? S j)%nat with true by (symmetry; apply Nat.leb_le; lia).
            replace (S j <? 1 + n / 2)%nat with true by (symmetry; apply Nat.ltb_lt; lia). cbn [andb].
            rewrite (W_omg n dt) by (lia || assumption). reflexivity.
        + lia.
        + rewrite HF. cbn [Nat.leb andb]. cunf; ring.
        + intros i Hi. rewrite HF. replace (i <? 1 + n / 2)%nat with false by (symmetry; apply Nat.ltb_ge; lia).
          rewrite andb_false_r. cunf; ring. }
    destruct (G fr Hr 1 L1) as [A1 A2]. { intro j. rewrite (proj1 (Q j)), R0. reflexivity. }
    destruct (G fz Hz (-1) L2) as [B1 B2]. { intro j. rewrite (proj2 (Q j)), R0. reflexivity. }
    assert (S1 : map (fun x => x / INR n) (rev (map Re (ifft fr n))) = map (fun x => 1 * x / INR n) (rev (map Re (ifft fr n)))).
    { apply map_ext. intro x. rewrite Rmult_1_l. reflexivity. }
    assert (S2 : map (fun x => - x / INR n) (rev (map Re (ifft fz n))) = map (fun x => -1 * x / INR n) (rev (map Re (ifft fz n)))).
    { apply map_ext. intro x. f_equal. ring. }
    rewrite S1, S2. split; [exact A1|]. split; [exact B1|]. intros k Hk. rewrite (A2 k Hk), (B2 k Hk). split; ring.
Qed.

(** ** C64: the seismograms *)
(** For every elastic model below the critical slowness, [fwd_seis] returns two
    [npts]-sample records; sample k is the surface displacement at time (k+1)*dt
    synthesised from the free-surface responses at the frequencies 1..n/2 (the mean is
    left out), vertical positive upward. *)
Theorem C64_seismograms rayp dt npts ipha ls l : (0 < npts)%nat -> dt <> 0 -> ls <> [] ->
  Forall (fun l => admissible rayp (mat l)) (ls ++ [l]) ->
  let all := ls ++ [l] in
  let n := (2 ^ Nat.log2_up npts)%nat in
  exists ur uz Hr Hz,
    fwd_seis rayp dt npts ipha (vps all) (vss all) (rhos all) (thicks all) = Ok (ur, uz) /\
    length ur = npts /\ length uz = npts /\
    (forall i, (1 <= i <= n / 2)%nat ->
       free_surface_response (freq dt n i) rayp all (mat l)
         (if (0 <=? ipha)%Z then C1 else C0) (if (0 <=? ipha)%Z then C0 else C1) (Hr i) (Hz i)) /\
    (forall k, (k < npts)%nat ->
       rnth ur k = series dt n Hr (INR (k + 1) * dt) /\ rnth uz k = - series dt n Hz (INR (k + 1) * dt)).
Proof.
  intros Hp Hd Hne Ha all n.
  assert (Hn : (npts <= n)%nat) by (unfold n; destruct (Nat.eq_dec npts 1) as [->|]; [cbn; lia|apply Nat.log2_up_spec; lia]).
  assert (Fq : forall i, (1 <= i)%nat -> freq dt n i <> 0).
  { intros i Hi. apply freq_nz; [lra|lia|exact Hi]. }
  set (val := fun i => match haskell (freq dt n i) rayp (length all) ipha (vps all) (vss all) (rhos all) (thicks all) with Ok v => v | Err _ => (C0, C0) end).
  assert (V : forall i, (1 <= i <= n / 2)%nat -> haskell (freq dt n i) rayp (length all) ipha (vps all) (vss all) (rhos all) (thicks all) = Ok (fst (val i), snd (val i))).
  { intros i Hi. destruct (C60_defined (freq dt n i) rayp ipha all) as (a&b&E&_).
    - apply Fq; lia.
    - unfold all. destruct ls; discriminate.
    - exact Ha.
    - unfold val. rewrite E. reflexivity. }
  assert (LT : length (thicks all) = length all) by apply map_length.
  pose proof (fwd_seis_spec rayp dt npts ipha (vps all) (vss all) (rhos all) (thicks all) (fun i => fst (val i)) (fun i => snd (val i)) Hp Hd) as X.
  cbv zeta in X. fold n in X. rewrite LT in X. destruct (X V) as (ur&uz&E&L1&L2&Q).
  exists ur, uz, (fun i => fst (val i)), (fun i => snd (val i)).
  split; [exact E|]. split; [exact L1|]. split; [exact L2|]. split; [|exact Q].
  intros i Hi. apply (C61_response (freq dt n i) rayp ipha ls l); [apply Fq; lia|exact Hne|exact Ha|]. exact (V i Hi).
Qed.

(** ** C32 for the records: nothing on the radial component at vertical incidence *)
Theorem C32_seismogram dt npts ipha ls ur uz : dt <> 0 ->
  fwd_seis 0 dt npts ipha (vps ls) (vss ls) (rhos ls) (thicks ls) = Ok (ur, uz) ->
  forall k, if (0 <=? ipha)%Z then rnth ur k = 0 else rnth uz k = 0.
Proof.
  intros Hd H k.
  destruct (Nat.eq_dec npts 0) as [->|Hp]; [discriminate|].
  set (n := (2 ^ Nat.log2_up npts)%nat).
  assert (Hn : (npts <= n)%nat) by (unfold n; destruct (Nat.eq_dec npts 1) as [->|]; [cbn; lia|apply Nat.log2_up_spec; lia]).
  assert (D : (n / 2 + 1 <= n)%nat).
  { pose proof (Nat.div_mod n 2 ltac:(lia)). pose proof (Nat.mod_upper_bound n 2 ltac:(lia)). lia. }
  set (val := fun i => match haskell (freq dt n i) 0 (length ls) ipha (vps ls) (vss ls) (rhos ls) (thicks ls) with Ok v => v | Err _ => (C0, C0) end).
  assert (LT : length (thicks ls) = length ls) by apply map_length.
  assert (V : forall i, (1 <= i <= n / 2)%nat -> haskell (freq dt n i) 0 (length (thicks ls)) ipha (vps ls) (vss ls) (rhos ls) (thicks ls) = Ok (fst (val i), snd (val i))).
  { assert (G : forall idx fr fz r, freq_loop 0 dt n ipha (vps ls) (vss ls) (rhos ls) (thicks ls) idx fr fz = Ok r ->
       forall i, In i idx -> haskell (freq dt n i) 0 (length (thicks ls)) ipha (vps ls) (vss ls) (rhos ls) (thicks ls) = Ok (fst (val i), snd (val i))).
    { induction idx as [|j idx IH]; intros fr fz r E i Hi; [destruct Hi|]. cbn [freq_loop] in E.
      destruct (Req_EM_T (INR n * dt) 0); [discriminate|].
      change (2 * PI * INR j / (INR n * dt)) with (freq dt n j) in E.
      apply bind_Ok_inv in E as (rz&E1&E). apply bind_Ok_inv in E as (fr'&E2&E). apply bind_Ok_inv in E as (fz'&E3&E).
      destruct Hi as [<-|Hi]; [|exact (IH _ _ _ E i Hi)].
      unfold val. rewrite LT in *. rewrite E1. destruct rz; reflexivity. }
    unfold fwd_seis, next_pow_2 in H. destruct (Nat.eqb_spec npts 0); [lia|]. cbn [bind] in H. fold n in H.
    apply bind_Ok_inv in H as (frz&E&_). replace (n / 2 + 1 - 1)%nat with (n / 2)%nat in E by lia.
    intros i Hi. apply (G _ _ _ _ E). apply in_seq. lia. }
  pose proof (fwd_seis_spec 0 dt npts ipha (vps ls) (vss ls) (rhos ls) (thicks ls) (fun i => fst (val i)) (fun i => snd (val i)) ltac:(lia) Hd V) as (ur'&uz'&E&L1&L2&Q).
  rewrite E in H. injection H as -> ->.
  assert (Z : forall i, (1 <= i <= n / 2)%nat -> if (0 <=? ipha)%Z then fst (val i) = C0 else snd (val i) = C0).
  { intros i Hi. pose proof (V i Hi) as Vi. rewrite LT in Vi. exact (C32_vertical _ _ _ _ _ Vi). }
  assert (S0 : forall (Hf : nat -> C) t, (forall i, (1 <= i <= n / 2)%nat -> Hf i = C0) -> series dt n Hf t = 0).
  { intros Hf t HZ. unfold series. rewrite (rsum_ext _ _ (fun _ => 0)); [rewrite rsum_0; unfold Rdiv; ring|].
    intros j Hj. rewrite HZ by lia. cunf; ring. }
  destruct (Nat.lt_ge_cases k npts) as [Hk|Hk].
  - destruct (Q k Hk) as [Q1 Q2]. fold n in Q1, Q2. destruct (0 <=? ipha)%Z; [rewrite Q1|rewrite Q2]; rewrite S0; try exact Z; ring.
  - destruct (0 <=? ipha)%Z; apply rnth_over'; lia.
Qed.

(** ** C31 for the records *)
(** When the extra thickness of the deepest layer takes the incident wave a whole number
    [L] of samples, records of a power-of-two length are the same, [L] samples later
    (circularly). *)
Theorem C31_shift rayp dt q ipha ls m z z' L : 0 < dt -> ls <> [] ->
  let npts := (2 ^ q)%nat in
  let all := fun z => ls ++ [mkLayer m z] in
  Forall (fun l => admissible rayp (mat l)) (all z) ->
  (if (0 <=? ipha)%Z then pslow rayp m else sslow rayp m) * (z' - z) = IZR L * dt ->
  exists ur uz ur' uz',
    fwd_seis rayp dt npts ipha (vps (all z)) (vss (all z)) (rhos (all z)) (thicks (all z)) = Ok (ur, uz) /\
    fwd_seis rayp dt npts ipha (vps (all z')) (vss (all z')) (rhos (all z')) (thicks (all z')) = Ok (ur', uz') /\
    forall k, (k < npts)%nat -> rnth ur' k = rnth ur (circ npts k L) /\ rnth uz' k = rnth uz (circ npts k L).
Proof.
  intros Hd Hne npts all Ha HL. 
  assert (Hp : (0 < npts)%nat) by (unfold npts; pose proof (Nat.pow_nonzero 2 q); lia).
  assert (EN : (2 ^ Nat.log2_up npts)%nat = npts) by (unfold npts; rewrite Nat.log2_up_pow2 by lia; reflexivity).
  set (n := npts) in *.
  assert (Fq : forall i, (1 <= i)%nat -> freq dt n i <> 0).
  { intros i Hi. apply freq_nz; [lra|lia|exact Hi]. }
  set (val := fun i => match haskell (freq dt n i) rayp (length (all z)) ipha (vps (all z)) (vss (all z)) (rhos (all z)) (thicks (all z)) with Ok v => v | Err _ => (C0, C0) end).
  assert (V : forall i, (1 <= i <= n / 2)%nat -> haskell (freq dt n i) rayp (length (thicks (all z))) ipha (vps (all z)) (vss (all z)) (rhos (all z)) (thicks (all z)) = Ok (fst (val i), snd (val i))).
  { intros i Hi. unfold thicks at 1. rewrite map_length. destruct (C60_defined (freq dt n i) rayp ipha (all z)) as (a&b&E&_).
    - apply Fq; lia.
    - unfold all. destruct ls; discriminate.
    - exact Ha.
    - unfold val. rewrite E. reflexivity. }
  set (cc := fun i => phase (freq dt n i) rayp ipha m (z' - z)).
  assert (V' : forall i, (1 <= i <= n / 2)%nat -> haskell (freq dt n i) rayp (length (thicks (all z'))) ipha (vps (all z')) (vss (all z')) (rhos (all z')) (thicks (all z')) = Ok ((cc i * fst (val i))%C, (cc i * snd (val i))%C)).
  { intros i Hi. pose proof (V i Hi) as Vi. unfold thicks at 1 in Vi. rewrite map_length in Vi. unfold thicks at 1. rewrite map_length.
    apply (C31_bottom (freq dt n i) rayp ipha ls m z z' _ _ Hne Vi). }
  pose proof (fwd_seis_spec rayp dt n ipha (vps (all z)) (vss (all z)) (rhos (all z)) (thicks (all z)) (fun i => fst (val i)) (fun i => snd (val i)) Hp ltac:(lra)) as X.
  cbv zeta in X. rewrite EN in X. destruct (X V) as (ur&uz&E&L1&L2&Q).
  pose proof (fwd_seis_spec rayp dt n ipha (vps (all z')) (vss (all z')) (rhos (all z')) (thicks (all z')) (fun i => cc i * fst (val i))%C (fun i => cc i * snd (val i))%C Hp ltac:(lra)) as Y.
  cbv zeta in Y. rewrite EN in Y. destruct (Y V') as (ur'&uz'&E'&L1'&L2'&Q').
  exists ur, uz, ur', uz'. split; [exact E|]. split; [exact E'|]. intros k Hk.
  assert (Hc : (circ n k L < n)%nat) by (apply circ_lt; lia).
  destruct (Q' k Hk) as [A B]. destruct (Q (circ n k L) Hc) as [A0 B0]. rewrite A, B, A0, B0.
  assert (S : forall Hf : nat -> C, series dt n (fun i => cc i * Hf i)%C (INR (k + 1) * dt) = series dt n Hf (INR (circ n k L + 1) * dt)).
  { intro Hf. unfold series. f_equal. apply rsum_ext. intros j Hj.
    assert (T : (cc (S j) * cis (- (freq dt n (S j) * (INR (k + 1) * dt))))%C = cis (- (freq dt n (S j) * (INR (circ n k L + 1) * dt)))).
    { unfold cc, phase. rewrite <- cis_add.
      assert (W1 : freq dt n (S j) * (if (0 <=? ipha)%Z then pslow rayp m else sslow rayp m) * (z' - z) + - (freq dt n (S j) * (INR (k + 1) * dt))
                   = 2 * PI * IZR (Z.of_nat (S j) * (L - Z.of_nat (k + 1))) / INR n).
      { rewrite Rmult_assoc, HL. unfold freq. rewrite mult_IZR, minus_IZR, <- !INR_IZR_INZ. field. repeat split; first [lra | apply not_0_INR; lia]. }
      assert (W2 : - (freq dt n (S j) * (INR (circ n k L + 1) * dt)) = 2 * PI * IZR (Z.of_nat (S j) * - Z.of_nat (circ n k L + 1)) / INR n).
      { unfold freq. rewrite mult_IZR, opp_IZR, <- !INR_IZR_INZ. field. repeat split; first [lra | apply not_0_INR; lia]. }
      rewrite W1, W2. fold (W n (Z.of_nat (S j) * (L - Z.of_nat (k + 1)))) (W n (Z.of_nat (S j) * - Z.of_nat (circ n k L + 1))).
      apply W_congr; [lia|].
      rewrite (Z.mul_mod _ (L - Z.of_nat (k + 1))), (Z.mul_mod _ (- Z.of_nat (circ n k L + 1))) by lia. f_equal. f_equal.
      assert (C1' : (Z.of_nat (circ n k L) mod Z.of_nat n = (Z.of_nat k - L) mod Z.of_nat n)%Z).
      { rewrite circ_spec by lia. apply Z.mod_mod. lia. }
      replace (L - Z.of_nat (k + 1))%Z with (- 1 - (Z.of_nat k - L))%Z by lia.
      replace (- Z.of_nat (circ n k L + 1))%Z with (-1 - Z.of_nat (circ n k L))%Z by lia.
      rewrite (Zminus_mod (-1) (Z.of_nat k - L)), (Zminus_mod (-1) (Z.of_nat (circ n k L))), C1'. reflexivity. }
    rewrite <- T. f_equal. ring. }
  rewrite !S. split; reflexivity.
Qed.

(** ** C30: a one-layer model is the exception *)
(** Cutting the only layer of a model adds the travel phase of its whole thickness
    (the code ignores the thickness of a lone layer). *)
Theorem C30_lone omega p ipha m z1 z2 ur uz :
  haskell omega p 1 ipha [vp_of m] [vs_of m] [density m] [z1 + z2] = Ok (ur, uz) ->
  haskell omega p 2 ipha [vp_of m; vp_of m] [vs_of m; vs_of m] [density m; density m] [z1; z2] =
    Ok ((phase omega p ipha m (z1 + z2) * ur)%C, (phase omega p ipha m (z1 + z2) * uz)%C).
Proof.
  intro H. pose proof (haskell_Ok_fin omega p ipha [] (mkLayer m (z1 + z2)) ur uz H) as F.
  assert (Fm : finm omega p m) by (inversion_clear F; assumption).
  pose proof (haskell_eq omega p [] (mkLayer m (z1 + z2)) ipha F) as E. cbv zeta in E.
  assert (H0 : solve2 ipha (mmul (Eim omega p m) mI) = Ok (ur, uz)) by (rewrite <- H; symmetry; exact E). clear E H. rename H0 into H.
  assert (F2 : Forall (fun l => finm omega p (mat l)) ([mkLayer m z1] ++ [mkLayer m z2])) by (constructor; [exact Fm|constructor; [exact Fm|constructor]]).
  pose proof (haskell_eq omega p [mkLayer m z1] (mkLayer m z2) ipha F2) as E. cbv zeta in E.
  change (eff ([mkLayer m z1] ++ [mkLayer m z2])) with ([mkLayer m z1] ++ [mkLayer m z2]) in E. cbn [mat] in E.
  etransitivity; [exact E|]. clear E.
  pose proof (sl_phase omega p ipha [] m (z1 + z2) ur uz Fm) as X. cbn [stackP app] in X. rewrite mmul_1_r in X.
  assert (E : stackP omega p ([mkLayer m z1] ++ [mkLayer m z2]) = mmul mI (Pm omega p m (z1 + z2))).
  { cbn [app stackP mat thick]. rewrite !mmul_1_l. unfold Pm. rewrite Rplus_comm. symmetry. apply (P_add _ _ _ _ _ Fm). }
  rewrite E. apply X. rewrite mmul_1_r in H. exact H.
Qed.
Theorem C30_lone_refuted : ~ (forall omega p ipha m z1 z2,
  haskell omega p 2 ipha [vp_of m; vp_of m] [vs_of m; vs_of m] [density m; density m] [z1; z2] =
  haskell omega p 1 ipha [vp_of m] [vs_of m] [density m] [z1 + z2]).
Proof.
  intro H. set (m := mkMat 1 1 1).
  assert (A : admissible 0 m) by (unfold admissible, m; cbn; lra).
  pose proof PI_RGT_0 as PP.
  destruct (C60_defined PI 0 1 [mkLayer m (1/2 + 1/2)]) as (ur&uz&E&N); [lra|discriminate|constructor; [exact A|constructor]|].
  pose proof (C30_lone PI 0 1 m (1/2) (1/2) ur uz E) as E2. rewrite (H PI 0 1%Z m (1/2) (1/2)) in E2.
  change (haskell PI 0 1 1 [vp_of m] [vs_of m] [density m] [1 / 2 + 1 / 2]) with
    (haskell PI 0 (length [mkLayer m (1/2 + 1/2)]) 1 (vps [mkLayer m (1/2 + 1/2)]) (vss [mkLayer m (1/2 + 1/2)]) (rhos [mkLayer m (1/2 + 1/2)]) (thicks [mkLayer m (1/2 + 1/2)])) in E2.
  rewrite E in E2.
  assert (Ph : phase PI 0 1 m (1 / 2 + 1 / 2) = (- C1)%C).
  { unfold phase, pslow. cbn [Z.leb Z.compare m vp_of]. replace (1 / (1 * 1) - 0 * 0) with 1 by field. rewrite sqrt_1.
    replace (PI * 1 * (1 / 2 + 1 / 2)) with PI by field. unfold cis. rewrite cos_PI, sin_PI. apply C_eq; cunf; ring. }
  rewrite Ph in E2. apply N.
  assert (Z1 : ur = (- C1 * ur)%C) by congruence. assert (Z2 : uz = (- C1 * uz)%C) by congruence.
  assert (Q : forall a : C, a = (- C1 * a)%C -> a = C0).
  { intros [a b] Q. pose proof (f_equal fst Q) as Q1. pose proof (f_equal snd Q) as Q2. cunf. f_equal; lra. }
  rewrite (Q ur Z1), (Q uz Z2). reflexivity.
Qed.

(** ** Instances *)
(** The model of the class docstring (synrf.py:461-465), at rayp = 0.04. *)
Definition doc_layers : list layer :=
  [mkLayer (mkMat 2.72 2 1.36) 2; mkLayer (mkMat 2.92 6.5 3.75) 33; mkLayer (mkMat 3.3455 8.045 4.485) 42.5].
Example doc_admissible : Forall (fun l => admissible 0.04 (mat l)) doc_layers.
Proof. unfold doc_layers, admissible. repeat constructor; cbn; lra. Qed.
Example doc_arrays : vps doc_layers = [2; 6.5; 8.045] /\ vss doc_layers = [1.36; 3.75; 4.485] /\
  thicks doc_layers = thickness [2; 35; 77.5].
Proof. rewrite C29_example. repeat split; reflexivity. Qed.
(** It has a response, unique and nonzero, at every frequency; its records exist. *)
Example doc_response : exists ur uz,
  haskell 1 0.04 3 1 [2; 6.5; 8.045] [1.36; 3.75; 4.485] [2.72; 2.92; 3.3455] [2; 33; 42.5] = Ok (ur, uz) /\ (ur, uz) <> (C0, C0).
Proof. apply (C60_defined 1 0.04 1 doc_layers); [lra|discriminate|apply doc_admissible]. Qed.
Example doc_split : exists ls1 ls2 m z1 z2, ls1 ++ ls2 <> [] /\ ls1 ++ [mkLayer m (z1 + z2)] ++ ls2 = doc_layers.
Proof.
  exists [mkLayer (mkMat 2.72 2 1.36) 2], [mkLayer (mkMat 3.3455 8.045 4.485) 42.5], (mkMat 2.92 6.5 3.75), 13, 20.
  split; [discriminate|]. unfold doc_layers. cbn. replace (13 + 20) with 33 by lra. reflexivity.
Qed.
(** At rayp = 0.3 the crust is post-critical for P. *)
Example doc_postcritical : haskell 1 0.3 3 1 [2; 6.5; 8.045] [1.36; 3.75; 4.485] [2.72; 2.92; 3.3455] [2; 33; 42.5] = Err NaNResult.
Proof.
  apply (C63_postcritical 1 0.3 1 doc_layers (mkLayer (mkMat 2.92 6.5 3.75) 33)); [discriminate|right; left; reflexivity|cbn; lra|cbn; lra|].
  right. cbn. lra.
Qed.
Example doc_det : exists P, propagator_sol 1 2.92 6.5 3.75 0.04 33 = Ok P.
Proof.
  eexists. apply (propagator_Ok 1 2.92 6.5 3.75 0.04).
  apply (admissible_fin 1 0.04 (mkMat 2.92 6.5 3.75)); [lra|]. unfold admissible; cbn; lra.
Qed.
