(** * HaskellProofs6: non-finite layers, checkerboard structure at vertical incidence,
    the frequency loop and [fwd_seis]. *)

From Coq Require Import Reals Lra.
From Verif Require Import Base Num NumPy Cplx Mat4 SpecElastic DFT DFT2 SpecSignal ReverbModel DeconModel HaskellModel HaskellProofs HaskellProofs2 HaskellProofs3 HaskellProofs4 HaskellProofs5.
Local Open Scope R_scope.

Lemma fin_dec omega rho alpha beta p : fin omega rho alpha beta p \/ finite_layer omega rho alpha beta p = false.
Proof. destruct (finite_layer omega rho alpha beta p) eqn:E; [left; apply finite_layer_fin; exact E|right; reflexivity]. Qed.
Lemma finm_dec omega p m : finm omega p m \/ finite_layer omega (density m) (vp_of m) (vs_of m) p = false.
Proof. apply fin_dec. Qed.

Lemma Forall_finm_dec omega p ls : Forall (fun l => finm omega p (mat l)) ls \/
  (exists a l b, ls = a ++ l :: b /\ Forall (fun l => finm omega p (mat l)) a /\ ~ finm omega p (mat l)).
Proof.
  induction ls as [|l ls IH]; [left; constructor|]. destruct (finm_dec omega p (mat l)) as [F|N].
  - destruct IH as [IH|(a&l'&b&->&Fa&N)]; [left; constructor; assumption|right]. exists (l :: a), l', b. repeat split; [constructor; assumption|exact N].
  - right. exists [], l, ls. split; [reflexivity|split; [constructor|]]. intro F. apply finite_layer_fin in F. congruence.
Qed.

Lemma not_fin_false omega p m : ~ finm omega p m -> finite_layer omega (density m) (vp_of m) (vs_of m) p = false.
Proof. intro N. destruct (finm_dec omega p m); [contradiction|assumption]. Qed.

Lemma prop_loop_bad omega p ls a l b : ls = a ++ l :: b -> ~ finm omega p (mat l) ->
  forall n k M, (n <= length a < n + k)%nat -> (n + k <= length ls)%nat ->
  prop_loop omega p (vps ls) (vss ls) (rhos ls) (thicks ls) (seq n k) M = Err NaNResult.
Proof.
  intros E N. intros n k. revert n. induction k as [|k IH]; intros n M H1 H2; [lia|].
  cbn [seq prop_loop].
  destruct (nth_error ls n) as [l'|] eqn:En.
  2: { apply nth_error_None in En. lia. }
  rewrite (layer_prop_eq omega p ls n l' En).
  destruct (Nat.eq_dec n (length a)) as [->|Hn].
  - rewrite E, nth_error_app2, Nat.sub_diag in En by lia. cbn in En. injection En as <-.
    unfold propagator_sol. rewrite (not_fin_false _ _ _ N). reflexivity.
  - destruct (finm_dec omega p (mat l')) as [F|B].
    + rewrite (propagator_Ok _ _ _ _ _ F). cbn [bind]. apply IH; lia.
    + unfold propagator_sol. rewrite B. reflexivity.
Qed.

Lemma haskell_bad omega p ls l ipha : ~ Forall (fun l => finm omega p (mat l)) (ls ++ [l]) ->
  let all := ls ++ [l] in
  haskell omega p (length all) ipha (vps all) (vss all) (rhos all) (thicks all) = Err NaNResult.
Proof.
  intros HF all. destruct (Forall_finm_dec omega p (ls ++ [l])) as [G|(a&x&b&E&Fa&N)]; [contradiction|].
  unfold haskell.
  assert (L1 : lastitem (rhos all) = Ok (density (mat l))) by apply (lastitem_map (fun l => density (mat l))).
  assert (L2 : lastitem (vps all) = Ok (vp_of (mat l))) by apply (lastitem_map (fun l => vp_of (mat l))).
  assert (L3 : lastitem (vss all) = Ok (vs_of (mat l))) by apply (lastitem_map (fun l => vs_of (mat l))).
  rewrite L1, L2, L3. cbn [bind].
  destruct (finm_dec omega p (mat l)) as [Fl|Bl].
  2: { unfold e_inverse. rewrite Bl. reflexivity. }
  rewrite (e_inverse_Ok _ _ _ _ _ Fl). cbn [bind]. fold all in E.
  assert (Hlen : (length a < length all)%nat) by (rewrite E, app_length; cbn; lia).
  destruct a as [|l0 a].
  - cbn in E. assert (E0 : nth_error all 0 = Some x) by (rewrite E; reflexivity).
    rewrite (layer_prop_eq omega p all 0 x E0). unfold propagator_sol. rewrite (not_fin_false _ _ _ N). reflexivity.
  - assert (E0 : nth_error all 0 = Some l0) by (rewrite E; reflexivity).
    rewrite (layer_prop_eq omega p all 0 l0 E0). inversion_clear Fa as [|? ? F0 Fa'].
    rewrite (propagator_Ok _ _ _ _ _ F0). cbn [bind].
    rewrite (prop_loop_bad omega p all (l0 :: a) x b E N); [reflexivity|cbn in *; lia|lia].
Qed.

(** ** One value per stack: [haskell] of a list of layers *)
Definition haskell_ls (omega p : R) (ipha : Z) (ls : list layer) : res (C * C) :=
  haskell omega p (length ls) ipha (vps ls) (vss ls) (rhos ls) (thicks ls).

Lemma split_last {A} (l : list A) : l <> [] -> exists a x, l = a ++ [x].
Proof. intro H. destruct (exists_last H) as (a&x&->). exists a, x. reflexivity. Qed.

(** Two stacks with the same deepest material, the same matrix and the same kinds of
    layers respond alike. *)
Lemma haskell_same omega p ipha ls ls' l l' :
  mat l = mat l' ->
  (Forall (fun l => finm omega p (mat l)) (ls ++ [l]) <-> Forall (fun l => finm omega p (mat l)) (ls' ++ [l'])) ->
  (Forall (fun l => finm omega p (mat l)) (ls ++ [l]) -> stackP omega p (eff (ls ++ [l])) = stackP omega p (eff (ls' ++ [l']))) ->
  haskell_ls omega p ipha (ls ++ [l]) = haskell_ls omega p ipha (ls' ++ [l']).
Proof.
  intros Em HF HS. unfold haskell_ls.
  destruct (Forall_finm_dec omega p (ls ++ [l])) as [F|(a&x&b&E&_&N)].
  - rewrite (haskell_eq omega p ls l ipha F), (haskell_eq omega p ls' l' ipha (proj1 HF F)).
    rewrite Em, (HS F). reflexivity.
  - assert (NF : ~ Forall (fun l => finm omega p (mat l)) (ls ++ [l])).
    { intro F. apply N. rewrite E in F. apply Forall_app in F as [_ F]. inversion F; assumption. }
    rewrite (haskell_bad omega p ls l ipha NF), (haskell_bad omega p ls' l' ipha); [reflexivity|].
    intro F. apply NF, HF, F.
Qed.

(** ** Vertical incidence *)
Definition checker (A : M4) : Prop :=
  m01 A = C0 /\ m03 A = C0 /\ m10 A = C0 /\ m12 A = C0 /\ m21 A = C0 /\ m23 A = C0 /\ m30 A = C0 /\ m32 A = C0.
Lemma checker_mul A B : checker A -> checker B -> checker (mmul A B).
Proof.
  unfold checker. intros (A1&A2&A3&A4&A5&A6&A7&A8) (B1&B2&B3&B4&B5&B6&B7&B8). unfold mmul.
  cbn [m00 m01 m02 m03 m10 m11 m12 m13 m20 m21 m22 m23 m30 m31 m32 m33].
  rewrite A1, A2, A3, A4, A5, A6, A7, A8, B1, B2, B3, B4, B5, B6, B7, B8. repeat split; ring.
Qed.
Lemma checker_I : checker mI.
Proof. unfold checker. cbn. tauto. Qed.
Lemma checker_P omega m z : checker (Pm omega 0 m z).
Proof.
  unfold checker, Pm, Pmat. cbn [m00 m01 m02 m03 m10 m11 m12 m13 m20 m21 m22 m23 m30 m31 m32 m33].
  unfold Rdiv. rewrite !Rmult_0_l, !Rmult_0_r, !Rmult_0_l. repeat split; reflexivity.
Qed.
Lemma checker_stack omega ls : checker (stackP omega 0 ls).
Proof. induction ls as [|l ls IH]; cbn [stackP]; [apply checker_I|]. apply checker_mul; [exact IH|apply checker_P]. Qed.
Lemma vertical_sl omega m ls : let sl := mmul (Eim omega 0 m) (stackP omega 0 ls) in m20 sl = C0 /\ m31 sl = C0.
Proof.
  pose proof (checker_stack omega ls) as (A1&A2&A3&A4&A5&A6&A7&A8). cbv zeta.
  set (S := stackP omega 0 ls) in *.
  assert (X0 : m20 (Eim omega 0 m) = C0) by (unfold Eim, Einv, Rdiv; cbn [m20]; rewrite Rmult_0_r, Rmult_0_l; reflexivity).
  assert (X2 : m22 (Eim omega 0 m) = C0) by (unfold Eim, Einv, Rdiv, imag; cbn [m22]; rewrite Ropp_0, Rmult_0_l; apply C_eq; cunf; ring).
  assert (Y1 : m31 (Eim omega 0 m) = C0) by (unfold Eim, Einv, Rdiv; cbn [m31]; rewrite Rmult_0_r; apply C_eq; cunf; ring).
  assert (Y3 : m33 (Eim omega 0 m) = C0) by (unfold Eim, Einv, Rdiv, imag; cbn [m33]; rewrite Rmult_0_l; reflexivity).
  unfold mmul. cbn [m20 m31]. rewrite X0, X2, Y1, Y3, A3, A7, A1, A5. split; ring.
Qed.

(** ** Frequency loop *)
Definition omg (dt : R) (n i : nat) : R := 2 * PI * INR i / (INR n * dt).

Lemma cnth_upd (l : list C) i j a : (i < length l)%nat -> cnth (upd l i a) j = if (j =? i)%nat then a else cnth l j.
Proof.
  intro H. unfold cnth. destruct (Nat.eqb_spec j i) as [->|N].
  - apply nth_error_nth. apply nth_error_upd_eq. exact H.
  - pose proof (nth_error_upd_neq l i j a (not_eq_sym N)) as E.
    destruct (nth_error l j) as [x|] eqn:X.
    + rewrite (nth_error_nth _ _ _ X). apply nth_error_nth. exact E.
    + rewrite !nth_overflow; [reflexivity| |]; apply nth_error_None; assumption.
Qed.

Lemma freq_loop_spec rayp dt n ipha al be rh h (Hr Hz : nat -> C) : INR n * dt <> 0 ->
  forall k s fr fz, length fr = n -> length fz = n -> (s + k <= n)%nat ->
  (forall i, (s <= i < s + k)%nat -> haskell (omg dt n i) rayp (length h) ipha al be rh h = Ok (Hr i, Hz i)) ->
  exists fr' fz', freq_loop rayp dt n ipha al be rh h (seq s k) fr fz = Ok (fr', fz') /\
    length fr' = n /\ length fz' = n /\
    forall j, cnth fr' j = (if (s <=? j)%nat && (j <? s + k)%nat then Hr j else cnth fr j) /\
              cnth fz' j = (if (s <=? j)%nat && (j <? s + k)%nat then Hz j else cnth fz j).
Proof.
  intro Hn. induction k as [|k IH]; intros s fr fz L1 L2 Hs H.
  - exists fr, fz. split; [reflexivity|]. split; [exact L1|]. split; [exact L2|]. intro j.
    destruct (Nat.leb_spec s j), (Nat.ltb_spec j (s + 0)); cbn [andb]; try lia; auto.
  - cbn [seq freq_loop]. destruct (Req_EM_T (INR n * dt) 0) as [Z|_]; [contradiction|].
    change (2 * PI * INR s / (INR n * dt)) with (omg dt n s). rewrite H by lia. cbn [bind fst snd].
    unfold setitem. rewrite L1, L2. destruct (Nat.ltb_spec s n) as [G|G]; [|lia]. cbn [bind].
    destruct (IH (S s) (upd fr s (Hr s)) (upd fz s (Hz s))) as (fr'&fz'&E&M1&M2&Q).
    + rewrite upd_length; exact L1.
    + rewrite upd_length; exact L2.
    + lia.
    + intros i Hi. apply H. lia.
    + exists fr', fz'. split; [exact E|]. split; [exact M1|]. split; [exact M2|]. intro j. destruct (Q j) as [Q1 Q2].
      rewrite Q1, Q2. rewrite !cnth_upd by lia.
      destruct (Nat.eqb_spec j s) as [->|N].
      * replace (S s <=? s)%nat with false by (symmetry; apply Nat.leb_gt; lia). cbn [andb].
        rewrite Nat.leb_refl. replace (s <? s + S k)%nat with true by (symmetry; apply Nat.ltb_lt; lia). auto.
      * destruct (Nat.leb_spec (S s) j), (Nat.leb_spec s j), (Nat.ltb_spec j (S s + k)), (Nat.ltb_spec j (s + S k)); cbn [andb]; try lia; auto.
Qed.

(** Extensionality: [freq_loop] depends on the model only through [haskell]. *)
Lemma freq_loop_ext rayp dt n ipha al be rh h al' be' rh' h' :
  (forall om, om = om -> haskell om rayp (length h) ipha al be rh h = haskell om rayp (length h') ipha al' be' rh' h') ->
  forall idx fr fz, freq_loop rayp dt n ipha al be rh h idx fr fz = freq_loop rayp dt n ipha al' be' rh' h' idx fr fz.
Proof.
  intros H idx. induction idx as [|i idx IH]; intros fr fz; [reflexivity|].
  cbn [freq_loop]. destruct (Req_EM_T (INR n * dt) 0); [reflexivity|]. rewrite (H _ eq_refl).
  destruct (haskell _ rayp (length h') ipha al' be' rh' h') as [rz|e]; [|reflexivity]. cbn [bind].
  destruct (setitem fr i (fst rz)) as [fr'|]; [|reflexivity]. cbn [bind].
  destruct (setitem fz i (snd rz)) as [fz'|]; [|reflexivity]. cbn [bind]. apply IH.
Qed.
Lemma fwd_seis_ext rayp dt npts ipha al be rh h al' be' rh' h' :
  (forall om, haskell om rayp (length h) ipha al be rh h = haskell om rayp (length h') ipha al' be' rh' h') ->
  fwd_seis rayp dt npts ipha al be rh h = fwd_seis rayp dt npts ipha al' be' rh' h'.
Proof.
  intro H. unfold fwd_seis. destruct (next_pow_2 npts) as [n|]; [|reflexivity]. cbn [bind].
  rewrite (freq_loop_ext rayp dt n ipha al be rh h al' be' rh' h'); [reflexivity|]. intros om _. apply H.
Qed.

(** Sample [k] of the inverse transform, reversed. *)
Lemma rev_ifft_nth X n k : (k < n)%nat -> length X = n ->
  rnth (rev (map Re (ifft X n))) k = / INR n * rsum n (fun i => Re (cnth X i * W n (- (Z.of_nat i * Z.of_nat (k + 1))))%C).
Proof.
  intros Hk L. unfold rnth. rewrite rev_nth by (rewrite map_length, ifft_length; exact Hk).
  rewrite map_length, ifft_length. fold (rnth (map Re (ifft X n)) (n - S k)). rewrite rnth_map_Re, ifft_nth by lia.
  rewrite Re_scale, Re_csum. f_equal. apply rsum_ext. intros i Hi. do 2 f_equal.
  apply W_congr; [lia|]. 
  assert (Q : Z.of_nat (n - S k) = (Z.of_nat n - Z.of_nat (k + 1))%Z) by lia.
  replace (Z.of_nat (n - S k) * Z.of_nat i)%Z with (- (Z.of_nat i * Z.of_nat (k + 1)) + Z.of_nat i * Z.of_nat n)%Z by (rewrite Q; ring).
  apply Z_mod_plus_full.
Qed.
Lemma W_omg n dt i k : (0 < n)%nat -> dt <> 0 ->
  W n (- (Z.of_nat i * Z.of_nat k)) = cis (- (omg dt n i * (INR k * dt))).
Proof.
  intros Hn Hd. unfold W, omg. f_equal. rewrite opp_IZR, mult_IZR, <- !INR_IZR_INZ.
  assert (INR n <> 0) by (apply not_0_INR; lia). field. split; assumption.
Qed.
