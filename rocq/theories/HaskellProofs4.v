(** * HaskellProofs4: stacks of layers, non-singularity, and [haskell] as the unique
    free-surface response. *)

From Coq Require Import Reals Lra.
From Verif Require Import Base Num NumPy Cplx Mat4 SpecElastic DFT ReverbModel DeconModel HaskellModel HaskellProofs HaskellProofs2 HaskellProofs3.
Local Open Scope R_scope.

Definition finm (omega p : R) (m : material) : Prop := fin omega (density m) (vp_of m) (vs_of m) p.
Definition Pm (omega p : R) (m : material) (z : R) : M4 :=
  Pmat omega (density m) (vs_of m) p (xi_of (vp_of m) p) (eta_of (vs_of m) p) z.
Definition Em (omega p : R) (m : material) : M4 :=
  Emat omega (density m) (vp_of m) (vs_of m) p (xi_of (vp_of m) p) (eta_of (vs_of m) p).
Definition Eim (omega p : R) (m : material) : M4 :=
  Einv omega (density m) (vp_of m) (vs_of m) p (xi_of (vp_of m) p) (eta_of (vs_of m) p).
Definition Lm (omega p : R) (m : material) (z : R) : M4 :=
  Lam omega (xi_of (vp_of m) p) (eta_of (vs_of m) p) z.

Fixpoint stackP (omega p : R) (ls : list layer) : M4 :=
  match ls with
  | [] => mI
  | l :: ls' => mmul (stackP omega p ls') (Pm omega p (mat l) (thick l))
  end.
Lemma stackP_app omega p l1 l2 : stackP omega p (l1 ++ l2) = mmul (stackP omega p l2) (stackP omega p l1).
Proof. induction l1 as [|l l1 IH]; cbn; [rewrite mmul_1_r; reflexivity|]. rewrite IH, mmul_assoc. reflexivity. Qed.

Section Stack.
Variables (omega p : R).

Lemma getitem_map {A B} (f : A -> B) (l : list A) i :
  getitem (map f l) i = match nth_error l i with Some a => Ok (f a) | None => Err IndexError end.
Proof. unfold getitem. rewrite nth_error_map. destruct (nth_error l i); reflexivity. Qed.

Lemma layer_prop_eq ls i l : nth_error ls i = Some l ->
  layer_prop omega p (vps ls) (vss ls) (rhos ls) (thicks ls) i =
  propagator_sol omega (density (mat l)) (vp_of (mat l)) (vs_of (mat l)) p (thick l).
Proof.
  intro H. unfold layer_prop, vps, vss, rhos, thicks. rewrite !getitem_map, H. reflexivity.
Qed.

Lemma skipn_S_tail {A} n (l : list A) x r : skipn n l = x :: r -> skipn (S n) l = r.
Proof.
  revert l. induction n as [|n IH]; intros l E; destruct l as [|y l]; try discriminate.
  - cbn in *. congruence.
  - cbn [skipn] in *. apply IH in E. exact E.
Qed.

Lemma prop_loop_eq ls : Forall (fun l => finm omega p (mat l)) ls -> forall rest n M,
  rest = skipn n ls ->
  prop_loop omega p (vps ls) (vss ls) (rhos ls) (thicks ls) (seq n (length rest)) M = Ok (mmul (stackP omega p rest) M).
Proof.
  intros HF. induction rest as [|l rest IH]; intros n M E.
  - cbn. rewrite mmul_1_l. reflexivity.
  - assert (En : nth_error ls n = Some l).
    { rewrite <- (firstn_skipn n ls), <- E. rewrite nth_error_app2 by apply firstn_le_length.
      assert (length (firstn n ls) = n) as ->; [|rewrite Nat.sub_diag; reflexivity].
      apply firstn_length_le. assert (length (skipn n ls) = length (l :: rest)) by (rewrite <- E; reflexivity).
      rewrite skipn_length in H. cbn in H. lia. }
    cbn [length seq prop_loop]. rewrite (layer_prop_eq ls n l En).
    assert (Fl : finm omega p (mat l)).
    { rewrite Forall_forall in HF. apply HF. eapply nth_error_In; exact En. }
    rewrite (propagator_Ok _ _ _ _ _ Fl). cbn [bind].
    rewrite (IH (S n)).
    + cbn [stackP]. rewrite <- mmul_assoc. reflexivity.
    + symmetry. apply skipn_S_tail with (1 := eq_sym E).
Qed.

Definition eff (ls : list layer) : list layer := if (1 <? length ls)%nat then ls else [].

Lemma lastitem_map {A B} (f : A -> B) ls m : lastitem (map f (ls ++ [m])) = Ok (f m).
Proof.
  unfold lastitem. rewrite map_app. cbn [map]. destruct (map f ls ++ [f m]) eqn:E; [destruct (map f ls); discriminate|].
  rewrite <- E. unfold getitem. rewrite app_length. cbn [length]. rewrite Nat.add_sub.
  rewrite nth_error_app2 by lia. rewrite Nat.sub_diag. reflexivity.
Qed.

Definition solve2 (ipha : Z) (sl : M4) : res (C * C) :=
  let denom := (m20 sl * m31 sl - m21 sl * m30 sl)%C in
  if Req_EM_T (Cnorm2 denom) 0 then Err NaNResult else
  if (0 <=? ipha)%Z then Ok ((m31 sl / denom)%C, (- (m30 sl / denom))%C)
  else Ok ((- (m21 sl / denom))%C, (m20 sl / denom)%C).

Lemma haskell_eq ls l ipha : Forall (fun l => finm omega p (mat l)) (ls ++ [l]) ->
  let all := ls ++ [l] in
  haskell omega p (length all) ipha (vps all) (vss all) (rhos all) (thicks all) =
  solve2 ipha (mmul (Eim omega p (mat l)) (stackP omega p (eff all))).
Proof.
  intros HF all. unfold haskell, rhos, vps, vss, all. rewrite !lastitem_map. cbn [bind].
  assert (Fl : finm omega p (mat l)) by (apply Forall_app in HF; destruct HF as [_ H]; inversion H; assumption).
  rewrite (e_inverse_Ok _ _ _ _ _ Fl). cbn [bind].
  destruct (ls ++ [l]) as [|l0 rest] eqn:E; [destruct ls; discriminate|].
  assert (F0 : finm omega p (mat l0)) by (inversion HF; assumption).
  assert (E0 : nth_error (l0 :: rest) 0 = Some l0) by reflexivity.
  pose proof (layer_prop_eq (l0 :: rest) 0 l0 E0) as X. unfold vps, vss, rhos in X. rewrite X.
  rewrite (propagator_Ok _ _ _ _ _ F0). cbn [bind].
  pose proof (prop_loop_eq (l0 :: rest) HF rest 1 (Pm omega p (mat l0) (thick l0)) eq_refl) as Y.
  unfold vps, vss, rhos, Pm in Y. cbn [length]. rewrite Nat.sub_succ, Nat.sub_0_r. rewrite Y. cbn [bind].
  unfold eff. cbn [length]. destruct (Nat.ltb_spec 1 (S (length rest))) as [G|G].
  - reflexivity.
  - cbn [stackP]. rewrite mmul_1_r. reflexivity.
Qed.

Lemma flux_stack ls s : Forall (fun l => finm omega p (mat l)) ls -> flux (mapp (stackP omega p ls) s) = flux s.
Proof.
  intro H. revert s. induction ls as [|l ls IH]; intro s; cbn [stackP]; [rewrite mapp_1; reflexivity|].
  inversion_clear H. rewrite mapp_mmul, IH by assumption. apply (flux_P _ _ _ _ _ H0).
Qed.
Lemma stack_inj ls s : Forall (fun l => finm omega p (mat l)) ls ->
  mapp (stackP omega p ls) s = mkV C0 C0 C0 C0 -> s = mkV C0 C0 C0 C0.
Proof.
  intro H. revert s. induction ls as [|l ls IH]; intros s E; cbn [stackP] in E; [rewrite mapp_1 in E; exact E|].
  inversion_clear H. rewrite mapp_mmul in E. apply IH in E; [|assumption].
  assert (X : mapp (Pm omega p (mat l) (- thick l)) (mapp (Pm omega p (mat l) (thick l)) s) = s).
  { rewrite <- mapp_mmul. unfold Pm. rewrite <- (P_add _ _ _ _ _ H0), Rplus_opp_l, (P_0 _ _ _ _ _ H0), mapp_1. reflexivity. }
  rewrite E in X. rewrite <- X. apply V4_eq; m4; ring.
Qed.

Lemma sq_sum_0 c1 c2 x y : c1 * c2 > 0 -> 0 <= x -> 0 <= y -> c1 * x + c2 * y = 0 -> x = 0 /\ y = 0.
Proof.
  intros Hc Hx Hy E.
  assert (c1 <> 0) by (intro Z; rewrite Z in Hc; lra). assert (c2 <> 0) by (intro Z; rewrite Z in Hc; lra).
  assert (E' : (c1 * c1) * x + (c1 * c2) * y = 0) by (replace ((c1 * c1) * x + (c1 * c2) * y) with (c1 * (c1 * x + c2 * y)) by ring; rewrite E; ring).
  assert (0 < c1 * c1) by (apply Rsqr_pos_lt; assumption).
  assert (0 <= c1 * c1 * x) by (apply Rmult_le_pos; lra).
  assert (0 <= c1 * c2 * y) by (apply Rmult_le_pos; lra).
  split.
  - assert (Z : c1 * c1 * x = 0) by lra. apply Rmult_integral in Z as [Z|Z]; [lra|exact Z].
  - assert (Z : c1 * c2 * y = 0) by lra. apply Rmult_integral in Z as [Z|Z]; [lra|exact Z].
Qed.

(** A stress-free surface cannot move while only downgoing waves leave the stack. *)
Lemma no_free_mode ls m a b : Forall (fun l => finm omega p (mat l)) ls -> finm omega p m ->
  let w := mapp (mmul (Eim omega p m) (stackP omega p ls)) (mkV a b C0 C0) in
  v2 w = C0 -> v3 w = C0 -> a = C0 /\ b = C0.
Proof.
  intros HL Hm w H2 H3.
  set (s := mapp (stackP omega p ls) (mkV a b C0 C0)).
  assert (Es : s = mapp (Em omega p m) w).
  { unfold w. rewrite mapp_mmul. fold s. rewrite <- mapp_mmul. unfold Em, Eim. rewrite (EEi _ _ _ _ _ Hm), mapp_1. reflexivity. }
  assert (F0 : flux s = 0).
  { unfold s. rewrite flux_stack by assumption. unfold flux. destruct a, b. cbn [v0 v1 v2 v3]. cunf. ring. }
  rewrite Es in F0. unfold Em in F0. rewrite flux_E in F0. rewrite H2, H3 in F0.
  assert (N0 : Cnorm2 C0 = 0) by (cunf; ring). rewrite N0, !Rminus_0_r in F0.
  destruct Hm as [A1 A2 A3 A4 A5 A6 A7 A8].
  apply sq_sum_0 in F0; [|(* sign *)| apply Cnorm2_pos | apply Cnorm2_pos].
  - destruct F0 as [Z0 Z1]. apply Cnorm2_0 in Z0. apply Cnorm2_0 in Z1.
    assert (Ew : w = mkV C0 C0 C0 C0) by (apply V4_eq; assumption).
    rewrite Ew in Es.
    assert (Zs : s = mkV C0 C0 C0 C0) by (rewrite Es; unfold Em, Emat; apply V4_eq; m4; ring).
    apply stack_inj in Zs; [|assumption]. injection Zs. auto.
  - set (X := xi_of (vp_of m) p) in *. set (Y := eta_of (vs_of m) p) in *.
    set (al := vp_of m) in *. set (be := vs_of m) in *. set (r := density m) in *.
    replace (omega * r * (al * al) * X * (omega * r * (be * be) * Y))
       with (((omega * r) * (omega * r)) * ((al * be) * (al * be)) * (X * Y)) by ring.
    assert (0 < (omega * r) * (omega * r)) by (apply Rsqr_pos_lt; apply Rmult_integral_contrapositive_currified; assumption).
    assert (0 < (al * be) * (al * be)) by (apply Rsqr_pos_lt; apply Rmult_integral_contrapositive_currified; assumption).
    assert (0 < X * Y) by (apply Rmult_lt_0_compat; assumption).
    apply Rlt_gt. apply Rmult_lt_0_compat; [apply Rmult_lt_0_compat|]; assumption.
Qed.

Lemma det2_nonzero ls m : Forall (fun l => finm omega p (mat l)) ls -> finm omega p m ->
  let sl := mmul (Eim omega p m) (stackP omega p ls) in
  (m20 sl * m31 sl - m21 sl * m30 sl)%C <> C0.
Proof.
  intros HL Hm sl D.
  assert (K : forall a b, (m20 sl * a + m21 sl * b)%C = C0 -> (m30 sl * a + m31 sl * b)%C = C0 -> a = C0 /\ b = C0).
  { intros a b E2 E3. apply (no_free_mode ls m a b HL Hm); fold sl; unfold mapp; cbn [v0 v1 v2 v3].
    - transitivity (m20 sl * a + m21 sl * b)%C; [ring|exact E2].
    - transitivity (m30 sl * a + m31 sl * b)%C; [ring|exact E3]. }
  destruct (K (m31 sl) (- m30 sl)%C) as [Z1 Z2].
  { transitivity (m20 sl * m31 sl - m21 sl * m30 sl)%C; [ring|exact D]. }
  { ring. }
  assert (Z2' : m30 sl = C0) by (replace (m30 sl) with (- - m30 sl)%C by ring; rewrite Z2; ring).
  destruct (K (m21 sl) (- m20 sl)%C) as [Z3 Z4].
  { ring. }
  { rewrite Z1, Z2'. ring. }
  assert (Z4' : m20 sl = C0) by (replace (m20 sl) with (- - m20 sl)%C by ring; rewrite Z4; ring).
  destruct (K C1 C0) as [Z5 _].
  { rewrite Z4'. ring. }
  { rewrite Z2'. ring. }
  apply (f_equal fst) in Z5. cbn in Z5. lra.
Qed.

Lemma solve2_iff ipha sl ur uz :
  let denom := (m20 sl * m31 sl - m21 sl * m30 sl)%C in denom <> C0 ->
  (solve2 ipha sl = Ok (ur, uz) <->
   (m20 sl * ur + m21 sl * uz)%C = (if (0 <=? ipha)%Z then C1 else C0) /\
   (m30 sl * ur + m31 sl * uz)%C = (if (0 <=? ipha)%Z then C0 else C1)).
Proof.
  intros denom HD. unfold solve2. fold denom. cbv zeta.
  destruct (Req_EM_T (Cnorm2 denom) 0) as [Z|_]; [apply Cnorm2_0 in Z; contradiction|].
  assert (S1 : forall r s, (m20 sl * ur + m21 sl * uz)%C = r -> (m30 sl * ur + m31 sl * uz)%C = s ->
     ur = ((r * m31 sl - s * m21 sl) / denom)%C /\ uz = ((s * m20 sl - r * m30 sl) / denom)%C).
  { intros r s <- <-. unfold denom in *. split; field; exact HD. }
  destruct (0 <=? ipha)%Z; split.
  - intro E. injection E as <- <-. unfold denom in *. split; field; exact HD.
  - intros [A B]. destruct (S1 _ _ A B) as [-> ->]. f_equal. f_equal; field; exact HD.
  - intro E. injection E as <- <-. unfold denom in *. split; field; exact HD.
  - intros [A B]. destruct (S1 _ _ A B) as [-> ->]. f_equal. f_equal; field; exact HD.
Qed.
End Stack.
