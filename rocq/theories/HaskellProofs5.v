(** * HaskellProofs5: welded stacks and incident waves in terms of matrices. *)

From Coq Require Import Reals Lra.
From Verif Require Import Base Num NumPy Cplx Mat4 SpecElastic DFT ReverbModel DeconModel HaskellModel HaskellProofs HaskellProofs2 HaskellProofs3 HaskellProofs4.
Local Open Scope R_scope.

Section Fields.
Variables (omega p : R).

Lemma finm_nz m : finm omega p m -> density m <> 0 /\ vp_of m <> 0 /\ vs_of m <> 0.
Proof. intros [A B D E _ _ _ _]. tauto. Qed.

Lemma elastic_solution m s : finm omega p m -> elastic_field omega p m (fun z => mapp (Pm omega p m z) s).
Proof.
  intro F. destruct (finm_nz m F) as (A&B&D). apply elastic_iff; try assumption.
  intro z. exact (ode_solution _ _ _ _ _ F s z).
Qed.
Lemma elastic_unique m f : finm omega p m -> elastic_field omega p m f ->
  forall z, f z = mapp (Pm omega p m z) (f 0).
Proof.
  intros F H. destruct (finm_nz m F) as (A&B&D). pose proof (proj1 (elastic_iff omega p m f A B D) H) as H'.
  exact (ode_unique _ _ _ _ _ F f H').
Qed.

Lemma welded_iff ls : Forall (fun l => finm omega p (mat l)) ls -> forall top bot,
  welded omega p ls top bot <-> bot = mapp (stackP omega p ls) top.
Proof.
  induction ls as [|l ls IH]; intros HF top bot; cbn [welded stackP].
  - rewrite mapp_1. split; auto.
  - inversion_clear HF as [|? ? Fl Fr]. split.
    + intros (f&Hf&<-&W). apply (IH Fr) in W. rewrite mapp_mmul, W. f_equal. apply elastic_unique; assumption.
    + intros ->. exists (fun z => mapp (Pm omega p (mat l) z) top). split; [|split].
      * apply elastic_solution. exact Fl.
      * unfold Pm. rewrite (P_0 _ _ _ _ _ Fl). apply mapp_1.
      * apply (IH Fr). rewrite mapp_mmul. reflexivity.
Qed.

Lemma vderiv_ext f g z l : (forall t, f t = g t) -> vderiv f z l -> vderiv g z l.
Proof.
  intros H (A&B&D&E). split; [|split; [|split]]; (eapply cderiv_ext; [|eassumption]); intro t; cbv beta; rewrite H; reflexivity.
Qed.

Lemma wave_elastic m w : finm omega p m ->
  forall z, vderiv (fun z => mapp (Em omega p m) (mapp (Lm omega p m z) w)) z
    (mapp (Amat omega (density m) (vp_of m) (vs_of m) p) (mapp (Em omega p m) (mapp (Lm omega p m z) w))).
Proof.
  intros F z.
  assert (E : mapp (Amat omega (density m) (vp_of m) (vs_of m) p) (mapp (Em omega p m) (mapp (Lm omega p m z) w)) =
      mapp (Em omega p m) (mapp (Dmat omega (xi_of (vp_of m) p) (eta_of (vs_of m) p)) (mapp (Lm omega p m z) w))).
  { rewrite <- !mapp_mmul. rewrite ?mmul_assoc. unfold Em. rewrite (AE _ _ _ _ _ F). reflexivity. }
  rewrite E. apply vderiv_mapp. exact (wave_vderiv omega (vp_of m) (vs_of m) p w z).
Qed.

Definition waves (m : material) (dP dS aP aS : C) (z : R) : C * C :=
  ((dP * fst (down_P omega p m z) + dS * fst (down_S omega p m z)
    + aP * fst (up_P omega p m z) + aS * fst (up_S omega p m z))%C,
   (dP * snd (down_P omega p m z) + dS * snd (down_S omega p m z)
    + aP * snd (up_P omega p m z) + aS * snd (up_S omega p m z))%C).

Lemma waves_E m dP dS aP aS z :
  let g := mapp (Em omega p m) (mapp (Lm omega p m z) (mkV dP dS aP aS)) in
  waves m dP dS aP aS z = (v0 g, v1 g).
Proof.
  cbv zeta. unfold waves, down_P, up_P, down_S, up_S, Em, Emat, Lm, Lam, pslow, sslow, xi_of, eta_of.
  cbn [fst snd].
  set (X := sqrt (1 / (vp_of m * vp_of m) - p * p)). set (Y := sqrt (1 / (vs_of m * vs_of m) - p * p)).
  m4. generalize (cis (omega * X * z)) (cis (- (omega * X * z))) (cis (omega * Y * z)) (cis (- (omega * Y * z))).
  intros e1 e2 e3 e4. apply f_equal2; ring.
Qed.

Lemma same_displacement m f g : finm omega p m ->
  let A := Amat omega (density m) (vp_of m) (vs_of m) p in
  (forall z, vderiv f z (mapp A (f z))) -> (forall z, vderiv g z (mapp A (g z))) ->
  (forall z, v0 (f z) = v0 (g z) /\ v1 (f z) = v1 (g z)) -> forall z, f z = g z.
Proof.
  intros F A Hf Hg H z. destruct (finm_nz m F) as (N1&N2&N3). destruct (H z) as [H0 H1].
  destruct (Hf z) as (F0&F1&_&_). destruct (Hg z) as (G0&G1&_&_).
  assert (E0 : v0 (mapp A (f z)) = v0 (mapp A (g z))).
  { eapply cderiv_unique; [exact F0|]. eapply cderiv_ext; [|exact G0]. intro t. symmetry. apply H. }
  assert (E1 : v1 (mapp A (f z)) = v1 (mapp A (g z))).
  { eapply cderiv_unique; [exact F1|]. eapply cderiv_ext; [|exact G1]. intro t. symmetry. apply H. }
  unfold A, Amat in E0, E1. cbv [mapp] in E0, E1. cbn [v0 v1 v2 v3 m00 m01 m02 m03 m10 m11 m12 m13] in E0, E1.
  rewrite H0, H1 in E0, E1.
  assert (Q : forall a b r c d : C, r <> C0 -> (a + r * c)%C = (a + r * d)%C -> c = d).
  { intros a b r c d Hr X. assert (Y : (r * (c - d))%C = C0).
    { transitivity ((a + r * c) - (a + r * d))%C; [ring|]. rewrite X. ring. }
    apply Cmul_0 in Y as [Y|Y]; [contradiction|].
    transitivity (c - d + d)%C; [ring|]. rewrite Y. ring. }
  assert (S2 : v2 (f z) = v2 (g z)).
  { apply (Q (imag (- (omega * p)) * v1 (g z))%C C0 (RtoC (/ (density m * (vs_of m * vs_of m)))) (v2 (f z)) (v2 (g z))).
    - apply RtoC_neq0. apply Rinv_neq_0_compat. repeat apply Rmult_integral_contrapositive_currified; assumption.
    - etransitivity; [|etransitivity; [exact E0|]]; ring. }
  assert (S3 : v3 (f z) = v3 (g z)).
  { apply (Q (imag (- (omega * p) * (density m * (vp_of m * vp_of m) - 2 * (density m * (vs_of m * vs_of m))) / (density m * (vp_of m * vp_of m))) * v0 (g z))%C C0
      (RtoC (/ (density m * (vp_of m * vp_of m)))) (v3 (f z)) (v3 (g z))).
    - apply RtoC_neq0. apply Rinv_neq_0_compat. repeat apply Rmult_integral_contrapositive_currified; assumption.
    - etransitivity; [|etransitivity; [exact E1|]]; ring. }
  apply V4_eq; assumption.
Qed.

Lemma incident_iff m s aP aS : finm omega p m ->
  (incident omega p m s aP aS <->
   v2 (mapp (Eim omega p m) s) = aP /\ v3 (mapp (Eim omega p m) s) = aS).
Proof.
  intro F. destruct (finm_nz m F) as (N1&N2&N3). split.
  - intros (f&dP&dS&Hf0&<-&Hz). pose proof (proj1 (elastic_iff omega p m f N1 N2 N3) Hf0) as Hf.
    set (g := fun z => mapp (Em omega p m) (mapp (Lm omega p m z) (mkV dP dS aP aS))).
    assert (Q : forall z, f z = g z).
    { apply (same_displacement m f g F Hf).
      - intro z. apply wave_elastic. exact F.
      - intro z. destruct (Hz z) as [Z0 Z1]. rewrite Z0, Z1.
        pose proof (waves_E m dP dS aP aS z) as X. cbv zeta in X. unfold waves in X.
        unfold g. split; [exact (f_equal fst X)|exact (f_equal snd X)]. }
    rewrite Q. unfold g.
    assert (X : mapp (Eim omega p m) (mapp (Em omega p m) (mapp (Lm omega p m 0) (mkV dP dS aP aS))) = mkV dP dS aP aS).
    { unfold Lm. rewrite (L_0 omega (vp_of m) (vs_of m) p), mapp_1, <- mapp_mmul. unfold Eim, Em. rewrite (EiE _ _ _ _ _ F), mapp_1. reflexivity. }
    rewrite X. split; reflexivity.
  - intros [HP HS]. set (w := mapp (Eim omega p m) s) in *.
    exists (fun z => mapp (Pm omega p m z) s), (v0 w), (v1 w). split; [|split].
    + apply elastic_solution; exact F.
    + unfold Pm. rewrite (P_0 _ _ _ _ _ F). apply mapp_1.
    + intro z. pose proof (waves_E m (v0 w) (v1 w) aP aS z) as X. cbv zeta in X. unfold waves in X.
      assert (E : mapp (Pm omega p m z) s = mapp (Em omega p m) (mapp (Lm omega p m z) (mkV (v0 w) (v1 w) aP aS))).
      { unfold Pm. rewrite (Pdec _ _ _ _ _ F), !mapp_mmul. rewrite <- HP, <- HS, <- V4_eta. reflexivity. }
      rewrite E. split; [exact (f_equal fst (eq_sym X))|exact (f_equal snd (eq_sym X))].
Qed.

(** [haskell] is the unique free-surface response. *)
Lemma haskell_response ls l ipha ur uz : Forall (fun l => finm omega p (mat l)) (ls ++ [l]) ->
  let all := ls ++ [l] in
  haskell omega p (length all) ipha (vps all) (vss all) (rhos all) (thicks all) = Ok (ur, uz) <->
  free_surface_response omega p (eff all) (mat l)
    (if (0 <=? ipha)%Z then C1 else C0) (if (0 <=? ipha)%Z then C0 else C1) ur uz.
Proof.
  intros HF all. unfold all. rewrite (haskell_eq omega p ls l ipha HF).
  assert (Fl : finm omega p (mat l)) by (apply Forall_app in HF; destruct HF as [_ H]; inversion H; assumption).
  assert (He : Forall (fun l => finm omega p (mat l)) (eff (ls ++ [l]))) by (unfold eff; destruct (1 <? length (ls ++ [l]))%nat; [exact HF|constructor]).
  rewrite solve2_iff by (apply det2_nonzero; assumption).
  set (S := stackP omega p (eff (ls ++ [l]))).
  assert (E : mapp (mmul (Eim omega p (mat l)) S) (mkV ur uz C0 C0) = mapp (Eim omega p (mat l)) (mapp S (mkV ur uz C0 C0))) by apply mapp_mmul.
  set (sl := mmul (Eim omega p (mat l)) S) in *.
  assert (E2 : (m20 sl * ur + m21 sl * uz)%C = v2 (mapp (Eim omega p (mat l)) (mapp S (mkV ur uz C0 C0)))).
  { rewrite <- E. unfold mapp. cbn [v0 v1 v2 v3]. ring. }
  assert (E3 : (m30 sl * ur + m31 sl * uz)%C = v3 (mapp (Eim omega p (mat l)) (mapp S (mkV ur uz C0 C0)))).
  { rewrite <- E. unfold mapp. cbn [v0 v1 v2 v3]. ring. }
  rewrite E2, E3. rewrite <- (incident_iff (mat l) _ _ _ Fl). unfold free_surface_response. split.
  - intro H. exists (mapp S (mkV ur uz C0 C0)). split; [|exact H]. apply welded_iff; [exact He|reflexivity].
  - intros (bot&W&H). apply (welded_iff _ He) in W. rewrite W in H. exact H.
Qed.
Lemma haskell_total ls l ipha : Forall (fun l => finm omega p (mat l)) (ls ++ [l]) ->
  let all := ls ++ [l] in
  exists ur uz, haskell omega p (length all) ipha (vps all) (vss all) (rhos all) (thicks all) = Ok (ur, uz).
Proof.
  intros HF all. unfold all. rewrite (haskell_eq omega p ls l ipha HF).
  assert (Fl : finm omega p (mat l)) by (apply Forall_app in HF; destruct HF as [_ H]; inversion H; assumption).
  assert (He : Forall (fun l => finm omega p (mat l)) (eff (ls ++ [l]))) by (unfold eff; destruct (1 <? length (ls ++ [l]))%nat; [exact HF|constructor]).
  pose proof (det2_nonzero omega p _ _ He Fl) as D. cbv zeta in D. unfold solve2.
  match goal with |- context [Req_EM_T ?x 0] => destruct (Req_EM_T x 0) as [Z|_] end.
  - apply Cnorm2_0 in Z. contradiction.
  - destruct (0 <=? ipha)%Z; eexists _, _; reflexivity.
Qed.
End Fields.
