(** * HaskellProofs2: group law, determinant, energy flux, and the propagator as the
    solution operator of the elastic system. *)

From Coq Require Import Reals Lra.
From Verif Require Import Base Num NumPy Cplx Mat4 SpecElastic DFT ReverbModel DeconModel HaskellModel HaskellProofs.
Local Open Scope R_scope.

(** Everything the algebra needs to know about a layer. *)
Record fin (omega rho alpha beta p : R) : Prop := mkFin {
  f_om : omega <> 0; f_rho : rho <> 0; f_a : alpha <> 0; f_b : beta <> 0;
  f_xi : 0 < xi_of alpha p; f_eta : 0 < eta_of beta p;
  f_rxi : alpha * alpha * (xi_of alpha p * xi_of alpha p) = 1 - alpha * alpha * (p * p);
  f_reta : beta * beta * (eta_of beta p * eta_of beta p) = 1 - beta * beta * (p * p) }.

Lemma finite_layer_fin omega rho alpha beta p :
  finite_layer omega rho alpha beta p = true <-> fin omega rho alpha beta p.
Proof.
  unfold finite_layer. destruct (Req_EM_T (omega * rho * alpha * beta) 0) as [E|N].
  - split; [discriminate|]. intros [A B D F _ _ _ _]. exfalso.
    apply Rmult_integral in E as [E|E]; [|contradiction]. apply Rmult_integral in E as [E|E]; [|contradiction].
    apply Rmult_integral in E as [E|E]; contradiction.
  - assert (A : omega <> 0) by (intro X; apply N; rewrite X; ring).
    assert (B : rho <> 0) by (intro X; apply N; rewrite X; ring).
    assert (D : alpha <> 0) by (intro X; apply N; rewrite X; ring).
    assert (F : beta <> 0) by (intro X; apply N; rewrite X; ring).
    rewrite andb_true_iff, !Rltb_true. split.
    + intros [H1 H2]. split; try assumption.
      * apply sqrt_lt_R0; exact H2.
      * apply sqrt_lt_R0; exact H1.
      * unfold xi_of. rewrite sqrt_sqrt by lra. field. exact D.
      * unfold eta_of. rewrite sqrt_sqrt by lra. field. exact F.
    + intros [_ _ _ _ H1 H2 _ _]. split.
      * destruct (Rlt_le_dec 0 (1 / (beta * beta) - p * p)) as [L|L]; [exact L|].
        unfold eta_of in H2. rewrite sqrt_neg_0 in H2 by exact L. lra.
      * destruct (Rlt_le_dec 0 (1 / (alpha * alpha) - p * p)) as [L|L]; [exact L|].
        unfold xi_of in H1. rewrite sqrt_neg_0 in H1 by exact L. lra.
Qed.

Lemma slow_pos v p : 0 < v -> p * p * (v * v) < 1 -> 0 < 1 / (v * v) - p * p.
Proof.
  intros Hv H. assert (0 < v * v) by (apply Rmult_lt_0_compat; exact Hv).
  assert (E : 1 / (v * v) - p * p = (1 - p * p * (v * v)) / (v * v)) by (field; lra).
  rewrite E. apply Rdiv_lt_0_compat; lra.
Qed.
Lemma admissible_fin omega p m : omega <> 0 -> admissible p m ->
  fin omega (density m) (vp_of m) (vs_of m) p.
Proof.
  intros Ho (Hr&Hs&Hp&H1&H2). apply finite_layer_fin. unfold finite_layer.
  destruct (Req_EM_T (omega * density m * vp_of m * vs_of m) 0) as [E|_].
  - exfalso. apply Rmult_integral in E as [E|E]; [|lra]. apply Rmult_integral in E as [E|E]; [|lra].
    apply Rmult_integral in E as [E|E]; [contradiction|lra].
  - rewrite andb_true_iff, !Rltb_true. split; apply slow_pos; assumption.
Qed.

Section Layer.
Variables (omega rho alpha beta p : R).
Hypothesis F : fin omega rho alpha beta p.
Let xi := xi_of alpha p.
Let eta := eta_of beta p.
Let E := Emat omega rho alpha beta p xi eta.
Let Ei := Einv omega rho alpha beta p xi eta.
Let P := Pmat omega rho beta p xi eta.
Let L := Lam omega xi eta.

Lemma xi_nz : xi <> 0. Proof. pose proof (f_xi _ _ _ _ _ F). unfold xi. lra. Qed.
Lemma eta_nz : eta <> 0. Proof. pose proof (f_eta _ _ _ _ _ F). unfold eta. lra. Qed.

Lemma e_inverse_Ok : e_inverse omega rho alpha beta p = Ok Ei.
Proof. unfold e_inverse. rewrite (proj2 (finite_layer_fin _ _ _ _ _) F). reflexivity. Qed.
Lemma propagator_Ok z : propagator_sol omega rho alpha beta p z = Ok (P z).
Proof. unfold propagator_sol. rewrite (proj2 (finite_layer_fin _ _ _ _ _) F). reflexivity. Qed.

Lemma EEi : mmul E Ei = mI.
Proof. destruct F. apply E_Einv; try assumption; [apply xi_nz|apply eta_nz]. Qed.
Lemma EiE : mmul Ei E = mI.
Proof. destruct F. apply Einv_E; try assumption; [apply xi_nz|apply eta_nz]. Qed.
Lemma Pdec z : P z = mmul E (mmul (L z) Ei).
Proof. destruct F. apply P_decomp; try assumption; [apply xi_nz|apply eta_nz]. Qed.
Lemma AE : mmul (Amat omega rho alpha beta p) E = mmul E (Dmat omega xi eta).
Proof. destruct F. apply A_E; try assumption. Qed.

Lemma L_0 : L 0 = mI.
Proof. unfold L, Lam, mI, mdiag. rewrite !Rmult_0_r, Ropp_0, cis_0. reflexivity. Qed.
Lemma L_add a b : L (a + b) = mmul (L a) (L b).
Proof.
  unfold L, Lam. rewrite mdiag_mul, <- !cis_add.
  replace (omega * xi * (a + b)) with (omega * xi * a + omega * xi * b) by ring.
  replace (omega * eta * (a + b)) with (omega * eta * a + omega * eta * b) by ring.
  rewrite !Ropp_plus_distr. reflexivity.
Qed.
Lemma P_0 : P 0 = mI.
Proof. rewrite Pdec, L_0, mmul_1_l. apply EEi. Qed.
Lemma P_add a b : P (a + b) = mmul (P a) (P b).
Proof.
  rewrite !Pdec, L_add, <- !mmul_assoc. do 2 f_equal. rewrite (mmul_assoc Ei), EiE, mmul_1_l. reflexivity.
Qed.
Lemma Ei_P z : mmul Ei (P z) = mmul (L z) Ei.
Proof. rewrite Pdec, (mmul_assoc Ei), EiE, mmul_1_l. reflexivity. Qed.
Lemma det_L z : mdet (L z) = C1.
Proof.
  unfold L, Lam. rewrite mdet_diag, <- !cis_add. rewrite <- cis_0. f_equal. ring.
Qed.
Lemma det_P z : mdet (P z) = C1.
Proof.
  rewrite Pdec, !mdet_mul, det_L.
  assert (X : (mdet E * mdet Ei)%C = C1) by (rewrite <- mdet_mul, EEi; apply mdet_I).
  transitivity (mdet E * mdet Ei)%C; [ring|exact X].
Qed.

(** Energy flux in terms of wave amplitudes. *)
Lemma flux_E w : flux (mapp E w) =
  omega * rho * (alpha * alpha) * xi * (Cnorm2 (v0 w) - Cnorm2 (v2 w)) +
  omega * rho * (beta * beta) * eta * (Cnorm2 (v1 w) - Cnorm2 (v3 w)).
Proof.
  destruct w as [[a a'] [b b'] [c c'] [d d']]. unfold flux, E, Emat, bp_of, Cnorm2. m4. c4. ring.
Qed.
Lemma flux_P z s : flux (mapp (P z) s) = flux s.
Proof.
  rewrite Pdec, mapp_mmul, flux_E.
  assert (Es : s = mapp E (mapp Ei s)) by (rewrite <- mapp_mmul, EEi, mapp_1; reflexivity).
  rewrite Es at 5. rewrite flux_E, mapp_mmul. set (w := mapp Ei s).
  assert (X : mapp (L z) w = mkV (cis (omega * xi * z) * v0 w) (cis (omega * eta * z) * v1 w)
             (cis (- (omega * xi * z)) * v2 w) (cis (- (omega * eta * z)) * v3 w)).
  { unfold L, Lam. destruct w. apply V4_eq; m4; ring. }
  rewrite X. cbn [v0 v1 v2 v3]. rewrite !Cnorm2_mul, !cis_norm. ring.
Qed.
End Layer.

(** ** Complex derivatives *)
Lemma cderiv_ext f g z l : (forall t, f t = g t) -> cderiv f z l -> cderiv g z l.
Proof.
  intros H [A B]. split; [eapply derivable_pt_lim_ext; [|exact A]|eapply derivable_pt_lim_ext; [|exact B]];
    intro t; cbn; rewrite H; reflexivity.
Qed.
Lemma cderiv_const c z : cderiv (fun _ => c) z C0.
Proof. split; apply derivable_pt_lim_const. Qed.
Lemma cderiv_add f g z l k : cderiv f z l -> cderiv g z k -> cderiv (fun t => f t + g t)%C z (l + k)%C.
Proof.
  intros [A B] [D E]. split.
  - exact (derivable_pt_lim_plus _ _ _ _ _ A D).
  - exact (derivable_pt_lim_plus _ _ _ _ _ B E).
Qed.
Lemma cderiv_mul f g z l k : cderiv f z l -> cderiv g z k ->
  cderiv (fun t => f t * g t)%C z (l * g z + f z * k)%C.
Proof.
  intros [A B] [D E]. split.
  - pose proof (derivable_pt_lim_minus _ _ _ _ _ (derivable_pt_lim_mult _ _ _ _ _ A D) (derivable_pt_lim_mult _ _ _ _ _ B E)) as X.
    replace (Re (l * g z + f z * k)%C) with (Re l * Re (g z) + Re (f z) * Re k - (Im l * Im (g z) + Im (f z) * Im k)) by (cunf; ring).
    exact X.
  - pose proof (derivable_pt_lim_plus _ _ _ _ _ (derivable_pt_lim_mult _ _ _ _ _ A E) (derivable_pt_lim_mult _ _ _ _ _ B D)) as X.
    replace (Im (l * g z + f z * k)%C) with (Re l * Im (g z) + Re (f z) * Im k + (Im l * Re (g z) + Im (f z) * Re k)) by (cunf; ring).
    exact X.
Qed.
Lemma cderiv_scal c f z l : cderiv f z l -> cderiv (fun t => c * f t)%C z (c * l)%C.
Proof.
  intro H. pose proof (cderiv_mul _ _ _ _ _ (cderiv_const c z) H) as X. cbv beta in X.
  replace (c * l)%C with (C0 * f z + c * l)%C by ring. exact X.
Qed.
Lemma cderiv_cis a z : cderiv (fun t => cis (a * t)) z (imag a * cis (a * z))%C.
Proof.
  assert (D : derivable_pt_lim (fun t => a * t) z a).
  { pose proof (derivable_pt_lim_scal id a z 1 (derivable_pt_lim_id z)) as X. rewrite Rmult_1_r in X. exact X. }
  split; cbn.
  - replace (Re (imag a * cis (a * z))%C) with (- sin (a * z) * a) by (unfold imag, cis; cunf; ring).
    exact (derivable_pt_lim_comp _ _ _ _ _ D (derivable_pt_lim_cos (a * z))).
  - replace (Im (imag a * cis (a * z))%C) with (cos (a * z) * a) by (unfold imag, cis; cunf; ring).
    exact (derivable_pt_lim_comp _ _ _ _ _ D (derivable_pt_lim_sin (a * z))).
Qed.
Lemma cderiv_unique f z l k : cderiv f z l -> cderiv f z k -> l = k.
Proof.
  intros [A B] [D E]. apply C_eq; eapply uniqueness_limite; eassumption.
Qed.
Lemma cderiv_zero_const f : (forall z, cderiv f z C0) -> forall z, f z = f 0.
Proof.
  intros H z. apply C_eq.
  - set (g := fun t => Re (f t)).
    assert (pr : derivable g) by (intro t; exists 0; exact (proj1 (H t))).
    apply (null_derivative_1 g pr). intro t. apply derive_pt_eq_0. exact (proj1 (H t)).
  - set (g := fun t => Im (f t)).
    assert (pr : derivable g) by (intro t; exists 0; exact (proj2 (H t))).
    apply (null_derivative_1 g pr). intro t. apply derive_pt_eq_0. exact (proj2 (H t)).
Qed.

(** Vector derivative. *)
Definition vderiv (f : R -> V4) (z : R) (l : V4) : Prop :=
  cderiv (fun t => v0 (f t)) z (v0 l) /\ cderiv (fun t => v1 (f t)) z (v1 l) /\
  cderiv (fun t => v2 (f t)) z (v2 l) /\ cderiv (fun t => v3 (f t)) z (v3 l).
Lemma cderiv_lin4 a b c d f z l : vderiv f z l ->
  cderiv (fun t => a * v0 (f t) + b * v1 (f t) + c * v2 (f t) + d * v3 (f t))%C z
         (a * v0 l + b * v1 l + c * v2 l + d * v3 l)%C.
Proof.
  intros (H0&H1&H2&H3).
  apply (cderiv_add (fun t => a * v0 (f t) + b * v1 (f t) + c * v2 (f t))%C (fun t => d * v3 (f t))%C); [|apply cderiv_scal; exact H3].
  apply (cderiv_add (fun t => a * v0 (f t) + b * v1 (f t))%C (fun t => c * v2 (f t))%C); [|apply cderiv_scal; exact H2].
  apply (cderiv_add (fun t => a * v0 (f t))%C (fun t => b * v1 (f t))%C); [|apply cderiv_scal; exact H1].
  apply cderiv_scal; exact H0.
Qed.
Lemma vderiv_mapp A f z l : vderiv f z l -> vderiv (fun t => mapp A (f t)) z (mapp A l).
Proof.
  intro H. unfold vderiv. cbn [mapp v0 v1 v2 v3]. 
  split; [|split; [|split]]; apply cderiv_lin4; exact H.
Qed.
