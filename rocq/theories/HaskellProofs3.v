(** * HaskellProofs3: the propagator is the solution operator of SpecElastic's system;
    the 2x2 system of [haskell] is never singular. *)

From Coq Require Import Reals Lra.
From Verif Require Import Base Num NumPy Cplx Mat4 SpecElastic DFT ReverbModel DeconModel HaskellModel HaskellProofs HaskellProofs2.
Local Open Scope R_scope.

Ltac zs := repeat rewrite ?Rmult_0_l, ?Rmult_0_r, ?Rminus_0_r, ?Rplus_0_l, ?Rplus_0_r, ?Ropp_0, ?Rmult_1_l, ?Rmult_1_r, ?Rminus_0_l.
Lemma Csub_eq (a b c : C) : a = (b + c)%C -> c = (a - b)%C.
Proof. intros ->. ring. Qed.

Lemma elastic_iff omega p m f : density m <> 0 -> vp_of m <> 0 -> vs_of m <> 0 ->
  (elastic_field omega p m f <->
   forall z, vderiv f z (mapp (Amat omega (density m) (vp_of m) (vs_of m) p) (f z))).
Proof.
  destruct m as [rho al be]. cbn [density vp_of vs_of]. intros Hr Ha Hb. unfold elastic_field. cbn [density vp_of vs_of].
  split; intros H z; specialize (H z).
  - destruct H as (dux&duz&dtzx&dtzz&txx&D0&D1&D2&D3&E2&E3&Ex&M0&M1).
    apply Csub_eq in M0. apply Csub_eq in M1.
    unfold vderiv.
    assert (Z0 : v0 (mapp (Amat omega rho al be p) (f z)) = dux).
    { destruct (f z) as [a b c d]. cbn [v0 v1 v2 v3] in *. subst c. unfold Amat. m4. unfold imag.
      destruct a as [a a'], b as [b b'], dux as [x x']. apply C_eq; cunf; zs; try ring; field; split; assumption. }
    assert (Z1 : v1 (mapp (Amat omega rho al be p) (f z)) = duz).
    { destruct (f z) as [a b c d]. cbn [v0 v1 v2 v3] in *. subst d. unfold Amat. m4. unfold imag.
      destruct a as [a a'], b as [b b'], duz as [x x']. apply C_eq; cunf; zs; try ring; field; split; assumption. }
    assert (Z2 : v2 (mapp (Amat omega rho al be p) (f z)) = dtzx).
    { destruct (f z) as [a b c d]. cbn [v0 v1 v2 v3] in *. subst dtzx txx d. unfold Amat. m4. unfold imag.
      destruct a as [a a'], b as [b b'], duz as [x x']. apply C_eq; cunf; zs; try ring; field; split; assumption. }
    assert (Z3 : v3 (mapp (Amat omega rho al be p) (f z)) = dtzz).
    { destruct (f z) as [a b c d]. cbn [v0 v1 v2 v3] in *. subst dtzz. unfold Amat. m4. unfold imag.
      destruct a as [a a'], b as [b b'], c as [c c'], d as [d d']. apply C_eq; cunf; ring. }
    rewrite Z0, Z1, Z2, Z3. tauto.
  - destruct H as (D0&D1&D2&D3).
    eexists _, _, _, _, _. split; [exact D0|]. split; [exact D1|]. split; [exact D2|]. split; [exact D3|].
    split; [|split; [|split; [reflexivity|split]]];
      destruct (f z) as [[a a'] [b b'] [c c'] [d d']]; unfold Amat; m4; unfold imag; apply C_eq; cunf; zs; try ring; field; split; assumption.
Qed.

Section Layer.
Variables (omega rho alpha beta p : R).
Hypothesis F : fin omega rho alpha beta p.
Let xi := xi_of alpha p.
Let eta := eta_of beta p.
Let E := Emat omega rho alpha beta p xi eta.
Let Ei := Einv omega rho alpha beta p xi eta.
Let P := Pmat omega rho beta p xi eta.
Let L := Lam omega xi eta.
Let A := Amat omega rho alpha beta p.
Let D := Dmat omega xi eta.

Lemma Ei_A : mmul Ei A = mmul D Ei.
Proof.
  rewrite <- (mmul_1_r A). rewrite <- (EEi _ _ _ _ _ F). change (mmul Ei (mmul A (mmul E Ei)) = mmul D Ei).
  rewrite (mmul_assoc A). pose proof (AE _ _ _ _ _ F) as X. change (mmul A E = mmul E D) in X. rewrite X.
  rewrite !mmul_assoc. pose proof (EiE _ _ _ _ _ F) as Y. change (mmul Ei E = mI) in Y. rewrite Y, mmul_1_l. reflexivity.
Qed.

Lemma amp_ode w s : (forall z, cderiv w z (imag (omega * s) * w z)%C) -> forall z, w z = (cis (omega * s * z) * w 0)%C.
Proof.
  intros H z.
  assert (G : forall t, cderiv (fun t => cis (- (omega * s) * t) * w t)%C t C0).
  { intro t. pose proof (cderiv_mul _ _ _ _ _ (cderiv_cis (- (omega * s)) t) (H t)) as X. cbv beta in X.
    replace C0 with (imag (- (omega * s)) * cis (- (omega * s) * t) * w t + cis (- (omega * s) * t) * (imag (omega * s) * w t))%C; [exact X|].
    generalize (cis (- (omega * s) * t)) (w t) (omega * s). intros [c c'] [d d'] x. unfold imag. apply C_eq; cunf; ring. }
  pose proof (cderiv_zero_const _ G z) as X. cbv beta in X. rewrite Rmult_0_r, cis_0 in X.
  replace (w 0) with (C1 * w 0)%C by ring. rewrite <- X.
  replace (cis (omega * s * z) * (cis (- (omega * s) * z) * w z))%C with (cis (omega * s * z) * cis (- (omega * s) * z) * w z)%C by ring.
  rewrite <- cis_add. replace (omega * s * z + - (omega * s) * z) with 0 by ring. rewrite cis_0. ring.
Qed.

(** Every solution of the system is the propagated initial state ... *)
Lemma ode_unique f : (forall z, vderiv f z (mapp A (f z))) -> forall z, f z = mapp (P z) (f 0).
Proof.
  intros H z. set (w := fun t => mapp Ei (f t)).
  assert (Hw : forall t, vderiv w t (mapp D (w t))).
  { intro t. unfold w. rewrite <- mapp_mmul, <- Ei_A, mapp_mmul. apply vderiv_mapp. apply H. }
  assert (W : w z = mapp (L z) (w 0)).
  { assert (K : forall t, v0 (mapp D (w t)) = (imag (omega * xi) * v0 (w t))%C /\
                  v1 (mapp D (w t)) = (imag (omega * eta) * v1 (w t))%C /\
                  v2 (mapp D (w t)) = (imag (omega * - xi) * v2 (w t))%C /\
                  v3 (mapp D (w t)) = (imag (omega * - eta) * v3 (w t))%C).
    { intro t. unfold D, Dmat. destruct (w t). m4. rewrite !Ropp_mult_distr_r. repeat split; ring. }
    apply V4_eq.
    - transitivity (cis (omega * xi * z) * v0 (w 0))%C.
      + apply (amp_ode (fun t => v0 (w t)) xi). intro t. rewrite <- (proj1 (K t)). exact (proj1 (Hw t)).
      + unfold L, Lam. m4. ring.
    - transitivity (cis (omega * eta * z) * v1 (w 0))%C.
      + apply (amp_ode (fun t => v1 (w t)) eta). intro t. rewrite <- (proj1 (proj2 (K t))). exact (proj1 (proj2 (Hw t))).
      + unfold L, Lam. m4. ring.
    - transitivity (cis (omega * - xi * z) * v2 (w 0))%C.
      + apply (amp_ode (fun t => v2 (w t)) (- xi)). intro t. rewrite <- (proj1 (proj2 (proj2 (K t)))). exact (proj1 (proj2 (proj2 (Hw t)))).
      + replace (omega * - xi * z) with (- (omega * xi * z)) by ring. unfold L, Lam. m4. ring.
    - transitivity (cis (omega * - eta * z) * v3 (w 0))%C.
      + apply (amp_ode (fun t => v3 (w t)) (- eta)). intro t. rewrite <- (proj2 (proj2 (proj2 (K t)))). exact (proj2 (proj2 (proj2 (Hw t)))).
      + replace (omega * - eta * z) with (- (omega * eta * z)) by ring. unfold L, Lam. m4. ring. }
  pose proof (Pdec _ _ _ _ _ F z) as X. change (P z = mmul E (mmul (L z) Ei)) in X. rewrite X, !mapp_mmul.
  change (mapp Ei (f 0)) with (w 0). rewrite <- W. unfold w. rewrite <- mapp_mmul.
  pose proof (EEi _ _ _ _ _ F) as Y. change (mmul E Ei = mI) in Y. rewrite Y, mapp_1. reflexivity.
Qed.

(** ... and the propagated state is a solution. *)
Lemma wave_vderiv w z : vderiv (fun t => mapp (L t) w) z (mapp D (mapp (L z) w)).
Proof.
  unfold vderiv.
  assert (G : forall s c t, cderiv (fun t => cis (omega * s * t) * c)%C t (imag (omega * s) * (cis (omega * s * t) * c))%C).
  { intros s c t. apply (cderiv_ext (fun t => c * cis (omega * s * t))%C); [intro; ring|].
    replace (imag (omega * s) * (cis (omega * s * t) * c))%C with (c * (imag (omega * s) * cis (omega * s * t)))%C by ring.
    apply cderiv_scal. apply cderiv_cis. }
  unfold L, Lam, D, Dmat. destruct w as [a b c d].
  assert (N : forall s t, - (omega * s * t) = omega * (- s) * t) by (intros; ring).
  m4. split; [|split; [|split]].
  - eapply cderiv_ext; [|match goal with |- cderiv _ _ ?x => replace x with (imag (omega * xi) * (cis (omega * xi * z) * a))%C by ring; apply (G xi a z) end].
    intro t. cbv beta. ring.
  - eapply cderiv_ext; [|match goal with |- cderiv _ _ ?x => replace x with (imag (omega * eta) * (cis (omega * eta * z) * b))%C by ring; apply (G eta b z) end].
    intro t. cbv beta. ring.
  - eapply cderiv_ext; [|match goal with |- cderiv _ _ ?x => replace x with (imag (omega * - xi) * (cis (omega * - xi * z) * c))%C; [apply (G (- xi) c z)|] end].
    + intro t. cbv beta. rewrite N. ring.
    + rewrite <- (N xi z). replace (omega * - xi) with (- (omega * xi)) by ring. ring.
  - eapply cderiv_ext; [|match goal with |- cderiv _ _ ?x => replace x with (imag (omega * - eta) * (cis (omega * - eta * z) * d))%C; [apply (G (- eta) d z)|] end].
    + intro t. cbv beta. rewrite N. ring.
    + rewrite <- (N eta z). replace (omega * - eta) with (- (omega * eta)) by ring. ring.
Qed.
Lemma A_P z s : mapp A (mapp (P z) s) = mapp E (mapp D (mapp (L z) (mapp Ei s))).
Proof.
  pose proof (Pdec _ _ _ _ _ F z) as X. change (P z = mmul E (mmul (L z) Ei)) in X. rewrite X.
  rewrite <- !mapp_mmul. f_equal. rewrite !mmul_assoc.
  pose proof (AE _ _ _ _ _ F) as Y. change (mmul A E = mmul E D) in Y. rewrite Y. reflexivity.
Qed.
Lemma ode_solution s z : vderiv (fun t => mapp (P t) s) z (mapp A (mapp (P z) s)).
Proof.
  rewrite A_P. pose proof (vderiv_mapp E _ z _ (wave_vderiv (mapp Ei s) z)) as X.
  assert (Q : forall t, mapp (P t) s = mapp E (mapp (L t) (mapp Ei s))).
  { intro t. pose proof (Pdec _ _ _ _ _ F t) as X0. change (P t = mmul E (mmul (L t) Ei)) in X0. rewrite X0, !mapp_mmul. reflexivity. }
  destruct X as (X0&X1&X2&X3). unfold vderiv.
  split; [|split; [|split]]; (eapply cderiv_ext; [|eassumption]); intro t; cbv beta; rewrite Q; reflexivity.
Qed.
End Layer.
