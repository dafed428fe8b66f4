(** * HaskellProofs: algebra of the layer propagator (eigen-decomposition). *)

From Coq Require Import Reals Lra.
From Verif Require Import Base Num NumPy Cplx Mat4 SpecElastic DFT ReverbModel DeconModel HaskellModel.
Local Open Scope R_scope.

Ltac c4 := cbv [imag RtoC C0 C1 Ci Cadd Copp Csub Cmul Cconj cis Re Im]; cbn [fst snd].

Section Layer.
Variables (omega rho alpha beta p xi eta : R).
Let bp := bp_of beta p.
(** Aki & Richards eq. (5.69): columns are downgoing P, S, upgoing P, S. *)
Definition Emat : M4 :=
  mkM (RtoC (alpha * p)) (RtoC (beta * eta)) (RtoC (alpha * p)) (RtoC (beta * eta))
      (RtoC (alpha * xi)) (RtoC (- (beta * p))) (RtoC (- (alpha * xi))) (RtoC (beta * p))
      (imag (2 * omega * rho * alpha * beta * beta * p * xi)) (imag (omega * rho * beta * bp))
      (imag (- (2 * omega * rho * alpha * beta * beta * p * xi))) (imag (- (omega * rho * beta * bp)))
      (imag (omega * rho * alpha * bp)) (imag (- (2 * omega * rho * beta * beta * beta * p * eta)))
      (imag (omega * rho * alpha * bp)) (imag (- (2 * omega * rho * beta * beta * beta * p * eta))).
Definition Einv : M4 :=
  let e00 := RtoC (beta * beta * p / alpha) in
  let e01 := RtoC (bp / (2 * alpha * xi)) in
  let e02 := imag (- p / (2 * omega * rho * alpha * xi)) in
  let e03 := imag (- 1 / (2 * omega * rho * alpha)) in
  let e10 := RtoC (bp / (2 * beta * eta)) in
  let e11 := RtoC (- beta * p) in
  let e12 := imag (- 1 / (2 * omega * rho * beta)) in
  let e13 := imag (p / (2 * omega * rho * beta * eta)) in
  mkM e00 e01 e02 e03 e10 e11 e12 e13
      e00 (- e01)%C (- e02)%C e03 e10 (- e11)%C (- e12)%C e13.
Definition Lam (z : R) : M4 :=
  mdiag (cis (omega * xi * z)) (cis (omega * eta * z)) (cis (- (omega * xi * z))) (cis (- (omega * eta * z))).
Definition Pmat (z : R) : M4 :=
  let beta2 := beta * beta in
  let p2 := p * p in
  let bp := 1 - 2 * beta2 * p2 in
  let cos_xi := cos (omega * xi * z) in
  let cos_eta := cos (omega * eta * z) in
  let sin_xi := sin (omega * xi * z) in
  let sin_eta := sin (omega * eta * z) in
  let p00 := RtoC (2 * beta2 * p2 * cos_xi + bp * cos_eta) in
  let p01 := imag (p * (bp / xi * sin_xi - 2 * beta2 * eta * sin_eta)) in
  let p02 := RtoC ((p2 / xi * sin_xi + eta * sin_eta) / (omega * rho)) in
  let p03 := imag (p * (- cos_xi + cos_eta) / (omega * rho)) in
  let p10 := imag (p * (2 * beta2 * xi * sin_xi - bp / eta * sin_eta)) in
  let p11 := RtoC (bp * cos_xi + 2 * beta2 * p2 * cos_eta) in
  let p13 := RtoC ((xi * sin_xi + p2 / eta * sin_eta) / (omega * rho)) in
  let p20 := RtoC (omega * rho * (- 4 * beta2 * beta2 * p2 * xi * sin_xi - bp * bp / eta * sin_eta)) in
  let p21 := imag (2 * omega * beta2 * rho * p * bp * (cos_xi - cos_eta)) in
  let p31 := RtoC (- omega * rho * (bp * bp / xi * sin_xi + 4 * beta2 * beta2 * p2 * eta * sin_eta)) in
  mkM p00 p01 p02 p03
      p10 p11 p03 p13
      p20 p21 p00 p10
      p21 p31 p01 p11.
(** First-order system matrix of SpecElastic: f' = Amat f. *)
Definition Amat : M4 :=
  let mu := rho * (beta * beta) in
  let L2 := rho * (alpha * alpha) in
  let lam := L2 - 2 * mu in
  mkM C0 (imag (- (omega * p))) (RtoC (/ mu)) C0
      (imag (- (omega * p) * lam / L2)) C0 C0 (RtoC (/ L2))
      (RtoC (- (rho * (omega * omega)) + omega * p * (omega * p) * (L2 - lam * lam / L2))) C0 C0 (imag (- (omega * p) * lam / L2))
      C0 (RtoC (- (rho * (omega * omega)))) (imag (- (omega * p))) C0.
Definition Dmat : M4 := mdiag (imag (omega * xi)) (imag (omega * eta)) (imag (- (omega * xi))) (imag (- (omega * eta))).

Hypothesis Hom : omega <> 0.
Hypothesis Hrho : rho <> 0.
Hypothesis Ha : alpha <> 0.
Hypothesis Hb : beta <> 0.
Hypothesis Hxi : xi <> 0.
Hypothesis Heta : eta <> 0.


Ltac nz := repeat split; assumption.
Ltac zs := repeat rewrite ?Rmult_0_l, ?Rmult_0_r, ?Rminus_0_r, ?Rplus_0_l, ?Rplus_0_r, ?Ropp_0.
Ltac entry := apply C_eq; c4; zs; try ring; try (field; nz).

Lemma E_Einv : mmul Emat Einv = mI.
Proof. apply M4_eq; m4; cbv [Emat Einv]; m4; unfold bp, bp_of; entry. Qed.
Lemma Einv_E : mmul Einv Emat = mI.
Proof. apply M4_eq; m4; cbv [Emat Einv]; m4; unfold bp, bp_of; entry. Qed.
Lemma P_decomp z : Pmat z = mmul Emat (mmul (Lam z) Einv).
Proof.
  unfold Lam. rewrite mdiag_l.
  apply M4_eq; cbv [Pmat Emat Einv]; m4; unfold bp, bp_of; apply C_eq; c4;
    rewrite ?cos_neg, ?sin_neg;
    generalize (cos (omega * xi * z)) (sin (omega * xi * z)) (cos (omega * eta * z)) (sin (omega * eta * z));
    intros; zs; try ring; try (field; nz).
Qed.
Hypothesis Rxi : alpha * alpha * (xi * xi) = 1 - alpha * alpha * (p * p).
Hypothesis Reta : beta * beta * (eta * eta) = 1 - beta * beta * (p * p).
Lemma A_E : mmul Amat Emat = mmul Emat Dmat.
Proof.
  assert (Rxi' : alpha ^ 2 * xi ^ 2 = 1 - alpha ^ 2 * p ^ 2) by (transitivity (alpha * alpha * (xi * xi)); [ring|rewrite Rxi; ring]).
  assert (Reta' : beta ^ 2 * eta ^ 2 = 1 - beta ^ 2 * p ^ 2) by (transitivity (beta * beta * (eta * eta)); [ring|rewrite Reta; ring]).
  unfold Dmat. rewrite mdiag_r.
  apply M4_eq; cbv [Amat Emat]; m4; unfold bp, bp_of; apply C_eq; c4; zs; try ring; try (field; nz);
  try ring [Rxi' Reta']; (field_simplify_eq; [|nz]); ring [Rxi' Reta'].
Qed.
End Layer.
