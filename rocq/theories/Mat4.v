(** * Mat4: 4x4 complex matrices and 4-vectors, with determinants.

    General algebra used by the model of the Haskell propagator in synrf.py (numpy
    arrays of shape (4,4), dtype complex, and np.matmul).  Nothing here models rfsed
    code. *)

From Coq Require Import Reals Lra Ring Field.
From Verif Require Import Base Cplx.
Local Open Scope C_scope.

Record V4 := mkV { v0 : C; v1 : C; v2 : C; v3 : C }.
Record M4 := mkM {
  m00 : C; m01 : C; m02 : C; m03 : C;
  m10 : C; m11 : C; m12 : C; m13 : C;
  m20 : C; m21 : C; m22 : C; m23 : C;
  m30 : C; m31 : C; m32 : C; m33 : C }.

Definition mI : M4 := mkM C1 C0 C0 C0  C0 C1 C0 C0  C0 C0 C1 C0  C0 C0 C0 C1.
Definition mdiag (a b c d : C) : M4 := mkM a C0 C0 C0  C0 b C0 C0  C0 C0 c C0  C0 C0 C0 d.

Definition mmul (A B : M4) : M4 := mkM
  (m00 A * m00 B + m01 A * m10 B + m02 A * m20 B + m03 A * m30 B)
  (m00 A * m01 B + m01 A * m11 B + m02 A * m21 B + m03 A * m31 B)
  (m00 A * m02 B + m01 A * m12 B + m02 A * m22 B + m03 A * m32 B)
  (m00 A * m03 B + m01 A * m13 B + m02 A * m23 B + m03 A * m33 B)
  (m10 A * m00 B + m11 A * m10 B + m12 A * m20 B + m13 A * m30 B)
  (m10 A * m01 B + m11 A * m11 B + m12 A * m21 B + m13 A * m31 B)
  (m10 A * m02 B + m11 A * m12 B + m12 A * m22 B + m13 A * m32 B)
  (m10 A * m03 B + m11 A * m13 B + m12 A * m23 B + m13 A * m33 B)
  (m20 A * m00 B + m21 A * m10 B + m22 A * m20 B + m23 A * m30 B)
  (m20 A * m01 B + m21 A * m11 B + m22 A * m21 B + m23 A * m31 B)
  (m20 A * m02 B + m21 A * m12 B + m22 A * m22 B + m23 A * m32 B)
  (m20 A * m03 B + m21 A * m13 B + m22 A * m23 B + m23 A * m33 B)
  (m30 A * m00 B + m31 A * m10 B + m32 A * m20 B + m33 A * m30 B)
  (m30 A * m01 B + m31 A * m11 B + m32 A * m21 B + m33 A * m31 B)
  (m30 A * m02 B + m31 A * m12 B + m32 A * m22 B + m33 A * m32 B)
  (m30 A * m03 B + m31 A * m13 B + m32 A * m23 B + m33 A * m33 B).

Definition mapp (A : M4) (x : V4) : V4 := mkV
  (m00 A * v0 x + m01 A * v1 x + m02 A * v2 x + m03 A * v3 x)
  (m10 A * v0 x + m11 A * v1 x + m12 A * v2 x + m13 A * v3 x)
  (m20 A * v0 x + m21 A * v1 x + m22 A * v2 x + m23 A * v3 x)
  (m30 A * v0 x + m31 A * v1 x + m32 A * v2 x + m33 A * v3 x).

Definition det3 (a b c d e f g h i : C) : C :=
  a * (e * i - f * h) - b * (d * i - f * g) + c * (d * h - e * g).
(** Expansion along the first row. *)
Definition mdet (A : M4) : C :=
  m00 A * det3 (m11 A) (m12 A) (m13 A) (m21 A) (m22 A) (m23 A) (m31 A) (m32 A) (m33 A)
  - m01 A * det3 (m10 A) (m12 A) (m13 A) (m20 A) (m22 A) (m23 A) (m30 A) (m32 A) (m33 A)
  + m02 A * det3 (m10 A) (m11 A) (m13 A) (m20 A) (m21 A) (m23 A) (m30 A) (m31 A) (m33 A)
  - m03 A * det3 (m10 A) (m11 A) (m12 A) (m20 A) (m21 A) (m22 A) (m30 A) (m31 A) (m32 A).

Lemma M4_eta A : A = mkM (m00 A) (m01 A) (m02 A) (m03 A) (m10 A) (m11 A) (m12 A) (m13 A)
                        (m20 A) (m21 A) (m22 A) (m23 A) (m30 A) (m31 A) (m32 A) (m33 A).
Proof. destruct A; reflexivity. Qed.
Lemma V4_eta x : x = mkV (v0 x) (v1 x) (v2 x) (v3 x).
Proof. destruct x; reflexivity. Qed.

Lemma V4_eq x y : v0 x = v0 y -> v1 x = v1 y -> v2 x = v2 y -> v3 x = v3 y -> x = y.
Proof. destruct x, y; cbn; intros -> -> -> ->; reflexivity. Qed.

Lemma M4_eq A B : m00 A = m00 B -> m01 A = m01 B -> m02 A = m02 B -> m03 A = m03 B -> m10 A = m10 B -> m11 A = m11 B -> m12 A = m12 B -> m13 A = m13 B -> m20 A = m20 B -> m21 A = m21 B -> m22 A = m22 B -> m23 A = m23 B -> m30 A = m30 B -> m31 A = m31 B -> m32 A = m32 B -> m33 A = m33 B -> A = B.
Proof. destruct A, B; cbn [m00 m01 m02 m03 m10 m11 m12 m13 m20 m21 m22 m23 m30 m31 m32 m33]; intros; subst; reflexivity. Qed.

Ltac m4 := cbv [mmul mapp mI mdiag mdet det3];
  cbn [m00 m01 m02 m03 m10 m11 m12 m13 m20 m21 m22 m23 m30 m31 m32 m33 v0 v1 v2 v3].

Lemma mmul_assoc A B D : mmul A (mmul B D) = mmul (mmul A B) D.
Proof. destruct A, B, D. apply M4_eq; m4; ring. Qed.
Lemma mmul_1_l A : mmul mI A = A.
Proof. destruct A. apply M4_eq; m4; ring. Qed.
Lemma mmul_1_r A : mmul A mI = A.
Proof. destruct A. apply M4_eq; m4; ring. Qed.
Lemma mapp_mmul A B x : mapp (mmul A B) x = mapp A (mapp B x).
Proof. destruct A, B, x. apply V4_eq; m4; ring. Qed.
Lemma mapp_1 x : mapp mI x = x.
Proof. destruct x. apply V4_eq; m4; ring. Qed.
Lemma mdiag_l a b c d B : mmul (mdiag a b c d) B = mkM
  (a * m00 B) (a * m01 B) (a * m02 B) (a * m03 B) (b * m10 B) (b * m11 B) (b * m12 B) (b * m13 B)
  (c * m20 B) (c * m21 B) (c * m22 B) (c * m23 B) (d * m30 B) (d * m31 B) (d * m32 B) (d * m33 B).
Proof. destruct B. apply M4_eq; m4; ring. Qed.
Lemma mdiag_r a b c d B : mmul B (mdiag a b c d) = mkM
  (m00 B * a) (m01 B * b) (m02 B * c) (m03 B * d) (m10 B * a) (m11 B * b) (m12 B * c) (m13 B * d)
  (m20 B * a) (m21 B * b) (m22 B * c) (m23 B * d) (m30 B * a) (m31 B * b) (m32 B * c) (m33 B * d).
Proof. destruct B. apply M4_eq; m4; ring. Qed.
Lemma mdiag_mul a b c d a' b' c' d' : mmul (mdiag a b c d) (mdiag a' b' c' d') = mdiag (a*a') (b*b') (c*c') (d*d').
Proof. apply M4_eq; m4; ring. Qed.
Lemma mdet_I : mdet mI = C1.
Proof. m4. ring. Qed.
Lemma mdet_diag a b c d : mdet (mdiag a b c d) = a * b * c * d.
Proof. m4. ring. Qed.

(** Multiplicativity of the determinant, through 2x2 minors (a direct [ring] on 32
    variables does not terminate in reasonable time). *)
Definition minor2 (a b c d : C) : C := a * d - b * c.
Definition lap (a01 a02 a03 a12 a13 a23 c01 c02 c03 c12 c13 c23 : C) : C :=
  a01 * c23 - a02 * c13 + a03 * c12 + a12 * c03 - a13 * c02 + a23 * c01.
Definition lapM (A : M4) : C :=
  lap (minor2 (m00 A) (m01 A) (m10 A) (m11 A)) (minor2 (m00 A) (m02 A) (m10 A) (m12 A))
      (minor2 (m00 A) (m03 A) (m10 A) (m13 A)) (minor2 (m01 A) (m02 A) (m11 A) (m12 A))
      (minor2 (m01 A) (m03 A) (m11 A) (m13 A)) (minor2 (m02 A) (m03 A) (m12 A) (m13 A))
      (minor2 (m20 A) (m21 A) (m30 A) (m31 A)) (minor2 (m20 A) (m22 A) (m30 A) (m32 A))
      (minor2 (m20 A) (m23 A) (m30 A) (m33 A)) (minor2 (m21 A) (m22 A) (m31 A) (m32 A))
      (minor2 (m21 A) (m23 A) (m31 A) (m33 A)) (minor2 (m22 A) (m23 A) (m32 A) (m33 A)).
Lemma mdet_lap A : mdet A = lapM A.
Proof. destruct A. cbv [mdet det3 lapM lap minor2 m00 m01 m02 m03 m10 m11 m12 m13 m20 m21 m22 m23 m30 m31 m32 m33]. ring. Qed.
Lemma cauchy_binet2 r0 r1 r2 r3 s0 s1 s2 s3 x0 x1 x2 x3 y0 y1 y2 y3 :
  minor2 (r0 * x0 + r1 * x1 + r2 * x2 + r3 * x3) (r0 * y0 + r1 * y1 + r2 * y2 + r3 * y3)
         (s0 * x0 + s1 * x1 + s2 * x2 + s3 * x3) (s0 * y0 + s1 * y1 + s2 * y2 + s3 * y3) =
  minor2 r0 r1 s0 s1 * minor2 x0 y0 x1 y1 + minor2 r0 r2 s0 s2 * minor2 x0 y0 x2 y2
  + minor2 r0 r3 s0 s3 * minor2 x0 y0 x3 y3 + minor2 r1 r2 s1 s2 * minor2 x1 y1 x2 y2
  + minor2 r1 r3 s1 s3 * minor2 x1 y1 x3 y3 + minor2 r2 r3 s2 s3 * minor2 x2 y2 x3 y3.
Proof. unfold minor2. ring. Qed.
Lemma mdet_mul A B : mdet (mmul A B) = mdet A * mdet B.
Proof.
  rewrite !mdet_lap. destruct A, B. cbv [mmul lapM lap m00 m01 m02 m03 m10 m11 m12 m13 m20 m21 m22 m23 m30 m31 m32 m33].
  rewrite !cauchy_binet2.
  generalize (minor2 m04 m05 m14 m15) (minor2 m04 m06 m14 m16) (minor2 m04 m07 m14 m17)
             (minor2 m05 m06 m15 m16) (minor2 m05 m07 m15 m17) (minor2 m06 m07 m16 m17)
             (minor2 m24 m25 m34 m35) (minor2 m24 m26 m34 m36) (minor2 m24 m27 m34 m37)
             (minor2 m25 m26 m35 m36) (minor2 m25 m27 m35 m37) (minor2 m26 m27 m36 m37).
  intros. unfold minor2. ring.
Qed.
