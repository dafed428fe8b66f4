(** * LeastSquares: projections and frame bounds for finitely many vectors of R^n.

    Proof tools only (no model, no specification): [ip n f g] is the inner product of
    two signals of [n] samples, [comb a q m] the combination q 0 * a 0 + ... of the
    [m] first vectors of the family [a]. *)

From Coq Require Import Reals Lra Lia.
From Verif Require Import Base Cplx.
Local Open Scope R_scope.

Definition ip (n : nat) (f g : nat -> R) : R := rsum n (fun j => f j * g j).
Definition comb (a : nat -> nat -> R) (q : nat -> R) (m : nat) (j : nat) : R := rsum m (fun l => q l * a l j).

Lemma ip_ext n f f' g g' : (forall j, (j < n)%nat -> f j = f' j) -> (forall j, (j < n)%nat -> g j = g' j) ->
  ip n f g = ip n f' g'.
Proof. intros H K. unfold ip. apply rsum_ext. intros j Hj. rewrite H, K by exact Hj. reflexivity. Qed.
Lemma ip_comm n f g : ip n f g = ip n g f.
Proof. unfold ip. apply rsum_ext. intros. ring. Qed.
Lemma ip_lin n f g h c d : ip n (fun j => c * f j + d * g j) h = c * ip n f h + d * ip n g h.
Proof. unfold ip. rewrite <- !rsum_scale, <- rsum_add. apply rsum_ext. intros. ring. Qed.
Lemma ip_nonneg n f : 0 <= ip n f f.
Proof. unfold ip. apply rsum_nonneg. intros. apply Rle_0_sqr. Qed.
Lemma ip_zero n f : ip n f f = 0 -> forall j, (j < n)%nat -> f j = 0.
Proof.
  intros H j Hj. assert (X : f j * f j = 0).
  { apply (rsum_zero_all n (fun j => f j * f j)); [intros; apply Rle_0_sqr|exact H|exact Hj]. }
  apply Rmult_integral in X. tauto.
Qed.
Lemma ip_zero_l n f g : (forall j, (j < n)%nat -> f j = 0) -> ip n f g = 0.
Proof. intro H. unfold ip. rewrite (rsum_ext n _ (fun _ => 0)); [apply rsum_0|]. intros j Hj. rewrite H by exact Hj. ring. Qed.

(** Cauchy-Schwarz *)
Lemma ip_CS n f g : ip n f g * ip n f g <= ip n f f * ip n g g.
Proof.
  set (A := ip n f f). set (B := ip n g g). set (X := ip n f g).
  assert (HA : 0 <= A) by apply ip_nonneg.
  assert (E : ip n (fun j => A * g j + (- X) * f j) (fun j => A * g j + (- X) * f j) = A * (A * B - X * X)).
  { rewrite ip_lin, !(ip_comm n _ (fun j => A * g j + - X * f j)), !ip_lin. fold A B.
    rewrite (ip_comm n g f). fold X. ring. }
  pose proof (ip_nonneg n (fun j => A * g j + (- X) * f j)) as P. rewrite E in P.
  destruct (Req_dec A 0) as [Z|Z].
  - assert (X0 : X = 0) by (apply ip_zero_l; apply ip_zero; exact Z). rewrite X0, Z. lra.
  - assert (0 < A) by lra. apply Rmult_le_reg_l with A; [assumption|]. lra.
Qed.

Section Family.
Variables (n : nat) (a : nat -> nat -> R).

Lemma comb_S q m j : comb a q (S m) j = comb a q m j + q m * a m j.
Proof. reflexivity. Qed.
Lemma comb_ext q q' m j : (forall l, (l < m)%nat -> q l = q' l) -> comb a q m j = comb a q' m j.
Proof. intro H. unfold comb. apply rsum_ext. intros l Hl. rewrite H by exact Hl. reflexivity. Qed.
Lemma comb_lin q q' c d m j : comb a (fun l => c * q l + d * q' l) m j = c * comb a q m j + d * comb a q' m j.
Proof. unfold comb. rewrite <- !rsum_scale, <- rsum_add. apply rsum_ext. intros. ring. Qed.
Lemma ip_comb f q m : ip n f (comb a q m) = rsum m (fun l => q l * ip n f (a l)).
Proof.
  unfold ip, comb. rewrite (rsum_ext n _ (fun j => rsum m (fun l => q l * (f j * a l j)))).
  - rewrite rsum_swap. apply rsum_ext. intros l _. apply rsum_scale.
  - intros j _. rewrite <- rsum_scale. apply rsum_ext. intros. ring.
Qed.
Lemma ip_comb_0 f q m : (forall l, (l < m)%nat -> ip n f (a l) = 0) -> ip n f (comb a q m) = 0.
Proof.
  intro H. rewrite ip_comb, (rsum_ext m _ (fun _ => 0)); [apply rsum_0|]. intros l Hl. rewrite H by exact Hl. ring.
Qed.

(** Orthogonal projection on the span of the [m] first vectors. *)
Lemma proj_exists m : forall f, exists q, forall l, (l < m)%nat -> ip n (fun j => f j - comb a q m j) (a l) = 0.
Proof.
  induction m as [|m IH]; intro f; [exists (fun _ => 0); intros l Hl; lia|].
  destruct (IH f) as [qf Hf]. destruct (IH (a m)) as [qs Hs].
  set (f' := fun j => f j - comb a qf m j) in *. set (v := fun j => a m j - comb a qs m j) in *.
  set (V := ip n v v). set (c := if Req_EM_T V 0 then 0 else ip n f' v / V).
  exists (fun l => if (l =? m)%nat then c else qf l + (- c) * qs l).
  assert (EC : forall j, f j - comb a (fun l => if (l =? m)%nat then c else qf l + - c * qs l) (S m) j = 1 * f' j + (- c) * v j).
  { intro j. rewrite comb_S, Nat.eqb_refl.
    rewrite (comb_ext _ (fun l => 1 * qf l + (- c) * qs l)).
    - rewrite comb_lin. unfold f', v. ring.
    - intros l Hl. destruct (Nat.eqb_spec l m); [lia|]. ring. }
  intros l Hl. rewrite (ip_ext n _ (fun j => 1 * f' j + (- c) * v j) _ (a l)) by auto. rewrite ip_lin.
  destruct (Nat.eq_dec l m) as [->|Hne].
  - assert (Ef : ip n f' (a m) = ip n f' v).
    { rewrite (ip_comm n f' v). unfold v. rewrite (ip_ext n (fun j => a m j - comb a qs m j) (fun j => 1 * a m j + (- 1) * comb a qs m j) f' f') by (intros; ring).
      rewrite ip_lin, (ip_comm n (comb a qs m)), (ip_comb_0 f' qs m Hf), (ip_comm n f'). ring. }
    assert (Ev : ip n v (a m) = V).
    { unfold V. rewrite (ip_ext n v v v (fun j => 1 * a m j + (- 1) * comb a qs m j)) by (intros; unfold v; ring).
      rewrite (ip_comm n v (fun j => 1 * a m j + (- 1) * comb a qs m j)), ip_lin, (ip_comm n (comb a qs m)), (ip_comb_0 v qs m Hs), (ip_comm n v). ring. }
    rewrite Ef, Ev. unfold c. destruct (Req_EM_T V 0) as [Z|Z]; [|field; exact Z].
    rewrite (ip_comm n f' v), (ip_zero_l n v f') by (apply ip_zero; exact Z). ring.
  - rewrite (Hf l), (Hs l) by lia. ring.
Qed.

(** Lower frame bound: some constant bounds the squared norm of every combination by the
    squares of its inner products with the family. *)
Lemma frame_exists m : exists c, 0 < c /\
  forall q, c * ip n (comb a q m) (comb a q m) <= rsum m (fun l => ip n (comb a q m) (a l) * ip n (comb a q m) (a l)).
Proof.
  induction m as [|m (c&Hc&IH)].
  - exists 1. split; [lra|]. intro q. cbn. rewrite (ip_zero_l n) by reflexivity. lra.
  - destruct (proj_exists m (a m)) as [qs Hs]. set (v := fun j => a m j - comb a qs m j) in *.
    set (V := ip n v v). set (P := ip n (comb a qs m) (comb a qs m)).
    assert (HV : 0 <= V) by apply ip_nonneg. assert (HP : 0 <= P) by apply ip_nonneg.
    assert (MAIN : forall q, exists D A s al, 0 <= D /\ 0 <= A /\ c * D <= A /\ al * al * (V * V) <= 2 * (s * s) + 2 * (D * P) /\
       ip n (comb a q (S m)) (comb a q (S m)) = D + al * al * V /\
       rsum (S m) (fun l => ip n (comb a q (S m)) (a l) * ip n (comb a q (S m)) (a l)) = A + s * s).
    { intro q. set (q' := fun l => 1 * q l + q m * qs l). set (d1 := comb a q' m). set (d := comb a q (S m)).
      assert (Ed : forall j, d j = 1 * d1 j + q m * v j).
      { intro j. unfold d, d1, q', v. rewrite comb_S, comb_lin. ring. }
      assert (Hv1 : ip n v d1 = 0) by (apply ip_comb_0; exact Hs).
      assert (El : forall l, (l < m)%nat -> ip n d (a l) = ip n d1 (a l)).
      { intros l Hl. rewrite (ip_ext n d (fun j => 1 * d1 j + q m * v j) _ (a l)) by auto. rewrite ip_lin, Hs by exact Hl. ring. }
      assert (Em : ip n d (a m) = q m * V + ip n d1 (comb a qs m)).
      { rewrite (ip_ext n d (fun j => 1 * d1 j + q m * v j) (a m) (fun j => 1 * v j + 1 * comb a qs m j)) by (intros; auto; unfold v; ring).
        rewrite ip_lin, !(ip_comm n _ (fun j => 1 * v j + 1 * comb a qs m j)), !ip_lin.
        rewrite Hv1, (ip_comm n (comb a qs m) v), (ip_comb_0 v qs m Hs), (ip_comm n (comb a qs m) d1). fold V. ring. }
      exists (ip n d1 d1), (rsum m (fun l => ip n d1 (a l) * ip n d1 (a l))), (ip n d (a m)), (q m).
      split; [apply ip_nonneg|]. split; [apply rsum_nonneg; intros; apply Rle_0_sqr|]. split; [apply IH|].
      split.
      { pose proof (ip_CS n d1 (comb a qs m)) as CS. fold P in CS. rewrite Em. set (x := ip n d1 (comb a qs m)) in *.
        pose proof (Rle_0_sqr (q m * V + 2 * x)) as S. unfold Rsqr in S. 
        replace (q m * q m * (V * V)) with ((q m * V) * (q m * V)) by ring. set (y := q m * V) in *. nra. }
      split.
      { rewrite (ip_ext n d (fun j => 1 * d1 j + q m * v j) d (fun j => 1 * d1 j + q m * v j)) by auto.
        rewrite ip_lin, !(ip_comm n _ (fun j => 1 * d1 j + q m * v j)), !ip_lin, (ip_comm n d1 v), Hv1. fold V. ring. }
      cbn [rsum]. f_equal. apply rsum_ext. intros l Hl. rewrite El by exact Hl. reflexivity. }
    destruct (Req_dec V 0) as [Z|Z].
    + exists c. split; [exact Hc|]. intro q. destruct (MAIN q) as (D&A&s&al&HD&HA&H1&H2&->&->). rewrite Z.
      pose proof (Rle_0_sqr s) as S. unfold Rsqr in S. lra.
    + assert (HV' : 0 < V) by lra. set (K := / c + 2 * P / (c * V) + 2 / V).
      assert (HiV : 0 < / V) by (apply Rinv_0_lt_compat; exact HV'). assert (Hic : 0 < / c) by (apply Rinv_0_lt_compat; exact Hc).
      assert (HK1 : 0 <= 2 * P / (c * V)).
      { unfold Rdiv. rewrite Rinv_mult. apply Rmult_le_pos; [lra|]. apply Rlt_le, Rmult_lt_0_compat; assumption. }
      assert (HK : 0 < K) by (unfold K; unfold Rdiv at 2; lra).
      exists (/ K). split; [apply Rinv_0_lt_compat; exact HK|]. intro q.
      destruct (MAIN q) as (D&A&s&al&HD&HA&H1&H2&->&->).
      pose proof (Rle_0_sqr s) as S. unfold Rsqr in S.
      assert (B1 : D <= A * / c).
      { apply Rmult_le_reg_l with c; [exact Hc|]. replace (c * (A * / c)) with A by (field; lra). exact H1. }
      assert (B2 : al * al * V <= 2 / V * (s * s) + 2 * P / (c * V) * A).
      { apply Rmult_le_reg_l with V; [exact HV'|].
        replace (V * (2 / V * (s * s) + 2 * P / (c * V) * A)) with (2 * (s * s) + 2 * (A * / c) * P) by (field; lra).
        assert (D * P <= A * / c * P) by (apply Rmult_le_compat_r; assumption). lra. }
      apply Rmult_le_reg_l with K; [exact HK|].
      replace (K * (/ K * (D + al * al * V))) with (D + al * al * V) by (field; lra).
      assert (E : K * (A + s * s) = (A * / c + 2 * P / (c * V) * A + 2 / V * (s * s)) + ((2 / V) * A + (/ c + 2 * P / (c * V)) * (s * s))) by (unfold K; ring).
      assert (0 <= 2 / V * A) by (apply Rmult_le_pos; [unfold Rdiv; lra|exact HA]).
      assert (0 <= (/ c + 2 * P / (c * V)) * (s * s)) by (apply Rmult_le_pos; [lra|exact S]).
      lra.
Qed.
End Family.
