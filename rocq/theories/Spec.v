(** * Spec: small vocabulary in which the properties are stated.

    Independent of the model's functions: only numbers, lists and textbook
    formulas. *)

From Coq Require Import Reals Lra.
From Verif Require Import Base Num.

(** ** Reading a sampled signal at a time *)

Section Near.
Context {N : Num}.

Definition dist (ti x : N) : N := nabs (nsub ti x).

(** [i] is the first index of the axis whose time is closest to [x]. *)
Definition nearest_first (axis : list N) (x : N) (i : nat) : Prop :=
  exists ti, nth_error axis i = Some ti /\
    (forall j tj, nth_error axis j = Some tj -> nleb (dist ti x) (dist tj x) = true) /\
    (forall j tj, j < i -> nth_error axis j = Some tj -> nltb (dist ti x) (dist tj x) = true).

(** [a] is the amplitude of [data] read at the sample of [axis] nearest to [x]. *)
Definition amp_near (data axis : list N) (x a : N) : Prop :=
  exists i, nearest_first axis x i /\ nth_error data i = Some a.

(** The time axis of a trace: sample [i] is at [delta*i - preonset]. *)
Definition uniform_axis (delta : N) (l : nat) (preonset : N) : list N :=
  map (fun i => nsub (nmul delta (nofZ (Z.of_nat i))) preonset) (seq 0 l).
End Near.

(** ** Travel times (Zhu & Kanamori 2000; Yeck et al. 2013; Yu et al. 2015) *)

Local Open Scope R_scope.

(** Vertical slownesses of S (Vs = Vp/K) and P for ray parameter [p]. *)
Definition qs (Vp K p : R) : R := sqrt ((K / Vp) ^ 2 - p ^ 2).
Definition qp (Vp p : R) : R := sqrt ((1 / Vp) ^ 2 - p ^ 2).

Definition t_Ps (Vp p H K : R) : R := H * (qs Vp K p - qp Vp p).
Definition t_PpPs (Vp p H K : R) : R := H * (qs Vp K p + qp Vp p).
Definition t_PsPs (Vp p H K : R) : R := 2 * H * qs Vp K p.

(** Two-layer times: a leg through the sediment plus a leg through the crust. *)
Definition t2_Ps (V1 H1 K1 V2 p H K : R) := t_Ps V1 p H1 K1 + t_Ps V2 p H K.
Definition t2_PpPs (V1 H1 K1 V2 p H K : R) := t_PpPs V1 p H1 K1 + t_PpPs V2 p H K.
Definition t2_PsPs (V1 H1 K1 V2 p H K : R) := t_PsPs V1 p H1 K1 + t_PsPs V2 p H K.

(** The P leg propagates in the layer. *)
Definition precritical (Vp p : R) : Prop := 0 < Vp /\ p ^ 2 <= (1 / Vp) ^ 2.

(** The standard H-k weighted sum at one node for one trace. *)
Definition wsum (w1 w2 w3 a1 a2 a3 : R) : R := w1 * a1 + w2 * a2 - w3 * a3.

(** Sum of a list of reals. *)
Fixpoint sumR (l : list R) : R := match l with [] => 0 | x :: l' => x + sumR l' end.

(** ** Best element of a list (numpy order: a NaN wins, then the largest, first
    occurrence) *)
Definition best_first {N : Num} (l : list N) (k : nat) : Prop :=
  exists v, nth_error l k = Some v /\
    ((nisnan v = true /\
      (forall i x, (i < k)%nat -> nth_error l i = Some x -> nisnan x = false))
     \/
     (nisnan v = false /\
      (forall i x, nth_error l i = Some x -> nleb x v = true) /\
      (forall i x, (i < k)%nat -> nth_error l i = Some x -> nltb x v = true))).
