(** * Num: the arithmetic the model computes with.

    [Num] lists operations only.  The model is polymorphic in it, so a theorem
    about every [Num] holds in particular for IEEE binary64 with whatever
    rounding. *)

From Coq Require Import Reals Lra Floats.SpecFloat.
From Verif Require Import Base.

Record Num := mkNum {
  F : Type;
  nofZ : Z -> F;                 (* Python int used as a float *)
  nlit : Z -> positive -> F;     (* decimal literal  n/d, correctly rounded *)
  nadd : F -> F -> F;
  nsub : F -> F -> F;
  nmul : F -> F -> F;
  ndiv : F -> F -> F;            (* numpy division: never raises *)
  nopp : F -> F;
  nabs : F -> F;
  nsq : F -> F;                  (* x**2 *)
  nroot : F -> F;                (* x**0.5, numpy semantics (NaN on negatives) *)
  ncroot : F -> F * F;           (* Python x**0.5 for a negative float: a complex (re, im) *)
  nhypot : F -> F -> F;          (* modulus of a complex number *)
  nsum : list F -> F;            (* np.sum (summation order left open) *)
  nltb : F -> F -> bool;         (* IEEE <  *)
  nleb : F -> F -> bool;         (* IEEE <= *)
  neqb : F -> F -> bool;         (* IEEE == *)
  nisnan : F -> bool;
  ntrunc : F -> option Z         (* int(x); None: NaN or infinity *)
}.
Coercion F : Num >-> Sortclass.
Arguments nofZ {n}. Arguments nlit {n}. Arguments nadd {n}. Arguments nsub {n}.
Arguments nmul {n}. Arguments ndiv {n}. Arguments nopp {n}. Arguments nabs {n}.
Arguments nsq {n}. Arguments nroot {n}. Arguments ncroot {n}. Arguments nhypot {n}. Arguments nsum {n}.
Arguments nltb {n}. Arguments nleb {n}. Arguments neqb {n}. Arguments nisnan {n}.
Arguments ntrunc {n}.

(** Laws of IEEE comparison: a total preorder on the non-NaN values, every
    comparison with NaN false.  Proved below for both instances. *)
Record OrdLaws (N : Num) : Prop := {
  leb_nan_l : forall a b : N, nisnan a = true -> nleb a b = false;
  leb_nan_r : forall a b : N, nisnan b = true -> nleb a b = false;
  leb_total : forall a b : N, nisnan a = false -> nisnan b = false ->
     nleb a b = true \/ nleb b a = true;
  leb_trans : forall a b c : N, nleb a b = true -> nleb b c = true -> nleb a c = true;
  ltb_leb : forall a b : N, nisnan a = false -> nisnan b = false ->
     nltb a b = negb (nleb b a);
  ltb_nan_l : forall a b : N, nisnan a = true -> nltb a b = false;
  ltb_nan_r : forall a b : N, nisnan b = true -> nltb a b = false;
  eqb_leb : forall a b : N, neqb a b = nleb a b && nleb b a
}.

(** ** Instance 1: IEEE-754 binary64 (single NaN), executable. *)

Definition prec64 : Z := 53.
Definition emax64 : Z := 1024.

Definition sf_isnan (x : spec_float) : bool :=
  match x with S754_nan => true | _ => false end.
Definition sf_ofZ (z : Z) : spec_float := binary_normalize prec64 emax64 z 0 false.
Definition sf_lit (n : Z) (d : positive) : spec_float :=
  SFdiv prec64 emax64 (sf_ofZ n) (sf_ofZ (Zpos d)).
Definition sf_add := SFadd prec64 emax64.
Definition sf_sub := SFsub prec64 emax64.
Definition sf_mul := SFmul prec64 emax64.
Definition sf_div := SFdiv prec64 emax64.
Definition sf_sqrt := SFsqrt prec64 emax64.
Definition sf_trunc (x : spec_float) : option Z :=
  match x with
  | S754_zero _ => Some 0%Z
  | S754_finite s m e =>
      let a := if (0 <=? e)%Z then (Zpos m * 2 ^ e)%Z else (Zpos m / 2 ^ (- e))%Z in
      Some (if s then (- a)%Z else a)
  | _ => None
  end.

(** Simplifications at this instance: [x**2] is [x*x], [x**0.5] is the
    correctly rounded square root (C [pow] may differ in the last bit),
    [hypot] is [sqrt(x*x+y*y)], sums are left-to-right, and the complex root of
    a negative number has real part exactly 0 (CPython leaves a real part of the
    order of 1e-16 times the modulus). *)
Definition B64 : Num := {|
  F := spec_float;
  nofZ := sf_ofZ;
  nlit := sf_lit;
  nadd := sf_add; nsub := sf_sub; nmul := sf_mul; ndiv := sf_div;
  nopp := SFopp; nabs := SFabs;
  nsq := fun x => sf_mul x x;
  nroot := sf_sqrt;
  ncroot := fun x => (sf_ofZ 0, sf_sqrt (SFopp x));
  nhypot := fun x y => sf_sqrt (sf_add (sf_mul x x) (sf_mul y y));
  nsum := fun l => fold_left sf_add l (sf_ofZ 0);
  nltb := SFltb; nleb := SFleb; neqb := SFeqb;
  nisnan := sf_isnan;
  ntrunc := sf_trunc
|}.

(** Integer key that orders [spec_float] lexicographically as [SFcompare]. *)
Lemma SFcompare_antisym a b :
  SFcompare b a = match SFcompare a b with Some c => Some (CompOpp c) | None => None end.
Proof.
  destruct a as [sa|sa| |sa ma ea]; destruct b as [sb|sb| |sb mb eb]; simpl;
    try destruct sa; try destruct sb; simpl; auto;
    rewrite (Z.compare_antisym ea eb); destruct (ea ?= eb)%Z eqn:E; simpl; auto;
    try rewrite (Pos.compare_antisym ma mb); auto;
    change (Pos.compare_cont Eq mb ma) with (mb ?= ma)%positive;
    change (Pos.compare_cont Eq ma mb) with (ma ?= mb)%positive;
    rewrite (Pos.compare_antisym ma mb); destruct (ma ?= mb)%positive; auto.
Qed.

Lemma SFleb_spec a b :
  SFleb a b = match SFcompare a b with Some Lt | Some Eq => true | _ => false end.
Proof. unfold SFleb. destruct (SFcompare a b) as [[]|]; reflexivity. Qed.

Lemma SFleb_trans a b c : SFleb a b = true -> SFleb b c = true -> SFleb a c = true.
Proof.
  unfold SFleb.
  destruct a as [sa|sa| |sa ma ea]; destruct b as [sb|sb| |sb mb eb];
    destruct c as [sc|sc| |sc mc ec]; simpl;
    try destruct sa; try destruct sb; try destruct sc; simpl; try discriminate; auto;
    change (Pos.compare_cont Eq ma mb) with (ma ?= mb)%positive;
    change (Pos.compare_cont Eq mb mc) with (mb ?= mc)%positive;
    change (Pos.compare_cont Eq ma mc) with (ma ?= mc)%positive;
    destruct (Z.compare_spec ea eb); try discriminate;
    destruct (Z.compare_spec eb ec); try discriminate;
    destruct (Z.compare_spec ea ec); try lia; try reflexivity; simpl;
    destruct (Pos.compare_spec ma mb); simpl; try discriminate;
    destruct (Pos.compare_spec mb mc); simpl; try discriminate;
    destruct (Pos.compare_spec ma mc); simpl; intros; try discriminate; try reflexivity; lia.
Qed.

Lemma SFcompare_nan a b :
  SFcompare a b = None <-> sf_isnan a = true \/ sf_isnan b = true.
Proof.
  destruct a as [sa|sa| |sa ma ea]; destruct b as [sb|sb| |sb mb eb]; simpl;
    try destruct sa; try destruct sb; simpl;
    split; intro H; try discriminate; auto; try (destruct H; discriminate);
    try (destruct (ea ?= eb)%Z; discriminate).
Qed.

Lemma B64_laws : OrdLaws B64.
Proof.
  split; simpl.
  - intros a b H. rewrite SFleb_spec. destruct (SFcompare_nan a b) as [_ K].
    rewrite K by auto; reflexivity.
  - intros a b H. rewrite SFleb_spec. destruct (SFcompare_nan a b) as [_ K].
    rewrite K by auto; reflexivity.
  - intros a b Ha Hb. rewrite !SFleb_spec, (SFcompare_antisym a b).
    destruct (SFcompare_nan a b) as [K _].
    destruct (SFcompare a b) as [[]|]; simpl; auto.
    destruct (K eq_refl); congruence.
  - exact SFleb_trans.
  - intros a b Ha Hb. unfold SFltb. rewrite SFleb_spec, (SFcompare_antisym a b).
    destruct (SFcompare_nan a b) as [K _].
    destruct (SFcompare a b) as [[]|]; simpl; auto.
    destruct (K eq_refl); congruence.
  - intros a b H. unfold SFltb. destruct (SFcompare_nan a b) as [_ K].
    rewrite K by auto; reflexivity.
  - intros a b H. unfold SFltb. destruct (SFcompare_nan a b) as [_ K].
    rewrite K by auto; reflexivity.
  - intros a b. unfold SFeqb. rewrite !SFleb_spec, (SFcompare_antisym a b).
    destruct (SFcompare a b) as [[]|]; reflexivity.
Qed.

(** ** Instance 2: exact real arithmetic. *)

Definition Rltb (x y : R) : bool := if Rlt_dec x y then true else false.
Definition Rleb (x y : R) : bool := if Rle_dec x y then true else false.
Definition Reqb (x y : R) : bool := if Req_EM_T x y then true else false.

(** Truncation toward zero. *)
Definition Rtrunc (x : R) : Z :=
  if Rle_dec 0 x then Int_part x else (- Int_part (- x))%Z.

Fixpoint Rsum (l : list R) : R :=
  match l with [] => 0%R | x :: l' => (x + Rsum l')%R end.

Definition RN : Num := {|
  F := R;
  nofZ := IZR;
  nlit := fun n d => (IZR n / IZR (Zpos d))%R;
  nadd := Rplus; nsub := Rminus; nmul := Rmult; ndiv := Rdiv;
  nopp := Ropp; nabs := Rabs;
  nsq := fun x => (x * x)%R;
  nroot := sqrt;
  ncroot := fun x => (0%R, sqrt (- x));
  nhypot := fun x y => sqrt (x * x + y * y);
  nsum := Rsum;
  nltb := Rltb; nleb := Rleb; neqb := Reqb;
  nisnan := fun _ => false;
  ntrunc := fun x => Some (Rtrunc x)
|}.

Canonical B64.
Canonical RN.

Lemma Rleb_true x y : Rleb x y = true <-> (x <= y)%R.
Proof. unfold Rleb. destruct (Rle_dec x y); split; intro; auto; discriminate || contradiction. Qed.
Lemma Rltb_true x y : Rltb x y = true <-> (x < y)%R.
Proof. unfold Rltb. destruct (Rlt_dec x y); split; intro; auto; discriminate || contradiction. Qed.
Lemma Rleb_false x y : Rleb x y = false <-> (y < x)%R.
Proof. unfold Rleb. destruct (Rle_dec x y); split; intro; auto; try discriminate; lra. Qed.
Lemma Rltb_false x y : Rltb x y = false <-> (y <= x)%R.
Proof. unfold Rltb. destruct (Rlt_dec x y); split; intro; auto; try discriminate; lra. Qed.
Lemma Reqb_true x y : Reqb x y = true <-> x = y.
Proof. unfold Reqb. destruct (Req_EM_T x y); split; intro; auto; discriminate || contradiction. Qed.

Lemma RN_laws : OrdLaws RN.
Proof.
  split; simpl; try discriminate.
  - intros a b _ _. rewrite !Rleb_true. lra.
  - intros a b c. rewrite !Rleb_true. lra.
  - intros a b _ _. unfold Rltb, Rleb. destruct (Rlt_dec a b), (Rle_dec b a); simpl; auto; lra.
  - intros a b. unfold Reqb, Rleb.
    destruct (Req_EM_T a b), (Rle_dec a b), (Rle_dec b a); simpl; auto; lra.
Qed.
