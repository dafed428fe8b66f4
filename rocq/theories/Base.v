(** * Base: exceptions as values, monadic loops, Python list primitives.

    Shared vocabulary of the model.  Nothing here is specific to rfsed; each
    definition says which Python construct it stands for. *)

From Coq Require Export String.
From Coq Require Export List Arith ZArith Lia Bool.
Export ListNotations.
#[global] Open Scope list_scope.

(** Python exceptions that the modelled code can raise. *)
Inductive exn :=
| IndexError | ValueError | TypeError | ZeroDivisionError
| UnboundLocalError | AttributeError | KeyError
| FileExistsError | FileNotFoundError | NotADirectoryError
| OverflowError | LibError (code : nat).

(** A Python computation either returns or raises. *)
Inductive res (A : Type) := Ok (a : A) | Err (e : exn).
Arguments Ok {A} a.
Arguments Err {A} e.

Definition bind {A B} (x : res A) (f : A -> res B) : res B :=
  match x with Ok a => f a | Err e => Err e end.

Notation "x <- e1 ;; e2" := (bind e1 (fun x => e2))
  (at level 61, e1 at next level, right associativity).

(** [for x in l: s = body(x, s)] with exceptions: Python's [for] loop with the
    mutable local variables collected in [s]. *)
Fixpoint forM {A S} (l : list A) (body : A -> S -> res S) (s : S) : res S :=
  match l with
  | [] => Ok s
  | x :: l' => s' <- body x s ;; forM l' body s'
  end.

(** [[f(x) for x in l]] with exceptions. *)
Fixpoint mapM {A B} (f : A -> res B) (l : list A) : res (list B) :=
  match l with
  | [] => Ok []
  | x :: l' => y <- f x ;; ys <- mapM f l' ;; Ok (y :: ys)
  end.

(** [l[i]] for a non-negative index. *)
Definition getitem {A} (l : list A) (i : nat) : res A :=
  match nth_error l i with Some a => Ok a | None => Err IndexError end.

(** Functional update; unchanged when [i] is out of range. *)
Fixpoint upd {A} (l : list A) (i : nat) (a : A) : list A :=
  match l, i with
  | [], _ => []
  | _ :: l', O => a :: l'
  | x :: l', S i' => x :: upd l' i' a
  end.

(** [l[i] = a] (or [l[i,:] = row]) : bounds-checked in-place write. *)
Definition setitem {A} (l : list A) (i : nat) (a : A) : res (list A) :=
  if i <? length l then Ok (upd l i a) else Err IndexError.

(** [if x is None: x = d]. *)
Definition dflt {A} (x : option A) (d : A) : A :=
  match x with None => d | Some a => a end.

(** Use of an argument that must not be [None]: arithmetic on [None] raises
    [TypeError]. *)
Definition need {A} (x : option A) : res A :=
  match x with None => Err TypeError | Some a => Ok a end.

(** Slice [l[a:b]] for non-negative [a], [b] (numpy/list slices clip). *)
Definition slice {A} (l : list A) (a b : nat) : list A :=
  firstn (b - a) (skipn a l).

(** Python's slice [l[0:b]] with a possibly negative [b] (negative counts from
    the end, clipped). *)
Definition slice0Z {A} (l : list A) (b : Z) : list A :=
  if (b <? 0)%Z then firstn (Z.to_nat (Z.of_nat (length l) + b)) l
  else firstn (Z.to_nat b) l.

(** ** Elementary facts *)

Lemma bind_Ok_inv {A B} (x : res A) (f : A -> res B) b :
  bind x f = Ok b -> exists a, x = Ok a /\ f a = Ok b.
Proof. destruct x as [a|e]; simpl; intro H; [eauto | discriminate]. Qed.

Lemma getitem_Ok {A} (l : list A) i a : getitem l i = Ok a <-> nth_error l i = Some a.
Proof.
  unfold getitem. destruct (nth_error l i); split; intro H; inversion H; reflexivity.
Qed.

Lemma getitem_Err {A} (l : list A) i e :
  getitem l i = Err e <-> e = IndexError /\ length l <= i.
Proof.
  unfold getitem. destruct (nth_error l i) as [a|] eqn:E; split; intro H.
  - discriminate.
  - destruct H as [_ H]. apply nth_error_None in H. congruence.
  - inversion H; split; [reflexivity | apply nth_error_None; assumption].
  - destruct H as [-> _]; reflexivity.
Qed.

Lemma upd_length {A} (l : list A) i a : length (upd l i a) = length l.
Proof. revert i; induction l as [|x l IH]; intros [|i]; simpl; auto. Qed.

Lemma nth_error_upd_eq {A} (l : list A) i a :
  i < length l -> nth_error (upd l i a) i = Some a.
Proof.
  revert i; induction l as [|x l IH]; intros [|i] H; simpl in *; try lia; auto.
  apply IH; lia.
Qed.

Lemma nth_error_upd_neq {A} (l : list A) i j a :
  i <> j -> nth_error (upd l i a) j = nth_error l j.
Proof.
  revert i j; induction l as [|x l IH]; intros [|i] [|j] H; simpl; auto; try congruence.
Qed.

Lemma setitem_Ok {A} (l l' : list A) i a :
  setitem l i a = Ok l' <-> i < length l /\ l' = upd l i a.
Proof.
  unfold setitem. destruct (Nat.ltb_spec i (length l)) as [H|H]; split; intro E.
  - inversion E; auto.
  - destruct E as [_ ->]; reflexivity.
  - discriminate.
  - lia.
Qed.

Lemma mapM_Ok {A B} (f : A -> res B) l ys :
  mapM f l = Ok ys <-> Forall2 (fun x y => f x = Ok y) l ys.
Proof.
  revert ys; induction l as [|x l IH]; intros ys; simpl; split; intro H.
  - inversion H; constructor.
  - inversion H; reflexivity.
  - apply bind_Ok_inv in H. destruct H as [y [Hy H]].
    apply bind_Ok_inv in H. destruct H as [ys' [Hys H]].
    inversion H; subst. constructor; [assumption|]. apply IH; assumption.
  - inversion H as [|? y ? ys' Hy Hys]; subst. rewrite Hy; simpl.
    apply IH in Hys. rewrite Hys; reflexivity.
Qed.

Lemma forM_app {A S} (l1 l2 : list A) (body : A -> S -> res S) s :
  forM (l1 ++ l2) body s = (s' <- forM l1 body s ;; forM l2 body s').
Proof.
  revert s; induction l1 as [|x l1 IH]; intro s; simpl; [reflexivity|].
  destruct (body x s) as [s'|e]; simpl; auto.
Qed.

Lemma forM_map {A B S} (g : A -> B) (l : list A) (body : B -> S -> res S) s :
  forM (map g l) body s = forM l (fun a => body (g a)) s.
Proof.
  revert s; induction l as [|x l IH]; intro s; simpl; [reflexivity|].
  destruct (body (g x) s); simpl; auto.
Qed.

(** A loop whose body always succeeds is a fold. *)
Lemma forM_fold {A S} (l : list A) (f : A -> S -> S) s :
  forM l (fun a s => Ok (f a s)) s = Ok (fold_left (fun s a => f a s) l s).
Proof. revert s; induction l as [|x l IH]; intro s; simpl; auto. Qed.

Lemma forM_ext {A S} (l : list A) (f g : A -> S -> res S) s :
  (forall a s, In a l -> f a s = g a s) -> forM l f s = forM l g s.
Proof.
  revert s; induction l as [|x l IH]; intros s H; simpl; [reflexivity|].
  rewrite (H x s (or_introl eq_refl)). destruct (g x s); simpl; auto.
  apply IH; intros; apply H; right; assumption.
Qed.

Lemma nth_error_combine_prod {A B} (K : list A) (H : list B) i j k h :
  nth_error K i = Some k -> nth_error H j = Some h ->
  nth_error (list_prod K H) (i * length H + j) = Some (k, h).
Proof.
  revert i; induction K as [|k0 K IH]; intros i Hi Hj; [destruct i; discriminate|].
  assert (Hjl : j < length H) by (apply nth_error_Some; congruence).
  destruct i as [|i]; simpl in *.
  - inversion Hi; subst. rewrite nth_error_app1 by (rewrite map_length; lia).
    rewrite nth_error_map, Hj; reflexivity.
  - rewrite nth_error_app2 by (rewrite map_length; lia).
    rewrite map_length. replace (length H + i * length H + j - length H) with (i * length H + j) by lia.
    apply IH; assumption.
Qed.

Lemma Forall2_nth {A B} (P : A -> B -> Prop) l1 l2 i a :
  Forall2 P l1 l2 -> nth_error l1 i = Some a ->
  exists b, nth_error l2 i = Some b /\ P a b.
Proof.
  intro H; revert i; induction H as [|x y l1 l2 Hxy H IH]; intros [|i] E; simpl in *; try discriminate.
  - inversion E; subst; eauto.
  - apply IH; assumption.
Qed.

Lemma Forall2_nth_r {A B} (P : A -> B -> Prop) l1 l2 i b :
  Forall2 P l1 l2 -> nth_error l2 i = Some b ->
  exists a, nth_error l1 i = Some a /\ P a b.
Proof.
  intro H; revert i; induction H as [|x y l1 l2 Hxy H IH]; intros [|i] E; simpl in *; try discriminate.
  - inversion E; subst; eauto.
  - apply IH; assumption.
Qed.

Lemma list_ext {A} (l1 l2 : list A) :
  (forall i, nth_error l1 i = nth_error l2 i) -> l1 = l2.
Proof.
  revert l2; induction l1 as [|x l1 IH]; intros [|y l2] H; auto.
  - specialize (H 0); discriminate.
  - specialize (H 0); discriminate.
  - f_equal; [specialize (H 0); simpl in H; congruence|].
    apply IH; intro i; exact (H (S i)).
Qed.

Lemma Forall2_len {A B} (P : A -> B -> Prop) l1 l2 : Forall2 P l1 l2 -> length l1 = length l2.
Proof. induction 1; simpl; congruence. Qed.

(** A loop over traces whose body is independent of the running values. *)
Lemma mapM_length {A B} (f : A -> res B) l ys : mapM f l = Ok ys -> length l = length ys.
Proof. intro H. apply mapM_Ok in H. eapply Forall2_len; eassumption. Qed.

Lemma nth_error_map_inv {A B} (f : A -> B) l i b :
  nth_error (map f l) i = Some b -> exists a, nth_error l i = Some a /\ b = f a.
Proof.
  rewrite nth_error_map. destruct (nth_error l i) as [a|]; simpl; intro H; inversion H; eauto.
Qed.

Lemma Forall2_imp {A B} (P Q : A -> B -> Prop) l1 l2 :
  (forall a b, P a b -> Q a b) -> Forall2 P l1 l2 -> Forall2 Q l1 l2.
Proof. intros H F. induction F; constructor; auto. Qed.

(** Executable checks of concrete runs (used for witnesses only). *)
Definition chk {A} (x : res A) (f : A -> bool) : bool :=
  match x with Ok a => f a | Err _ => false end.
Lemma chk_true {A} (x : res A) f : chk x f = true -> exists a, x = Ok a /\ f a = true.
Proof. destruct x as [a|e]; simpl; [eauto|discriminate]. Qed.
Definition raises {A} (x : res A) (f : exn -> bool) : bool :=
  match x with Ok _ => false | Err e => f e end.
Lemma raises_true {A} (x : res A) f : raises x f = true -> exists e, x = Err e /\ f e = true.
Proof. destruct x as [a|e]; simpl; [discriminate|eauto]. Qed.
Definition is_TypeError (e : exn) : bool := match e with TypeError => true | _ => false end.
Definition is_IndexError (e : exn) : bool := match e with IndexError => true | _ => false end.
