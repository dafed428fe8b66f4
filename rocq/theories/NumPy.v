(** * NumPy: the numpy primitives used by rfsed. *)

From Verif Require Import Base Num.

Section NumPy.
Context {N : Num}.

(** numpy's scan for [argmax]/[argmin] on doubles
    (numpy/_core/src/multiarray/arraytypes.c.src, [@fname@_argmax]): the running
    best [mp] is replaced when [better x mp]; the scan stops at a NaN. *)
Fixpoint argscan (better : N -> N -> bool) (l : list N) (i ib : nat) (mp : N) : nat :=
  match l with
  | [] => ib
  | x :: l' =>
      if better x mp then
        if nisnan x then i else argscan better l' (S i) i x
      else argscan better l' (S i) ib mp
  end.

(** [a.argmax()]: [ValueError] on an empty array; [!(x <= mp)] replaces. *)
Definition argmax (l : list N) : res nat :=
  match l with
  | [] => Err ValueError
  | x :: l' => if nisnan x then Ok 0
               else Ok (argscan (fun x mp => negb (nleb x mp)) l' 1 0 x)
  end.

(** [a.argmin()]: [!(mp <= x)] replaces. *)
Definition argmin (l : list N) : res nat :=
  match l with
  | [] => Err ValueError
  | x :: l' => if nisnan x then Ok 0
               else Ok (argscan (fun x mp => negb (nleb mp x)) l' 1 0 x)
  end.

(** Python's builtin [max(l)]: keeps the first element not exceeded ([>]). *)
Definition pymax (l : list N) : res N :=
  match l with
  | [] => Err ValueError
  | x :: l' => Ok (fold_left (fun m y => if nltb m y then y else m) l' x)
  end.

(** [np.mean(l)]. *)
Definition npmean (l : list N) : N := ndiv (nsum l) (nofZ (Z.of_nat (length l))).

(** [delta * np.arange(0, l) - preonset]. *)
Definition taxis (delta : N) (l : nat) (preonset : N) : list N :=
  map (fun i => nsub (nmul delta (nofZ (Z.of_nat i))) preonset) (seq 0 l).

End NumPy.

(** ** Characterisation of the scans *)

Section Props.
Context {N : Num} (L : OrdLaws N).

(** Specification: [k] is the first NaN if there is one, else the first index
    whose value no other value beats.  [le a b]: [b] is at least as good as [a]. *)
Definition first_best (le : N -> N -> Prop) (l : list N) (k : nat) : Prop :=
  exists v, nth_error l k = Some v /\
    ((nisnan v = true /\ forall i x, i < k -> nth_error l i = Some x -> nisnan x = false)
     \/
     (nisnan v = false /\
      (forall i x, nth_error l i = Some x -> nisnan x = false /\ le x v) /\
      (forall i x, i < k -> nth_error l i = Some x -> ~ le v x))).

Definition geN (a b : N) : Prop := nleb a b = true.
Definition leN (a b : N) : Prop := nleb b a = true.

Lemma argscan_spec (better : N -> N -> bool) (le : N -> N -> Prop)
  (Hb : forall x m, nisnan x = false -> nisnan m = false -> (better x m = false <-> le x m))
  (Hnan : forall x m, nisnan x = true -> better x m = true)
  (Htr : forall a b c, le a b -> le b c -> le a c)
  (Htot : forall a b, nisnan a = false -> nisnan b = false -> le a b \/ le b a) :
  forall l pre ib mp,
    nth_error pre ib = Some mp -> nisnan mp = false ->
    (forall i x, nth_error pre i = Some x -> nisnan x = false /\ le x mp) ->
    (forall i x, i < ib -> nth_error pre i = Some x -> ~ le mp x) ->
    first_best le (pre ++ l) (argscan better l (length pre) ib mp).
Proof.
  induction l as [|x l IH]; intros pre ib mp Hib Hm Hall Hlt; simpl.
  - rewrite app_nil_r. exists mp; split; [assumption|right]; auto.
  - assert (Hlen : ib < length pre) by (apply nth_error_Some; congruence).
    assert (E : pre ++ x :: l = (pre ++ [x]) ++ l) by (rewrite <- app_assoc; reflexivity).
    assert (El : S (length pre) = length (pre ++ [x])) by (rewrite app_length; simpl; lia).
    destruct (better x mp) eqn:B.
    + destruct (nisnan x) eqn:Nx.
      * exists x; split.
        { rewrite nth_error_app2, Nat.sub_diag by lia; reflexivity. }
        left; split; [assumption|]. intros i y Hi Hy.
        rewrite nth_error_app1 in Hy by lia. apply (Hall i y Hy).
      * assert (Hmx : le mp x).
        { destruct (Htot mp x Hm Nx) as [H|H]; [assumption|].
          apply Hb in H; auto; congruence. }
        rewrite E, El. apply IH; auto.
        { rewrite nth_error_app2, Nat.sub_diag by lia; reflexivity. }
        { intros i y Hy. destruct (Nat.lt_ge_cases i (length pre)) as [Hi|Hi].
          - rewrite nth_error_app1 in Hy by lia. destruct (Hall i y Hy); eauto.
          - rewrite nth_error_app2 in Hy by lia.
            destruct (i - length pre) as [|d]; simpl in Hy;
              [inversion Hy; subst; split; auto; destruct (Htot y y Nx Nx); auto
              | destruct d; discriminate]. }
        { intros i y Hi Hy. rewrite nth_error_app1 in Hy by lia.
          destruct (Hall i y Hy) as [Hn Hle]. intro C.
          assert (le x mp) by eauto. apply Hb in H; auto; congruence. }
    + assert (Nx : nisnan x = false).
      { destruct (nisnan x) eqn:Nx; auto. rewrite Hnan in B by assumption; discriminate. }
      apply Hb in B; auto. rewrite E, El. apply IH; auto.
      { rewrite nth_error_app1 by lia; assumption. }
      { intros i y Hy. destruct (Nat.lt_ge_cases i (length pre)) as [Hi|Hi].
        - rewrite nth_error_app1 in Hy by lia. apply (Hall i y Hy).
        - rewrite nth_error_app2 in Hy by lia.
          destruct (i - length pre) as [|d]; simpl in Hy;
            [inversion Hy; subst; auto | destruct d; discriminate]. }
      { intros i y Hi Hy. rewrite nth_error_app1 in Hy by lia. apply (Hlt i y Hi Hy). }
Qed.

Lemma argscan_start better le x (l : list N)
  (Hb : forall x m, nisnan x = false -> nisnan m = false -> (better x m = false <-> le x m))
  (Hnan : forall x m, nisnan x = true -> better x m = true)
  (Htr : forall a b c, le a b -> le b c -> le a c)
  (Htot : forall a b : N, nisnan a = false -> nisnan b = false -> le a b \/ le b a) :
  nisnan x = false -> first_best le (x :: l) (argscan better l 1 0 x).
Proof.
  intro Hx. apply (argscan_spec better le Hb Hnan Htr Htot l [x] 0 x); auto.
  - intros [|[|i]] y Hy; simpl in Hy; try discriminate. inversion Hy; subst.
    split; auto. destruct (Htot y y Hx Hx); auto.
  - intros i y Hi; lia.
Qed.

Lemma nan_first le x (l : list N) : nisnan x = true -> first_best le (x :: l) 0.
Proof. intro H. exists x; split; [reflexivity|left; split; auto]. intros i y Hi; lia. Qed.

Theorem argmax_first_best l k :
  argmax l = Ok k -> first_best geN l k.
Proof.
  destruct l as [|x l]; simpl; [discriminate|].
  destruct (nisnan x) eqn:Nx; intro E; inversion E; subst.
  - apply nan_first; assumption.
  - apply argscan_start; auto; unfold geN.
    + intros y m _ _. rewrite negb_false_iff. reflexivity.
    + intros y m Hy. rewrite (leb_nan_l N L) by assumption; reflexivity.
    + intros a b c. apply (leb_trans N L).
    + intros a b. apply (leb_total N L).
Qed.

Theorem argmin_first_best l k :
  argmin l = Ok k -> first_best leN l k.
Proof.
  destruct l as [|x l]; simpl; [discriminate|].
  destruct (nisnan x) eqn:Nx; intro E; inversion E; subst.
  - apply nan_first; assumption.
  - apply argscan_start; auto; unfold leN.
    + intros y m _ _. rewrite negb_false_iff. reflexivity.
    + intros y m Hy. rewrite (leb_nan_r N L) by assumption; reflexivity.
    + intros a b c H1 H2. apply (leb_trans N L _ _ _ H2 H1).
    + intros a b Ha Hb. destruct (leb_total N L a b Ha Hb); auto.
Qed.

Lemma argscan_bound better (l : list N) i ib mp :
  ib < i -> argscan better l i ib mp < i + length l.
Proof.
  revert i ib mp; induction l as [|x l IH]; intros i ib mp H; simpl; [lia|].
  destruct (better x mp); [destruct (nisnan x)|]; try lia.
  - specialize (IH (S i) i x ltac:(lia)); lia.
  - specialize (IH (S i) ib mp ltac:(lia)); lia.
Qed.

Lemma argmax_Ok_iff (l : list N) : l <> [] -> exists k, argmax l = Ok k /\ k < length l.
Proof.
  destruct l as [|x l]; [congruence|]. intros _. simpl. destruct (nisnan x).
  - exists 0; split; [reflexivity|lia].
  - eexists; split; [reflexivity|]. apply (argscan_bound _ l 1 0 x); lia.
Qed.

Lemma argmin_Ok_iff (l : list N) : l <> [] -> exists k, argmin l = Ok k /\ k < length l.
Proof.
  destruct l as [|x l]; [congruence|]. intros _. simpl. destruct (nisnan x).
  - exists 0; split; [reflexivity|lia].
  - eexists; split; [reflexivity|]. apply (argscan_bound _ l 1 0 x); lia.
Qed.

(** The specification determines the index. *)
Lemma first_best_unique le (l : list N) k k' :
  first_best le l k -> first_best le l k' -> k = k'.
Proof.
  intros [v [Hv H]] [v' [Hv' H']].
  destruct (Nat.lt_trichotomy k k') as [Hlt|[E|Hlt]]; auto; exfalso.
  - destruct H as [[Nv H]|[Nv [Ha Hs]]], H' as [[Nv' H']|[Nv' [Ha' Hs']]].
    + rewrite (H' k v Hlt Hv) in Nv; discriminate.
    + destruct (Ha' k v Hv); congruence.
    + destruct (Ha k' v' Hv'); congruence.
    + apply (Hs' k v Hlt Hv). apply (Ha k' v' Hv').
  - destruct H as [[Nv H]|[Nv [Ha Hs]]], H' as [[Nv' H']|[Nv' [Ha' Hs']]].
    + rewrite (H k' v' Hlt Hv') in Nv'; discriminate.
    + destruct (Ha' k v Hv); congruence.
    + destruct (Ha k' v' Hv'); congruence.
    + apply (Hs k' v' Hlt Hv'). apply (Ha' k v Hv).
Qed.

End Props.
Arguments first_best {N}. Arguments geN {N}. Arguments leN {N}.
