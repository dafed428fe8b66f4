(** * HkFacts3: index form of reads, stacking, errors, post-critical times. *)

From Coq Require Import Reals Lra Psatz Permutation Floats.SpecFloat.
From Verif Require Import Base Num NumPy Spec HkModel HkProofs HkReal HkFacts HkFacts2.

(** The index read depends on the axis and the time only. *)
Lemma getamp_index {N : Num} (axis : list N) t : axis <> [] ->
  exists i, i < length axis /\ forall data, getamp data axis t = getitem data i.
Proof.
  intro Ha.
  destruct (argmin_Ok_iff (map (fun ti => tdist ti t) axis)) as [i [Ei Hi]].
  { destruct axis; [congruence|discriminate]. }
  rewrite map_length in Hi. exists i. split; [assumption|]. intro data. unfold getamp. rewrite Ei. reflexivity.
Qed.

Lemma contrib_index {N : Num} (axis : list N) ts : axis <> [] ->
  exists i1 i2 i3, i1 < length axis /\ i2 < length axis /\ i3 < length axis /\
  forall w1 w2 w3 data, contrib w1 w2 w3 data axis (Ok ts) =
    (a1 <- getitem data i1 ;; a2 <- getitem data i2 ;; a3 <- getitem data i3 ;;
     Ok (nsub (nadd (nmul w1 a1) (nmul w2 a2)) (nmul w3 a3))).
Proof.
  intro Ha. destruct ts as [[t1 t2] t3].
  destruct (getamp_index axis t1 Ha) as [i1 [H1 E1]].
  destruct (getamp_index axis t2 Ha) as [i2 [H2 E2]].
  destruct (getamp_index axis t3 Ha) as [i3 [H3 E3]].
  exists i1, i2, i3. repeat (split; [assumption|]). intros. unfold contrib. simpl.
  rewrite E1, E2, E3. reflexivity.
Qed.

Section R9.
Local Open Scope R_scope.

Lemma sumR_plus {A} (f g : A -> R) l : sumR (map (fun x => f x + g x) l) = sumR (map f l) + sumR (map g l).
Proof. induction l; simpl; lra. Qed.
Lemma sumR_minus {A} (f g : A -> R) l : sumR (map (fun x => f x - g x) l) = sumR (map f l) - sumR (map g l).
Proof. induction l; simpl; lra. Qed.
Lemma sumR_cmul {A} c (f : A -> R) l : sumR (map (fun x => c * f x) l) = c * sumR (map f l).
Proof. induction l; simpl; lra. Qed.

(** [data] is the sample-wise mean of the traces (all of length [n]). *)
Definition is_mean (rf : stream RN) (data : list R) : Prop :=
  forall i, (i < length data)%nat ->
    nth_error data i = Some (sumR (map (fun tr => nth i (tr_data tr) 0) rf) / INR (length rf)).

Lemma getitem_nth (data : list R) i : (i < length data)%nat -> getitem data i = Ok (nth i data 0).
Proof. intro H. apply getitem_Ok. apply nth_error_nth'. assumption. Qed.

Lemma getitem_nth' (data : list RN) i n : length data = n -> (i < n)%nat -> @getitem RN data i = Ok (nth i data (0:RN)).
Proof. intros <- H. apply getitem_nth. assumption. Qed.

Lemma avgslow_const (rf : stream RN) p : rf <> [] -> (forall tr, In tr rf -> tr_slow tr = p) ->
  @avgslow RN rf = p.
Proof.
  intros Hne Hp. unfold avgslow, npmean. simpl. rewrite sumR_Rsum, map_length, <- INR_IZR_INZ.
  assert (E : map (@tr_slow RN) rf = repeat p (length rf)).
  { clear Hne. induction rf as [|tr rf IH]; simpl; [reflexivity|].
    rewrite Hp by (left; reflexivity). f_equal. apply IH. intros; apply Hp; right; assumption. }
  change (sumR (map (@tr_slow RN) rf) / INR (length rf) = p). rewrite E, sumR_repeat. field.
  apply not_0_INR. destruct rf; [congruence|discriminate].
Qed.

(** Node value: sum over traces = (number of traces) x value of the mean trace. *)
Lemma stack_commutes (rf : stream RN) (mean axis : list R) ts (w1 w2 w3 : R) n (v : R) :
  rf <> [] -> axis <> [] -> (length axis <= n)%nat ->
  (forall tr, In tr rf -> length (tr_data tr) = n) -> length mean = n -> is_mean rf mean ->
  @sumM RN _ (fun tr => @contrib RN w1 w2 w3 (tr_data tr) axis (Ok ts)) rf = Ok v ->
  @sumM RN _ (fun tr : trace RN => @contrib RN w1 w2 w3 mean axis (Ok ts)) rf = Ok v.
Proof.
  intros Hne Ha Hl Hn Hm Hmean E.
  destruct (@contrib_index RN axis ts Ha) as (i1&i2&i3&H1&H2&H3&Ec).
  apply sumM_R in E. destruct E as [vs [Fv ->]].
  assert (Evs : vs = map (fun tr : trace RN => w1 * nth i1 (tr_data tr) 0 + w2 * nth i2 (tr_data tr) 0
                                - w3 * nth i3 (tr_data tr) 0) rf).
  { assert (Hn' : forall tr, In tr rf -> length (tr_data tr) = n) by assumption.
    clear Hmean Hn Hne. induction Fv as [|tr v0 l vs0 Hv Fv0 IH]; simpl; [reflexivity|].
    rewrite Ec in Hv. assert (Hlen : length (tr_data tr) = n) by (apply Hn'; left; reflexivity).
    pose proof (getitem_nth' (tr_data tr) i1 n Hlen (Nat.lt_le_trans _ _ _ H1 Hl)) as G1.
    pose proof (getitem_nth' (tr_data tr) i2 n Hlen (Nat.lt_le_trans _ _ _ H2 Hl)) as G2.
    pose proof (getitem_nth' (tr_data tr) i3 n Hlen (Nat.lt_le_trans _ _ _ H3 Hl)) as G3.
    rewrite G1, G2, G3 in Hv. simpl in Hv. inversion Hv; subst v0.
    f_equal. apply IH. intros; apply Hn'; right; assumption. }
  apply sumM_R.
  set (m := w1 * nth i1 mean 0 + w2 * nth i2 mean 0 - w3 * nth i3 mean 0).
  exists (repeat m (length rf)). split.
  - assert (Em : @contrib RN w1 w2 w3 mean axis (Ok ts) = Ok m).
    { rewrite Ec. 
      pose proof (getitem_nth' mean i1 n Hm (Nat.lt_le_trans _ _ _ H1 Hl)) as G1.
      pose proof (getitem_nth' mean i2 n Hm (Nat.lt_le_trans _ _ _ H2 Hl)) as G2.
      pose proof (getitem_nth' mean i3 n Hm (Nat.lt_le_trans _ _ _ H3 Hl)) as G3.
      rewrite G1, G2, G3. reflexivity. }
    clear -Em. induction rf; simpl; constructor; auto.
  - rewrite sumR_repeat, Evs. rewrite sumR_minus, sumR_plus, !sumR_cmul.
    assert (G : forall i, (i < n)%nat -> INR (length rf) * nth i mean 0 = sumR (map (fun tr : trace RN => nth i (tr_data tr) 0) rf)).
    { intros i Hi. pose proof (Hmean i ltac:(rewrite Hm; exact Hi)) as Hi'.
      apply (nth_error_nth mean i 0) in Hi'. rewrite Hi'. field.
      apply not_0_INR. destruct rf; [congruence|discriminate]. }
    transitivity (w1 * (INR (length rf) * nth i1 mean 0) + w2 * (INR (length rf) * nth i2 mean 0)
                  - w3 * (INR (length rf) * nth i3 mean 0)).
    + rewrite (G i1), (G i2), (G i3) by (eapply Nat.lt_le_trans; eassumption). reflexivity.
    + unfold m. change (F RN) with R. ring.
Qed.

(** A complex time with imaginary part [im] is read at the sample nearest to its
    real part. *)
Lemma hypot_le a b c : sqrt (a * a + c * c) <= sqrt (b * b + c * c) <-> Rabs a <= Rabs b.
Proof.
  split; intro H.
  - apply sqrt_le_0 in H; [|nra|nra].
    assert (Rsqr a <= Rsqr b) by (unfold Rsqr; lra). apply Rsqr_le_abs_0. assumption.
  - apply sqrt_le_1_alt. assert (Rsqr a <= Rsqr b) by (apply Rsqr_le_abs_1; assumption). unfold Rsqr in *. lra.
Qed.

Lemma argscan_ext {N : Num} (b : N -> N -> bool) (f g : N -> N) :
  (forall x y, b (f x) (f y) = b (g x) (g y)) -> (forall x, nisnan (f x) = nisnan (g x)) ->
  forall l i ib m, argscan b (map f l) i ib (f m) = argscan b (map g l) i ib (g m).
Proof.
  intros Hb Hn. induction l as [|x l IH]; intros i ib m; simpl; [reflexivity|].
  rewrite Hb, Hn. destruct (b (g x) (g m)); [destruct (nisnan (g x))|]; auto.
Qed.

Lemma getamp_complex (data axis : list RN) re im :
  @getamp RN data axis (TC re im) = @getamp RN data axis (TR re).
Proof.
  unfold getamp. f_equal. destruct axis as [|t0 axis]; [reflexivity|].
  cbn [map argmin nisnan RN]. f_equal.
  apply (@argscan_ext RN (fun x mp => negb (nleb mp x))
           (fun ti => @tdist RN ti (TC re im)) (fun ti => @tdist RN ti (TR re))); [|reflexivity].
  intros x y. simpl. f_equal.
  destruct (Rleb (Rabs (y - re)) (Rabs (x - re))) eqn:E.
  - apply Rleb_true in E. apply Rleb_true. apply hypot_le. assumption.
  - apply Rleb_false in E. apply Rleb_false. apply Rnot_le_lt. intro C. apply hypot_le in C. lra.
Qed.

End R9.
