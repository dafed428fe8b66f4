(** * HkFacts2: success conditions, error conditions, permutation, scaling. *)

From Coq Require Import Reals Lra Psatz Permutation.
From Verif Require Import Base Num NumPy Spec HkModel HkProofs HkReal HkFacts.

Section Succ.
Context {N : Num} (km1 : N) (stackO : stream N -> res (list (trace N)))
  (draw : list (row N) -> res unit).

Lemma getamp_ok (data axis : list N) t :
  axis <> [] -> length axis <= length data -> exists a, getamp data axis t = Ok a.
Proof.
  intros Ha Hl. unfold getamp.
  destruct (argmin_Ok_iff (map (fun ti => tdist ti t) axis)) as [i [Ei Hi]].
  { destruct axis; [congruence|discriminate]. }
  rewrite map_length in Hi. rewrite Ei. simpl.
  destruct (nth_error data i) as [a|] eqn:E; [|apply nth_error_None in E; lia].
  exists a. apply getitem_Ok; assumption.
Qed.

Lemma contrib_ok w1 w2 w3 (data axis : list N) ts :
  axis <> [] -> length axis <= length data -> exists v, contrib w1 w2 w3 data axis (Ok ts) = Ok v.
Proof.
  intros Ha Hl. destruct ts as [[t1 t2] t3]. unfold contrib. simpl.
  destruct (getamp_ok data axis t1 Ha Hl) as [a1 ->].
  destruct (getamp_ok data axis t2 Ha Hl) as [a2 ->].
  destruct (getamp_ok data axis t3 Ha Hl) as [a3 ->]. simpl. eauto.
Qed.

Lemma hk_times_ok Vp rp k (H K : N) : neqb Vp (nofZ 0) = false -> exists ts, hk_times Vp rp k H K = Ok ts.
Proof. intro E. unfold hk_times, pyinv. rewrite E. simpl. eauto. Qed.

Lemma table_ok (f : N -> N -> res N) K H :
  (forall k h, exists v, f k h = Ok v) -> exists rows, is_table f K H rows.
Proof.
  intro Hf. unfold is_table. induction (list_prod K H) as [|[k h] l IH]; simpl; [eauto|].
  unfold mkrow_of at 1. simpl. destruct (Hf k h) as [v ->]. simpl.
  destruct IH as [rows ->]. simpl. eauto.
Qed.

Lemma sumM_ok {A} (c : A -> res N) l : (forall x, In x l -> exists v, c x = Ok v) -> exists v, sumM c l = Ok v.
Proof.
  unfold sumM. generalize (@nofZ N 0). induction l as [|x l IH]; intros s Hc; simpl; [eauto|].
  destruct (Hc x (or_introl eq_refl)) as [v ->]. simpl. apply IH. intros; apply Hc; right; assumption.
Qed.

Lemma mapM_ext {A B} (f g : A -> res B) l : (forall x, In x l -> f x = g x) -> mapM f l = mapM g l.
Proof.
  induction l as [|x l IH]; intro E; simpl; [reflexivity|].
  rewrite E by (left; reflexivity). destruct (g x); simpl; [|reflexivity].
  rewrite IH by (intros; apply E; right; assumption). reflexivity.
Qed.

Lemma is_table_ext (f g : N -> N -> res N) K H rows :
  (forall k h, In k K -> In h H -> f k h = g k h) -> is_table f K H rows -> is_table g K H rows.
Proof.
  intros E T. unfold is_table in *. rewrite <- T. symmetry. apply mapM_ext.
  intros [k h] Hin. apply in_prod_iff in Hin. unfold mkrow_of. simpl. rewrite E by tauto. reflexivity.
Qed.

Lemma is_table_fun (f : N -> N -> res N) K H r1 r2 : is_table f K H r1 -> is_table f K H r2 -> r1 = r2.
Proof. unfold is_table. congruence. Qed.

(** Reading with an axis of length [n] never looks beyond index [n-1]. *)
Lemma getamp_trunc (data axis : list N) t n : length axis <= n ->
  getamp (firstn n data) axis t = getamp data axis t.
Proof.
  intro Hl. unfold getamp.
  destruct axis as [|a0 axis]; [reflexivity|].
  destruct (argmin_Ok_iff (map (fun ti => tdist ti t) (a0 :: axis))) as [i [Ei Hi]]; [discriminate|].
  rewrite map_length in Hi. rewrite Ei. simpl bind.
  unfold getitem. assert (Hn : i < n) by (simpl in *; lia).
  replace (nth_error (firstn n data) i) with (nth_error data i); [reflexivity|].
  clear -Hn. revert i n Hn; induction data as [|x data IH]; intros i n Hn; [destruct n, i; reflexivity|].
  destruct n; [lia|]. destruct i; [reflexivity|]. simpl. apply IH. lia.
Qed.

End Succ.

(** ** Exact arithmetic: permutation *)
Section RealFacts.
Local Open Scope R_scope.

Lemma sumM_R {A} (c : A -> res R) l v :
  @sumM RN A c l = Ok v <-> exists vs, Forall2 (fun x y => c x = Ok y) l vs /\ v = sumR vs.
Proof.
  unfold sumM. split.
  - intro E. apply (@sumM_inv RN) in E. destruct E as [vs [F ->]]. exists vs. split; [assumption|].
    rewrite fold_add_R. simpl. lra.
  - intros [vs [F ->]]. rewrite (@sumM_intro RN A c l _ vs F). f_equal. rewrite fold_add_R. simpl. lra.
Qed.

Lemma Forall2_perm {A B} (P : A -> B -> Prop) l l' vs :
  Permutation l l' -> Forall2 P l vs -> exists vs', Permutation vs vs' /\ Forall2 P l' vs'.
Proof.
  intro HP; revert vs; induction HP as [|x l l' HP IH|x y l|l l' l'' HP1 IH1 HP2 IH2]; intros vs F.
  - inversion F; subst. exists []. split; constructor.
  - inversion F as [|? v ? vs0 Hx F0]; subst. destruct (IH vs0 F0) as [vs' [Hp F']].
    exists (v :: vs'). split; [constructor; assumption|constructor; assumption].
  - inversion F as [|? v ? vs0 Hx F0]; subst. inversion F0 as [|? w ? vs1 Hy F1]; subst.
    exists (w :: v :: vs1). split; [apply perm_swap|repeat constructor; assumption].
  - destruct (IH1 vs F) as [vs' [Hp F']]. destruct (IH2 vs' F') as [vs'' [Hp' F'']].
    exists vs''. split; [eapply Permutation_trans; eassumption|assumption].
Qed.

Lemma sumM_perm {A} (c : A -> res R) l l' v :
  Permutation l l' -> @sumM RN A c l = Ok v -> @sumM RN A c l' = Ok v.
Proof.
  intros HP E. apply sumM_R in E. destruct E as [vs [F ->]].
  destruct (Forall2_perm _ _ _ _ HP F) as [vs' [Hp F']].
  apply sumM_R. exists vs'. split; [assumption|]. apply sumR_perm; assumption.
Qed.

Lemma table_ok_mono {N : Num} (f g : N -> N -> res N) K H rows :
  (forall k h v, f k h = Ok v -> g k h = Ok v) -> is_table f K H rows -> is_table g K H rows.
Proof.
  intros E T. unfold is_table in *. apply mapM_Ok in T. apply mapM_Ok.
  induction T as [|[k h] r l rows0 Hr T IH]; constructor; auto.
  unfold mkrow_of in *. simpl in *. apply bind_Ok_inv in Hr. destruct Hr as [v [Ev Hr]].
  rewrite (E _ _ _ Ev). exact Hr.
Qed.

Lemma avgslow_perm (s s' : stream RN) : Permutation s s' -> @avgslow RN s = @avgslow RN s'.
Proof.
  intro HP. unfold avgslow, npmean. simpl. rewrite !sumR_Rsum.
  rewrite !map_length, (Permutation_length HP).
  apply (f_equal (fun x => (x / _)%R)). apply sumR_perm.
  exact (Permutation_map (@tr_slow RN) HP).
Qed.

(** ** Exact arithmetic: scaling *)
Definition scale_trace (c : R) (tr : trace RN) : trace RN :=
  mkTrace (N := RN) (map (Rmult c) (tr_data tr)) (tr_delta tr) (tr_slow tr) (tr_slowk tr) (tr_b tr)
    (tr_baz tr) (tr_dist tr) (tr_sta tr) (tr_chan tr) (tr_hdr tr).

Definition scale_row (c : R) (r : row RN) : row RN := mkRow (N := RN) (rH r) (rK r) (c * rS r).

Lemma getamp_scale c (data axis : list RN) t a :
  @getamp RN data axis t = Ok a -> @getamp RN (map (Rmult c) data) axis t = Ok (c * a).
Proof.
  unfold getamp. intro E. binv E. rewrite E0. simpl. apply getitem_Ok in E. apply getitem_Ok.
  exact (map_nth_error (Rmult c) a0 data E).
Qed.

Lemma contrib_scale c w1 w2 w3 (data axis : list RN) ts v :
  @contrib RN w1 w2 w3 data axis ts = Ok v ->
  @contrib RN w1 w2 w3 (map (Rmult c) data) axis ts = Ok (c * v).
Proof.
  destruct ts as [ts|e]; [|discriminate]. intro E. apply contrib_inv in E.
  destruct E as (a1 & a2 & a3 & E1 & E2 & E3 & ->). destruct ts as [[t1 t2] t3]. simpl in *.
  unfold contrib. simpl.
  rewrite (getamp_scale c _ _ _ _ E1), (getamp_scale c _ _ _ _ E2), (getamp_scale c _ _ _ _ E3).
  simpl. f_equal. change (F RN) with R in *. ring.
Qed.

Lemma sumM_scale {A B} (c : R) (f : A -> res R) (g : B -> res R) l l' v :
  Forall2 (fun x y => forall u, f x = Ok u -> g y = Ok (c * u)) l l' ->
  @sumM RN A f l = Ok v -> @sumM RN B g l' = Ok (c * v).
Proof.
  intros F E. apply sumM_R in E. destruct E as [vs [Fv ->]]. apply sumM_R.
  exists (map (Rmult c) vs). split; [|symmetry; apply sumR_scale].
  revert l' F; induction Fv as [|x y l vs Hxy Fv IH]; intros l' F; inversion F; subst; simpl; constructor; auto.
Qed.

Lemma table_scale c (f g : R -> R -> res R) K H rows :
  (forall k h v, f k h = Ok v -> g k h = Ok (c * v)) ->
  @is_table RN f K H rows -> @is_table RN g K H (map (scale_row c) rows).
Proof.
  intros E T. unfold is_table in *. apply mapM_Ok in T. apply mapM_Ok.
  induction T as [|[k h] r l rows0 Hr T IH]; simpl; constructor; auto.
  unfold mkrow_of in *. simpl in *. apply bind_Ok_inv in Hr. destruct Hr as [v [Ev Hr]].
  rewrite (E _ _ _ Ev). inversion Hr; subst. reflexivity.
Qed.

(** A strictly increasing rescaling does not move the argmax. *)
Lemma argmax_scale c (l : list R) k : 0 < c -> @argmax RN l = Ok k -> @argmax RN (map (Rmult c) l) = Ok k.
Proof.
  intros Hc E. destruct (@argmax_Ok_iff RN (map (Rmult c) l)) as [k' [E' _]].
  { destruct l; [discriminate|discriminate]. }
  rewrite E'. f_equal.
  apply (argmax_first_best RN_laws) in E'. apply (argmax_first_best RN_laws) in E.
  eapply (first_best_unique (N := RN)); [exact E'|].
  destruct E as [v [Hv H]]. exists (c * v). split.
  { exact (map_nth_error (Rmult c) k l Hv). }
  right. destruct H as [[C _]|[_ [Ha Hs]]]; [discriminate|]. split; [reflexivity|]. split.
  - intros i x Hx. destruct (nth_error_map_inv (Rmult c) l i x Hx) as [y [Ey ->]]. split; [reflexivity|]. unfold geN. apply Rleb_true.
    destruct (Ha i y Ey) as [_ G]. apply Rleb_true in G. apply Rmult_le_compat_l; lra.
  - intros i x Hi Hx. destruct (nth_error_map_inv (Rmult c) l i x Hx) as [y [Ey ->]]. unfold geN. intro C. apply Rleb_true in C. apply (Hs i y Hi Ey).
    unfold geN. apply Rleb_true. apply Rmult_le_reg_l in C; assumption.
Qed.

Lemma map_rS_scale c rows : map rS (map (scale_row c) rows) = map (Rmult c) (map rS rows).
Proof. rewrite !map_map. reflexivity. Qed.

End RealFacts.
