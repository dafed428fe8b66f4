From Coq Require Import String Ascii List Bool ZArith Lia.
From Verif Require Import FsModel SpecFs.
Import ListNotations.

(** ** Basics *)
Lemma path_eqb_refl : forall p, path_eqb p p = true.
Proof. intros p; unfold path_eqb; destruct (list_eq_dec string_dec p p); congruence. Qed.
Lemma path_eqb_eq : forall p q, path_eqb p q = true <-> p = q.
Proof. intros; unfold path_eqb; destruct (list_eq_dec string_dec p q); split; congruence. Qed.
Lemma upd_same : forall f p v, upd f p v p = v.
Proof. intros; unfold upd; rewrite path_eqb_refl; reflexivity. Qed.
Lemma upd_other : forall f p v q, q <> p -> upd f p v q = f q.
Proof. intros f p v q H; unfold upd. destruct (path_eqb q p) eqn:E; auto.
  apply path_eqb_eq in E; contradiction. Qed.

Lemma isdir_true : forall f p, isdir f p = true <-> f p = Some Dir.
Proof. intros f p; unfold isdir; destruct (f p) as [[|]|]; split; congruence. Qed.
Lemma isdir_false : forall f p, isdir f p = false <-> f p <> Some Dir.
Proof. intros f p; unfold isdir; destruct (f p) as [[|]|]; split; congruence. Qed.

Lemma cons_neq : forall (n : string) p, n :: p <> p.
Proof. intros n p H. apply (f_equal (@length string)) in H. simpl in H. lia. Qed.

Lemma above_refl : forall p, above p p.
Proof. intros p; exists []; reflexivity. Qed.
Lemma above_cons : forall p n d, above p (n :: d) <-> p = n :: d \/ above p d.
Proof.
  intros p n d; split.
  - intros [[|x r] H]; simpl in H.
    + left; auto.
    + right; injection H as -> ->. exists r; reflexivity.
  - intros [-> | [r ->]]. apply above_refl. exists (n :: r); reflexivity.
Qed.
Lemma above_nil : forall p, above p [] <-> p = [].
Proof.
  intros p; split. intros [r H]. symmetry in H; apply app_eq_nil in H; tauto.
  intros ->; apply above_refl.
Qed.
Lemma above_trans : forall a b c, above a b -> above b c -> above a c.
Proof. intros a b c [r ->] [s ->]. exists (s ++ r). rewrite app_assoc; reflexivity. Qed.
Lemma above_length : forall a b, above a b -> length a <= length b.
Proof. intros a b [r ->]. rewrite app_length; lia. Qed.
Lemma above_sub : forall d q, above d (sub d q).
Proof. intros d q; exists (rev q); reflexivity. Qed.
Lemma above_dec : forall a b, {above a b} + {~ above a b}.
Proof.
  intros a b; induction b as [|n b IH].
  - destruct a. left; apply above_refl. right; intros H; apply above_nil in H; discriminate.
  - destruct IH as [H|H]. left; apply above_cons; auto.
    destruct (list_eq_dec string_dec a (n :: b)) as [E|E].
    left; apply above_cons; auto.
    right; intros K; apply above_cons in K; tauto.
Qed.

Lemma sub_nil : forall d, sub d [] = d. Proof. reflexivity. Qed.
Lemma sub_cons : forall d n q, sub d (n :: q) = sub (n :: d) q.
Proof. intros; unfold sub; simpl; rewrite <- app_assoc; reflexivity. Qed.
Lemma sub_inj : forall d q q', sub d q = sub d q' -> q = q'.
Proof. intros d q q' H. apply app_inv_tail in H. rewrite <- (rev_involutive q), H, rev_involutive; reflexivity. Qed.
Lemma sub_not_above : forall d n q, ~ above (sub d (n :: q)) d.
Proof. intros d n q H. apply above_length in H. unfold sub in H. rewrite app_length, rev_length in H. simpl in H. lia. Qed.

(** two different children have disjoint subtrees *)
Lemma sub_disjoint : forall d n n' q q', n <> n' -> sub (n :: d) q <> sub (n' :: d) q'.
Proof.
  intros d n n' q q' Hn H. rewrite <- !sub_cons in H. apply sub_inj in H. congruence.
Qed.

Lemma wf_above : forall f p d v, wf f -> f d = Some v -> above p d -> p <> d -> f p = Some Dir.
Proof.
  intros f p d v [W0 W] H A. revert v H. induction d as [|n d IH]; intros v H Hne.
  - apply above_nil in A; contradiction.
  - apply above_cons in A as [->|A]; [contradiction|].
    destruct (list_eq_dec string_dec p d) as [->|E].
    + eapply W; eauto.
    + eapply IH; eauto.
Qed.
Lemma wf_dir_above : forall f p d, wf f -> f d = Some Dir -> above p d -> f p = Some Dir.
Proof.
  intros f p d W H A. destruct (list_eq_dec string_dec p d) as [->|E]; auto.
  eapply wf_above; eauto.
Qed.

Lemma walk_ok : forall f d, wf f -> f d = Some Dir -> walk_error f d = None.
Proof.
  intros f d W; induction d as [|n d IH]; intros H; simpl; auto.
  rewrite IH. rewrite H; auto. eapply (proj2 W); eauto.
Qed.
Lemma walk_ok_inv : forall f d, wf f -> walk_error f d = None -> f d = Some Dir.
Proof.
  intros f [|n d] W; simpl. intros _; apply W.
  destruct (walk_error f d); [discriminate|]. destruct (f (n :: d)) as [[|]|]; congruence.
Qed.

Lemma wf_upd_some : forall f n p v, wf f -> f p = Some Dir ->
  (v = Dir \/ f (n :: p) <> Some Dir) -> wf (upd f (n :: p) (Some v)).
Proof.
  intros f n p v [W0 W] Hp Hv; split.
  - rewrite upd_other; auto; discriminate.
  - intros m q u H. destruct (list_eq_dec string_dec (m :: q) (n :: p)) as [E|E].
    + injection E as -> ->. rewrite upd_other; auto. intros K; symmetry in K; apply (cons_neq _ _ K).
    + rewrite upd_other in H by auto.
      destruct (list_eq_dec string_dec q (n :: p)) as [->|E'].
      * rewrite upd_same. destruct Hv as [->|Hv]; auto. exfalso; apply Hv. eapply W; eauto.
      * rewrite upd_other by auto. eapply W; eauto.
Qed.
Lemma wf_upd_none : forall f p, wf f -> p <> [] -> f p <> Some Dir -> wf (upd f p None).
Proof.
  intros f p [W0 W] Hp Hd; split.
  - rewrite upd_other; auto.
  - intros m q u H. destruct (list_eq_dec string_dec (m :: q) p) as [E|E].
    + subst. rewrite upd_same in H; discriminate.
    + rewrite upd_other in H by auto.
      destruct (list_eq_dec string_dec q p) as [->|E'].
      * exfalso; apply Hd. eapply W; eauto.
      * rewrite upd_other by auto. eapply W; eauto.
Qed.

Definition mkdir_error_none : forall f p, wf f ->
  mkdir_error f p = None <-> exists n d, p = n :: d /\ f d = Some Dir /\ f p = None.
Proof.
  intros f [|n d] W; simpl.
  - split. discriminate. intros (?&?&?&?); discriminate.
  - split.
    + destruct (walk_error f d) eqn:E; [discriminate|].
      apply walk_ok_inv in E; auto. unfold lexists. destruct (f (n :: d)) eqn:E'; [discriminate|].
      intros _; exists n, d; auto.
    + intros (n' & d' & E & Hd & Hp). injection E as <- <-.
      rewrite walk_ok by auto. unfold lexists. rewrite Hp; auto.
Qed.

(** ** Running commands *)
Lemma seq_run : forall m k w, (m ;; k) w =
  match m w with (Returns, w') => k w' | (Raises e, w') => (Raises e, w') end.
Proof. reflexivity. Qed.
Lemma seq_assoc_run : forall a b c w, ((a ;; b) ;; c) w = (a ;; b ;; c) w.
Proof. intros; unfold seq. destruct (a w) as [[|] w']; auto. Qed.

(** The nested loop is [copy_entries]. *)
Lemma copy_tree_dir : forall l dst w,
  copy_tree (TDir l) dst w = (mkpath dst ;; copy_entries dst l) w.
Proof.
  intros l dst w.
  assert (E : forall l w,
    (fix entries (l : list (string * tree)) : cmd :=
         match l with
         | [] => ret
         | (n, s) :: r =>
             (if nfs n then ret
              else match s with
                   | TDir _ => copy_tree s (n :: dst)
                   | TFile b t m => copy_file b t m n (n :: dst)
                   end) ;;
             entries r
         end) l w = copy_entries dst l w).
  { clear l w. induction l as [|[n s] r IH]; intros w; [reflexivity|].
    change (copy_entries dst ((n, s) :: r) w) with ((copy_entry dst (n, s) ;; copy_entries dst r) w).
    unfold seq, copy_entry. cbn [fst snd].
    destruct ((if nfs n then ret else match s with TFile b t m => copy_file b t m n (n :: dst)
      | TDir _ => copy_tree s (n :: dst) end) w) as [[|e] w']; auto. }
  cbn [copy_tree]. unfold seq. destruct (mkpath dst w) as [[|e] w']; auto.
Qed.

Section TreeInd.
  Variable P : tree -> Prop.
  Hypothesis HF : forall b t m, P (TFile b t m).
  Hypothesis HD : forall l, (forall n s, In (n, s) l -> P s) -> P (TDir l).
  Fixpoint tree_ind' (t : tree) : P t :=
    match t with
    | TFile b t m => HF b t m
    | TDir l => HD l ((fix go (l : list (string * tree)) : forall n s, In (n, s) l -> P s :=
        match l with
        | [] => fun n s H => match H with end
        | e :: r => fun n s H =>
            match H with
            | or_introl E => eq_ind (snd e) P (tree_ind' (snd e)) s (f_equal snd E)
            | or_intror H' => go r n s H'
            end
        end) l)
    end.
End TreeInd.
