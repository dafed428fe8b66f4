(** * DrawSpec: what pyplot demands of the table an H-k program shows.

    All five H-k programs call [plt.tricontourf(x, y, z, 60, cmap='jet')] on their table
    before they return (hkZhu.py:173, hkSeqYeck.py:201 and 265, hkYu.py:171,
    SynthAnalysis.py:170, 323 and 381).  matplotlib raises ValueError if a value [z] is NaN or
    infinite, and raises if the points [(x, y)] cannot be triangulated (fewer than three
    points, or all of them on one line).  For a table over a grid the points lie on one line
    exactly if one of the two axes has no two different values.  The theorems about the H-k
    programs take the drawing as a function that may raise; [pyplot] is the instance used for
    concrete cases. *)
From Coq Require Import Reals Lra.
From Verif Require Import Base Num NumPy HkModel HkProofs HkReal HkFacts Spec P_Hk.

(** [np.isfinite] *)
Definition isfinite {N : Num} (x : N) : bool := negb (nisnan (nsub x x)).
Definition varied {N : Num} (f : row N -> N) (tb : list (row N)) : bool :=
  existsb (fun r => existsb (fun r' => negb (neqb (f r) (f r'))) tb) tb.
Definition drawable {N : Num} (tb : list (row N)) : bool :=
  forallb (fun r => isfinite (rH r) && isfinite (rK r) && isfinite (rS r)) tb && varied rH tb && varied rK tb.
Definition pyplot {N : Num} (tb : list (row N)) : res unit := if drawable tb then Ok tt else Err ValueError.

(** The drawing returns for every table over this grid whose values are finite. *)
Definition draws {N : Num} (draw : list (row N) -> res unit) (K H : list N) : Prop :=
  forall tb, grid_table K H tb -> (forall r, In r tb -> isfinite (rS r) = true) -> exists u, draw tb = Ok u.

Lemma isfinite_R (x : R) : @isfinite RN x = true.
Proof. reflexivity. Qed.
Lemma varied_true {N : Num} (f : row N -> N) tb r r' : In r tb -> In r' tb -> neqb (f r) (f r') = false -> varied f tb = true.
Proof.
  intros I I' E. apply existsb_exists. exists r. split; [exact I|]. apply existsb_exists. exists r'. split; [exact I'|]. rewrite E. reflexivity.
Qed.
(** Every node of the grid is a row of the table, and the rows are nodes of the grid. *)
Lemma grid_rows {N : Num} (K H : list N) tb k h : grid_table K H tb -> In k K -> In h H -> exists s, In (mkRow h k s) tb.
Proof.
  intros [_ G] Ik Ih. apply In_nth_error in Ik as [i Ei]. apply In_nth_error in Ih as [j Ej].
  destruct (G i j k h Ei Ej) as [s Es]. exists s. eapply nth_error_In. exact Es.
Qed.
Lemma pyplot_draws {N : Num} (K H : list N) h h' k k' :
  In h H -> In h' H -> neqb h h' = false -> In k K -> In k' K -> neqb k k' = false ->
  (forall tb r, grid_table K H tb -> In r tb -> isfinite (rH r) = true /\ isfinite (rK r) = true) -> draws pyplot K H.
Proof.
  intros Ih Ih' Eh Ik Ik' Ek Fi tb G Fs. exists tt. unfold pyplot, drawable.
  destruct (grid_rows K H tb k h G Ik Ih) as [s1 I1]. destruct (grid_rows K H tb k h' G Ik Ih') as [s2 I2]. destruct (grid_rows K H tb k' h G Ik' Ih) as [s3 I3].
  rewrite (varied_true rH tb _ _ I1 I2 Eh), (varied_true rK tb _ _ I1 I3 Ek), !andb_true_r.
  replace (forallb _ tb) with true; [reflexivity|]. symmetry. apply forallb_forall. intros r Ir.
  destruct (Fi tb r G Ir) as [F1 F2]. rewrite F1, F2, (Fs r Ir). reflexivity.
Qed.
(** Exact arithmetic: two different depths and two different ratios are enough. *)
Lemma pyplot_draws_R (K H : list R) h h' k k' :
  In h H -> In h' H -> h <> h' -> In k K -> In k' K -> k <> k' -> draws (@pyplot RN) K H.
Proof.
  intros Ih Ih' Eh Ik Ik' Ek. apply (pyplot_draws (N := RN) K H h h' k k' Ih Ih'); [|exact Ik|exact Ik'| |intros; split; reflexivity].
  - cbn. unfold Reqb. destruct (Req_EM_T h h'); [contradiction|reflexivity].
  - cbn. unfold Reqb. destruct (Req_EM_T k k'); [contradiction|reflexivity].
Qed.
