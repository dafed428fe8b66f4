(** Invariants of concurrent installations (InstallModel.v). *)
From Coq Require Import String Ascii List Bool ZArith Lia.
From Verif Require Import FsModel SpecFs FsProofs FsProofs2 P_Fs InstallModel.
Import ListNotations.
Local Open Scope list_scope.

Lemma names_same c p e : names (set_name c p e) p = e.
Proof. cbn. rewrite path_eqb_refl. reflexivity. Qed.
Lemma names_other c p e q : q <> p -> names (set_name c p e) q = names c q.
Proof. intro H. cbn. destruct (path_eqb q p) eqn:E; [apply path_eqb_eq in E; contradiction|reflexivity]. Qed.
Lemma new_same c p : names (new_file c p) p = Some (EFile (next c)).
Proof. cbn. rewrite path_eqb_refl. reflexivity. Qed.
Lemma new_other c p q : q <> p -> names (new_file c p) q = names c q.
Proof. intro H. cbn. destruct (path_eqb q p) eqn:E; [apply path_eqb_eq in E; contradiction|reflexivity]. Qed.
Lemma ino_same c i x : inodes (set_inode c i x) i = x.
Proof. cbn. rewrite Nat.eqb_refl. reflexivity. Qed.
Lemma ino_other c i x j : j <> i -> inodes (set_inode c i x) j = inodes c j.
Proof. intro H. cbn. destruct (Nat.eqb_spec j i); [contradiction|reflexivity]. Qed.
Lemma view_dir c p : view c p = Some Dir <-> names c p = Some EDir.
Proof. unfold view. destruct (names c p) as [[|i]|]; split; intro H; try discriminate; reflexivity. Qed.
Lemma view_none c p : view c p = None <-> names c p = None.
Proof. unfold view. destruct (names c p) as [[|i]|]; split; intro H; try discriminate; reflexivity. Qed.
Lemma isdir_view c p : isdir (view c) p = true <-> names c p = Some EDir.
Proof. rewrite isdir_true. apply view_dir. Qed.

Lemma wf_names c : wf (view c) <-> names c [] = Some EDir /\ forall n p v, names c (n :: p) = Some v -> names c p = Some EDir.
Proof.
  unfold wf. rewrite view_dir. split; intros [H0 H]; (split; [exact H0|]).
  - intros n p v E. apply view_dir. destruct (view c (n :: p)) as [w|] eqn:Ev; [exact (H n p w Ev)|]. apply view_none in Ev. congruence.
  - intros n p v E. apply view_dir. destruct (names c (n :: p)) as [w|] eqn:Ev; [exact (H n p w Ev)|]. apply view_none in Ev. congruence.
Qed.

(** ** Trees *)
Lemma packaged_det t q u u' : tree_ok t -> packaged t q u -> packaged t q u' -> u = u'.
Proof.
  intros O P. revert u' O. induction P as [t|l n s q u I Hn P IH]; intros u' O P'.
  - inversion P'; reflexivity.
  - inversion P' as [|l' n' s' q' u'' I' Hn' P'' E1 E2]; subst. inversion O as [|l' ND Oc]; subst. apply IH.
    + exact (Oc _ _ I).
    + assert (s = s'); [|subst; exact P'']. clear -I I' ND. induction l as [|[m v] l IH]; [destruct I|]. cbn in ND. inversion ND as [|x y Hm ND']; subst.
      destruct I as [I|I], I' as [I'|I'].
      * congruence.
      * exfalso. injection I as -> ->. apply Hm. change n with (fst (n, s')). apply in_map, I'.
      * exfalso. injection I' as -> ->. apply Hm. change n with (fst (n, s)). apply in_map, I.
      * exact (IH I I' ND').
Qed.
Lemma packaged_snoc t q n u : packaged t (q ++ [n]) u -> exists l, packaged t q (TDir l) /\ In (n, u) l /\ String.prefix ".nfs" n = false.
Proof.
  revert t. induction q as [|x q IH]; intros t P; cbn in P; inversion P as [|l n' s q' u' I Hn P' E1 E2]; subst.
  - inversion P'; subst. exists l. split; [constructor|]. split; assumption.
  - destruct (IH _ P') as (l' & P1 & P2). exists l'. split; [econstructor; eassumption|exact P2].
Qed.
Lemma packaged_ext t q l n u : packaged t q (TDir l) -> In (n, u) l -> String.prefix ".nfs" n = false -> packaged t (q ++ [n]) u.
Proof.
  intro P. remember (TDir l) as d eqn:E. revert l E. induction P as [t|l' n' s q u' I' Hn' P IH]; intros l E I Hn; cbn.
  - subst t. econstructor; [exact I|exact Hn|constructor].
  - econstructor; [exact I'|exact Hn'|]. eapply IH; eassumption.
Qed.
Lemma sub_snoc d q n : sub d (q ++ [n]) = n :: sub d q.
Proof. unfold sub. rewrite rev_app_distr. reflexivity. Qed.

(** ** Writing one byte *)
Lemma nth_error_firstn_lt {A} n (l : list A) j : j < n -> nth_error (firstn n l) j = nth_error l j.
Proof. revert l j. induction n as [|n IH]; intros [|x l] [|j] H; cbn; try lia; try reflexivity. apply IH. lia. Qed.
Lemma nth_error_skipn_add {A} n (l : list A) j : nth_error (skipn n l) j = nth_error l (n + j).
Proof. revert l. induction n as [|n IH]; intros [|x l]; cbn; try reflexivity; [destruct j; reflexivity|apply IH]. Qed.
Lemma nth_write off y l j : nth_error (write_at off y l) j =
  if j =? off then Some y else if j <? off then nth_error (l ++ repeat zero (off - length l)) j else nth_error l j.
Proof.
  unfold write_at. set (u := firstn off (l ++ repeat zero (off - length l))).
  assert (Lu : length u = off). { unfold u. rewrite firstn_length, app_length, repeat_length. lia. }
  destruct (Nat.eqb_spec j off) as [->|Ne].
  - rewrite nth_error_app2 by lia. rewrite Lu, Nat.sub_diag. reflexivity.
  - destruct (Nat.ltb_spec j off) as [Lt|Ge].
    + rewrite nth_error_app1 by lia. apply nth_error_firstn_lt, Lt.
    + rewrite nth_error_app2 by lia. rewrite Lu. replace (j - off) with (S (j - S off)) by lia. cbn [nth_error]. rewrite nth_error_skipn_add. f_equal. lia.
Qed.
Lemma length_write off y l : length (write_at off y l) = Nat.max (S off) (length l).
Proof. unfold write_at. rewrite app_length, firstn_length, app_length, repeat_length. cbn [length]. rewrite skipn_length. lia. Qed.
Lemma eq_nth_error {A} (l l' : list A) : (forall j, nth_error l j = nth_error l' j) -> l = l'.
Proof.
  revert l'. induction l as [|x l IH]; intros [|y l'] H.
  - reflexivity.
  - specialize (H 0). discriminate.
  - specialize (H 0). discriminate.
  - pose proof (H 0) as H0. cbn in H0. injection H0 as ->. f_equal. apply IH. intro j. exact (H (S j)).
Qed.
(** Writing the right byte into something that agrees with [L] up to [k]. *)
Lemma write_keeps L off y x k : nth_error L off = Some y -> k <= length L -> (forall j, j < k -> nth_error x j = nth_error L j) ->
  forall j, j < k -> nth_error (write_at off y x) j = nth_error L j.
Proof.
  intros Ey Lk H j Lj. rewrite nth_write. destruct (Nat.eqb_spec j off) as [->|Ne]; [symmetry; exact Ey|].
  destruct (Nat.ltb_spec j off); [|apply H, Lj]. rewrite <- (H j Lj). apply nth_error_app1. apply nth_error_Some. rewrite (H j Lj). apply nth_error_Some. lia.
Qed.
Lemma write_next L off y x : nth_error L off = Some y -> (forall j, j < off -> nth_error x j = nth_error L j) ->
  forall j, j < S off -> nth_error (write_at off y x) j = nth_error L j.
Proof.
  intros Ey H j Lj. assert (Lo : off < length L) by (apply nth_error_Some; congruence).
  destruct (Nat.eq_dec j off) as [->|Ne]; [rewrite nth_write, Nat.eqb_refl; symmetry; exact Ey|].
  apply (write_keeps L off y x off); [exact Ey|lia|exact H|lia].
Qed.
Lemma write_full L off y : nth_error L off = Some y -> write_at off y L = L.
Proof.
  intro Ey. assert (Lo : off < length L) by (apply nth_error_Some; congruence). apply eq_nth_error. intro j.
  destruct (Nat.lt_ge_cases j (length L)) as [A|A].
  - apply (write_keeps L off y L (length L)); [exact Ey|lia|auto|exact A].
  - rewrite nth_write. destruct (Nat.eqb_spec j off); [lia|]. destruct (Nat.ltb_spec j off); [lia|]. reflexivity.
Qed.
Lemma agree_full (L x : list ascii) : length x <= length L -> (forall j, j < length L -> nth_error x j = nth_error L j) -> x = L.
Proof.
  intros H A. apply eq_nth_error. intro j. destruct (Nat.lt_ge_cases j (length L)) as [Lt|Ge]; [exact (A _ Lt)|].
  transitivity (@None ascii); [|symmetry]; apply nth_error_None; lia.
Qed.
Lemma skipn_cons_nth {A} (L : list A) off y rest : y :: rest = skipn off L -> nth_error L off = Some y.
Proof. intro E. replace off with (off + 0) by lia. rewrite <- nth_error_skipn_add, <- E. reflexivity. Qed.

Section Inv.
Context (dest : path) (B : tree) (OK : tree_ok B) (DB : is_dir_tree B).

Definition fileplan (d : path) (b : string) (t m : Z) : Prop := exists q, packaged B q (TFile b t m) /\ d = sub dest q.
Definition dirplan (p : path) : Prop := above p dest \/ exists q l, packaged B q (TDir l) /\ p = sub dest q.

Lemma fileplan_det d b t m b' t' m' : fileplan d b t m -> fileplan d b' t' m' -> b = b' /\ t = t' /\ m = m'.
Proof.
  intros (q & P & E) (q' & P' & E'). rewrite E in E'. apply sub_inj in E'. subst q'.
  pose proof (packaged_det _ _ _ _ OK P P') as X. injection X as -> -> ->. repeat split.
Qed.
Lemma file_not_dir d b t m : fileplan d b t m -> ~ dirplan d.
Proof.
  intros (q & P & ->) [A|(q' & l & P' & E)].
  - destruct q as [|n q]; [|exact (sub_not_above _ _ _ A)]. inversion P; subst. destruct DB as (l & E). congruence.
  - apply sub_inj in E. subst q'. pose proof (packaged_det _ _ _ _ OK P P') as X. discriminate.
Qed.
Lemma dirplan_up n q : dirplan (n :: q) -> dirplan q.
Proof.
  intros [(r & E)|(q' & l & P & E)].
  - left. exists (r ++ [n]). rewrite <- app_assoc. exact E.
  - destruct q' as [|x q'] using rev_ind.
    + left. exists [n]. exact (eq_sym E).
    + rewrite sub_snoc in E. injection E as -> ->. apply packaged_snoc in P as (l' & P & _). right. exists q', l'. split; [exact P|reflexivity].
Qed.
Lemma dirplan_above x p : dirplan p -> above x p -> dirplan x.
Proof.
  revert x. induction p as [|n p IH]; intros x D A.
  - apply above_nil in A. subst x. exact D.
  - apply above_cons in A as [->|A]; [exact D|]. exact (IH _ (dirplan_up _ _ D) A).
Qed.

(** ** What a process needs to find, what it makes *)
Fixpoint chain (q : path) (ts : list path) : Prop :=
  match ts with [] => True | t :: r => (exists n, t = n :: q) /\ chain t r end.
Definition made (a : act) (x : path) : Prop :=
  match a with
  | AMkpath p => above x p
  | AScan q ts => above x q \/ In x ts
  | AMake p | AIsdir p => x = p
  | _ => False
  end.
Definition need (K : path -> Prop) (a : act) : Prop :=
  match a with
  | AMkpath p => dirplan p
  | AScan q ts => dirplan q /\ chain q ts /\ Forall dirplan ts
  | AMake p => dirplan p /\ exists n q, p = n :: q /\ K q
  | AIsdir p => K p
  | AFile b t m _ d | AOld b t m d | AUnlink b t m d | AOpen b t m d => fileplan d b t m /\ exists n q, d = n :: q /\ K q
  | AWrite i off rest t m d => exists b, fileplan d b t m /\ rest = skipn off (list_ascii_of_string b) /\ off <= length (list_ascii_of_string b)
  | ATime t m d => exists b, fileplan d b t m
  | AMode m d => exists b t, fileplan d b t m
  | ARaise => False
  end.
Fixpoint ready (K : path -> Prop) (l : list act) : Prop :=
  match l with [] => True | a :: r => need K a /\ ready (fun x => K x \/ made a x) r end.
Definition mades (l : list act) (x : path) : Prop := exists a, In a l /\ made a x.

Lemma need_mono (K K' : path -> Prop) a : (forall x, K x -> K' x) -> need K a -> need K' a.
Proof. intro H. destruct a; cbn; intuition; repeat match goal with X : exists _, _ |- _ => destruct X end; intuition; eauto. Qed.
Lemma ready_mono l : forall (K K' : path -> Prop), (forall x, K x -> K' x) -> ready K l -> ready K' l.
Proof.
  induction l as [|a l IH]; intros K K' H R; [exact I|]. destruct R as [R1 R2]. split; [exact (need_mono _ _ _ H R1)|].
  eapply IH; [|exact R2]. cbn. intros x [Hx|Hx]; [left; apply H, Hx|right; exact Hx].
Qed.
Lemma ready_app l l' : forall (K : path -> Prop), ready K l -> ready (fun x => K x \/ mades l x) l' -> ready K (l ++ l').
Proof.
  induction l as [|a l IH]; intros K R R'; cbn [app].
  - eapply ready_mono; [|exact R']. cbn. intros x [Hx|(a & [] & _)]; exact Hx.
  - destruct R as [R1 R2]. split; [exact R1|]. apply IH; [exact R2|]. eapply ready_mono; [|exact R']. cbn.
    intros x [Hx|(a' & [<-|Ia] & Hx)]; [left; left; exact Hx|left; right; exact Hx|right; exists a'; split; assumption].
Qed.
Lemma ready_makes q ts r : forall (K : path -> Prop), chain q ts -> Forall dirplan ts -> K q ->
  ready (fun x => K x \/ In x ts) r -> ready K (map AMake ts ++ r).
Proof.
  revert q. induction ts as [|t ts IH]; intros q K C D Hq R; cbn [map app].
  - eapply ready_mono; [|exact R]. cbn. intros x [Hx|[]]; exact Hx.
  - destruct C as [(n & ->) C]. inversion D as [|y z D1 D2]; subst. split; [split; [exact D1|exists n, q; split; [reflexivity|exact Hq]]|].
    apply (IH (n :: q)); [exact C|exact D2|right; reflexivity|]. eapply ready_mono; [|exact R]. cbn. intros x [Hx|[Hx|Hx]]; auto.
Qed.

(** The program of a process. *)
Definition entry_acts (dst : path) (e : string * tree) : list act :=
  if nfs (fst e) then []
  else match snd e with TDir _ => tree_acts (snd e) (fst e :: dst) | TFile b t m => [AFile b t m (fst e) (fst e :: dst)] end.
Lemma tree_acts_dir l dst : tree_acts (TDir l) dst = AMkpath dst :: flat_map (entry_acts dst) l.
Proof.
  cbn [tree_acts]. f_equal. induction l as [|[n s] l IH]; [reflexivity|]. cbn [flat_map]. rewrite <- IH. unfold entry_acts. cbn [fst snd]. reflexivity.
Qed.
Lemma ready_tree t : forall dst q (K : path -> Prop), packaged B q t -> dst = sub dest q -> is_dir_tree t -> ready K (tree_acts t dst).
Proof.
  induction t as [b t m|l IH] using tree_ind'; intros dst q K P E D; [destruct D; discriminate|]. rewrite tree_acts_dir. split.
  { cbn. right. exists q, l. split; assumption. }
  enough (G : forall l', (forall n u, In (n, u) l' -> In (n, u) l) -> forall K' : path -> Prop, K' dst -> ready K' (flat_map (entry_acts dst) l')) by (apply G; [auto|right; apply above_refl]).
  induction l' as [|[n s] l' IHl]; intros HK K' Hd; [exact I|]. cbn [flat_map].
  assert (Is : In (n, s) l) by (apply HK; left; reflexivity).
  apply ready_app.
  - unfold entry_acts. cbn [fst snd]. destruct (nfs n) eqn:En; [exact I|]. assert (P' : packaged B (q ++ [n]) s) by (eapply packaged_ext; [exact P|exact Is|exact En]).
    destruct s as [b t m|l2].
    + cbn. split; [|exact I]. split; [exists (q ++ [n]); split; [exact P'|rewrite sub_snoc, E; reflexivity]|]. exists n, dst. split; [reflexivity|exact Hd].
    + apply (IH n (TDir l2) Is (n :: dst) (q ++ [n]) K' P'); [rewrite sub_snoc, E; reflexivity|eexists; reflexivity].
  - apply IHl; [|left; exact Hd]. intros n' u Iu. apply HK. right. exact Iu.
Qed.
Lemma acts_file t : forall dst q b tm m, is_dir_tree t -> packaged t q (TFile b tm m) -> exists n, In (AFile b tm m n (sub dst q)) (tree_acts t dst).
Proof.
  induction t as [b0 t0 m0|l IH] using tree_ind'; intros dst q b tm m D P; [destruct D; discriminate|].
  inversion P as [|l' n s q' u I' Hn P' E1 E2]; subst. rewrite tree_acts_dir. rewrite sub_cons.
  destruct s as [b1 t1 m1|l2].
  - apply packaged_file in P' as [-> Eu]. injection Eu as -> -> ->. exists n. right. apply in_flat_map. exists (n, TFile b1 t1 m1). split; [exact I'|].
    unfold entry_acts. cbn [fst snd]. unfold nfs. rewrite Hn. left. reflexivity.
  - destruct (IH n (TDir l2) I' (n :: dst) q' b tm m (ex_intro _ l2 eq_refl) P') as (x & Hx). exists x. right. apply in_flat_map. exists (n, TDir l2). split; [exact I'|].
    unfold entry_acts. cbn [fst snd]. unfold nfs. rewrite Hn. exact Hx.
Qed.
Lemma acts_dir t : forall dst q l, packaged t q (TDir l) -> In (AMkpath (sub dst q)) (tree_acts t dst).
Proof.
  induction t as [b0 t0 m0|l0 IH] using tree_ind'; intros dst q l P; [inversion P|]. rewrite tree_acts_dir.
  inversion P as [|l' n s q' u I' Hn P' E1 E2]; subst; [left; reflexivity|]. rewrite sub_cons.
  right. apply in_flat_map. exists (n, s). split; [exact I'|]. unfold entry_acts. cbn [fst snd]. unfold nfs. rewrite Hn.
  destruct s as [b1 t1 m1|l2]; [inversion P'|]. exact (IH n (TDir l2) I' (n :: dst) q' l P').
Qed.
Lemma acts_static t : forall dst a, is_dir_tree t -> In a (tree_acts t dst) -> (exists p, a = AMkpath p) \/ (exists b tm m n d, a = AFile b tm m n d).
Proof.
  induction t as [b0 t0 m0|l0 IH] using tree_ind'; intros dst a D H; [destruct D; discriminate|]. rewrite tree_acts_dir in H.
  destruct H as [<-|H]; [left; eexists; reflexivity|]. apply in_flat_map in H as ([n s] & Is & H). unfold entry_acts in H. cbn [fst snd] in H.
  destruct (nfs n); [destruct H|]. destruct s as [b1 t1 m1|l2].
  - destruct H as [<-|[]]. right. repeat eexists.
  - exact (IH n (TDir l2) Is (n :: dst) a (ex_intro _ l2 eq_refl) H).
Qed.

(** ** The invariant *)
Definition isD (c : cfs) (p : path) : Prop := names c p = Some EDir.
Record global (c : cfs) : Prop := {
  g_wf : wf (view c);
  g_lt : forall p i, names c p = Some (EFile i) -> i < next c;
  g_inj : forall p p' i, names c p = Some (EFile i) -> names c p' = Some (EFile i) -> p = p';
  g_dir : forall p, dirplan p -> names c p = None \/ isD c p;
  g_file : forall d b t m, fileplan d b t m -> names c d = None \/ exists i, names c d = Some (EFile i) }.
Definition holds_ok (c : cfs) (a : act) : Prop :=
  match a with AWrite i _ _ _ _ d => i < next c /\ forall p, names c p = Some (EFile i) -> p = d | _ => True end.
Definition procI (c : cfs) (p : proc) : Prop :=
  match p with
  | Ended _ => True
  | Running k todo => (forall x, In x k -> isD c x) /\ ready (isD c) todo /\ Forall (holds_ok c) todo
  end.
(** [c'] differs from [c] only where something is installed. *)
Definition outside (p : path) : Prop := ~ dirplan p /\ forall b t m, ~ fileplan p b t m.
Definition elsewhere_same (c c' : cfs) : Prop :=
  forall p, outside p -> names c' p = names c p /\ forall i, names c p = Some (EFile i) -> inodes c' i = inodes c i.

(** When a call raises: the name of the file is gone. *)
Definition lost (c : cfs) (a : act) (e : exn) : Prop :=
  exists d, names c d = None /\ ((exists b t m, a = AUnlink b t m d /\ e = DistutilsFileError) \/ (exists t m, a = ATime t m d /\ e = FileNotFoundError) \/ (exists m, a = AMode m d /\ e = FileNotFoundError)).

Lemma set_inode_names c i x p : names (set_inode c i x) p = names c p.
Proof. reflexivity. Qed.
Lemma wf_set_inode c i x : wf (view c) -> wf (view (set_inode c i x)).
Proof. rewrite !wf_names. auto. Qed.
Lemma global_set_inode c i x : global c -> global (set_inode c i x).
Proof. intros [G1 G2 G3 G4 G5]. constructor; try assumption. apply wf_set_inode, G1. Qed.

Lemma in_existsb (p : path) k : existsb (path_eqb p) k = true -> In p k.
Proof. intro H. apply existsb_exists in H as (x & I' & E). apply path_eqb_eq in E. subst x. exact I'. Qed.

Lemma dirs_up c p x : wf (view c) -> isD c p -> above x p -> isD c x.
Proof. intros W D A. apply view_dir. eapply wf_dir_above; [exact W|apply view_dir, D|exact A]. Qed.

(** How the file system may change. *)
Record evolves (c c' : cfs) : Prop := {
  e_global : global c';
  e_dirs : forall x, isD c x -> isD c' x;
  e_else : elsewhere_same c c';
  e_next : next c <= next c';
  e_names : forall p i, names c' p = Some (EFile i) -> names c p = Some (EFile i) \/ i = next c }.
Lemma evolves_refl c : global c -> evolves c c.
Proof. intro G. constructor; auto. intros p _. split; auto. Qed.
Lemma procI_evolves c c' p : evolves c c' -> procI c p -> procI c' p.
Proof.
  intros E. destruct p as [k todo|o]; [|auto]. intros (H1 & H2 & H3). split; [intros x Hx; apply (e_dirs _ _ E), H1, Hx|]. split.
  - eapply ready_mono; [|exact H2]. apply (e_dirs _ _ E).
  - eapply Forall_impl; [|exact H3]. intros [] Ha; cbn in *; try exact I. destruct Ha as [Hi Hp]. pose proof (e_next _ _ E). split; [lia|].
    intros p Hn. destruct (e_names _ _ E _ _ Hn) as [Hn'|Hn']; [exact (Hp _ Hn')|lia].
Qed.
Lemma evolves_inode c i x d b t m : global c -> fileplan d b t m -> (forall p, names c p = Some (EFile i) -> p = d) -> evolves c (set_inode c i x).
Proof.
  intros G F H. constructor; auto using global_set_inode.
  intros p [O1 O2]. split; [reflexivity|]. intros j Hj. apply ino_other. intros ->. specialize (H _ Hj). subst p. exact (O2 _ _ _ F).
Qed.

Lemma ready_all (K K' : path -> Prop) r : (forall x, K x -> K' x) -> ready K r -> ready K' r.
Proof. intros H R. eapply ready_mono; [exact H|exact R]. Qed.

Lemma exec_inv c k a r c' k' res : global c -> procI c (Running k (a :: r)) -> exec c k a = (c', k', res) ->
  evolves c c' /\
  match res with
  | inl l => procI c' (Running k' (l ++ r)) /\ (forall x, made a x -> isD c' x \/ mades l x)
  | inr e => c' = c /\ lost c a e
  end.
Proof.
  intros G (Hk & (Hn & Hr) & Hh) E. inversion Hh as [|y z Ha Hh']; subst y z. pose proof (g_wf _ G) as W.
  destruct a as [p|q ts|p|p|b t m n d|b t m d|b t m d|b t m d|i off rest t m d|t m d|m d|]; cbn [exec] in E; cbn [need] in Hn.
  - (* mkpath *)
    destruct (isdir (view c) p) eqn:D.
    { apply isdir_view in D. injection E as <- <- <-. split; [apply evolves_refl, G|]. split.
      - split; [exact Hk|]. split; [|exact Hh']. eapply ready_all; [|exact Hr]. cbn. intros x [Hx|Hx]; [exact Hx|]. exact (dirs_up _ _ _ W D Hx).
      - intros x Hx. left. exact (dirs_up _ _ _ W D Hx). }
    destruct (existsb (path_eqb p) k) eqn:Ec.
    { apply in_existsb in Ec. apply Hk in Ec. apply isdir_view in Ec. congruence. }
    destruct p as [|n up].
    { apply isdir_false in D. exfalso. apply D. exact (proj1 W). }
    injection E as <- <- <-. split; [apply evolves_refl, G|]. split.
    + split; [exact Hk|]. split; [|constructor; [exact I|exact Hh']]. split.
      * split; [exact (dirplan_up _ _ Hn)|]. split; [split; [exists n; reflexivity|exact I]|]. constructor; [exact Hn|constructor].
      * eapply ready_all; [|exact Hr]. cbn. intros x [Hx|Hx]; [left; exact Hx|right]. apply above_cons in Hx as [->|Hx]; [right; left; reflexivity|left; exact Hx].
    + intros x Hx. right. eexists. split; [left; reflexivity|]. cbn. cbn in Hx. apply above_cons in Hx as [->|Hx]; [right; left; reflexivity|left; exact Hx].
  - (* the while loop *)
    destruct Hn as (D1 & C & D2).
    assert (Q : isD c q -> evolves c c /\ procI c (Running k (map AMake ts ++ r)) /\ (forall x, made (AScan q ts) x -> isD c x \/ mades (map AMake ts) x)).
    { intro Dq. split; [apply evolves_refl, G|]. split.
      - split; [exact Hk|]. split.
        + apply (ready_makes q); [exact C|exact D2|exact Dq|]. eapply ready_all; [|exact Hr]. cbn. intros x [Hx|[Hx|Hx]]; [left; exact Hx|left; exact (dirs_up _ _ _ W Dq Hx)|right; exact Hx].
        + apply Forall_app. split; [|exact Hh']. apply Forall_forall. intros x Hx. apply in_map_iff in Hx as (y & <- & _). exact I.
      - intros x [Hx|Hx]; [left; exact (dirs_up _ _ _ W Dq Hx)|right]. exists (AMake x). split; [apply in_map, Hx|reflexivity]. }
    destruct q as [|n up].
    { injection E as <- <- <-. apply Q. apply view_dir. exact (proj1 W). }
    destruct (isdir (view c) (n :: up)) eqn:D; injection E as <- <- <-.
    { apply Q. apply isdir_view, D. }
    split; [apply evolves_refl, G|]. split.
    + split; [exact Hk|]. split; [|constructor; [exact I|exact Hh']]. split.
      * split; [exact (dirplan_up _ _ D1)|]. split; [split; [exists n; reflexivity|exact C]|]. constructor; assumption.
      * eapply ready_all; [|exact Hr]. cbn. intros x [Hx|[Hx|Hx]]; [left; exact Hx| |right; right; right; exact Hx].
        right. apply above_cons in Hx as [->|Hx]; [right; left; reflexivity|left; exact Hx].
    + intros x Hx. right. eexists. split; [left; reflexivity|]. cbn in Hx |- *. destruct Hx as [Hx|Hx]; [|right; right; exact Hx].
      apply above_cons in Hx as [->|Hx]; [right; left; reflexivity|left; exact Hx].
  - (* mkdir *)
    destruct Hn as (D & n & q & -> & Dq).
    assert (Wk : walk_error (view c) q = None) by (apply walk_ok; [exact W|apply view_dir, Dq]).
    destruct (existsb (path_eqb (n :: q)) k) eqn:Ec.
    { apply in_existsb in Ec. apply Hk in Ec. injection E as <- <- <-. split; [apply evolves_refl, G|]. split.
      - split; [exact Hk|]. split; [|exact Hh']. eapply ready_all; [|exact Hr]. cbn. intros x [Hx| ->]; assumption.
      - intros x Hx. cbn in Hx. subst x. left. exact Ec. }
    cbn [mkdir_error] in E. rewrite Wk in E. unfold lexists in E. destruct (view c (n :: q)) as [v|] eqn:Ev.
    + injection E as <- <- <-. split; [apply evolves_refl, G|].
      assert (Dp : isD c (n :: q)). { destruct (g_dir _ G _ D) as [N|N]; [|exact N]. apply view_none in N. congruence. }
      split; [|intros x Hx; cbn in Hx; subst x; left; exact Dp].
      split; [exact Hk|]. split; [|constructor; [exact I|exact Hh']]. split; [exact Dp|]. exact Hr.
    + injection E as <- <- <-. apply view_none in Ev.
      assert (EV : evolves c (set_name c (n :: q) (Some EDir))).
      { constructor.
        - constructor.
          + apply wf_names. apply wf_names in W as [W0 W1]. split; [rewrite names_other by discriminate; exact W0|].
            intros n' p v Hv. destruct (list_eq_dec string_dec (n' :: p) (n :: q)) as [E|E].
            * injection E as -> ->. rewrite names_other by (intro X; exact (cons_neq _ _ (eq_sym X))). exact Dq.
            * rewrite names_other in Hv by exact E. destruct (list_eq_dec string_dec p (n :: q)) as [->|E']; [apply names_same|]. rewrite names_other by exact E'. exact (W1 _ _ _ Hv).
          + intros p i Hp. destruct (list_eq_dec string_dec p (n :: q)) as [->|E']; [rewrite names_same in Hp; discriminate|]. rewrite names_other in Hp by exact E'. exact (g_lt _ G _ _ Hp).
          + intros p p' i Hp Hp'. destruct (list_eq_dec string_dec p (n :: q)) as [->|E1]; [rewrite names_same in Hp; discriminate|].
            destruct (list_eq_dec string_dec p' (n :: q)) as [->|E2]; [rewrite names_same in Hp'; discriminate|].
            rewrite names_other in Hp by exact E1. rewrite names_other in Hp' by exact E2. exact (g_inj _ G _ _ _ Hp Hp').
          + intros p Hp. unfold isD. destruct (list_eq_dec string_dec p (n :: q)) as [->|E1]; [right; apply names_same|]. rewrite names_other by exact E1. exact (g_dir _ G _ Hp).
          + intros p b t m Hp. destruct (list_eq_dec string_dec p (n :: q)) as [->|E1]; [exfalso; exact (file_not_dir _ _ _ _ Hp D)|]. rewrite names_other by exact E1. exact (g_file _ G _ _ _ _ Hp).
        - intros x Hx. unfold isD. destruct (list_eq_dec string_dec x (n :: q)) as [->|E1]; [apply names_same|]. rewrite names_other by exact E1. exact Hx.
        - intros p [O1 O2]. split; [|reflexivity]. apply names_other. intros ->. exact (O1 D).
        - cbn. lia.
        - intros p i Hp. destruct (list_eq_dec string_dec p (n :: q)) as [->|E1]; [rewrite names_same in Hp; discriminate|]. rewrite names_other in Hp by exact E1. left; exact Hp. }
      split; [exact EV|]. split.
      * assert (Z : procI (set_name c (n :: q) (Some EDir)) (Running k r) -> procI (set_name c (n :: q) (Some EDir)) (Running ((n :: q) :: k) r)).
        { intros (Z1 & Z2). split; [|exact Z2]. intros x [<-|Hx]; [apply names_same|exact (Z1 _ Hx)]. }
        cbn [app]. apply Z. split; [intros x Hx; apply (e_dirs _ _ EV), Hk, Hx|]. split.
        -- eapply ready_all; [|exact Hr]. cbn. intros x [Hx| ->]; [apply (e_dirs _ _ EV), Hx|apply names_same].
        -- eapply Forall_impl; [|exact Hh']. intros [] X; cbn in X |- *; try exact I. destruct X as [X1 X2]. split; [exact X1|].
           intros p. destruct (path_eqb p (n :: q)) eqn:E1; [intro; discriminate|exact (X2 p)].
      * intros x Hx. cbn in Hx. subst x. left. apply names_same.
  - (* isdir after EEXIST *)
    apply isdir_view in Hn as D. rewrite D in E. injection E as <- <- <-. split; [apply evolves_refl, G|]. split.
    + split; [intros x [<-|Hx]; [exact Hn|exact (Hk _ Hx)]|]. split; [|exact Hh']. eapply ready_all; [|exact Hr]. cbn. intros x [Hx| ->]; assumption.
    + intros x Hx. cbn in Hx. subst x. left. exact Hn.
  - (* copy_file *)
    destruct Hn as (F & n' & q & -> & Dq).
    assert (ND : isdir (view c) (n' :: q) = false).
    { destruct (isdir (view c) (n' :: q)) eqn:D; [|reflexivity]. apply isdir_view in D. destruct (g_file _ G _ _ _ _ F) as [X|(i & X)]; congruence. }
    rewrite ND in E. injection E as <- <- <-. split; [apply evolves_refl, G|]. split; [|intros x []].
    split; [exact Hk|]. split; [|constructor; [exact I|exact Hh']]. split; [|exact Hr]. split; [exact F|]. exists n', q. split; [reflexivity|exact Dq].
  - (* os.path.exists *)
    destruct (lexists (view c) d); injection E as <- <- <-; (split; [apply evolves_refl, G|]; split; [|intros x []]; split; [exact Hk|]; split; [|constructor; [exact I|exact Hh']]; split; [exact Hn|exact Hr]).
  - (* os.unlink *)
    destruct Hn as (F & n & q & Ed & Dq). destruct (g_file _ G _ _ _ _ F) as [N|(i & N)]; rewrite N in E; injection E as <- <- <-.
    + split; [apply evolves_refl, G|]. split; [reflexivity|]. exists d. split; [exact N|]. left. exists b, t, m. split; reflexivity.
    + assert (EV : evolves c (set_name c d None)).
      { constructor.
        - constructor.
          + apply wf_names. apply wf_names in W as [W0 W1]. split; [rewrite names_other by (rewrite Ed; discriminate); exact W0|].
            intros n' p v Hv. destruct (list_eq_dec string_dec (n' :: p) d) as [E|E].
            * rewrite <- E, names_same in Hv. discriminate.
            * rewrite names_other in Hv by exact E. specialize (W1 _ _ _ Hv). rewrite names_other; [exact W1|]. intros ->. congruence.
          + intros p j Hp. destruct (list_eq_dec string_dec p d) as [->|E']; [rewrite names_same in Hp; discriminate|]. rewrite names_other in Hp by exact E'. exact (g_lt _ G _ _ Hp).
          + intros p p' j Hp Hp'. destruct (list_eq_dec string_dec p d) as [->|E1]; [rewrite names_same in Hp; discriminate|].
            destruct (list_eq_dec string_dec p' d) as [->|E2]; [rewrite names_same in Hp'; discriminate|].
            rewrite names_other in Hp by exact E1. rewrite names_other in Hp' by exact E2. exact (g_inj _ G _ _ _ Hp Hp').
          + intros p Hp. unfold isD. destruct (list_eq_dec string_dec p d) as [->|E1]; [left; apply names_same|]. rewrite names_other by exact E1. exact (g_dir _ G _ Hp).
          + intros p b' t' m' Hp. destruct (list_eq_dec string_dec p d) as [->|E1]; [left; apply names_same|]. rewrite names_other by exact E1. exact (g_file _ G _ _ _ _ Hp).
        - intros x Hx. unfold isD in *. rewrite names_other; [exact Hx|]. intros ->. congruence.
        - intros p [O1 O2]. split; [|reflexivity]. apply names_other. intros ->. exact (O2 _ _ _ F).
        - cbn. lia.
        - intros p j Hp. destruct (list_eq_dec string_dec p d) as [->|E1]; [rewrite names_same in Hp; discriminate|]. rewrite names_other in Hp by exact E1. left; exact Hp. }
      split; [exact EV|]. split; [|intros x []].
      eapply procI_evolves; [exact EV|]. split; [exact Hk|]. split; [|constructor; [exact I|exact Hh']]. split; [|exact Hr]. split; [exact F|]. exists n, q. split; assumption.
  - (* open *)
    destruct Hn as (F & n & q & -> & Dq).
    assert (Wk : walk_error (view c) q = None) by (apply walk_ok; [exact W|apply view_dir, Dq]).
    rewrite Wk in E. destruct (g_file _ G _ _ _ _ F) as [N|(i & N)]; rewrite N in E; injection E as <- <- <-.
    + assert (EV : evolves c (new_file c (n :: q))).
      { constructor.
        - constructor.
          + apply wf_names. apply wf_names in W as [W0 W1]. split; [rewrite new_other by discriminate; exact W0|].
            intros n' p v Hv. destruct (list_eq_dec string_dec (n' :: p) (n :: q)) as [E|E].
            * injection E as -> ->. rewrite new_other by (intro X; exact (cons_neq _ _ (eq_sym X))). exact Dq.
            * rewrite new_other in Hv by exact E. specialize (W1 _ _ _ Hv). rewrite new_other; [exact W1|]. intros ->. congruence.
          + intros p j Hp. cbn [next new_file]. destruct (list_eq_dec string_dec p (n :: q)) as [->|E']; [rewrite new_same in Hp; injection Hp as <-; lia|]. rewrite new_other in Hp by exact E'. pose proof (g_lt _ G _ _ Hp). lia.
          + intros p p' j Hp Hp'. destruct (list_eq_dec string_dec p (n :: q)) as [->|E1]; destruct (list_eq_dec string_dec p' (n :: q)) as [->|E2]; [reflexivity| | |].
            * rewrite new_same in Hp. injection Hp as <-. rewrite new_other in Hp' by exact E2. pose proof (g_lt _ G _ _ Hp'). lia.
            * rewrite new_same in Hp'. injection Hp' as <-. rewrite new_other in Hp by exact E1. pose proof (g_lt _ G _ _ Hp). lia.
            * rewrite new_other in Hp by exact E1. rewrite new_other in Hp' by exact E2. exact (g_inj _ G _ _ _ Hp Hp').
          + intros p Hp. unfold isD. destruct (list_eq_dec string_dec p (n :: q)) as [->|E1]; [exfalso; exact (file_not_dir _ _ _ _ F Hp)|]. rewrite new_other by exact E1. exact (g_dir _ G _ Hp).
          + intros p b' t' m' Hp. destruct (list_eq_dec string_dec p (n :: q)) as [->|E1]; [right; eexists; apply new_same|]. rewrite new_other by exact E1. exact (g_file _ G _ _ _ _ Hp).
        - intros x Hx. unfold isD in *. rewrite new_other; [exact Hx|]. intros ->. congruence.
        - intros p [O1 O2]. split; [apply new_other; intros ->; exact (O2 _ _ _ F)|]. intros i Hi. cbn. destruct (Nat.eqb_spec i (next c)) as [->|]; [|reflexivity]. pose proof (g_lt _ G _ _ Hi). lia.
        - cbn. lia.
        - intros p i Hp. destruct (list_eq_dec string_dec p (n :: q)) as [->|E1]; [rewrite new_same in Hp; injection Hp as <-; right; reflexivity|]. rewrite new_other in Hp by exact E1. left; exact Hp. }
      split; [exact EV|]. split; [|intros x []].
      assert (P0 : procI (new_file c (n :: q)) (Running k r)).
      { eapply procI_evolves; [exact EV|]. split; [exact Hk|]. split; [|exact Hh']. eapply ready_all; [|exact Hr]. cbn. intros x [Hx|[]]. exact Hx. }
      destruct P0 as (P1 & P2 & P3). split; [exact P1|]. split; [|constructor; [|exact P3]].
      * split; [exists b; split; [exact F|]; split; [reflexivity|lia]|]. eapply ready_all; [|exact P2]. intros x Hx. left. exact Hx.
      * cbn [holds_ok]. split; [cbn; lia|]. intros p Hp. destruct (list_eq_dec string_dec p (n :: q)) as [->|E1]; [reflexivity|]. rewrite new_other in Hp by exact E1. pose proof (g_lt _ G _ _ Hp). lia.
    + assert (Own : forall p, names c p = Some (EFile i) -> p = n :: q) by (intros p Hp; exact (g_inj _ G _ _ _ Hp N)).
      split; [eapply evolves_inode; eassumption|]. split; [|intros x []].
      split; [exact Hk|]. split; [|constructor; [split; [exact (g_lt _ G _ _ N)|exact Own]|exact Hh']]. split; [|exact Hr].
      exists b. split; [exact F|]. split; [reflexivity|lia].
  - (* write, close *)
    destruct Hn as (b & F & Er & Lo). cbn [holds_ok] in Ha. destruct Ha as [Hi Own]. destruct rest as [|x rest]; injection E as <- <- <-.
    + split; [apply evolves_refl, G|]. split; [|intros x []]. split; [exact Hk|]. split; [|constructor; [exact I|exact Hh']]. split; [exists b; exact F|exact Hr].
    + split; [eapply evolves_inode; eassumption|]. split; [|intros y []]. split; [exact Hk|]. split; [|constructor; [split; assumption|exact Hh']]. split; [|exact Hr].
      exists b. split; [exact F|].
      assert (L : length (x :: rest) = length (list_ascii_of_string b) - off) by (rewrite Er; apply skipn_length). cbn [length] in L. split; [|lia].
      clear -Er. revert Er. generalize (list_ascii_of_string b). induction off as [|off IH]; intros [|y l] Er; cbn in Er |- *; try discriminate.
      * injection Er as -> ->. reflexivity.
      * apply IH in Er. rewrite Er. reflexivity.
  - (* utime *)
    destruct Hn as (b & F). destruct (g_file _ G _ _ _ _ F) as [N|(i & N)]; rewrite N in E; injection E as <- <- <-.
    + split; [apply evolves_refl, G|]. split; [reflexivity|]. exists d. split; [exact N|]. right; left. exists t, m. split; reflexivity.
    + split; [eapply evolves_inode; [exact G|exact F|intros p Hp; exact (g_inj _ G _ _ _ Hp N)]|]. split; [|intros x []].
      split; [exact Hk|]. split; [|constructor; [exact I|exact Hh']]. split; [exists b, t; exact F|exact Hr].
  - (* chmod *)
    destruct Hn as (b & t & F). destruct (g_file _ G _ _ _ _ F) as [N|(i & N)]; rewrite N in E; injection E as <- <- <-.
    + split; [apply evolves_refl, G|]. split; [reflexivity|]. exists d. split; [exact N|]. right; right. exists m. split; reflexivity.
    + split; [eapply evolves_inode; [exact G|exact F|intros p Hp; exact (g_inj _ G _ _ _ Hp N)]|]. split; [|intros x []].
      split; [exact Hk|]. split; [|exact Hh']. eapply ready_all; [|exact Hr]. cbn. intros x [Hx|[]]. exact Hx.
  - destruct Hn.
Qed.

(** ** One installed file *)
Definition some (ps : list proc) (P : proc -> Prop) : Prop := exists p, In p ps /\ P p.
Definition hd_is (Q : act -> Prop) (p : proc) : Prop := exists k a r, p = Running k (a :: r) /\ Q a.
Definition raised (p : proc) : Prop := exists e, p = Ended (Raises e).
Definition pre (d : path) (a : act) : Prop :=
  match a with AFile _ _ _ _ d' | AOld _ _ _ d' | AUnlink _ _ _ d' | AOpen _ _ _ d' => d' = d | _ => False end.
Definition post (d : path) (a : act) : Prop :=
  match a with AWrite _ _ _ _ _ d' | ATime _ _ d' | AMode _ d' => d' = d | _ => False end.
Definition opening (d : path) (a : act) : Prop := match a with AOpen _ _ _ d' => d' = d | _ => False end.
Definition unlinking (d : path) (a : act) : Prop := match a with AUnlink _ _ _ d' => d' = d | _ => False end.
Definition writing (d : path) (i : nat) (x L : list ascii) (a : act) : Prop :=
  match a with AWrite i' off _ _ _ d' => i' = i /\ d' = d /\ forall j, j < off -> nth_error x j = nth_error L j | _ => False end.
Definition dating (d : path) (i : nat) (a : act) : Prop :=
  match a with AWrite i' _ _ _ _ d' => i' = i /\ d' = d | ATime _ _ d' => d' = d | _ => False end.

Definition unt1 (c : cfs) (d : path) (p : proc) : Prop :=
  raised p \/ exists k todo, p = Running k todo /\ (exists a, In a todo /\ pre d a) /\
    forall a, In a todo -> ~ post d a /\ ~ opening d a /\ (unlinking d a -> names c d <> None).
Definition untouched (c : cfs) (ps : list proc) (d : path) : Prop := forall p, In p ps -> unt1 c d p.
Definition absent (c : cfs) (ps : list proc) (d : path) : Prop := names c d = None /\ some ps (hd_is (opening d)).
Definition present (c : cfs) (ps : list proc) (d : path) (b : string) (t m : Z) : Prop :=
  exists i, names c d = Some (EFile i) /\
    let x := i_bytes (inodes c i) in let L := list_ascii_of_string b in
    length x <= length L /\ (x = L \/ some ps (hd_is (writing d i x L))) /\
    (i_mtime (inodes c i) = t \/ some ps (hd_is (dating d i))) /\
    (i_mode (inodes c i) = m \/ some ps (hd_is (post d))).
Definition fileI (c : cfs) (ps : list proc) (d : path) (b : string) (t m : Z) : Prop :=
  untouched c ps d \/ absent c ps d \/ present c ps d b t m.

Lemma some_step bf p p' af (P P' : proc -> Prop) : some (bf ++ p :: af) P -> (forall q, P q -> P' q) -> (P p -> P' p') -> some (bf ++ p' :: af) P'.
Proof.
  intros (q & Iq & Pq) H H'. apply in_mid in Iq as [->|Iq].
  - exists p'. split; [apply in_mid; left; reflexivity|exact (H' Pq)].
  - exists q. split; [apply in_mid; right; exact Iq|exact (H _ Pq)].
Qed.
Lemma some_new bf p af (P : proc -> Prop) : P p -> some (bf ++ p :: af) P.
Proof. intro H. exists p. split; [apply in_mid; left; reflexivity|exact H]. Qed.
Lemma hd_mk (Q : act -> Prop) k a r : Q a -> hd_is Q (Running k (a :: r)).
Proof. intro H. exists k, a, r. split; [reflexivity|exact H]. Qed.
Lemma hd_inv (Q : act -> Prop) k a r : hd_is Q (Running k (a :: r)) -> Q a.
Proof. intros (k' & a' & r' & E & H). injection E as <- <- <-. exact H. Qed.

Definition on_file (d : path) (a : act) : Prop := pre d a \/ post d a.

Lemma exec_other c k a r c' k' l d b t m : global c -> procI c (Running k (a :: r)) -> fileplan d b t m -> ~ on_file d a ->
  exec c k a = (c', k', inl l) ->
  names c' d = names c d /\ (forall i, names c d = Some (EFile i) -> inodes c' i = inodes c i) /\ forall x, In x l -> ~ on_file d x.
Proof.
  intros G (Hk & (Hn & Hr) & Hh) F NF E. inversion Hh as [|y z Ha Hh']; subst y z.
  destruct a as [p|q ts|p|p|b' t' m' n d'|b' t' m' d'|b' t' m' d'|b' t' m' d'|i off rest t' m' d'|t' m' d'|m' d'|]; cbn [exec] in E; cbn [need] in Hn; unfold on_file in NF; cbn [pre post] in NF.
  - destruct (isdir _ _); [|destruct (existsb _ _); [|destruct p]]; injection E as <- <- <-; (split; [reflexivity|]; split; [reflexivity|]); intros x Hx; cbn in Hx; try destruct Hx as [<-|[]]; try destruct Hx; unfold on_file; cbn; tauto.
  - assert (Z : forall x, In x (map AMake ts) -> ~ on_file d x) by (intros x Hx; apply in_map_iff in Hx as (y & <- & _); unfold on_file; cbn; tauto).
    destruct q as [|n up]; [|destruct (isdir _ _)]; injection E as <- <- <-; (split; [reflexivity|]; split; [reflexivity|]); [exact Z|exact Z|].
    intros x [<-|[]]. unfold on_file. cbn. tauto.
  - destruct Hn as (D & _). assert (Np : d <> p) by (intros ->; exact (file_not_dir _ _ _ _ F D)).
    destruct (existsb _ _); [injection E as <- <- <-; split; [reflexivity|]; split; [reflexivity|]; intros x []|].
    destruct (mkdir_error _ _) as [[]|]; try discriminate; injection E as <- <- <-.
    + split; [reflexivity|]. split; [reflexivity|]. intros x [<-|[]]. unfold on_file. cbn. tauto.
    + split; [apply names_other, Np|]. split; [reflexivity|]. intros x [].
  - destruct (isdir _ _); [|discriminate]. injection E as <- <- <-. split; [reflexivity|]. split; [reflexivity|]. intros x [].
  - destruct Hn as (F' & _).
    assert (ND : isdir (view c) d' = false).
    { destruct (isdir (view c) d') eqn:D; [|reflexivity]. apply isdir_view in D. destruct (g_file _ G _ _ _ _ F') as [X|(i & X)]; congruence. }
    rewrite ND in E. injection E as <- <- <-. split; [reflexivity|]. split; [reflexivity|]. intros x [<-|[]]. exact NF.
  - destruct (lexists _ _); injection E as <- <- <-; (split; [reflexivity|]; split; [reflexivity|]; intros x [<-|[]]; exact NF).
  - assert (Nd : d <> d') by (intros ->; tauto). destruct (names c d') as [[|i]|]; try discriminate. injection E as <- <- <-.
    split; [apply names_other, Nd|]. split; [reflexivity|]. intros x [<-|[]]. exact NF.
  - assert (Nd : d <> d') by (intros ->; tauto). destruct d' as [|n q]; [discriminate|]. destruct (walk_error _ _); [discriminate|].
    destruct (names c (n :: q)) as [[|i]|] eqn:N; try discriminate; injection E as <- <- <-.
    + split; [reflexivity|]. split; [|intros x [<-|[]]; unfold on_file in *; cbn in *; tauto]. intros j Hj. apply ino_other. intros ->. apply Nd. exact (g_inj _ G _ _ _ Hj N).
    + split; [apply new_other, Nd|]. split; [|intros x [<-|[]]; unfold on_file in *; cbn in *; tauto]. intros j Hj. cbn. destruct (Nat.eqb_spec j (next c)) as [->|]; [|reflexivity]. pose proof (g_lt _ G _ _ Hj). lia.
  - assert (Nd : d <> d') by (intros ->; tauto). destruct Ha as [_ Own]. destruct rest as [|y rest]; injection E as <- <- <-.
    + split; [reflexivity|]. split; [reflexivity|]. intros x [<-|[]]. exact NF.
    + split; [reflexivity|]. split; [|intros x [<-|[]]; exact NF]. intros j Hj. apply ino_other. intros ->. exact (Nd (Own _ Hj)).
  - assert (Nd : d <> d') by (intros ->; tauto). destruct (names c d') as [[|i]|] eqn:N; try discriminate; injection E as <- <- <-.
    + split; [reflexivity|]. split; [reflexivity|]. intros x [<-|[]]. exact NF.
    + split; [reflexivity|]. split; [|intros x [<-|[]]; exact NF]. intros j Hj. apply ino_other. intros ->. exact (Nd (g_inj _ G _ _ _ Hj N)).
  - assert (Nd : d <> d') by (intros ->; tauto). destruct (names c d') as [[|i]|] eqn:N; try discriminate; injection E as <- <- <-.
    + split; [reflexivity|]. split; [reflexivity|]. intros x [].
    + split; [reflexivity|]. split; [|intros x []]. intros j Hj. apply ino_other. intros ->. exact (Nd (g_inj _ G _ _ _ Hj N)).
  - discriminate.
Qed.

Lemma opening_on d a : opening d a -> on_file d a.
Proof. unfold on_file. destruct a; cbn; tauto. Qed.
Lemma unlinking_on d a : unlinking d a -> on_file d a.
Proof. unfold on_file. destruct a; cbn; tauto. Qed.
Lemma writing_on d i x L a : writing d i x L a -> on_file d a.
Proof. unfold on_file. destruct a; cbn; tauto. Qed.
Lemma dating_on d i a : dating d i a -> on_file d a.
Proof. unfold on_file. destruct a; cbn; tauto. Qed.
Lemma post_on d a : post d a -> on_file d a.
Proof. unfold on_file. tauto. Qed.

Lemma present_ext c c' ps ps' d b t m : names c' d = names c d -> (forall i, names c d = Some (EFile i) -> inodes c' i = inodes c i) ->
  (forall Q : act -> Prop, (forall a, Q a -> on_file d a) -> some ps (hd_is Q) -> some ps' (hd_is Q)) ->
  present c ps d b t m -> present c' ps' d b t m.
Proof.
  intros E1 E2 HS (i & N & P). exists i. rewrite E1, (E2 _ N). split; [exact N|]. cbv zeta in *. destruct P as (P0 & P1 & P2 & P3). split; [exact P0|]. split; [|split].
  - destruct P1 as [P1|P1]; [left; exact P1|right; apply HS; [apply writing_on|exact P1]].
  - destruct P2 as [P2|P2]; [left; exact P2|right; apply HS; [apply dating_on|exact P2]].
  - destruct P3 as [P3|P3]; [left; exact P3|right; apply HS; [apply post_on|exact P3]].
Qed.
Lemma unt1_ext c c' d p : names c' d = names c d -> unt1 c d p -> unt1 c' d p.
Proof. intros E [H|H]; [left; exact H|right]. unfold unt1. rewrite E. exact H. Qed.

(** A step that does not act on the file [d]. *)
Lemma fileI_other c k a r c' k' l bf af d b t m : global c -> procI c (Running k (a :: r)) -> fileplan d b t m -> ~ on_file d a ->
  exec c k a = (c', k', inl l) -> fileI c (bf ++ Running k (a :: r) :: af) d b t m -> fileI c' (bf ++ Running k' (l ++ r) :: af) d b t m.
Proof.
  intros G PI F NF E J. destruct (exec_other _ _ _ _ _ _ _ _ _ _ _ G PI F NF E) as (E1 & E2 & E3).
  assert (HS : forall Q : act -> Prop, (forall x, Q x -> on_file d x) -> some (bf ++ Running k (a :: r) :: af) (hd_is Q) -> some (bf ++ Running k' (l ++ r) :: af) (hd_is Q)).
  { intros Q HQ H. eapply some_step; [exact H|auto|]. intro X. apply hd_inv in X. exfalso. exact (NF (HQ _ X)). }
  destruct J as [U|[A|P]].
  - left. intros p Ip. apply in_mid in Ip as [->|Ip].
    + right. destruct (U (Running k (a :: r))) as [(e & X)|(k0 & todo & X & (y & Iy & Py) & H)]; [apply in_mid; left; reflexivity|discriminate|].
      injection X as <- <-. exists k', (l ++ r). split; [reflexivity|]. split.
      * exists y. destruct Iy as [<-|Iy]; [exfalso; apply NF; left; exact Py|]. split; [apply in_or_app; right; exact Iy|exact Py].
      * intros z Iz. apply in_app_or in Iz as [Iz|Iz].
        -- pose proof (E3 _ Iz) as NZ. repeat split; intro X; exfalso; apply NZ; [apply post_on, X|apply opening_on, X|apply unlinking_on, X].
        -- rewrite E1. apply H. right. exact Iz.
    + apply (unt1_ext c); [exact E1|]. apply U. apply in_mid. right. exact Ip.
  - right; left. destruct A as [N S]. split; [rewrite E1; exact N|]. apply HS; [apply opening_on|exact S].
  - right; right. eapply present_ext; [exact E1|exact E2|exact HS|exact P].
Qed.


Lemma unt_inv c d k todo bf af : untouched c (bf ++ Running k todo :: af) d ->
  (exists a, In a todo /\ pre d a) /\ forall a, In a todo -> ~ post d a /\ ~ opening d a /\ (unlinking d a -> names c d <> None).
Proof.
  intro U. destruct (U (Running k todo)) as [(e & X)|(k0 & todo' & X & H)]; [apply in_mid; left; reflexivity|discriminate|]. injection X as <- <-. exact H.
Qed.
Lemma some_not bf p p' af (Q : act -> Prop) : some (bf ++ p :: af) (hd_is Q) -> ~ hd_is Q p -> some (bf ++ p' :: af) (hd_is Q).
Proof. intros H N. eapply some_step; [exact H|auto|]. intro X. contradiction (N X). Qed.

(** A step on the file [d] itself. *)
Lemma fileI_this c k a r c' k' l bf af d b t m : global c -> procI c (Running k (a :: r)) -> fileplan d b t m -> on_file d a ->
  exec c k a = (c', k', inl l) -> fileI c (bf ++ Running k (a :: r) :: af) d b t m -> fileI c' (bf ++ Running k' (l ++ r) :: af) d b t m.
Proof.
  intros G (Hk & (Hn & Hr) & Hh) F OF E J. inversion Hh as [|y z Ha Hh']; subst y z. unfold on_file in OF.
  destruct a as [p|q ts|p|p|b' t' m' n d'|b' t' m' d'|b' t' m' d'|b' t' m' d'|i off rest t' m' d'|t' m' d'|m' d'|]; cbn [pre post] in OF; try tauto;
    assert (d' = d) by tauto; subst d'; clear OF; cbn [exec] in E; cbn [need] in Hn.
  - (* AFile *)
    assert (ND : isdir (view c) d = false).
    { destruct (isdir (view c) d) eqn:D; [|reflexivity]. apply isdir_view in D. destruct (g_file _ G _ _ _ _ F) as [X|(i & X)]; congruence. }
    rewrite ND in E. injection E as <- <- <-.
    assert (HS : forall Q : act -> Prop, ~ Q (AFile b' t' m' n d) -> some (bf ++ Running k (AFile b' t' m' n d :: r) :: af) (hd_is Q) -> some (bf ++ Running k ([AOld b' t' m' d] ++ r) :: af) (hd_is Q)).
    { intros Q NQ H. eapply some_not; [exact H|]. intro X. apply hd_inv in X. exact (NQ X). }
    destruct J as [U|[[A1 A2]|(i & N & P0 & P1 & P2 & P3)]].
    + left. intros p Ip. apply in_mid in Ip as [->|Ip]; [|apply U; apply in_mid; right; exact Ip].
      apply unt_inv in U as [_ U]. right. exists k, ([AOld b' t' m' d] ++ r). split; [reflexivity|]. split; [exists (AOld b' t' m' d); split; [left; reflexivity|reflexivity]|].
      intros a [<-|Ia]; [cbn; tauto|]. apply U. right. exact Ia.
    + right; left. split; [exact A1|]. apply HS; [cbn; tauto|exact A2].
    + right; right. exists i. split; [exact N|]. split; [exact P0|]. split; [|split].
      * destruct P1 as [P1|P1]; [left; exact P1|right; apply HS; [cbn; tauto|exact P1]].
      * destruct P2 as [P2|P2]; [left; exact P2|right; apply HS; [cbn; tauto|exact P2]].
      * destruct P3 as [P3|P3]; [left; exact P3|right; apply HS; [cbn; tauto|exact P3]].
  - (* AOld *)
    assert (HS : forall x (Q : act -> Prop), ~ Q (AOld b' t' m' d) -> some (bf ++ Running k (AOld b' t' m' d :: r) :: af) (hd_is Q) -> some (bf ++ Running k ([x] ++ r) :: af) (hd_is Q)).
    { intros x Q NQ H. eapply some_not; [exact H|]. intro X. apply hd_inv in X. exact (NQ X). }
    unfold lexists in E. destruct (view c d) as [v|] eqn:Ev; injection E as <- <- <-.
    + assert (Nn : names c d <> None) by (intro X; apply view_none in X; congruence).
      destruct J as [U|[[A1 A2]|(i & N & P0 & P1 & P2 & P3)]].
      * left. intros p Ip. apply in_mid in Ip as [->|Ip]; [|apply U; apply in_mid; right; exact Ip].
        apply unt_inv in U as [_ U]. right. exists k, ([AUnlink b' t' m' d] ++ r). split; [reflexivity|]. split; [exists (AUnlink b' t' m' d); split; [left; reflexivity|reflexivity]|].
        intros a [<-|Ia]; [cbn; tauto|]. apply U. right. exact Ia.
      * contradiction.
      * right; right. exists i. split; [exact N|]. split; [exact P0|]. split; [|split].
        -- destruct P1 as [P1|P1]; [left; exact P1|right; apply HS; [cbn; tauto|exact P1]].
        -- destruct P2 as [P2|P2]; [left; exact P2|right; apply HS; [cbn; tauto|exact P2]].
        -- destruct P3 as [P3|P3]; [left; exact P3|right; apply HS; [cbn; tauto|exact P3]].
    + apply view_none in Ev. right; left. split; [exact Ev|]. apply some_new, hd_mk. reflexivity.
  - (* AUnlink *)
    destruct (names c d) as [[|i]|]; try discriminate. injection E as <- <- <-. right; left. split; [apply names_same|]. apply some_new, hd_mk. reflexivity.
  - (* AOpen *)
    destruct d as [|n q]; [discriminate|]. destruct (walk_error _ _); [discriminate|]. right; right.
    destruct (names c (n :: q)) as [[|i]|] eqn:N; try discriminate; injection E as <- <- <-.
    + exists i. split; [exact N|]. cbv zeta. rewrite ino_same. cbn [i_bytes i_mtime i_mode length]. split; [lia|].
      split; [right; apply some_new, hd_mk; cbn; repeat split; intros j Hj; lia|]. split; right; apply some_new, hd_mk; cbn; auto.
    + exists (next c). split; [apply new_same|]. cbv zeta. cbn [new_file inodes]. rewrite Nat.eqb_refl. cbn [i_bytes i_mtime i_mode length]. split; [lia|].
      split; [right; apply some_new, hd_mk; cbn; repeat split; intros j Hj; lia|]. split; right; apply some_new, hd_mk; cbn; auto.
  - (* AWrite *)
    destruct Hn as (b0 & F0 & Er & Lo). destruct (fileplan_det _ _ _ _ _ _ _ F F0) as (<- & <- & <-).
    destruct J as [U|J]; [exfalso; apply unt_inv in U as [_ U]; destruct (U _ (or_introl eq_refl)) as (X & _); apply X; reflexivity|].
    destruct rest as [|y rest].
    + injection E as <- <- <-. assert (Eo : off = length (list_ascii_of_string b)).
      { assert (L : length (@nil ascii) = length (list_ascii_of_string b) - off) by (rewrite Er; apply skipn_length). cbn in L. lia. }
      destruct J as [[A1 A2]|(j & N & P0 & P1 & P2 & P3)].
      * right; left. split; [exact A1|]. eapply some_not; [exact A2|]. intro X. apply hd_inv in X. exact X.
      * right; right. exists j. split; [exact N|]. split; [exact P0|]. split; [|split].
        -- destruct P1 as [P1|P1]; [left; exact P1|]. destruct P1 as (p & Ip & Hp). apply in_mid in Ip as [->|Ip].
           ++ apply hd_inv in Hp. destruct Hp as (_ & _ & Hp). left. apply agree_full; [exact P0|]. rewrite <- Eo. exact Hp.
           ++ right. exists p. split; [apply in_mid; right; exact Ip|exact Hp].
        -- destruct P2 as [P2|P2]; [left; exact P2|right]. eapply some_step; [exact P2|auto|]. intros _. apply hd_mk. reflexivity.
        -- destruct P3 as [P3|P3]; [left; exact P3|right]. eapply some_step; [exact P3|auto|]. intros _. apply hd_mk. reflexivity.
    + injection E as <- <- <-. pose proof (skipn_cons_nth _ _ _ _ Er) as Ey. assert (Lo' : off < length (list_ascii_of_string b)) by (apply nth_error_Some; congruence).
      destruct J as [[A1 A2]|(j & N & P0 & P1 & P2 & P3)].
      * right; left. split; [exact A1|]. eapply some_not; [exact A2|]. intro X. apply hd_inv in X. exact X.
      * right; right. exists j. split; [exact N|]. cbv zeta. destruct (Nat.eq_dec j i) as [->|Nj].
        -- rewrite ino_same. cbn [i_bytes i_mtime i_mode]. split; [rewrite length_write; lia|]. split; [|split].
           ++ destruct P1 as [P1|P1]; [left; rewrite P1; apply write_full, Ey|right]. destruct P1 as (p & Ip & Hp). apply in_mid in Ip as [->|Ip].
              ** apply hd_inv in Hp. destruct Hp as (_ & _ & Hp). apply some_new, hd_mk. cbn. repeat split. apply write_next; assumption.
              ** exists p. split; [apply in_mid; right; exact Ip|]. destruct Hp as (k1 & a1 & r1 & -> & Hp). apply hd_mk. destruct a1; cbn in Hp |- *; try contradiction. destruct Hp as (-> & -> & Hp). repeat split.
                 intros x Hx. destruct (Nat.lt_ge_cases x (length (list_ascii_of_string b))) as [Lx|Gx].
                 --- apply (write_keeps (list_ascii_of_string b) off y _ (S x)); [exact Ey|lia| |lia]. intros z Hz. apply Hp. lia.
                 --- rewrite nth_write. destruct (Nat.eqb_spec x off); [lia|]. destruct (Nat.ltb_spec x off); [lia|]. apply Hp, Hx.
           ++ right. apply some_new, hd_mk. cbn. auto.
           ++ destruct P3 as [P3|P3]; [left; exact P3|right]. eapply some_step; [exact P3|auto|]. intros _. apply hd_mk. reflexivity.
        -- rewrite ino_other by exact Nj. split; [exact P0|]. split; [|split].
           ++ destruct P1 as [P1|P1]; [left; exact P1|right]. eapply some_not; [exact P1|]. intro X. apply hd_inv in X. destruct X as (X & _). congruence.
           ++ destruct P2 as [P2|P2]; [left; exact P2|right]. eapply some_not; [exact P2|]. intro X. apply hd_inv in X. destruct X as (X & _). congruence.
           ++ destruct P3 as [P3|P3]; [left; exact P3|right]. eapply some_step; [exact P3|auto|]. intros _. apply hd_mk. reflexivity.
  - (* ATime *)
    destruct Hn as (b0 & F0). destruct (fileplan_det _ _ _ _ _ _ _ F F0) as (<- & <- & <-).
    destruct J as [U|J]; [exfalso; apply unt_inv in U as [_ U]; destruct (U _ (or_introl eq_refl)) as (X & _); apply X; reflexivity|].
    destruct J as [[A1 A2]|(j & N & P0 & P1 & P2 & P3)]; [rewrite A1 in E; discriminate|]. rewrite N in E. injection E as <- <- <-.
    right; right. exists j. split; [exact N|]. cbv zeta. rewrite ino_same. cbn [i_bytes i_mtime i_mode]. split; [exact P0|]. split; [|split].
    + destruct P1 as [P1|P1]; [left; exact P1|right]. eapply some_not; [exact P1|]. intro X. apply hd_inv in X. exact X.
    + left. reflexivity.
    + destruct P3 as [P3|P3]; [left; exact P3|right]. eapply some_step; [exact P3|auto|]. intros _. apply hd_mk. reflexivity.
  - (* AMode *)
    destruct Hn as (b0 & t0 & F0). destruct (fileplan_det _ _ _ _ _ _ _ F F0) as (<- & <- & <-).
    destruct J as [U|J]; [exfalso; apply unt_inv in U as [_ U]; destruct (U _ (or_introl eq_refl)) as (X & _); apply X; reflexivity|].
    destruct J as [[A1 A2]|(j & N & P0 & P1 & P2 & P3)]; [rewrite A1 in E; discriminate|]. rewrite N in E. injection E as <- <- <-.
    right; right. exists j. split; [exact N|]. cbv zeta. rewrite ino_same. cbn [i_bytes i_mtime i_mode]. split; [exact P0|]. split; [|split].
    + destruct P1 as [P1|P1]; [left; exact P1|right]. eapply some_not; [exact P1|]. intro X. apply hd_inv in X. exact X.
    + destruct P2 as [P2|P2]; [left; exact P2|right]. eapply some_not; [exact P2|]. intro X. apply hd_inv in X. exact X.
    + left. reflexivity.
Qed.

(** A process ends by itself, or raises. *)
Lemma fileI_end c k bf af d b t m : fileI c (bf ++ Running k [] :: af) d b t m -> fileI c (bf ++ Ended Returns :: af) d b t m.
Proof.
  intros [U|[[A1 A2]|P]].
  - exfalso. apply unt_inv in U as [(a & [] & _) _].
  - right; left. split; [exact A1|]. eapply some_not; [exact A2|]. intros (k' & a & r & X & _). discriminate.
  - right; right. eapply present_ext; [reflexivity|reflexivity| |exact P]. intros Q _ H. eapply some_not; [exact H|]. intros (k' & a & r & X & _). discriminate.
Qed.
Lemma fileI_raise c k a r e bf af d b t m : lost c a e ->
  fileI c (bf ++ Running k (a :: r) :: af) d b t m -> fileI c (bf ++ Ended (Raises e) :: af) d b t m.
Proof.
  intros (d' & Nd & La) [U|[[A1 A2]|(i & N & P)]].
  - left. intros p Ip. apply in_mid in Ip as [->|Ip]; [left; eexists; reflexivity|]. apply U, in_mid. right. exact Ip.
  - right; left. split; [exact A1|]. eapply some_not; [exact A2|]. intro X. apply hd_inv in X.
    destruct La as [(b1 & t1 & m1 & -> & _)|[(t1 & m1 & -> & _)|(m1 & -> & _)]]; exact X.
  - assert (HS : forall Q : act -> Prop, (forall x, Q x -> post d x) -> some (bf ++ Running k (a :: r) :: af) (hd_is Q) -> some (bf ++ Ended (Raises e) :: af) (hd_is Q)).
    { intros Q HQ H. eapply some_not; [exact H|]. intro X. apply hd_inv in X. apply HQ in X.
      destruct La as [(b1 & t1 & m1 & -> & _)|[(t1 & m1 & -> & _)|(m1 & -> & _)]]; cbn in X; subst; try contradiction; congruence. }
    right; right. exists i. split; [exact N|]. cbv zeta in *. destruct P as (P0 & P1 & P2 & P3). split; [exact P0|]. split; [|split].
    + destruct P1 as [P1|P1]; [left; exact P1|right; apply HS; [|exact P1]]. intros x Hx. destruct x; cbn in *; tauto.
    + destruct P2 as [P2|P2]; [left; exact P2|right; apply HS; [|exact P2]]. intros x Hx. destruct x; cbn in *; tauto.
    + destruct P3 as [P3|P3]; [left; exact P3|right; apply HS; [|exact P3]]. auto.
Qed.

(** ** The whole invariant *)
Definition dirI (c : cfs) (ps : list proc) (p : path) : Prop :=
  isD c p \/ forall q, In q ps -> raised q \/ exists k todo, q = Running k todo /\ mades todo p.
Record inv (c0 c : cfs) (ps : list proc) : Prop := {
  v_global : global c;
  v_proc : forall p, In p ps -> procI c p;
  v_file : forall d b t m, fileplan d b t m -> fileI c ps d b t m;
  v_dir : forall p, dirplan p -> dirI c ps p;
  v_some : some ps (fun p => ~ raised p);
  v_else : elsewhere_same c0 c;
  v_errors : forall e, In (Ended (Raises e)) ps -> e = DistutilsFileError \/ e = FileNotFoundError }.

Lemma on_file_dec d a : {on_file d a} + {~ on_file d a}.
Proof.
  unfold on_file. destruct a; cbn; try (right; tauto);
    match goal with |- context [?x = d] => destruct (list_eq_dec string_dec x d) as [->|N]; [left; tauto|right; tauto] end.
Qed.

Lemma else_trans c0 c c' : elsewhere_same c0 c -> elsewhere_same c c' -> elsewhere_same c0 c'.
Proof.
  intros H H' p O. destruct (H p O) as [E1 E2]. destruct (H' p O) as [E1' E2']. split; [congruence|]. intros i Hi. rewrite (E2' i), (E2 i); [reflexivity|exact Hi|congruence].
Qed.

Lemma inv_step c0 c ps c' ps' : inv c0 c ps -> inst_step (c, ps) (c', ps') -> inv c0 c' ps'.
Proof.
  intros V S. inversion S as [x1 x2 p p' bf af Hs E1 E2]; subst.
  assert (Ip : In p (bf ++ p :: af)) by (apply in_mid; left; reflexivity).
  destruct p as [k [|a r]|o]; cbn [proc_step] in Hs; [| |discriminate].
  - injection Hs as <- <-. constructor.
    + exact (v_global _ _ _ V).
    + intros p I'. apply in_mid in I' as [->|I']; [exact I|]. apply (v_proc _ _ _ V), in_mid. right; exact I'.
    + intros d b t m F. eapply fileI_end, (v_file _ _ _ V), F.
    + intros p D. destruct (v_dir _ _ _ V p D) as [X|X]; [left; exact X|]. exfalso.
      destruct (X _ Ip) as [(e & Y)|(k0 & todo & Y & (a & Ia & _))]; [discriminate|]. injection Y as <- <-. destruct Ia.
    + apply some_new. intros (e & X). discriminate.
    + exact (v_else _ _ _ V).
    + intros e I'. apply in_mid in I' as [I'|I']; [discriminate|]. apply (v_errors _ _ _ V), in_mid. right; exact I'.
  - destruct (exec c k a) as [[c1 k1] res] eqn:Ee. pose proof (v_proc _ _ _ V _ Ip) as PI.
    destruct (exec_inv _ _ _ _ _ _ _ (v_global _ _ _ V) PI Ee) as [EV R]. destruct res as [l|e].
    + injection Hs as <- <-. destruct R as [R1 R2]. constructor.
      * exact (e_global _ _ EV).
      * intros p I'. apply in_mid in I' as [->|I']; [exact R1|]. eapply procI_evolves; [exact EV|]. apply (v_proc _ _ _ V), in_mid. right; exact I'.
      * intros d b t m F. pose proof (v_file _ _ _ V _ _ _ _ F) as J. destruct (on_file_dec d a) as [OF|NF].
        -- eapply fileI_this; [exact (v_global _ _ _ V)|exact PI|exact F|exact OF|exact Ee|exact J].
        -- eapply fileI_other; [exact (v_global _ _ _ V)|exact PI|exact F|exact NF|exact Ee|exact J].
      * intros p D. destruct (v_dir _ _ _ V p D) as [X|X]; [left; exact (e_dirs _ _ EV _ X)|].
        destruct (X _ Ip) as [(e & Y)|(k0 & todo & Y & (a' & Ia & Ma))]; [discriminate|]. injection Y as <- <-.
        assert (Z : isD c1 p \/ mades (l ++ r) p).
        { destruct Ia as [<-|Ia]; [|right; exists a'; split; [apply in_or_app; right; exact Ia|exact Ma]]. destruct (R2 _ Ma) as [Z|(a' & Ia & Ma')]; [left; exact Z|right; exists a'; split; [apply in_or_app; left; exact Ia|exact Ma']]. }
        destruct Z as [Z|Z]; [left; exact Z|right]. intros q Iq. apply in_mid in Iq as [->|Iq]; [right; exists k1, (l ++ r); split; [reflexivity|exact Z]|]. apply X, in_mid. right; exact Iq.
      * apply some_new. intros (e & X). discriminate.
      * eapply else_trans; [exact (v_else _ _ _ V)|exact (e_else _ _ EV)].
      * intros e I'. apply in_mid in I' as [I'|I']; [discriminate|]. apply (v_errors _ _ _ V), in_mid. right; exact I'.
    + injection Hs as <- <-. destruct R as [-> La]. constructor.
      * exact (v_global _ _ _ V).
      * intros p I'. apply in_mid in I' as [->|I']; [exact I|]. apply (v_proc _ _ _ V), in_mid. right; exact I'.
      * intros d b t m F. eapply fileI_raise; [exact La|]. apply (v_file _ _ _ V), F.
      * intros p D. destruct (v_dir _ _ _ V p D) as [X|X]; [left; exact X|right]. intros q Iq. apply in_mid in Iq as [->|Iq]; [left; eexists; reflexivity|]. apply X, in_mid. right; exact Iq.
      * (* another process is about to create the file again *)
        assert (FF : exists d b t m, names c d = None /\ fileplan d b t m /\ on_file d a /\ ~ opening d a).
        { destruct PI as (_ & (Hn & _) & _). destruct La as (d & Nd & [(b1 & t1 & m1 & -> & _)|[(t1 & m1 & -> & _)|(m1 & -> & _)]]); cbn [need] in Hn.
          - exists d, b1, t1, m1. split; [exact Nd|]. split; [apply Hn|]. split; [left; reflexivity|cbn; tauto].
          - destruct Hn as (b & Hn). exists d, b, t1, m1. split; [exact Nd|]. split; [exact Hn|]. split; [right; reflexivity|cbn; tauto].
          - destruct Hn as (b & t & Hn). exists d, b, t, m1. split; [exact Nd|]. split; [exact Hn|]. split; [right; reflexivity|cbn; tauto]. }
        destruct FF as (d & b & t & m & Nd & F & OF & NO). destruct (v_file _ _ _ V _ _ _ _ F) as [U|[[A1 A2]|(i & N & _)]]; [exfalso| |congruence].
        -- apply unt_inv in U as [_ U]. destruct (U a (or_introl eq_refl)) as (U1 & U2 & U3). destruct La as (d' & Nd' & La).
           destruct La as [(b1 & t1 & m1 & -> & _)|[(t1 & m1 & -> & _)|(m1 & -> & _)]]; destruct OF as [OF|OF]; cbn in OF; first [contradiction|subst d'; exact (U3 eq_refl Nd)|subst d'; exact (U1 eq_refl)].
        -- destruct A2 as (p & I' & Hp). apply in_mid in I' as [->|I']; [apply hd_inv in Hp; contradiction|]. exists p. split; [apply in_mid; right; exact I'|]. intros (e' & ->). destruct Hp as (k' & a' & r' & X & _). discriminate.
      * exact (v_else _ _ _ V).
      * intros e' I'. apply in_mid in I' as [I'|I']; [|apply (v_errors _ _ _ V), in_mid; right; exact I']. injection I' as ->.
        destruct La as (d & _ & [(b1 & t1 & m1 & _ & ->)|[(t1 & m1 & _ & ->)|(m1 & _ & ->)]]); [left|right|right]; reflexivity.
Qed.
Lemma inv_run c0 s s' : inst_run s s' -> inv c0 (fst s) (snd s) -> inv c0 (fst s') (snd s').
Proof. intros R V. induction R as [|s s' s'' R IH S]; [exact V|]. destruct s' as [c ps], s'' as [c' ps']. exact (inv_step _ _ _ _ _ (IH V) S). Qed.
End Inv.
