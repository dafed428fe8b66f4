(** * P_Install: several processes installing at the same time (C120). *)
From Coq Require Import String Ascii List Bool ZArith Lia.
From Verif Require Import FsModel SpecFs FsProofs FsProofs2 P_Fs InstallModel InstallProofs.
Import ListNotations.
Local Open Scope list_scope.

(** ** Specification *)
(** A real file system without hard links: directories form a tree, different names are
    different files, and a new file is really new. *)
Definition sound (c : cfs) : Prop :=
  wf (view c) /\ (forall p i, names c p = Some (EFile i) -> i < next c) /\
  (forall p p' i, names c p = Some (EFile i) -> names c p' = Some (EFile i) -> p = p').
(** Processes that are about to execute [prog]; what distutils remembers in them (directories
    created before) is there. *)
Definition starting (c : cfs) (prog : list act) (ps : list proc) : Prop :=
  ps <> [] /\ forall p, In p ps -> exists k, p = Running k prog /\ forall x, In x k -> names c x = Some EDir.
Definition all_ended (ps : list proc) : Prop := forall p, In p ps -> exists o, p = Ended o.
(** Only paths of the installed tree [B] differ, and missing directories above may be there. *)
Definition only_installed (f : fs) (dest : path) (B : tree) (f' : fs) : Prop :=
  forall p, ~ above p dest -> (forall q u, packaged B q u -> p <> sub dest q) -> f' p = f p.
(** Runs counted by their length. *)
Inductive inst_steps : nat -> cfs * list proc -> cfs * list proc -> Prop :=
| steps_0 s : inst_steps 0 s s
| steps_S n s s' s'' : inst_step s s' -> inst_steps n s' s'' -> inst_steps (S n) s s''.

(** ** Proofs *)
Section Gen.
Context (dest : path) (B : tree) (OK : tree_ok B) (DB : is_dir_tree B) (prog : list act)
  (PR : forall K : path -> Prop, ready dest B K prog)
  (PF : forall q b t m, packaged B q (TFile b t m) -> exists n, In (AFile b t m n (sub dest q)) prog)
  (PD : forall p, dirplan dest B p -> mades prog p)
  (PS : forall a, In a prog -> (exists p, a = AMkpath p) \/ (exists b t m n d, a = AFile b t m n d)).

Lemma inv_init c ps : sound c -> fits (view c) dest B -> starting c prog ps -> inv dest B c c ps.
Proof.
  intros (W & L & J) (F1 & F2) (Ne & S). constructor.
  - constructor; [exact W|exact L|exact J| |].
    + intros p [A|(q & l & P & ->)].
      * destruct (F1 p A) as [X|X]; [left; apply view_none, X|right; apply view_dir, X].
      * specialize (F2 _ _ P). unfold isD. destruct (view c (sub dest q)) as [[|]|] eqn:E; cbn in F2; [right; apply view_dir, E|contradiction|left; apply view_none, E].
    + intros d b t m (q & P & ->). specialize (F2 _ _ P). destruct (view c (sub dest q)) as [[|]|] eqn:E; cbn in F2; [contradiction| |left; apply view_none, E].
      unfold view in E. destruct (names c (sub dest q)) as [[|i]|]; try discriminate. right. exists i. reflexivity.
  - intros p Ip. destruct (S p Ip) as (k & -> & Hk). split; [exact Hk|]. split; [apply PR|]. apply Forall_forall. intros a Ia.
    destruct (PS a Ia) as [(x & ->)|(b & t & m & n & d & ->)]; exact I.
  - intros d b t m (q & P & ->). left. intros p Ip. destruct (S p Ip) as (k & -> & Hk). right. exists k, prog. split; [reflexivity|]. split.
    + destruct (PF _ _ _ _ P) as (n & In'). eexists. split; [exact In'|reflexivity].
    + intros a Ia. destruct (PS a Ia) as [(x & ->)|(b' & t' & m' & n & d & ->)]; cbn; tauto.
  - intros p D. right. intros q Iq. destruct (S q Iq) as (k & -> & Hk). right. exists k, prog. split; [reflexivity|]. apply PD, D.
  - destruct ps as [|p ps]; [contradiction Ne; reflexivity|]. exists p. split; [left; reflexivity|]. intros (e & E). destruct (S p (or_introl eq_refl)) as (k & X & _). congruence.
  - intros p _. split; reflexivity.
  - intros e Ie. destruct (S _ Ie) as (k & X & _). discriminate.
Qed.

Lemma outside_spec p : ~ above p dest -> (forall q u, packaged B q u -> p <> sub dest q) -> outside dest B p.
Proof.
  intros A H. split.
  - intros [X|(q & l & P & ->)]; [exact (A X)|exact (H _ _ P eq_refl)].
  - intros b t m (q & P & ->). exact (H _ _ P eq_refl).
Qed.
Lemma inv_only c0 c ps : inv dest B c0 c ps -> only_installed (view c0) dest B (view c).
Proof.
  intros V p A H. destruct (v_else _ _ _ _ _ V p (outside_spec p A H)) as [E1 E2]. unfold view. rewrite E1.
  destruct (names c0 p) as [[|i]|]; [reflexivity| |reflexivity]. rewrite (E2 i eq_refl). reflexivity.
Qed.
Lemma inv_fits c0 c ps : inv dest B c0 c ps -> fits (view c) dest B.
Proof.
  intro V. pose proof (v_global _ _ _ _ _ V) as G. split.
  - intros p A. destruct (g_dir _ _ _ G p (or_introl A)) as [X|X]; [left; apply view_none, X|right; apply view_dir, X].
  - intros q [b t m|l] P.
    + destruct (g_file _ _ _ G (sub dest q) b t m (ex_intro _ q (conj P eq_refl))) as [X|(i & X)].
      * apply view_none in X. rewrite X. exact I.
      * unfold view. rewrite X. exact I.
    + destruct (g_dir _ _ _ G (sub dest q)) as [X|X]; [right; exists q, l; split; [exact P|reflexivity]| |].
      * apply view_none in X. rewrite X. exact I.
      * apply view_dir in X. rewrite X. exact I.
Qed.
Lemma hd_ended ps Q : all_ended ps -> ~ some ps (hd_is Q).
Proof. intros A (p & Ip & k & a & r & -> & _). destruct (A _ Ip) as (o & X). discriminate. Qed.
Lemma inv_done c0 c ps : inv dest B c0 c ps -> all_ended ps -> In (Ended Returns) ps /\ copied (view c0) dest B (view c).
Proof.
  intros V A. assert (R : In (Ended Returns) ps).
  { destruct (v_some _ _ _ _ _ V) as (p & Ip & N). destruct (A _ Ip) as ([|e] & ->); [exact Ip|]. exfalso. apply N. exists e. reflexivity. }
  split; [exact R|].
  assert (DD : forall p, dirplan dest B p -> view c p = Some Dir).
  { intros p D. apply view_dir. destruct (v_dir _ _ _ _ _ V p D) as [X|X]; [exact X|]. exfalso. destruct (X _ R) as [(e & Y)|(k & todo & Y & _)]; discriminate. }
  split; [|split].
  - intros q [b t m|l] P; [|apply DD; right; exists q, l; split; [exact P|reflexivity]].
    destruct (v_file _ _ _ _ _ V (sub dest q) b t m (ex_intro _ q (conj P eq_refl))) as [U|[[_ S]|(i & N & _ & P1 & P2 & P3)]].
    + exfalso. destruct (U _ R) as [(e & Y)|(k & todo & Y & _)]; discriminate.
    + contradiction (hd_ended _ _ A S).
    + unfold view. rewrite N. cbn [on_disk].
      destruct P1 as [->|S]; [|contradiction (hd_ended _ _ A S)]. destruct P2 as [->|S]; [|contradiction (hd_ended _ _ A S)]. destruct P3 as [->|S]; [|contradiction (hd_ended _ _ A S)].
      rewrite string_of_list_ascii_of_string. reflexivity.
  - intros p Hp. apply DD. left. exact Hp.
  - exact (inv_only _ _ _ V).
Qed.
End Gen.

(** The two programs. *)
Lemma tree_ok_bundle ex da : tree_ok ex -> tree_ok da -> tree_ok (bundle ex da).
Proof.
  intros O1 O2. constructor; [cbn; repeat constructor; cbn; intuition discriminate|]. intros n s [E|[E|[]]]; injection E as <- <-; assumption.
Qed.
Section Examples.
Context (ex da : tree) (dest : path) (Oe : tree_ok ex) (De : is_dir_tree ex) (Od : tree_ok da) (Dd : is_dir_tree da).
Let B := bundle ex da.
Lemma ex_in q u : packaged ex q u -> packaged B ("examples"%string :: q) u.
Proof. intro P. apply packaged_bundle. right; left. exists q. split; [reflexivity|exact P]. Qed.
Lemma da_in q u : packaged da q u -> packaged B ("data"%string :: q) u.
Proof. intro P. apply packaged_bundle. right; right. exists q. split; [reflexivity|exact P]. Qed.
Lemma ex_ready (K : path -> Prop) : ready dest B K (examples_acts ex da dest).
Proof.
  apply ready_app.
  - apply (ready_tree dest B ex _ ["examples"%string]); [exact (ex_in [] ex (packaged_here ex))|reflexivity|exact De].
  - apply (ready_tree dest B da _ ["data"%string]); [exact (da_in [] da (packaged_here da))|reflexivity|exact Dd].
Qed.
Lemma ex_files q b t m : packaged B q (TFile b t m) -> exists n, In (AFile b t m n (sub dest q)) (examples_acts ex da dest).
Proof.
  intro P. apply packaged_bundle in P as [[_ X]|[(q' & -> & P)|(q' & -> & P)]]; [discriminate| |]; rewrite sub_cons.
  - destruct (acts_file ex ("examples"%string :: dest) q' b t m De P) as (n & H). exists n. apply in_or_app. left. exact H.
  - destruct (acts_file da ("data"%string :: dest) q' b t m Dd P) as (n & H). exists n. apply in_or_app. right. exact H.
Qed.
Lemma ex_dirs p : dirplan dest B p -> mades (examples_acts ex da dest) p.
Proof.
  destruct De as (le & Ee).
  assert (T : forall x, above x dest -> mades (examples_acts ex da dest) x).
  { intros x A. exists (AMkpath ("examples"%string :: dest)). split; [|cbn; apply above_cons; right; exact A].
    apply in_or_app. left. apply (acts_dir ex ("examples"%string :: dest) [] le). rewrite Ee. constructor. }
  intros [A|(q & l & P & ->)]; [exact (T _ A)|]. apply packaged_bundle in P as [[-> _]|[(q' & -> & P)|(q' & -> & P)]].
  - apply T, above_refl.
  - rewrite sub_cons. eexists. split; [apply in_or_app; left; apply (acts_dir ex _ q' l P)|]. cbn. apply above_refl.
  - rewrite sub_cons. eexists. split; [apply in_or_app; right; apply (acts_dir da _ q' l P)|]. cbn. apply above_refl.
Qed.
Lemma ex_static a : In a (examples_acts ex da dest) -> (exists p, a = AMkpath p) \/ (exists b t m n d, a = AFile b t m n d).
Proof. intro H. apply in_app_or in H as [H|H]; [exact (acts_static _ _ _ De H)|exact (acts_static _ _ _ Dd H)]. Qed.
End Examples.

(** C120: any number of processes call install_examples(dest) at the same time and perform
    their system calls in any order.  When all of them have ended, at least one of them has
    returned, and the result is exactly that of one undisturbed installation; the only
    exceptions are DistutilsFileError and FileNotFoundError. *)
Theorem C120_concurrent_installs ex da dest c0 ps0 c ps :
  tree_ok ex -> is_dir_tree ex -> tree_ok da -> is_dir_tree da ->
  sound c0 -> fits (view c0) dest (bundle ex da) -> starting c0 (examples_acts ex da dest) ps0 ->
  inst_run (c0, ps0) (c, ps) -> all_ended ps ->
  In (Ended Returns) ps /\ copied (view c0) dest (bundle ex da) (view c) /\
  forall o, In (Ended o) ps -> o = Returns \/ o = Raises DistutilsFileError \/ o = Raises FileNotFoundError.
Proof.
  intros Oe De Od Dd So Fi St R A. pose proof (tree_ok_bundle _ _ Oe Od) as OB. assert (DB : is_dir_tree (bundle ex da)) by (eexists; reflexivity).
  pose proof (inv_run dest _ OB DB c0 _ _ R (inv_init dest _ _ (ex_ready ex da dest De Dd) (ex_files ex da dest De Dd) (ex_dirs ex da dest De) (ex_static ex da dest De Dd) c0 ps0 So Fi St)) as V.
  cbn [fst snd] in V. destruct (inv_done dest _ _ _ _ V A) as [H1 H2]. split; [exact H1|]. split; [exact H2|].
  intros [|e] H; [left; reflexivity|right]. destruct (v_errors _ _ _ _ _ V _ H) as [->| ->]; [left|right]; reflexivity.
Qed.
(** The same for install_rfsed_tests. *)
Theorem C120_concurrent_test_installs tests dest c0 ps0 c ps :
  tree_ok tests -> is_dir_tree tests -> sound c0 -> fits (view c0) dest tests -> starting c0 (tests_acts tests dest) ps0 ->
  inst_run (c0, ps0) (c, ps) -> all_ended ps ->
  In (Ended Returns) ps /\ copied (view c0) dest tests (view c) /\
  forall o, In (Ended o) ps -> o = Returns \/ o = Raises DistutilsFileError \/ o = Raises FileNotFoundError.
Proof.
  intros OB DB So Fi St R A.
  assert (V : inv dest tests c0 c ps).
  { refine (inv_run dest _ OB DB c0 (c0, ps0) (c, ps) R _). apply (inv_init dest tests (tests_acts tests dest)); try assumption.
    - intro K. apply (ready_tree dest tests tests dest []); [constructor|reflexivity|exact DB].
    - intros q b t m P. exact (acts_file _ _ _ _ _ _ DB P).
    - destruct DB as (l0 & E0). intros p [Hp|(q & l & P & ->)].
      + exists (AMkpath dest). split; [apply (acts_dir tests dest [] l0); rewrite E0; constructor|exact Hp].
      + eexists. split; [exact (acts_dir tests dest q l P)|]. apply above_refl.
    - intros a H. exact (acts_static _ _ _ DB H). }
  destruct (inv_done dest _ _ _ _ V A) as [H1 H2]. split; [exact H1|]. split; [exact H2|].
  intros [|e] H; [left; reflexivity|right]. destruct (v_errors _ _ _ _ _ V _ H) as [->| ->]; [left|right]; reflexivity.
Qed.

(** At every moment (so also if processes are killed there): nothing but the installed paths
    has changed, and one more installation, alone, gives exactly the result of an undisturbed
    one. *)
Theorem C120_killed ex da dest c0 ps0 c ps :
  tree_ok ex -> is_dir_tree ex -> tree_ok da -> is_dir_tree da ->
  sound c0 -> fits (view c0) dest (bundle ex da) -> starting c0 (examples_acts ex da dest) ps0 ->
  inst_run (c0, ps0) (c, ps) ->
  only_installed (view c0) dest (bundle ex da) (view c) /\
  exists w w0, install_examples ex da dest (World (view c) [] None) = (Returns, w) /\
    install_examples ex da dest (World (view c0) [] None) = (Returns, w0) /\ forall p, w_fs w p = w_fs w0 p.
Proof.
  intros Oe De Od Dd So Fi St R. pose proof (tree_ok_bundle _ _ Oe Od) as OB. assert (DB : is_dir_tree (bundle ex da)) by (eexists; reflexivity).
  pose proof (inv_run dest _ OB DB c0 _ _ R (inv_init dest _ _ (ex_ready ex da dest De Dd) (ex_files ex da dest De Dd) (ex_dirs ex da dest De) (ex_static ex da dest De Dd) c0 ps0 So Fi St)) as V.
  cbn [fst snd] in V. pose proof (inv_only dest _ _ _ _ V) as O. split; [exact O|].
  destruct (C55_install_examples ex da dest (World (view c) [] None) Oe De Od Dd (g_wf _ _ _ (v_global _ _ _ _ _ V)) (fun p H => match H with end) eq_refl (inv_fits dest _ _ _ _ V)) as (w & E & C & _).
  destruct (C55_install_examples ex da dest (World (view c0) [] None) Oe De Od Dd (proj1 So) (fun p H => match H with end) eq_refl Fi) as (w0 & E0 & C0 & _).
  exists w, w0. split; [exact E|]. split; [exact E0|]. eapply copied_det; [exact C0|exact C|]. cbn [w_fs]. exact O.
Qed.

(** One process alone does what the sequential model of FsModel.v says. *)
Theorem C120_alone ex da dest c0 k c o :
  tree_ok ex -> is_dir_tree ex -> tree_ok da -> is_dir_tree da ->
  sound c0 -> fits (view c0) dest (bundle ex da) -> (forall x, In x k -> names c0 x = Some EDir) ->
  inst_run (c0, [Running k (examples_acts ex da dest)]) (c, [Ended o]) ->
  exists w, install_examples ex da dest (World (view c0) k None) = (o, w) /\ forall p, view c p = w_fs w p.
Proof.
  intros Oe De Od Dd So Fi Hk R.
  destruct (C120_concurrent_installs ex da dest c0 [Running k (examples_acts ex da dest)] c [Ended o] Oe De Od Dd So Fi) as (H1 & H2 & _).
  - split; [discriminate|]. intros p [<-|[]]. exists k. split; [reflexivity|exact Hk].
  - exact R.
  - intros p [<-|[]]. exists o. reflexivity.
  - destruct H1 as [H1|[]]. injection H1 as ->.
    destruct (C55_install_examples ex da dest (World (view c0) k None) Oe De Od Dd (proj1 So) (fun p H => proj2 (view_dir c0 p) (Hk p H)) eq_refl Fi) as (w & E & C & _).
    exists w. split; [exact E|]. eapply copied_det; [exact C|exact H2|]. intros p _ _. reflexivity.
Qed.

(** ** Termination *)
Definition weight (a : act) : nat :=
  match a with
  | AMkpath p => 4 + 3 * length p
  | AScan q ts => 1 + 3 * length q + 2 * length ts
  | AMake _ => 2
  | AIsdir _ | AMode _ _ | ARaise => 1
  | AFile b _ _ _ _ => 7 + length (list_ascii_of_string b)
  | AOld b _ _ _ => 6 + length (list_ascii_of_string b)
  | AUnlink b _ _ _ => 5 + length (list_ascii_of_string b)
  | AOpen b _ _ _ => 4 + length (list_ascii_of_string b)
  | AWrite _ _ rest _ _ _ => 3 + length rest
  | ATime _ _ _ => 2
  end.
Definition weights (l : list act) : nat := list_sum (map weight l).
Definition pweight (p : proc) : nat := match p with Running _ l => S (weights l) | Ended _ => 0 end.
Lemma weights_app l l' : weights (l ++ l') = weights l + weights l'.
Proof. unfold weights. rewrite map_app, list_sum_app. reflexivity. Qed.
Lemma sum_cons x l : list_sum (x :: l) = x + list_sum l.
Proof. reflexivity. Qed.
Lemma weights_makes ts : weights (map AMake ts) = 2 * length ts.
Proof. unfold weights. induction ts as [|x ts IH]; [reflexivity|]. cbn [map length]. rewrite sum_cons, IH. cbn [weight]. lia. Qed.
Lemma exec_weight c k a c' k' l : exec c k a = (c', k', inl l) -> weights l < weight a.
Proof.
  intro E. destruct a as [p|q ts|p|p|b t m n d|b t m d|b t m d|b t m d|i off rest t m d|t m d|m d|]; cbn [exec] in E.
  - destruct (isdir _ _); [|destruct (existsb _ _); [|destruct p]]; injection E as <- <- <-; unfold weights; cbn; lia.
  - pose proof (weights_makes ts) as M.
    destruct q as [|n up]; [|destruct (isdir _ _)]; injection E as <- <- <-; cbn [weight length]; [rewrite M; lia|rewrite M; lia|unfold weights; cbn; lia].
  - destruct (existsb _ _); [|destruct (mkdir_error _ _) as [[]|]]; try discriminate; injection E as <- <- <-; unfold weights; cbn; lia.
  - destruct (isdir _ _); [|discriminate]. injection E as <- <- <-. unfold weights; cbn; lia.
  - injection E as <- <- <-. unfold weights; cbn; lia.
  - destruct (lexists _ _); injection E as <- <- <-; unfold weights; cbn; lia.
  - destruct (names c d) as [[|]|]; try discriminate. injection E as <- <- <-. unfold weights; cbn; lia.
  - destruct d; [discriminate|]. destruct (walk_error _ _); [discriminate|]. destruct (names c _) as [[|]|]; try discriminate; injection E as <- <- <-; unfold weights; cbn; lia.
  - destruct rest; injection E as <- <- <-; unfold weights; cbn; lia.
  - destruct (names c d) as [[|]|]; try discriminate; injection E as <- <- <-; unfold weights; cbn; lia.
  - destruct (names c d) as [[|]|]; try discriminate; injection E as <- <- <-; unfold weights; cbn; lia.
  - discriminate.
Qed.
Lemma step_weight s s' : inst_step s s' -> list_sum (map pweight (snd s')) < list_sum (map pweight (snd s)).
Proof.
  intro S. inversion S as [c c' p p' bf af H]; subst. cbn [snd]. rewrite !map_app, !list_sum_app. cbn [map]. rewrite !sum_cons.
  assert (L : pweight p' < pweight p); [|lia].
  destruct p as [k [|a r]|o]; cbn [proc_step] in H; [| |discriminate].
  - injection H as <- <-. cbn. lia.
  - destruct (exec c k a) as [[c1 k1] [l|e]] eqn:E; injection H as <- <-; [|cbn; lia]. apply exec_weight in E. cbn [pweight]. rewrite weights_app. assert (X : weights (a :: r) = weight a + weights r) by reflexivity. lia.
Qed.
(** C120 (termination): whatever the file system and the schedule, the number of system calls
    is bounded, and as long as not all processes have ended one of them can go on: so the end
    state of [C120_concurrent_installs] is always reached unless processes are killed. *)
Theorem C120_terminates s : exists M, forall n s', inst_steps n s s' -> n <= M.
Proof.
  exists (list_sum (map pweight (snd s))). intros n s' H. induction H as [s|n s s' s'' S H IH]; [lia|]. apply step_weight in S. lia.
Qed.
Theorem C120_progress c ps : all_ended ps \/ exists s', inst_step (c, ps) s'.
Proof.
  induction ps as [|p ps IH]; [left; intros p []|]. destruct p as [k todo|o].
  - right. assert (X : exists c' p', proc_step c (Running k todo) = Some (c', p')).
    { destruct todo as [|a r]; cbn [proc_step]; [eauto|]. destruct (exec c k a) as [[c1 k1] [l|e]]; eauto. }
    destruct X as (c' & p' & X). exists (c', p' :: ps). exact (inst_one c c' _ p' [] ps X).
  - destruct IH as [A|(s' & S)].
    + left. intros p [<-|Ip]; [exists o; reflexivity|exact (A _ Ip)].
    + right. inversion S as [c1 c' p p' bf af H]; subst. exists (c', (Ended o :: bf) ++ p' :: af). exact (inst_one c c' p p' (Ended o :: bf) af H).
Qed.

(** ** Concrete races *)
Lemma nth_split_upd {A} (l : list A) n p p' : nth_error l n = Some p -> exists bf af, l = bf ++ p :: af /\ upd_nth n p' l = bf ++ p' :: af.
Proof.
  revert n. induction l as [|x l IH]; intros [|n] H; cbn in H; try discriminate.
  - injection H as ->. exists [], l. split; reflexivity.
  - destruct (IH n H) as (bf & af & E1 & E2). exists (x :: bf), af. cbn. rewrite E1 at 1. rewrite E2. split; reflexivity.
Qed.
Lemma follow_run sched : forall s, inst_run s (follow sched s).
Proof.
  assert (T : forall a b c, inst_run a b -> inst_run b c -> inst_run a c) by (intros a b c H H'; induction H' as [s|s s' s'' H1 IH1 H2]; [exact H|exact (inst_more a s' s'' (IH1 H) H2)]).
  induction sched as [|n r IH]; intro s; cbn [follow]; [constructor|].
  destruct (nth_error (snd s) n) as [p|] eqn:E; [|apply IH]. destruct (proc_step (fst s) p) as [[c' p']|] eqn:E'; [|apply IH].
  eapply T; [|apply IH]. econstructor; [constructor|]. destruct s as [c ps]. cbn [fst snd] in *. destruct (nth_split_upd ps n p p' E) as (bf & af & -> & ->). constructor. exact E'.
Qed.

Definition t_ex : tree := TDir [("a"%string, TFile "x" 7 420)].
Definition t_da : tree := TDir [].
Definition c_root : cfs := mkCfs (fun p => match p with [] => Some EDir | _ => None end) (fun _ => mkInode [] 0 0) 0.
Definition two : list proc := [Running [] (examples_acts t_ex t_da ["t"%string]); Running [] (examples_acts t_ex t_da ["t"%string])].
Lemma root_sound : sound c_root.
Proof.
  split; [|split].
  - apply wf_names. split; [reflexivity|]. intros n p v H. discriminate.
  - intros [|n p] i H; discriminate.
  - intros [|n p] p' i H; discriminate.
Qed.
Lemma t_ok : tree_ok t_ex /\ tree_ok t_da.
Proof. split; constructor; cbn; [repeat constructor; tauto|intros n s [E|[]]; injection E as <- <-; constructor|constructor|intros n s []]. Qed.
Lemma root_fits : fits (view c_root) ["t"%string] (bundle t_ex t_da).
Proof.
  split.
  - intros [|n p] _; [right; reflexivity|left; reflexivity].
  - intros q u _. unfold sub. replace (view c_root (rev q ++ ["t"%string])) with (@None node); [exact I|]. destruct (rev q); reflexivity.
Qed.
(** A process may fail although nothing is in the way: the second process deletes the file
    the first one has just written in order to write it again, and the first one finds it
    missing when it sets its time stamp.  The installation is complete in the end. *)
Theorem C120_one_may_fail :
  sound c_root /\ fits (view c_root) ["t"%string] (bundle t_ex t_da) /\ starting c_root (examples_acts t_ex t_da ["t"%string]) two /\
  exists c, inst_run (c_root, two) (c, [Ended (Raises FileNotFoundError); Ended Returns]) /\
    view c ["a"; "examples"; "t"]%string = Some (File "x" 7 420).
Proof.
  split; [exact root_sound|]. split; [exact root_fits|]. split.
  { split; [discriminate|]. intros p [<-|[<-|[]]]; exists []; (split; [reflexivity|intros x []]). }
  set (sched := [0;0;0;0;0;0;0;0;0;0; 1;1;1;1; 0; 1;1;1;1;1;1;1;1;1;1;1;1;1;1]).
  exists (fst (follow sched (c_root, two))). split.
  - replace (fst (follow sched (c_root, two)), [Ended (Raises FileNotFoundError); Ended Returns]) with (follow sched (c_root, two)); [apply follow_run|].
    rewrite (surjective_pairing (follow sched (c_root, two))) at 1. f_equal.
  - vm_compute. reflexivity.
Qed.
(** Installing over an existing installation: both processes have seen the old file, one
    deletes it, the other one cannot. *)
Theorem C120_one_may_fail_to_delete :
  exists c0 c, sound c0 /\ fits (view c0) ["t"%string] (bundle t_ex t_da) /\ starting c0 (examples_acts t_ex t_da ["t"%string]) two /\
    inst_run (c0, two) (c, [Ended Returns; Ended (Raises DistutilsFileError)]) /\
    view c ["a"; "examples"; "t"]%string = Some (File "x" 7 420).
Proof.
  assert (St0 : starting c_root (examples_acts t_ex t_da ["t"%string]) [Running [] (examples_acts t_ex t_da ["t"%string])]).
  { split; [discriminate|]. intros p [<-|[]]. exists []. split; [reflexivity|intros x []]. }
  set (s0 := (c_root, [Running [] (examples_acts t_ex t_da ["t"%string])])).
  set (c0 := fst (follow (repeat 0 30) s0)).
  destruct t_ok as [O1 O2]. assert (De : is_dir_tree t_ex) by (eexists; reflexivity). assert (Dd : is_dir_tree t_da) by (eexists; reflexivity).
  assert (R0 : inst_run s0 (c0, [Ended Returns])).
  { replace (c0, [Ended Returns]) with (follow (repeat 0 30) s0); [apply follow_run|]. rewrite (surjective_pairing (follow (repeat 0 30) s0)) at 1. f_equal. }
  pose proof (tree_ok_bundle _ _ O1 O2) as OB. assert (DB : is_dir_tree (bundle t_ex t_da)) by (eexists; reflexivity).
  pose proof (inv_run _ _ OB DB c_root _ _ R0 (inv_init _ _ _ (ex_ready t_ex t_da _ De Dd) (ex_files t_ex t_da _ De Dd) (ex_dirs t_ex t_da _ De) (ex_static t_ex t_da _ De Dd) c_root _ root_sound root_fits St0)) as V.
  cbn [fst snd] in V. pose proof (v_global _ _ _ _ _ V) as G.
  set (sched := [0;0;0; 1;1;1; 0; 1; 0;0;0;0;0;0;0;0]).
  exists c0, (fst (follow sched (c0, two))). split; [exact (conj (g_wf _ _ _ G) (conj (g_lt _ _ _ G) (g_inj _ _ _ G)))|].
  split; [exact (inv_fits _ _ _ _ _ V)|]. split; [split; [discriminate|]; intros p [<-|[<-|[]]]; exists []; (split; [reflexivity|intros x []])|].
  split.
  - replace (fst (follow sched (c0, two)), [Ended Returns; Ended (Raises DistutilsFileError)]) with (follow sched (c0, two)); [apply follow_run|].
    rewrite (surjective_pairing (follow sched (c0, two))) at 1. f_equal.
  - vm_compute. reflexivity.
Qed.
