(** Property theorems about the file-system helpers: C54 (save_* helpers), C55
    (install_examples, install_rfsed_tests), C74 (killed installations), C75 (what an
    installation can never damage), C76 (concurrent save_* helpers). *)
From Coq Require Import String Ascii List Bool ZArith Lia.
From Verif Require Import FsModel SpecFs FsProofs FsProofs2.
Import ListNotations.
Local Open Scope list_scope.

(** * C54: one caller *)

(** Paths are written innermost name first: [below ++ above] lies under [above]. *)
Lemma walk_error_why : forall f d e, wf f -> walk_error f d = Some e ->
  (exists above below b t m, d = below ++ above /\ f above = Some (File b t m)) /\ e = NotADirectoryError \/
  (forall above below b t m, d = below ++ above -> f above <> Some (File b t m)) /\ e = FileNotFoundError.
Proof.
  intros f d e W. revert e. induction d as [|n d IH]; simpl; [discriminate|]. intros e.
  destruct (walk_error f d) as [e1|] eqn:E1.
  - intros K; injection K as <-. destruct (IH _ eq_refl) as [[(above & below & b & t & m & -> & Ha) ->]|[Hn ->]].
    + left. split; [|reflexivity]. exists above, (n :: below), b, t, m. auto.
    + right. split; [|reflexivity]. intros above below b t m E Ha. destruct below as [|x below].
      * cbn in E. subst above. pose proof (proj2 W n d _ Ha) as Hp. rewrite (walk_ok f d W Hp) in E1. discriminate.
      * cbn in E. injection E as _ E. exact (Hn above below b t m E Ha).
  - pose proof (walk_ok_inv f d W E1) as Hd. destruct (f (n :: d)) as [[|b t m]|] eqn:En; intros K; inversion K; subst.
    + left. split; [|reflexivity]. exists (n :: d), [], b, t, m. auto.
    + right. split; [|reflexivity]. intros above below b t m E Ha. destruct below as [|x below].
      * cbn in E. subst above. congruence.
      * cbn in E. injection E as _ E. clear -W Hd E Ha. revert d Hd E. induction below as [|y below IHb]; intros d Hd E; cbn in E.
        -- subst. congruence.
        -- subst d. assert (Hp : f (below ++ above) = Some Dir) by exact (proj2 W y (below ++ above) _ Hd). exact (IHb _ Hp eq_refl).
Qed.

(** Exactly what a save_* helper does, for every state of the file system. *)
Theorem C54_save_outcomes : forall pkg h w,
  wf (w_fs w) -> w_left w = None ->
  let p := savepath pkg h in
  let parent := "examples"%string :: pkg in
  let r := save pkg h w in
  match w_fs w p with
  | Some Dir => fst r = Returns /\ (forall q, w_fs (snd r) q = w_fs w q)
  | Some (File _ _ _) => fst r = Raises FileExistsError /\ (forall q, w_fs (snd r) q = w_fs w q)
  | None =>
      (w_fs w parent = Some Dir ->
         fst r = Returns /\ w_fs (snd r) p = Some Dir /\
         (forall q, q <> p -> w_fs (snd r) q = w_fs w q)) /\
      (w_fs w parent <> Some Dir ->
         ((exists above below b t m, parent = below ++ above /\ w_fs w above = Some (File b t m)) /\ fst r = Raises NotADirectoryError \/
          (forall above below b t m, parent = below ++ above -> w_fs w above <> Some (File b t m)) /\ fst r = Raises FileNotFoundError) /\
         (forall q, w_fs (snd r) q = w_fs w q))
  end.
Proof.
  intros pkg h w W L p parent r. subst r. unfold save. fold p.
  destruct (w_fs w p) as [[|b t m]|] eqn:E.
  - apply isdir_true in E. rewrite E. simpl. auto.
  - assert (D : isdir (w_fs w) p = false) by (apply isdir_false; congruence).
    rewrite D. simpl negb. cbv iota.
    assert (Hpar : w_fs w parent = Some Dir).
    { apply (proj2 W (helper_dir h) parent _ E). }
    assert (Hm : mkdir_error (w_fs w) p = Some FileExistsError).
    { unfold p, savepath. cbn [mkdir_error]. fold parent. rewrite walk_ok by auto. unfold lexists.
      change (helper_dir h :: parent) with p. rewrite E. reflexivity. }
    unfold os_mkdir. rewrite Hm. cbn [fst snd]. auto.
  - assert (D : isdir (w_fs w) p = false) by (apply isdir_false; congruence).
    rewrite D. simpl negb. cbv iota. unfold os_mkdir.
    assert (Hm : mkdir_error (w_fs w) p = match walk_error (w_fs w) parent with Some e => Some e | None => None end).
    { unfold p, savepath. cbn [mkdir_error]. fold parent. unfold lexists.
      change (helper_dir h :: parent) with p. rewrite E. reflexivity. }
    rewrite Hm. split.
    + intros Hpar. rewrite walk_ok by auto.
      unfold modify. rewrite L. cbn [fst snd w_fs]. split; auto. split. apply upd_same.
      intros q Hq; apply upd_other; auto.
    + intros Hpar. destruct (walk_error (w_fs w) parent) as [e|] eqn:We.
      * cbn [fst snd]. split; auto. clear -We W.
        destruct (walk_error_why _ _ _ W We) as [[X ->]|[X ->]]; auto.
      * exfalso. apply Hpar. apply walk_ok_inv; auto.
Qed.

(** In an intact package the helper leaves its directory in place, changes nothing else,
    and may be called again any number of times, without effect. *)
Theorem C54_save_sequential : forall pkg h w,
  wf (w_fs w) -> w_left w = None ->
  w_fs w ("examples"%string :: pkg) = Some Dir ->
  (w_fs w (savepath pkg h) = None \/ w_fs w (savepath pkg h) = Some Dir) ->
  exists w', save pkg h w = (Returns, w') /\
    w_fs w' (savepath pkg h) = Some Dir /\
    (forall q, q <> savepath pkg h -> w_fs w' q = w_fs w q) /\
    wf (w_fs w') /\ w_left w' = None /\
    save pkg h w' = (Returns, w').
Proof.
  intros pkg h w W L P H.
  assert (G : forall w', w_fs w' (savepath pkg h) = Some Dir -> save pkg h w' = (Returns, w')).
  { intros w' E. unfold save. apply isdir_true in E. rewrite E. reflexivity. }
  destruct H as [E|E].
  - exists (World (upd (w_fs w) (savepath pkg h) (Some Dir)) (w_cache w) None).
    unfold save at 1. unfold isdir. rewrite E. simpl negb. cbv iota.
    unfold os_mkdir.
    replace (mkdir_error (w_fs w) (savepath pkg h)) with (@None exn)
      by (symmetry; apply mkdir_error_none; auto; exists (helper_dir h), ("examples"%string :: pkg); auto).
    unfold modify. rewrite L. split; auto. cbn [w_fs w_left]. split. apply upd_same.
    split. intros q Hq; apply upd_other; auto. split.
    + apply wf_upd_some; auto.
    + split; auto. apply G. apply upd_same.
  - exists w. repeat split; auto; apply W.
Qed.

(** The six helpers work on six different directories. *)
Theorem C54_distinct_directories : forall pkg h h',
  savepath pkg h = savepath pkg h' -> h = h'.
Proof. intros pkg h h' E. injection E as E. destruct h, h'; (reflexivity || discriminate). Qed.

(** * C76, C54: several processes *)

Definition helper_of (c : caller) : helper :=
  match c with Looking h => h | Creating h => h | Done h _ => h end.

Definition race_inv (pkg : path) (f : fs) (hs : list helper) (s : fs * list caller) : Prop :=
  let (f', cs) := s in
  wf f' /\
  map helper_of cs = hs /\
  (forall p, (forall h, In h hs -> p <> savepath pkg h) -> f' p = f p) /\
  (forall h, In h hs -> f' (savepath pkg h) = f (savepath pkg h) \/ f' (savepath pkg h) = Some Dir) /\
  (forall h r, In (Done h r) cs -> f' (savepath pkg h) = Some Dir) /\
  (forall h e, In (Done h (Raises e)) cs -> e = FileExistsError /\ f (savepath pkg h) = None /\ In (Done h Returns) cs) /\
  (forall h, In h hs -> f' (savepath pkg h) = Some Dir -> f (savepath pkg h) <> Some Dir -> In (Done h Returns) cs) /\
  (forall h, In (Creating h) cs -> f (savepath pkg h) = None).

Lemma in_mid : forall (A : Type) (x y : A) a b, In x (a ++ y :: b) <-> x = y \/ In x (a ++ b).
Proof.
  intros A x y a b. split.
  - intros H. apply in_app_or in H as [H|[H|H]]; auto; right; apply in_or_app; auto.
  - intros [->|H]. apply in_or_app; right; left; auto.
    apply in_app_or in H as [H|H]; apply in_or_app; auto. right; right; auto.
Qed.

Lemma savepath_inj : forall pkg h h', h <> h' -> savepath pkg h <> savepath pkg h'.
Proof. intros pkg h h' H E. apply H. eapply C54_distinct_directories; eauto. Qed.
Lemma helper_dec : forall h h' : helper, {h = h'} + {h <> h'}.
Proof. decide equality. Qed.

Lemma race_inv_step : forall pkg f hs s s',
  f ("examples"%string :: pkg) = Some Dir ->
  (forall h, In h hs -> f (savepath pkg h) = None \/ f (savepath pkg h) = Some Dir) ->
  race_inv pkg f hs s -> race_step pkg s s' -> race_inv pkg f hs s'.
Proof.
  intros pkg f hs s s' Ex Room I St. destruct St as [f1 f2 c c' a b H].
  destruct I as (W & M & Fr & Only & DoneD & Fail & Made & Cr).
  assert (Hin : In (helper_of c) hs).
  { rewrite <- M, map_app. apply in_or_app; right; left; auto. }
  assert (HM : helper_of c' = helper_of c -> map helper_of (a ++ c' :: b) = hs).
  { intros E. rewrite <- M, !map_app. simpl. rewrite E; auto. }
  assert (ExD : f1 ("examples"%string :: pkg) = Some Dir).
  { rewrite Fr; auto. intros h _ K. apply (f_equal (@length string)) in K. simpl in K. lia. }
  destruct c as [h|h|h r]; cbn [step1 helper_of] in H, Hin; [| |discriminate].
  - destruct (isdir f1 (savepath pkg h)) eqn:D; simpl in H; injection H as <- <-.
    + apply isdir_true in D.
      split; [auto|]. split; [apply HM; auto|]. split; [auto|]. split; [auto|].
      split; [|split; [|split]].
      * intros h' r' K. apply in_mid in K as [K|K].
        -- injection K as -> ->. auto.
        -- eapply DoneD. apply in_mid; eauto.
      * intros h' e K. apply in_mid in K as [K|K]; [discriminate|].
        destruct (Fail h' e) as (A & B & C); [apply in_mid; auto|]. split; auto. split; auto.
        apply in_mid in C as [C|C]; [discriminate|]. apply in_mid; auto.
      * intros h' Hh' D' N. specialize (Made h' Hh' D' N). apply in_mid in Made as [Made|Made]; [discriminate|]. apply in_mid; auto.
      * intros h' K. apply in_mid in K as [K|K]; [discriminate|]. apply Cr. apply in_mid; auto.
    + apply isdir_false in D.
      split; [auto|]. split; [apply HM; auto|]. split; [auto|]. split; [auto|].
      split; [|split; [|split]].
      * intros h' r' K. apply in_mid in K as [K|K]; [discriminate|]. eapply DoneD. apply in_mid; eauto.
      * intros h' e K. apply in_mid in K as [K|K]; [discriminate|].
        destruct (Fail h' e) as (A & B & C); [apply in_mid; auto|]. split; auto. split; auto.
        apply in_mid in C as [C|C]; [discriminate|]. apply in_mid; auto.
      * intros h' Hh' D' N. specialize (Made h' Hh' D' N). apply in_mid in Made as [Made|Made]; [discriminate|]. apply in_mid; auto.
      * intros h' K. apply in_mid in K as [K|K].
        -- injection K as ->. destruct (Room h Hin) as [R|R]; auto.
           destruct (Only h Hin); congruence.
        -- apply Cr. apply in_mid; auto.
  - assert (Fh : f (savepath pkg h) = None) by (apply Cr, in_mid; auto).
    destruct (mkdir_error f1 (savepath pkg h)) as [e|] eqn:E; injection H as <- <-.
    + assert (G : e = FileExistsError /\ f1 (savepath pkg h) = Some Dir).
      { unfold savepath in E |- *. cbn [mkdir_error] in E. rewrite walk_ok in E by auto.
        unfold lexists in E. destruct (Only h Hin) as [O|O]; unfold savepath in O, Fh.
        - rewrite O, Fh in E. discriminate.
        - rewrite O in E. injection E as <-. auto. }
      destruct G as [-> G].
      assert (Md : In (Done h Returns) (a ++ b)).
      { specialize (Made h Hin G). rewrite Fh in Made. specialize (Made ltac:(discriminate)).
        apply in_mid in Made as [K|K]; [discriminate|auto]. }
      split; [auto|]. split; [apply HM; auto|]. split; [auto|]. split; [auto|].
      split; [|split; [|split]].
      * intros h' r' K. apply in_mid in K as [K|K].
        -- injection K as -> ->. auto.
        -- eapply DoneD. apply in_mid; eauto.
      * intros h' e K. apply in_mid in K as [K|K].
        -- injection K as -> ->. split; auto. split; auto. apply in_mid; auto.
        -- destruct (Fail h' e) as (A & B & C); [apply in_mid; auto|]. split; auto. split; auto.
           apply in_mid in C as [C|C]; [discriminate|]. apply in_mid; auto.
      * intros h' Hh' D' N. specialize (Made h' Hh' D' N). apply in_mid in Made as [K|K]; [discriminate|]. apply in_mid; auto.
      * intros h' K. apply in_mid in K as [K|K]; [discriminate|]. apply Cr. apply in_mid; auto.
    + apply mkdir_error_none in E as (n & d & E0 & Dd & Nn); auto.
      assert (Up : forall q, f1 q = Some Dir -> upd f1 (savepath pkg h) (Some Dir) q = Some Dir).
      { intros q Hq. destruct (list_eq_dec string_dec q (savepath pkg h)) as [->|N]; [apply upd_same|rewrite upd_other; auto]. }
      split; [|split; [apply HM; auto|]].
      { unfold savepath. apply wf_upd_some; auto. }
      split; [|split; [|split; [|split; [|split]]]].
      * intros p Hp. rewrite upd_other; auto.
      * intros h' Hh'. destruct (helper_dec h' h) as [->|N].
        -- right; apply upd_same.
        -- rewrite upd_other; auto. apply savepath_inj; auto.
      * intros h' r' K. apply in_mid in K as [K|K].
        -- injection K as -> ->. apply upd_same.
        -- apply Up. eapply DoneD. apply in_mid; eauto.
      * intros h' e K. apply in_mid in K as [K|K]; [discriminate|].
        destruct (Fail h' e) as (A & B & C); [apply in_mid; auto|]. split; auto. split; auto.
        apply in_mid in C as [C|C]; [discriminate|]. apply in_mid; auto.
      * intros h' Hh' D' N. destruct (helper_dec h' h) as [->|N'].
        -- apply in_mid; auto.
        -- rewrite upd_other in D' by (apply savepath_inj; auto).
           specialize (Made h' Hh' D' N). apply in_mid in Made as [K|K]; [discriminate|]. apply in_mid; auto.
      * intros h' K. apply in_mid in K as [K|K]; [discriminate|]. apply Cr. apply in_mid; auto.
Qed.

Lemma race_inv_reach : forall pkg f hs s s',
  f ("examples"%string :: pkg) = Some Dir ->
  (forall h, In h hs -> f (savepath pkg h) = None \/ f (savepath pkg h) = Some Dir) ->
  race pkg s s' -> race_inv pkg f hs s -> race_inv pkg f hs s'.
Proof.
  intros pkg f hs s s' Ex Room R. induction R; auto.
  intros I. apply IHR. eapply race_inv_step; eauto.
Qed.

Lemma race_inv_init : forall pkg f hs, wf f -> race_inv pkg f hs (f, map Looking hs).
Proof.
  intros pkg f hs W.
  assert (NL : forall c, In c (map Looking hs) -> exists h, c = Looking h).
  { intros c H. apply in_map_iff in H as (h & <- & _). eauto. }
  split; [auto|]. split. { rewrite map_map. simpl. apply map_id. }
  split; [auto|]. split; [auto|].
  split; [|split; [|split]].
  - intros h r H. apply NL in H as [h' E]; discriminate.
  - intros h e H. apply NL in H as [h' E]; discriminate.
  - intros; contradiction.
  - intros h H. apply NL in H as [h' E]; discriminate.
Qed.

(** Whatever the interleaving of any number of callers, and wherever some of them are
    killed: only their own directories appear; a caller that has returned or failed left
    its directory in place; a failure is always FileExistsError, and only happens when the
    directory was absent at the start and another caller of the same helper created it. *)
Theorem C76_concurrent_callers : forall pkg f hs f' cs,
  wf f -> f ("examples"%string :: pkg) = Some Dir ->
  (forall h, In h hs -> f (savepath pkg h) = None \/ f (savepath pkg h) = Some Dir) ->
  race pkg (f, map Looking hs) (f', cs) ->
  (forall p, f' p = f p \/ (f p = None /\ f' p = Some Dir /\ exists h, In h hs /\ p = savepath pkg h)) /\
  (forall h r, In (Done h r) cs -> f' (savepath pkg h) = Some Dir) /\
  (forall h e, In (Done h (Raises e)) cs ->
     e = FileExistsError /\ f (savepath pkg h) = None /\ In (Done h Returns) cs).
Proof.
  intros pkg f hs f' cs W Ex Room R.
  pose proof (race_inv_reach _ _ _ _ _ Ex Room R (race_inv_init pkg f hs W)) as (W' & M & Fr & Only & DoneD & Fail & Made & Cr).
  split; [|split; auto]. intros p.
  assert (D : {h | In h hs /\ p = savepath pkg h} + {forall h, In h hs -> p <> savepath pkg h}).
  { clear -p. induction hs as [|h hs IH].
    - right; intros h [].
    - destruct (list_eq_dec string_dec p (savepath pkg h)) as [E|E].
      + left; exists h; simpl; auto.
      + destruct IH as [(h' & Hh & E')|N].
        * left; exists h'; simpl; auto.
        * right. intros h' [<-|H]; auto. }
  destruct D as [(h & Hh & ->)|N]; auto.
  destruct (Only h Hh) as [O|O]; auto. destruct (Room h Hh) as [E|E].
  - right. rewrite E. eauto.
  - left; congruence.
Qed.

(** If nobody is killed, the callers agree: when all are done every directory is there and
    every helper was successful for at least one of its callers. *)
Theorem C76_somebody_succeeds : forall pkg f hs f' cs,
  wf f -> f ("examples"%string :: pkg) = Some Dir ->
  (forall h, In h hs -> f (savepath pkg h) = None \/ f (savepath pkg h) = Some Dir) ->
  race pkg (f, map Looking hs) (f', cs) ->
  (forall c, In c cs -> exists h r, c = Done h r) ->
  forall h, In h hs -> f' (savepath pkg h) = Some Dir /\ In (Done h Returns) cs.
Proof.
  intros pkg f hs f' cs W Ex Room R AllDone h Hh.
  pose proof (race_inv_reach _ _ _ _ _ Ex Room R (race_inv_init pkg f hs W)) as (W' & M & Fr & Only & DoneD & Fail & Made & Cr).
  assert (E : exists r, In (Done h r) cs).
  { rewrite <- M in Hh. apply in_map_iff in Hh as (c & E & Hc).
    destruct (AllDone _ Hc) as (h' & r & ->). simpl in E; subst. eauto. }
  destruct E as [r Hr]. split. eapply DoneD; eauto.
  destruct r as [|e]; auto. destruct (Fail _ _ Hr) as (_ & _ & K); auto.
Qed.

(** Callers of different helpers, or callers in a package whose directories already
    exist, never fail. *)
Theorem C76_no_failure : forall pkg f hs f' cs,
  wf f -> f ("examples"%string :: pkg) = Some Dir ->
  (forall h, In h hs -> f (savepath pkg h) = None \/ f (savepath pkg h) = Some Dir) ->
  NoDup hs \/ (forall h, In h hs -> f (savepath pkg h) = Some Dir) ->
  race pkg (f, map Looking hs) (f', cs) ->
  forall h e, ~ In (Done h (Raises e)) cs.
Proof.
  intros pkg f hs f' cs W Ex Room Cond R h e K.
  pose proof (race_inv_reach _ _ _ _ _ Ex Room R (race_inv_init pkg f hs W)) as (W' & M & Fr & Only & DoneD & Fail & Made & Cr).
  destruct (Fail h e K) as (-> & N & K').
  destruct Cond as [ND|Ex'].
  - rewrite <- M in ND. clear -ND K K'.
    induction cs as [|c cs IH]; [contradiction|]. simpl in ND. inversion ND as [|x xs Hx ND' E]; subst.
    destruct K as [->|K]; destruct K' as [E'|K']; try discriminate; auto.
    + apply Hx. apply (in_map helper_of) in K'. exact K'.
    + subst c. apply Hx. apply (in_map helper_of) in K. exact K.
  - rewrite Ex' in N; [discriminate|]. rewrite <- M. apply (in_map helper_of) in K. exact K.
Qed.

(** ** The full C54 is false for concurrent callers. *)
Definition home : path := ["rfsed"; "lib"]%string.
Definition fs_pkg : fs := fun p =>
  if path_eqb p [] then Some Dir
  else if path_eqb p ["lib"%string] then Some Dir
  else if path_eqb p home then Some Dir
  else if path_eqb p ("examples"%string :: home) then Some Dir
  else None.

Lemma fs_pkg_wf : wf fs_pkg.
Proof.
  split; [reflexivity|]. intros n p v H. unfold fs_pkg in H.
  destruct (path_eqb (n :: p) []) eqn:E0; [apply path_eqb_eq in E0; discriminate|].
  destruct (path_eqb (n :: p) ["lib"%string]) eqn:E1.
  { apply path_eqb_eq in E1. injection E1 as _ ->. reflexivity. }
  destruct (path_eqb (n :: p) home) eqn:E2.
  { apply path_eqb_eq in E2. injection E2 as _ ->. reflexivity. }
  destruct (path_eqb (n :: p) ("examples"%string :: home)) eqn:E3; [|discriminate].
  apply path_eqb_eq in E3. injection E3 as _ ->. reflexivity.
Qed.

Theorem C54_concurrent_refuted :
  exists pkg f f' cs,
    wf f /\ f ("examples"%string :: pkg) = Some Dir /\
    f (savepath pkg save_plot) = None /\
    race pkg (f, [Looking save_plot; Looking save_plot]) (f', cs) /\
    In (Done save_plot (Raises FileExistsError)) cs.
Proof.
  exists home, fs_pkg, (upd fs_pkg (savepath home save_plot) (Some Dir)),
    [Done save_plot Returns; Done save_plot (Raises FileExistsError)].
  split; [apply fs_pkg_wf|]. split; [reflexivity|]. split; [reflexivity|]. split.
  - eapply race_trans. apply (race_one home fs_pkg fs_pkg _ (Creating save_plot) [] [Looking save_plot]). reflexivity.
    eapply race_trans. apply (race_one home fs_pkg fs_pkg (Looking save_plot) (Creating save_plot) [Creating save_plot] []). reflexivity.
    eapply race_trans. apply (race_one home fs_pkg (upd fs_pkg (savepath home save_plot) (Some Dir)) (Creating save_plot) (Done save_plot Returns) [] [Creating save_plot]). reflexivity.
    eapply race_trans. apply (race_one home _ (upd fs_pkg (savepath home save_plot) (Some Dir)) (Creating save_plot) (Done save_plot (Raises FileExistsError)) [Done save_plot Returns] []). reflexivity.
    apply race_refl.
  - simpl; auto.
Qed.

(** The hypotheses of the theorems above are met: [fs_pkg] is such a package, and a single
    caller there runs to completion. *)
Theorem C54_example : exists w', save home save_plot (World fs_pkg [] None) = (Returns, w') /\
  w_fs w' (savepath home save_plot) = Some Dir.
Proof.
  destruct (C54_save_sequential home save_plot (World fs_pkg [] None)) as (w' & E & D & _);
    [apply fs_pkg_wf|reflexivity|reflexivity|left; reflexivity|]. eauto.
Qed.

(** * C55: install_examples, install_rfsed_tests *)

(** What is installed under [dest]: examples/ and data/. *)
Definition bundle (examples data : tree) : tree :=
  TDir [("examples"%string, examples); ("data"%string, data)].

Definition is_dir_tree (t : tree) : Prop := exists l, t = TDir l.

Lemma node_dec : forall a b : option node, {a = b} + {a <> b}.
Proof. intros a b. decide equality. decide equality; try apply Z.eq_dec. apply string_dec. Qed.

(** a second copy changes nothing *)
Lemma copied_again : forall f dst t f' f'',
  copied f dst t f' -> copied f' dst t f'' -> forall p, f'' p = f' p.
Proof.
  intros f dst t f' f'' (A1 & A2 & A3) (B1 & B2 & B3) p.
  destruct (node_dec (f'' p) (f' p)) as [E|N]; auto. exfalso.
  destruct (above_dec p dst) as [A|A].
  - apply N. rewrite A2, B2; auto.
  - apply N. apply B3; auto. intros q u Hq ->. apply N. rewrite (A1 _ _ Hq), (B1 _ _ Hq). reflexivity.
Qed.

(** two complete copies over states that agree outside the targets are the same *)
Lemma copied_det : forall f1 f2 dst t g1 g2,
  copied f1 dst t g1 -> copied f2 dst t g2 ->
  (forall p, ~ above p dst -> (forall q u, packaged t q u -> p <> sub dst q) -> f2 p = f1 p) ->
  forall p, g2 p = g1 p.
Proof.
  intros f1 f2 dst t g1 g2 (A1 & A2 & A3) (B1 & B2 & B3) F p.
  destruct (node_dec (g2 p) (g1 p)) as [E|N]; auto. exfalso.
  destruct (above_dec p dst) as [A|A].
  - apply N. rewrite A2, B2; auto.
  - assert (T : forall q u, packaged t q u -> p <> sub dst q).
    { intros q u Hq ->. apply N. rewrite (A1 _ _ Hq), (B1 _ _ Hq). reflexivity. }
    apply N. rewrite A3, B3; auto.
Qed.

Lemma room_on_disk : forall u, room (Some (on_disk u)) u.
Proof. intros [b t m|l]; simpl; auto. Qed.

Lemma copied_fits : forall f dst t f', copied f dst t f' -> fits f' dst t.
Proof.
  intros f dst t f' (A1 & A2 & A3). split; auto.
  intros q u Hq. rewrite (A1 _ _ Hq). apply room_on_disk.
Qed.

Lemma partly_fits : forall f dst t f', fits f dst t -> partly_copied f dst t f' -> fits f' dst t.
Proof.
  intros f dst t f' (F1 & F2) (A1 & A2 & A3). split.
  - intros p Hp. destruct (A2 p Hp) as [E|E]; rewrite E; auto.
  - intros q u Hq. specialize (F2 q u Hq). destruct (A1 q u Hq) as [E|E]; [rewrite E; auto|].
    destruct u as [b t0 m|l].
    + destruct E as [E|(b' & t' & m' & E & _)]; rewrite E; simpl; auto.
    + rewrite E; simpl; auto.
Qed.

Lemma packaged_bundle : forall ex da q u, packaged (bundle ex da) q u <->
  (q = [] /\ u = bundle ex da) \/
  (exists q', q = "examples"%string :: q' /\ packaged ex q' u) \/
  (exists q', q = "data"%string :: q' /\ packaged da q' u).
Proof.
  intros ex da q u; split.
  - intros H. inversion H as [|l n s q' u' Hin Hn Hp E]; subst; auto.
    destruct Hin as [E|[E|[]]]; injection E as <- <-; eauto 6.
  - intros [[-> ->]|[(q' & -> & H)|(q' & -> & H)]].
    + apply packaged_here.
    + eapply packaged_in; [left; reflexivity|reflexivity|auto].
    + eapply packaged_in; [right; left; reflexivity|reflexivity|auto].
Qed.

(** The general statement: complete, or killed half-way. *)
Lemma install_spec : forall ex da dest w,
  tree_ok ex -> is_dir_tree ex -> tree_ok da -> is_dir_tree da ->
  wf (w_fs w) -> cache_ok w -> fits (w_fs w) dest (bundle ex da) ->
  spec (install_examples ex da dest) w
    (fun w' => wf (w_fs w') /\ partly_copied (w_fs w) dest (bundle ex da) (w_fs w'))
    (fun w' => wf (w_fs w') /\ cache_ok w' /\ copied (w_fs w) dest (bundle ex da) (w_fs w')).
Proof.
  intros ex da dest w Oe De Od Dd W C (F1 & F2).
  assert (PE : forall q u, packaged ex q u -> packaged (bundle ex da) ("examples"%string :: q) u)
    by (intros; apply packaged_bundle; eauto).
  assert (PD : forall q u, packaged da q u -> packaged (bundle ex da) ("data"%string :: q) u)
    by (intros; apply packaged_bundle; eauto).
  assert (De' := De). assert (Dd' := Dd). destruct De' as [le Ee]. destruct Dd' as [ld Ed].
  (* the two top directories *)
  assert (RE : w_fs w ("examples"%string :: dest) = None \/ w_fs w ("examples"%string :: dest) = Some Dir).
  { pose proof (F2 _ _ (PE _ _ (packaged_here ex))) as R. rewrite sub_cons, sub_nil in R.
    rewrite Ee in R. destruct (w_fs w ("examples"%string :: dest)) as [[|]|]; simpl in R; auto; contradiction. }
  assert (RD : w_fs w ("data"%string :: dest) = None \/ w_fs w ("data"%string :: dest) = Some Dir).
  { pose proof (F2 _ _ (PD _ _ (packaged_here da))) as R. rewrite sub_cons, sub_nil in R.
    rewrite Ed in R. destruct (w_fs w ("data"%string :: dest)) as [[|]|]; simpl in R; auto; contradiction. }
  assert (NA : forall n, ~ above (n :: dest) dest)
    by (intros n K; apply above_length in K; simpl in K; lia).
  unfold install_examples. eapply spec_seq.
  { eapply spec_weaken; [apply copy_tree_ok; auto| |].
    - split.
      + intros p Hp. apply above_cons in Hp as [->|Hp]; auto.
      + intros q u Hq. rewrite <- sub_cons. apply F2; auto.
    - intros w' (W' & P1 & P2 & P3). split; auto. split; [|split].
      + intros q u Hq. apply packaged_bundle in Hq as [[-> ->]|[(q' & -> & Hq)|(q' & -> & Hq)]].
        * rewrite sub_nil. destruct (P2 dest) as [E|E]; [apply above_cons; right; apply above_refl|left|right]; auto.
        * rewrite sub_cons. apply P1; auto.
        * left. apply P3.
          -- rewrite sub_cons. intros K. apply above_cons in K as [K|K].
             ++ apply (f_equal (@rev string)) in K. unfold sub in K. simpl in K. rewrite !rev_app_distr in K.
                simpl in K. rewrite rev_involutive, <- !app_assoc in K. apply app_inv_head in K. discriminate.
             ++ rewrite <- sub_cons in K. eapply sub_not_above; eauto.
          -- intros q u0 _. rewrite sub_cons. apply sub_disjoint. discriminate.
      + intros p Hp. apply P2. apply above_cons; auto.
      + intros p Hp HT. apply P3.
        * intros K. apply above_cons in K as [->|K]; auto. eapply HT; [apply PE, packaged_here|]. reflexivity.
        * intros q u Hq. rewrite <- sub_cons. eapply HT; eauto.
    - intros w' H; exact H. }
  intros w1 (W1 & C1 & P1 & P2 & P3).
  assert (Dat : forall q u, packaged da q u -> w_fs w1 (sub ("data"%string :: dest) q) = w_fs w (sub ("data"%string :: dest) q)).
  { intros q u Hq. apply P3.
    - intros K. apply above_cons in K as [K|K].
      + apply (f_equal (@rev string)) in K. unfold sub in K. simpl in K. rewrite !rev_app_distr in K.
        simpl in K. rewrite rev_involutive, <- !app_assoc in K. apply app_inv_head in K. discriminate.
      + rewrite <- sub_cons in K. eapply sub_not_above; eauto.
    - intros q' u' _. apply sub_disjoint. discriminate. }
  assert (Dde : forall p, above p dest -> w_fs w1 p = Some Dir)
    by (intros p Hp; apply P2, above_cons; auto).
  assert (Exq : forall q u, packaged ex q u -> ~ above (sub ("examples"%string :: dest) q) ("data"%string :: dest)).
  { intros q u Hq K. apply above_cons in K as [K|K].
    - apply (f_equal (@rev string)) in K. unfold sub in K. simpl in K. rewrite !rev_app_distr in K.
      simpl in K. rewrite rev_involutive, <- !app_assoc in K. apply app_inv_head in K. discriminate.
    - rewrite <- sub_cons in K. eapply sub_not_above; eauto. }
  eapply spec_weaken; [apply copy_tree_ok; auto| |].
  - split.
    + intros p Hp. apply above_cons in Hp as [->|Hp]; auto.
      pose proof (Dat _ _ (packaged_here da)) as E. rewrite sub_nil in E. rewrite E; auto.
    + intros q u Hq. rewrite (Dat _ _ Hq). rewrite <- sub_cons. apply F2; auto.
  - intros w' (W' & Q1 & Q2 & Q3). split; auto. split; [|split].
    + intros q u Hq. apply packaged_bundle in Hq as [[-> ->]|[(q' & -> & Hq)|(q' & -> & Hq)]].
      * rewrite sub_nil. right. destruct (Q2 dest) as [E|E]; [apply above_cons; right; apply above_refl| |auto].
        rewrite E. apply Dde, above_refl.
      * rewrite sub_cons. rewrite Q3; [|eapply Exq; eauto|intros q u' _; apply sub_disjoint; discriminate].
        rewrite (P1 _ _ Hq). apply done_halfway.
      * rewrite sub_cons. rewrite <- (Dat _ _ Hq). apply Q1; auto.
    + intros p Hp. right. destruct (Q2 p) as [E|E]; [apply above_cons; auto| |auto].
      rewrite E. apply Dde; auto.
    + intros p Hp HT. rewrite Q3.
      * apply P3.
        -- intros K. apply above_cons in K as [->|K]; auto. eapply HT; [apply PE, packaged_here|]. reflexivity.
        -- intros q u Hq. rewrite <- sub_cons. eapply HT; eauto.
      * intros K. apply above_cons in K as [->|K]; auto. eapply HT; [apply PD, packaged_here|]. reflexivity.
      * intros q u Hq. rewrite <- sub_cons. eapply HT; eauto.
  - intros w' (W' & C' & Q1 & Q2 & Q3). split; [auto|split; [auto|]]. split; [|split].
    + intros q u Hq. apply packaged_bundle in Hq as [[-> ->]|[(q' & -> & Hq)|(q' & -> & Hq)]].
      * rewrite sub_nil. apply Q2, above_cons; right; apply above_refl.
      * rewrite sub_cons. rewrite Q3; [|eapply Exq; eauto|intros q u' _; apply sub_disjoint; discriminate].
        apply P1; auto.
      * rewrite sub_cons. apply Q1; auto.
    + intros p Hp. apply Q2, above_cons; auto.
    + intros p Hp HT. rewrite Q3.
      * apply P3.
        -- intros K. apply above_cons in K as [->|K]; auto. eapply HT; [apply PE, packaged_here|]. reflexivity.
        -- intros q u Hq. rewrite <- sub_cons. eapply HT; eauto.
      * intros K. apply above_cons in K as [->|K]; auto. eapply HT; [apply PD, packaged_here|]. reflexivity.
      * intros q u Hq. rewrite <- sub_cons. eapply HT; eauto.
Qed.

Lemma spec_total : forall m w K Q, spec m w K Q -> w_left w = None ->
  exists w', m w = (Returns, w') /\ Q w' /\ w_left w' = None.
Proof.
  intros m w K Q [(E & HQ & L)|(E & N & _)] Hl; [|contradiction].
  destruct (m w) as [o w'] eqn:Em; simpl in *; subst. eauto.
Qed.

(** install_examples: if nothing of the wrong kind is in the way, every packaged file is
    installed exactly, what collides is overwritten, the rest of the file system is
    untouched, and repeating the call (in the same process) changes nothing at all. *)
Theorem C55_install_examples : forall ex da dest w,
  tree_ok ex -> is_dir_tree ex -> tree_ok da -> is_dir_tree da ->
  wf (w_fs w) -> cache_ok w -> w_left w = None ->
  fits (w_fs w) dest (bundle ex da) ->
  exists w', install_examples ex da dest w = (Returns, w') /\
    copied (w_fs w) dest (bundle ex da) (w_fs w') /\
    exists w'', install_examples ex da dest w' = (Returns, w'') /\
      forall p, w_fs w'' p = w_fs w' p.
Proof.
  intros ex da dest w Oe De Od Dd W C L F.
  destruct (spec_total _ _ _ _ (install_spec ex da dest w Oe De Od Dd W C F) L) as (w' & E & (W' & C' & Cp) & L').
  exists w'. split; auto. split; auto.
  destruct (spec_total _ _ _ _ (install_spec ex da dest w' Oe De Od Dd W' C' (copied_fits _ _ _ _ Cp)) L') as (w'' & E' & (W'' & C'' & Cp') & L'').
  exists w''. split; auto. eapply copied_again; eauto.
Qed.

(** install_rfsed_tests: the same, directly into the given directory. *)
Theorem C55_install_rfsed_tests : forall tests dest w,
  tree_ok tests -> is_dir_tree tests ->
  wf (w_fs w) -> cache_ok w -> w_left w = None ->
  fits (w_fs w) dest tests ->
  exists w', install_rfsed_tests tests dest w = (Returns, w') /\
    copied (w_fs w) dest tests (w_fs w') /\
    exists w'', install_rfsed_tests tests dest w' = (Returns, w'') /\
      forall p, w_fs w'' p = w_fs w' p.
Proof.
  intros tests dest w Ot Dt W C L F.
  destruct (spec_total _ _ _ _ (copy_tree_ok tests dest w Ot Dt W C F) L) as (w' & E & (W' & C' & Cp) & L').
  exists w'. split; auto. split; auto.
  destruct (spec_total _ _ _ _ (copy_tree_ok tests dest w' Ot Dt W' C' (copied_fits _ _ _ _ Cp)) L') as (w'' & E' & (W'' & C'' & Cp') & L'').
  exists w''. split; auto. eapply copied_again; eauto.
Qed.

(** * C74: a killed installation *)

(** Kill the process before any of its system calls: nothing outside the installed files is
    affected, an installed file is old, absent, or a beginning of the new one; and a new
    process that installs again gives exactly the result of an undisturbed installation. *)
Theorem C74_killed_install : forall ex da dest f k c,
  tree_ok ex -> is_dir_tree ex -> tree_ok da -> is_dir_tree da ->
  wf f -> fits f dest (bundle ex da) -> cache_ok (World f c (Some k)) ->
  let w1 := snd (install_examples ex da dest (World f c (Some k))) in
  partly_copied f dest (bundle ex da) (w_fs w1) /\
  exists w2 w3,
    install_examples ex da dest (World (w_fs w1) [] None) = (Returns, w2) /\
    install_examples ex da dest (World f [] None) = (Returns, w3) /\
    copied f dest (bundle ex da) (w_fs w3) /\
    forall p, w_fs w2 p = w_fs w3 p.
Proof.
  intros ex da dest f k c Oe De Od Dd W F C w1.
  assert (H1 : wf (w_fs w1) /\ partly_copied f dest (bundle ex da) (w_fs w1)).
  { subst w1. destruct (install_spec ex da dest (World f c (Some k)) Oe De Od Dd W C F) as [(_ & (W1 & _ & A1 & A2 & A3) & _)|(_ & _ & H)]; auto.
    cbn [w_fs] in *. split; auto. split; [|split]; auto.
    intros q u Hq. rewrite (A1 _ _ Hq). apply done_halfway. }
  clearbody w1. destruct H1 as [W1 P1]. split; auto.
  assert (F1 : fits (w_fs w1) dest (bundle ex da)) by (eapply partly_fits; eauto).
  destruct (spec_total _ _ _ _ (install_spec ex da dest (World (w_fs w1) [] None) Oe De Od Dd W1 (fun p H => match H with end) F1) eq_refl) as (w2 & E2 & (W2 & _ & Cp2) & _).
  destruct (spec_total _ _ _ _ (install_spec ex da dest (World f [] None) Oe De Od Dd W (fun p H => match H with end) F) eq_refl) as (w3 & E3 & (W3 & _ & Cp3) & _).
  exists w2, w3. split; auto. split; auto. split; auto.
  eapply copied_det; [exact Cp3|exact Cp2|]. cbn [w_fs]. apply P1.
Qed.
