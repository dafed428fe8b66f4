(** C75: what an installation can never damage, whatever is in the way, whatever the
    process cached and wherever it is killed; and the refutations of the unconditional
    C55. *)
From Coq Require Import String Ascii List Bool ZArith Lia.
From Verif Require Import FsModel SpecFs FsProofs FsProofs2 P_Fs.
Import ListNotations.
Local Open Scope list_scope.

(** The places an installation may write to: the packaged paths, and - when a directory
    sits where a packaged file should go - the file's name inside that directory. *)
Definition may_touch (dst : path) (t : tree) (p : path) : Prop :=
  exists q u, packaged t q u /\
    (p = sub dst q \/ exists q' n b tm m, q = q' ++ [n] /\ u = TFile b tm m /\ p = sub dst (q ++ [n])).

(** Everything else is kept, except that missing directories above [dst] may appear;
    and no directory ever disappears. *)
Definition harmless (dst : path) (T : path -> Prop) (f f' : fs) : Prop :=
  (forall p, f' p = f p \/ (above p dst /\ f p = None /\ f' p = Some Dir) \/ T p) /\
  (forall p, f p = Some Dir -> f' p = Some Dir).

Definition only_expected (o : outcome) : Prop :=
  o = Returns \/ o = Raises DistutilsFileError \/ o = Raises Killed.

Section Harm.
  Variables (dst : path) (T : path -> Prop).

  Lemma harmless_refl : forall f, harmless dst T f f.
  Proof. intros f; split; auto. Qed.
  Lemma harmless_trans : forall f g h, harmless dst T f g -> harmless dst T g h -> harmless dst T f h.
  Proof.
    intros f g h [A1 A2] [B1 B2]; split; auto.
    intros p. destruct (A1 p) as [E|[(U & N & D)|K]]; auto.
    - destruct (B1 p) as [E'|[(U & N & D)|K]]; auto.
      + left; congruence.
      + right; left. rewrite <- E. auto.
    - right; left. split; auto.
  Qed.

  Definition ok (m : cmd) : Prop := forall w,
    only_expected (fst (m w)) /\ harmless dst T (w_fs w) (w_fs (snd (m w))).

  Lemma ok_ret : ok ret.
  Proof. intros w; split; [left; auto|apply harmless_refl]. Qed.
  Lemma ok_seq : forall m k, ok m -> ok k -> ok (m ;; k).
  Proof.
    intros m k Hm Hk w. specialize (Hm w). rewrite seq_run. destruct (m w) as [[|e] w'] eqn:E; cbn [fst snd] in *.
    - specialize (Hk w'). destruct Hm, Hk. split; auto. eapply harmless_trans; eauto.
    - exact Hm.
  Qed.
  Lemma ok_modify_at : forall g w,
    harmless dst T (w_fs w) (g (w_fs w)) ->
    only_expected (fst (modify g w)) /\ harmless dst T (w_fs w) (w_fs (snd (modify g w))).
  Proof.
    intros g w H. unfold modify. destruct (w_left w) as [[|k]|]; cbn [fst snd w_fs];
      split; auto; unfold only_expected; auto using harmless_refl.
  Qed.
  Lemma ok_remember : forall p, ok (remember p).
  Proof. intros p w; split; [left; auto|apply harmless_refl]. Qed.

  Lemma ok_make_one : forall p, (T p \/ above p dst) -> ok (make_one p).
  Proof.
    intros p Hp w. unfold make_one. destruct (cached w p); [apply ok_ret|].
    destruct (mkdir_error (w_fs w) p) as [e|] eqn:E.
    - destruct e; try (split; [right; left; reflexivity|apply harmless_refl]).
      destruct (isdir (w_fs w) p). apply ok_remember. split; [right; left; reflexivity|apply harmless_refl].
    - assert (N : w_fs w p = None).
      { destruct p as [|n d]; simpl in E; [discriminate|]. destruct (walk_error (w_fs w) d); [discriminate|].
        unfold lexists in E. destruct (w_fs w (n :: d)); [discriminate|auto]. }
      assert (H : only_expected (fst (modify (fun f => upd f p (Some Dir)) w)) /\
                  harmless dst T (w_fs w) (w_fs (snd (modify (fun f => upd f p (Some Dir)) w)))).
      { apply ok_modify_at. split.
        - intros q. destruct (list_eq_dec string_dec q p) as [->|K].
          + destruct Hp; auto. right; left. rewrite upd_same. auto.
          + rewrite upd_other; auto.
        - intros q Hq. rewrite upd_other; auto. intros ->. congruence. }
      rewrite seq_run. destruct (modify _ w) as [[|e] w'] eqn:Em; cbn [fst snd] in *; auto.
  Qed.

  Lemma ok_make_all : forall ps, (forall p, In p ps -> T p \/ above p dst) -> ok (make_all ps).
  Proof.
    induction ps as [|p ps IH]; intros H; cbn [make_all]. apply ok_ret.
    apply ok_seq. apply ok_make_one, H; left; auto. apply IH; intros q Hq; apply H; right; auto.
  Qed.

  Lemma missing_above_in : forall f p q, In q (missing_above f p) -> above q p.
  Proof.
    intros f p; induction p as [|n p IH]; intros q H; [destruct H|].
    cbn [missing_above] in H. destruct (isdir f (n :: p)); [destruct H|].
    apply in_app_or in H as [H|[<-|[]]]; apply above_cons; auto.
  Qed.

  Lemma ok_mkpath : forall p, (forall q, above q p -> T q \/ above q dst) -> ok (mkpath p).
  Proof.
    intros p H w. unfold mkpath. destruct (isdir (w_fs w) p); [apply ok_ret|].
    destruct (cached w p); [apply ok_ret|]. apply ok_make_all.
    intros q Hq. apply H. eapply missing_above_in; eauto.
  Qed.

  (** the last part of a file copy, once the file is no directory *)
  Definition nodir (p : path) (m : cmd) : Prop := forall w,
    w_fs w p <> Some Dir ->
    only_expected (fst (m w)) /\ harmless dst T (w_fs w) (w_fs (snd (m w))) /\ w_fs (snd (m w)) p <> Some Dir.
  Lemma nodir_seq : forall p m k, nodir p m -> nodir p k -> nodir p (m ;; k).
  Proof.
    intros p m k Hm Hk w N. destruct (Hm w N) as (A & B & C). rewrite seq_run.
    destruct (m w) as [[|e] w'] eqn:E; cbn [fst snd] in *; auto.
    destruct (Hk w' C) as (A' & B' & C'). split; auto. split; auto. eapply harmless_trans; eauto.
  Qed.
  Lemma nodir_modify : forall p g, T p ->
    (forall f q, q <> p -> g f q = f q) -> (forall f, f p <> Some Dir -> g f p <> Some Dir) ->
    nodir p (modify g).
  Proof.
    intros p g Tp O N w Hw.
    assert (H : harmless dst T (w_fs w) (g (w_fs w))).
    { split; intros q.
      - destruct (list_eq_dec string_dec q p) as [->|K]; auto.
      - intros Hq. rewrite O; auto. intros ->; auto. }
    destruct (ok_modify_at g w H) as [A B]. split; auto. split; auto.
    unfold modify. destruct (w_left w) as [[|k]|]; cbn [fst snd w_fs]; auto.
  Qed.
  Lemma nodir_write : forall p todo written, T p -> nodir p (write_from p written todo).
  Proof.
    intros p todo; induction todo as [|c r IH]; intros written Tp; cbn [write_from].
    - intros w Hw. split; [left; auto|split; [apply harmless_refl|auto]].
    - apply nodir_seq; auto. apply nodir_modify; auto.
      + intros f q Hq. unfold set_bytes. destruct (f p) as [[|]|]; auto. apply upd_other; auto.
      + intros f Hf. unfold set_bytes. destruct (f p) as [[|]|] eqn:E; try congruence. rewrite upd_same; discriminate.
  Qed.

  Lemma ok_copy_file : forall b t m base d,
    T d -> T (base :: d) -> ok (copy_file b t m base d).
  Proof.
    intros b t m base d T1 T2 w. unfold copy_file.
    set (p := if isdir (w_fs w) d then base :: d else d).
    assert (Tp : T p) by (unfold p; destruct (isdir (w_fs w) d); auto). clearbody p.
    destruct (node_dec (w_fs w p) (Some Dir)) as [E|E].
    - rewrite seq_run. unfold remove_old. rewrite E. split; [right; left; reflexivity|apply harmless_refl].
    - cut (nodir p (remove_old p ;; create p ;; write_from p "" b ;; set_time t p ;; set_mode m p)).
      { intros H. destruct (H w E) as (A & B & _). auto. }
      apply nodir_seq; [|apply nodir_seq; [|apply nodir_seq; [|apply nodir_seq]]].
      + intros w0 H0. unfold remove_old. destruct (w_fs w0 p) as [[|]|] eqn:E0; [congruence| |].
        * apply (nodir_modify p (fun f => upd f p None)); auto.
          intros f q Hq; apply upd_other; auto. intros f _; rewrite upd_same; discriminate. congruence.
        * split; [left; auto|split; [apply harmless_refl|cbn [fst snd]; congruence]].
      + intros w0 H0. unfold create. destruct p as [|n up]; [split; [right; left; reflexivity|split; [apply harmless_refl|auto]]|].
        destruct (walk_error (w_fs w0) up); [split; [right; left; reflexivity|split; [apply harmless_refl|auto]]|].
        apply (nodir_modify (n :: up)); auto.
        intros f q Hq; apply upd_other; auto. intros f _; rewrite upd_same; discriminate.
      + apply nodir_write; auto.
      + apply nodir_modify; auto.
        * intros f q Hq. destruct (f p) as [[|]|]; auto. apply upd_other; auto.
        * intros f Hf. destruct (f p) as [[|]|] eqn:E0; try congruence. rewrite upd_same; discriminate.
      + apply nodir_modify; auto.
        * intros f q Hq. destruct (f p) as [[|]|]; auto. apply upd_other; auto.
        * intros f Hf. destruct (f p) as [[|]|] eqn:E0; try congruence. rewrite upd_same; discriminate.
  Qed.

  Lemma ok_copy_tree : forall t d,
    (forall q, above q d -> T q \/ above q dst) ->
    (forall p, may_touch d t p -> T p) ->
    ok (copy_tree t d).
  Proof.
    induction t as [b t m|l IH] using tree_ind'; intros d HA HT.
    - intros w; split; [right; left; reflexivity|apply harmless_refl].
    - intros w. rewrite copy_tree_dir. revert w. apply ok_seq; [apply ok_mkpath; auto|].
      assert (HE : forall n s, In (n, s) l -> ok (copy_entry d (n, s))).
      { intros n s Hin. unfold copy_entry; cbn [fst snd]. unfold nfs. destruct (String.prefix ".nfs" n) eqn:Hn; [apply ok_ret|].
        assert (Tn : T (n :: d)).
        { apply HT. exists [n], s. split; [econstructor; eauto; apply packaged_here|]. left; reflexivity. }
        destruct s as [b t m|l'].
        - apply ok_copy_file; auto. apply HT. exists [n], (TFile b t m). split; [econstructor; eauto; apply packaged_here|].
          right. exists [], n, b, t, m. split; auto.
        - apply (IH n (TDir l') Hin).
          + intros q Hq. apply above_cons in Hq as [->|Hq]; auto.
          + intros p (q & u & Hq & H). apply HT. exists (n :: q), u. split; [econstructor; eauto|].
            destruct H as [->|(q' & n' & b & tm & m & -> & -> & ->)].
            * left. rewrite sub_cons. reflexivity.
            * right. exists (n :: q'), n', b, tm, m. split; auto. split; auto. simpl. rewrite sub_cons. reflexivity. }
      clear HA HT IH. induction l as [|[n s] l IHl]; cbn [copy_entries]; [apply ok_ret|].
      apply ok_seq. apply HE; left; auto. apply IHl. intros n' s' Hin; apply HE; right; auto.
  Qed.
End Harm.

(** For EVERY file system, cache content, obstacle and kill point. *)
Theorem C75_install_examples_harmless : forall ex da dest w,
  only_expected (fst (install_examples ex da dest w)) /\
  harmless dest (may_touch dest (bundle ex da)) (w_fs w) (w_fs (snd (install_examples ex da dest w))).
Proof.
  intros ex da dest. set (T := may_touch dest (bundle ex da)).
  assert (G : forall n s, String.prefix ".nfs" n = false -> In (n, s) [("examples"%string, ex); ("data"%string, da)] ->
                ok dest T (copy_tree s (n :: dest))).
  { intros n s Hn Hin. apply ok_copy_tree.
    - intros q Hq. apply above_cons in Hq as [->|Hq]; auto. left. exists [n], s.
      split; [econstructor; eauto; apply packaged_here|]. left; reflexivity.
    - intros p (q & u & Hq & H). exists (n :: q), u. split; [econstructor; eauto|].
      destruct H as [->|(q' & n' & b & tm & m & -> & -> & ->)].
      + left. rewrite sub_cons. reflexivity.
      + right. exists (n :: q'), n', b, tm, m. split; auto. split; auto. simpl. rewrite sub_cons. reflexivity. }
  apply (ok_seq dest T); apply G; simpl; auto.
Qed.

Theorem C75_install_rfsed_tests_harmless : forall tests dest w,
  only_expected (fst (install_rfsed_tests tests dest w)) /\
  harmless dest (may_touch dest tests) (w_fs w) (w_fs (snd (install_rfsed_tests tests dest w))).
Proof. intros tests dest. apply (ok_copy_tree dest (may_touch dest tests) tests dest); auto. Qed.

(** * The unconditional C55 is false *)

Definition ex1 : tree := TDir [("a.txt"%string, TFile "hello" 7 420); ("sub"%string, TDir [("b.txt"%string, TFile "x" 8 420)])].
Definition da1 : tree := TDir [("d.h5"%string, TFile "data" 9 420)].

Lemma ex1_ok : tree_ok ex1.
Proof.
  constructor.
  - repeat constructor; simpl; intuition discriminate.
  - intros n s [E|[E|[]]]; injection E as <- <-; constructor.
    + repeat constructor; simpl; auto.
    + intros n s [E|[]]; injection E as <- <-; constructor.
Qed.
Lemma da1_ok : tree_ok da1.
Proof.
  constructor. repeat constructor; simpl; auto.
  intros n s [E|[]]; injection E as <- <-; constructor.
Qed.

Definition fs_list (l : list (path * node)) : fs := fun p =>
  match p with
  | [] => Some Dir
  | _ => match find (fun e => path_eqb (fst e) p) l with Some e => Some (snd e) | None => None end
  end.
(** an empty home directory *)
Definition fs_home : fs := fs_list [(["home"%string], Dir)].
Definition target : path := ["t"; "home"]%string.

(** The hypotheses of C55/C74 are met in an empty home directory. *)
Lemma fs_home_wf : wf fs_home.
Proof.
  split; [reflexivity|]. intros n p v H. unfold fs_home, fs_list in H. cbn [find fst] in H.
  destruct (path_eqb ["home"%string] (n :: p)) eqn:E; [|discriminate].
  apply path_eqb_eq in E. injection E as _ <-. reflexivity.
Qed.
Lemma fs_home_none : forall p, p <> [] -> p <> ["home"%string] -> fs_home p = None.
Proof.
  intros [|n p] H H'; [contradiction|]. unfold fs_home, fs_list. cbn [find fst].
  destruct (path_eqb ["home"%string] (n :: p)) eqn:E; auto. apply path_eqb_eq in E. congruence.
Qed.
Lemma fs_home_fits : fits fs_home target (bundle ex1 da1).
Proof.
  split.
  - intros p Hp. destruct (list_eq_dec string_dec p []) as [->|N]; [right; reflexivity|].
    destruct (list_eq_dec string_dec p ["home"%string]) as [->|N']; [right; reflexivity|].
    left; apply fs_home_none; auto.
  - intros q u Hq. rewrite fs_home_none. exact I.
    + unfold sub, target. intros K. apply app_eq_nil in K as [_ K]; discriminate.
    + unfold sub, target. intros K. apply (f_equal (@length string)) in K. rewrite app_length in K. simpl in K. lia.
Qed.

Theorem C55_example : exists w',
  install_examples ex1 da1 target (World fs_home [] None) = (Returns, w') /\
  w_fs w' ("b.txt" :: "sub" :: "examples" :: target)%string = Some (File "x" 8 420) /\
  w_fs w' ("d.h5" :: "data" :: target)%string = Some (File "data" 9 420) /\
  w_fs w' ["other"; "home"]%string = None.
Proof.
  destruct (C55_install_examples ex1 da1 target (World fs_home [] None)) as (w' & E & (C1 & C2 & C3) & _).
  - apply ex1_ok. - eexists; reflexivity. - apply da1_ok. - eexists; reflexivity.
  - apply fs_home_wf. - intros p []. - reflexivity. - apply fs_home_fits.
  - exists w'. split; auto. split; [|split].
    + apply (C1 ["examples"; "sub"; "b.txt"]%string (TFile "x" 8 420)).
      eapply packaged_in; [left; reflexivity|reflexivity|]. eapply packaged_in; [right; left; reflexivity|reflexivity|].
      eapply packaged_in; [left; reflexivity|reflexivity|]. apply packaged_here.
    + apply (C1 ["data"; "d.h5"]%string (TFile "data" 9 420)).
      eapply packaged_in; [right; left; reflexivity|reflexivity|].
      eapply packaged_in; [left; reflexivity|reflexivity|]. apply packaged_here.
    + rewrite C3; [reflexivity| |].
      * intros [r K]. apply (f_equal (@rev string)) in K. rewrite rev_app_distr in K. simpl in K. discriminate.
      * intros q u _ K. unfold sub, target in K. apply (f_equal (@rev string)) in K. rewrite rev_app_distr in K. simpl in K. discriminate.
Qed.

(** A killed run really does leave intermediate states. *)
Theorem C74_example :
  let w1 := snd (install_examples ex1 da1 target (World fs_home [] (Some 5))) in
  w_fs w1 ("a.txt" :: "examples" :: target)%string = Some (File "he" now default_mode) /\
  fst (install_examples ex1 da1 target (World fs_home [] (Some 5))) = Raises Killed.
Proof. vm_compute. auto. Qed.

(** (1) A directory where a packaged file should go: the call returns normally, but the
    packaged file is not at its place (it was put inside that directory). *)
Theorem C55_colliding_directory_refuted :
  exists w w', wf (w_fs w) /\ cache_ok w /\ w_left w = None /\
    install_examples ex1 da1 target w = (Returns, w') /\
    w_fs w' ("a.txt" :: "examples" :: target)%string = Some Dir /\
    w_fs w' ("a.txt" :: "a.txt" :: "examples" :: target)%string = Some (File "hello" 7 420).
Proof.
  set (f := upd (upd (upd fs_home target (Some Dir)) ("examples"%string :: target) (Some Dir))
              ("a.txt"%string :: "examples"%string :: target) (Some Dir)).
  set (w := World f [] None).
  exists w, (snd (install_examples ex1 da1 target w)). split.
  - unfold w, f; cbn [w_fs]. apply wf_upd_some; auto. apply wf_upd_some; auto. apply wf_upd_some; auto.
    apply fs_home_wf.
  - split; [intros p []|]. split; [reflexivity|]. split.
    + rewrite (surjective_pairing (install_examples ex1 da1 target w)) at 1. f_equal.
    + split; vm_compute; reflexivity.
Qed.

(** (2) A file where a directory is needed: DistutilsFileError, half of it installed. *)
Theorem C55_colliding_file_refuted :
  exists w, wf (w_fs w) /\ cache_ok w /\ w_left w = None /\
    w_fs w ["data"; "home"]%string = Some (File "mine" 1 420) /\
    fst (install_examples ex1 da1 ["home"%string] w) = Raises DistutilsFileError /\
    w_fs (snd (install_examples ex1 da1 ["home"%string] w)) ["a.txt"; "examples"; "home"]%string = Some (File "hello" 7 420).
Proof.
  set (f := upd fs_home ["data"; "home"]%string (Some (File "mine" 1 420))).
  exists (World f [] None). split.
  - unfold f; cbn [w_fs]. apply wf_upd_some; auto. apply fs_home_wf. right; vm_compute; discriminate.
  - split; [intros p []|]. split; [reflexivity|]. repeat split; vm_compute; reflexivity.
Qed.

(** (3) Install, remove the result, install again in the same process: distutils still
    believes the directories exist, and the call fails. *)
Theorem C55_reinstall_refuted :
  exists w', install_examples ex1 da1 target (World fs_home [] None) = (Returns, w') /\
    fits fs_home target (bundle ex1 da1) /\
    fst (install_examples ex1 da1 target (World fs_home (w_cache w') None)) = Raises DistutilsFileError.
Proof.
  exists (snd (install_examples ex1 da1 target (World fs_home [] None))). split; [|split].
  - rewrite (surjective_pairing (install_examples ex1 da1 target (World fs_home [] None))) at 1. f_equal.
  - apply fs_home_fits.
  - vm_compute. reflexivity.
Qed.

(** ...in general: whenever the process remembers having created a directory that is gone,
    the first file to be put there makes the call fail and nothing is written. *)
Theorem C55_stale_cache : forall w n b t m rest dst,
  wf (w_fs w) -> In dst (w_cache w) -> w_fs w dst = None -> String.prefix ".nfs" n = false ->
  install_rfsed_tests (TDir ((n, TFile b t m) :: rest)) dst w = (Raises DistutilsFileError, w).
Proof.
  intros w n b t m rest dst W Hin N Hn. unfold install_rfsed_tests. rewrite copy_tree_dir.
  assert (Hc : cached w dst = true).
  { unfold cached. apply existsb_exists. exists dst. split; auto. apply path_eqb_refl. }
  rewrite seq_run. unfold mkpath. unfold isdir at 1. rewrite N, Hc.
  cbn [copy_entries]. rewrite seq_run. unfold copy_entry. cbn [fst snd]. unfold nfs. rewrite Hn.
  assert (Nn : w_fs w (n :: dst) = None).
  { destruct (w_fs w (n :: dst)) eqn:E; auto. apply (proj2 W) in E. congruence. }
  unfold copy_file, isdir. rewrite Nn. rewrite seq_run. unfold remove_old. rewrite Nn.
  rewrite seq_run. unfold create.
  destruct (walk_error (w_fs w) dst) eqn:E; auto. apply walk_ok_inv in E; auto. congruence.
Qed.
