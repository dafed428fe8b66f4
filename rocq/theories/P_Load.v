(** C148: the example data sets stay what they are, whatever was saved, installed, killed
    or raced in between. *)
From Coq Require Import String Ascii List Bool ZArith Lia.
From Verif Require Import FsModel SpecFs FsProofs FsProofs2 P_Fs P_Fs2 LoadModel.
Import ListNotations.
Local Open Scope list_scope.
Local Open Scope string_scope.

(** Neither path lies at or below the other. *)
Definition apart (a b : path) : Prop := ~ above a b /\ ~ above b a.

(** Where the example data of the package installed in [pkg] are (paths are leaf first). *)
Definition example_places (pkg : path) : list path :=
  [ "rfstreams.h5" :: "rfstreams_Moho" :: "data" :: pkg;
    "rfstreams.h5" :: "rfstreams_Sed" :: "data" :: pkg;
    "Raw_Data" :: "data" :: pkg;
    "eq_events.quakeml" :: "Earthquake_Catalog" :: "data" :: pkg;
    "00_eq_data.h5" :: "IRIS_Downloaded_Waveform" :: "examples" :: pkg ].

(** One thing that happens to the disk [f], leaving the disk [f'].  Each call is made by a
    process with an arbitrary distutils cache that may be killed at any point. *)
Inductive event (pkg : path) : fs -> fs -> Prop :=
| a_save : forall h cache left f,
    event pkg f (w_fs (snd (save pkg h (World f cache left))))
| several_saves_at_once : forall callers callers' f f',
    race pkg (f, callers) (f', callers') -> event pkg f f'
| examples_installed : forall ex da dest cache left f,
    apart ("examples" :: dest) pkg -> apart ("data" :: dest) pkg ->
    event pkg f (w_fs (snd (install_examples ex da dest (World f cache left))))
| tests_installed : forall tests dest cache left f,
    apart dest pkg ->
    event pkg f (w_fs (snd (install_rfsed_tests tests dest (World f cache left))))
| somebody_else : forall f f',   (* anything that leaves the example files alone *)
    (forall e p, In e (example_places pkg) -> above p e -> f' p = f p) ->
    event pkg f f'.

Inductive history (pkg : path) : fs -> fs -> Prop :=
| nothing_yet : forall f, history pkg f f
| then_event : forall f g h, history pkg f g -> event pkg g h -> history pkg f h.

(** * Proofs *)

Definition file_of (pkg : path) (l : loader) : path := resource_filename pkg (resource l).

(** What no event can undo. *)
Record kept (pkg : path) (f f' : fs) : Prop := {
  k_dirs : forall p, above p pkg -> f p = Some Dir -> f' p = Some Dir;
  k_file : forall l, f' (file_of pkg l) = f (file_of pkg l);
  k_way : forall l p, above p (file_of pkg l) ->
    f' p = f p \/ (f p = None /\ f' p = Some Dir)
}.

(** Two directories on the way to the same place lie one above the other. *)
Lemma above_comparable : forall a b c, above a c -> above b c -> above a b \/ above b a.
Proof.
  intros a b c; revert a b; induction c as [|n c IH]; intros a b Ha Hb.
  - apply above_nil in Ha as ->. apply above_nil in Hb as ->. left; apply above_refl.
  - pose proof Ha as Ha'. pose proof Hb as Hb'.
    apply above_cons in Ha as [->|Ha]; [right; exact Hb'|].
    apply above_cons in Hb as [->|Hb]; [left; exact Ha'|].
    exact (IH a b Ha Hb).
Qed.

Lemma file_of_place : forall pkg l, In (file_of pkg l) (example_places pkg).
Proof. intros pkg [| | | |]; cbn; tauto. Qed.

Lemma pkg_above_file : forall pkg l, above pkg (file_of pkg l).
Proof. intros pkg l. exists (rev (resource l)). reflexivity. Qed.

Lemma kept_refl : forall pkg f, kept pkg f f.
Proof. intros pkg f. constructor; auto. Qed.

Lemma kept_trans : forall pkg f g h, kept pkg f g -> kept pkg g h -> kept pkg f h.
Proof.
  intros pkg f g h [D1 F1 W1] [D2 F2 W2]. constructor.
  - auto.
  - intros l. rewrite F2, F1; auto.
  - intros l p A. destruct (W1 l p A) as [E|[N E]].
    + destruct (W2 l p A) as [E'|[N' E']]; [left; congruence|right; split; congruence].
    + right. split; [exact N|].
      destruct (W2 l p A) as [E'|[N' E']]; congruence.
Qed.

(** ** A directory appears where there was nothing, below the package's examples *)
Lemma savepath_not_file : forall pkg h l, savepath pkg h <> file_of pkg l.
Proof.
  intros pkg h l E.
  assert (L : l = raw_data_example).
  { apply (f_equal (@length string)) in E.
    unfold savepath, file_of, resource_filename in E. rewrite app_length, rev_length in E.
    destruct l; cbn [length resource] in E; [lia|lia|reflexivity|lia|lia]. }
  rewrite L in E. unfold savepath, file_of, resource_filename in E. cbn [resource rev app] in E.
  injection E as _ E. discriminate E.
Qed.

Lemma mkdir_kept : forall pkg h f, mkdir_error f (savepath pkg h) = None ->
  kept pkg f (upd f (savepath pkg h) (Some Dir)).
Proof.
  intros pkg h f E.
  assert (N : f (savepath pkg h) = None).
  { unfold mkdir_error, savepath in E. destruct (walk_error f ("examples" :: pkg)); [discriminate|].
    unfold lexists in E. unfold savepath.
    destruct (f (helper_dir h :: "examples" :: pkg)); [discriminate|reflexivity]. }
  constructor.
  - intros p _ Hp. rewrite upd_other; auto. intros ->. congruence.
  - intros l. apply upd_other. intros K. exact (savepath_not_file pkg h l (eq_sym K)).
  - intros l p _. destruct (list_eq_dec string_dec p (savepath pkg h)) as [->|K].
    + right. split; auto. apply upd_same.
    + left. apply upd_other; auto.
Qed.

Lemma save_kept : forall pkg h w, kept pkg (w_fs w) (w_fs (snd (save pkg h w))).
Proof.
  intros pkg h w. unfold save. destruct (negb (isdir (w_fs w) (savepath pkg h))); [|apply kept_refl].
  unfold os_mkdir. destruct (mkdir_error (w_fs w) (savepath pkg h)) eqn:E; [apply kept_refl|].
  unfold modify. destruct (w_left w) as [[|k]|]; cbn [snd w_fs]; [apply kept_refl| |]; apply mkdir_kept; exact E.
Qed.

Lemma race_kept : forall pkg s s', race pkg s s' -> kept pkg (fst s) (fst s').
Proof.
  intros pkg s s' H. induction H as [s|s s' s'' [f f' c c' b a E] _ IH]; [apply kept_refl|].
  eapply kept_trans; [|exact IH]. cbn [fst]. clear IH.
  destruct c as [h|h|h r]; cbn [step1] in E; [| |discriminate].
  - destruct (negb (isdir f (savepath pkg h))); injection E as <- _; apply kept_refl.
  - destruct (mkdir_error f (savepath pkg h)) eqn:Em; injection E as <- _; [apply kept_refl|apply mkdir_kept; exact Em].
Qed.

(** ** Installations elsewhere *)
Lemma touch_below : forall dst t p, may_touch dst t p -> above dst p.
Proof.
  intros dst t p (q & u & _ & [->|(q' & n & b & tm & m & _ & _ & ->)]); apply above_sub.
Qed.

(** installing the examples touches only dest itself and what is below its two new directories *)
Lemma touch_bundle : forall dst ex da p, may_touch dst (bundle ex da) p ->
  p = dst \/ above ("examples" :: dst) p \/ above ("data" :: dst) p.
Proof.
  intros dst ex da p (q & u & Hq & H).
  assert (Q : (q = [] /\ u = bundle ex da) \/ exists q', q = "examples" :: q' \/ q = "data" :: q').
  { unfold bundle in Hq. inversion Hq as [t E1 E2 E3|l n s q' u' Hin Hn Hq' E1 E2 E3]; subst.
    - left. split; reflexivity.
    - right. exists q'. destruct Hin as [E|[E|[]]]; injection E as <- _; auto. }
  destruct Q as [[-> ->]|[q' Q]].
  - destruct H as [->|(q' & n & b & tm & m & E & _)]; [left; reflexivity|].
    destruct q'; discriminate.
  - right. assert (S : forall r, p = sub dst (q ++ r) -> above ("examples" :: dst) p \/ above ("data" :: dst) p).
    { intros r ->. destruct Q as [->| ->]; cbn [app]; rewrite sub_cons; [left|right]; apply above_sub. }
    destruct H as [->|(q'' & n & b & tm & m & _ & _ & ->)].
    + apply (S []). rewrite app_nil_r. reflexivity.
    + apply (S [n]). reflexivity.
Qed.

Lemma harmless_kept : forall pkg dst (T : path -> Prop) f f',
  (forall p, above p pkg -> f p = Some Dir) ->
  (forall l p, T p -> above p (file_of pkg l) -> above p pkg) ->
  (forall l, ~ above (file_of pkg l) dst) ->
  harmless dst T f f' -> kept pkg f f'.
Proof.
  intros pkg dst T f f' D HT HF [A K]. constructor.
  - intros p _. apply K.
  - intros l. destruct (A (file_of pkg l)) as [E|[[U _]|H]]; auto.
    + destruct (HF l U).
    + specialize (HT l _ H (above_refl _)). pose proof (D _ HT) as E. rewrite E. exact (K _ E).
  - intros l p Hp. destruct (A p) as [E|[(_ & N & E)|H]]; auto.
    left. pose proof (D _ (HT l p H Hp)) as E. rewrite E. exact (K _ E).
Qed.

Lemma examples_kept : forall pkg ex da dest w,
  (forall p, above p pkg -> w_fs w p = Some Dir) ->
  apart ("examples" :: dest) pkg -> apart ("data" :: dest) pkg ->
  kept pkg (w_fs w) (w_fs (snd (install_examples ex da dest w))).
Proof.
  intros pkg ex da dest w D A1 A2.
  refine (harmless_kept pkg dest _ _ _ D _ _ (proj2 (C75_install_examples_harmless ex da dest w))).
  - intros l p H Hp. destruct (touch_bundle _ _ _ _ H) as [->|[B|B]].
    + destruct (above_comparable _ _ _ Hp (pkg_above_file pkg l)) as [C|C]; [exact C|].
      destruct (proj2 A1). apply above_cons. right. exact C.
    + destruct (above_comparable _ _ _ (above_trans _ _ _ B Hp) (pkg_above_file pkg l)) as [C|C];
        [destruct (proj1 A1 C)|destruct (proj2 A1 C)].
    + destruct (above_comparable _ _ _ (above_trans _ _ _ B Hp) (pkg_above_file pkg l)) as [C|C];
        [destruct (proj1 A2 C)|destruct (proj2 A2 C)].
  - intros l U. apply (proj2 A1). apply above_cons. right.
    exact (above_trans _ _ _ (pkg_above_file pkg l) U).
Qed.

Lemma tests_kept : forall pkg tests dest w,
  (forall p, above p pkg -> w_fs w p = Some Dir) -> apart dest pkg ->
  kept pkg (w_fs w) (w_fs (snd (install_rfsed_tests tests dest w))).
Proof.
  intros pkg tests dest w D A.
  refine (harmless_kept pkg dest _ _ _ D _ _ (proj2 (C75_install_rfsed_tests_harmless tests dest w))).
  - intros l p H Hp. pose proof (touch_below _ _ _ H) as B.
    destruct (above_comparable _ _ _ (above_trans _ _ _ B Hp) (pkg_above_file pkg l)) as [C|C];
      [destruct (proj1 A C)|destruct (proj2 A C)].
  - intros l U. apply (proj2 A). exact (above_trans _ _ _ (pkg_above_file pkg l) U).
Qed.

Lemma event_kept : forall pkg f f', (forall p, above p pkg -> f p = Some Dir) ->
  event pkg f f' -> kept pkg f f' /\ (forall p, above p pkg -> f' p = Some Dir).
Proof.
  intros pkg f f' D E. destruct E as [h c k f|cs cs' f f' R|ex da dest c k f A1 A2|ts dest c k f A|f f' H].
  - pose proof (save_kept pkg h (World f c k)) as K. split; [exact K|]. intros p Hp. apply (k_dirs _ _ _ K p Hp), D, Hp.
  - pose proof (race_kept pkg _ _ R) as K. split; [exact K|]. intros p Hp. apply (k_dirs _ _ _ K p Hp), D, Hp.
  - pose proof (examples_kept pkg ex da dest (World f c k) D A1 A2) as K. split; [exact K|].
    intros p Hp. apply (k_dirs _ _ _ K p Hp), D, Hp.
  - pose proof (tests_kept pkg ts dest (World f c k) D A) as K. split; [exact K|].
    intros p Hp. apply (k_dirs _ _ _ K p Hp), D, Hp.
  - assert (K : kept pkg f f').
    { constructor.
      - intros p Hp E. rewrite (H (file_of pkg catalog_example) p); auto using file_of_place. exact (above_trans _ _ _ Hp (pkg_above_file pkg catalog_example)).
      - intros l. exact (H _ _ (file_of_place pkg l) (above_refl _)).
      - intros l p Hp. left. exact (H _ p (file_of_place pkg l) Hp). }
    split; [exact K|]. intros p Hp. apply (k_dirs _ _ _ K p Hp), D, Hp.
Qed.

Lemma history_kept : forall pkg f f', (forall p, above p pkg -> f p = Some Dir) ->
  history pkg f f' -> kept pkg f f' /\ (forall p, above p pkg -> f' p = Some Dir).
Proof.
  intros pkg f f' D H. induction H as [f|f g h _ IH E]; [split; [apply kept_refl|exact D]|].
  destruct (IH D) as [K1 D1]. destruct (event_kept pkg g h D1 E) as [K2 D2].
  split; [exact (kept_trans _ _ _ _ K1 K2)|exact D2].
Qed.

(** ** Opening the file again *)
Lemma walk_kept : forall f f' d, wf f ->
  (forall p, above p d -> f' p = f p \/ (f p = None /\ f' p = Some Dir)) ->
  walk_error f' d = walk_error f d \/
  (walk_error f d = Some FileNotFoundError /\ f d = None /\
   (walk_error f' d = None \/ walk_error f' d = Some FileNotFoundError)).
Proof.
  intros f f' d W; induction d as [|n d IH]; intros H; [left; reflexivity|].
  assert (Hd : forall p, above p d -> f' p = f p \/ (f p = None /\ f' p = Some Dir)).
  { intros p Hp. apply H. apply above_cons. right. exact Hp. }
  pose proof (H (n :: d) (above_refl _)) as Hn. cbn [walk_error].
  destruct (IH Hd) as [E|(E & N & E')].
  - rewrite E. destruct (walk_error f d) as [e|]; [left; reflexivity|].
    destruct Hn as [Hn|[N D]]; [left; rewrite Hn; reflexivity|].
    right. rewrite N, D. auto.
  - assert (Nn : f (n :: d) = None).
    { destruct (f (n :: d)) eqn:X; auto. apply (proj2 W) in X. congruence. }
    right. rewrite E. split; [reflexivity|]. split; [exact Nn|].
    destruct E' as [->| ->]; [|right; reflexivity].
    destruct Hn as [Hn|[_ D]]; [rewrite Hn, Nn; right; reflexivity|rewrite D; left; reflexivity].
Qed.

Lemma open_kept : forall f f' p, wf f -> f' p = f p ->
  (forall q, above q p -> f' q = f q \/ (f q = None /\ f' q = Some Dir)) ->
  open_read f' p = open_read f p.
Proof.
  intros f f' [|n d] W E H; [reflexivity|]. cbn [open_read].
  assert (Hd : forall q, above q d -> f' q = f q \/ (f q = None /\ f' q = Some Dir)).
  { intros q Hq. apply H. apply above_cons. right. exact Hq. }
  rewrite E. destruct (walk_kept f f' d W Hd) as [->|(-> & N & E')]; [reflexivity|].
  assert (Nn : f (n :: d) = None).
  { destruct (f (n :: d)) eqn:X; auto. apply (proj2 W) in X. congruence. }
  destruct E' as [->| ->]; [rewrite Nn|]; reflexivity.
Qed.

(** * The theorems *)

(** Whatever happened in between - and even if the example was missing at the start - a
    loader answers as it did at the start. *)
Theorem C148_loaders_unaffected : forall stream (decode : string -> stream) pkg f f',
  wf f -> f pkg = Some Dir -> history pkg f f' ->
  forall l, load decode pkg l f' = load decode pkg l f.
Proof.
  intros stream decode pkg f f' W D H l.
  assert (D' : forall p, above p pkg -> f p = Some Dir) by (intros p Hp; exact (wf_dir_above f p pkg W D Hp)).
  destruct (history_kept pkg f f' D' H) as [K _].
  assert (E : open_read f' (file_of pkg l) = open_read f (file_of pkg l)).
  { apply open_kept; [exact W|apply (k_file _ _ _ K)|apply (k_way _ _ _ K)]. }
  destruct l; cbn [load]; try reflexivity; unfold read_rf; unfold file_of in E; rewrite E; reflexivity.
Qed.

(** When the file is there, the loader is the decoder applied to its bytes. *)
Lemma open_file : forall f p b t m, wf f -> f p = Some (File b t m) -> open_read f p = Bytes b.
Proof.
  intros f [|n d] b t m W E; [rewrite (proj1 W) in E; discriminate|].
  cbn [open_read]. rewrite (walk_ok f d W (proj2 W _ _ _ E)), E. reflexivity.
Qed.

Theorem C148_stream : forall stream (decode : string -> stream) pkg f l b t m,
  wf f -> l = rfMoho_example \/ l = rfSed_example \/ l = read_raw_waveform_data ->
  f (resource_filename pkg (resource l)) = Some (File b t m) ->
  load decode pkg l f = AStream (decode b).
Proof.
  intros stream decode pkg f l b t m W Hl E. pose proof (open_file _ _ _ _ _ W E) as O.
  destruct Hl as [->|[->| ->]]; cbn [load]; unfold read_rf; rewrite O; reflexivity.
Qed.

(** Which file each of them reads, and which paths the other two give. *)
Theorem C148_files : forall stream (decode : string -> stream) pkg f, wf f ->
  (forall b t m, f ("rfstreams.h5" :: "rfstreams_Moho" :: "data" :: pkg) = Some (File b t m) ->
     load decode pkg rfMoho_example f = AStream (decode b)) /\
  (forall b t m, f ("rfstreams.h5" :: "rfstreams_Sed" :: "data" :: pkg) = Some (File b t m) ->
     load decode pkg rfSed_example f = AStream (decode b)) /\
  (forall b t m, f ("00_eq_data.h5" :: "IRIS_Downloaded_Waveform" :: "examples" :: pkg) = Some (File b t m) ->
     load decode pkg read_raw_waveform_data f = AStream (decode b)) /\
  load decode pkg raw_data_example f = APath ("Raw_Data" :: "data" :: pkg) /\
  load decode pkg catalog_example f = APath ("eq_events.quakeml" :: "Earthquake_Catalog" :: "data" :: pkg).
Proof.
  intros stream decode pkg f W.
  split; [intros b t m E; apply (C148_stream _ decode pkg f rfMoho_example b t m W); [auto|exact E]|].
  split; [intros b t m E; apply (C148_stream _ decode pkg f rfSed_example b t m W); [auto|exact E]|].
  split; [intros b t m E; apply (C148_stream _ decode pkg f read_raw_waveform_data b t m W); [auto|exact E]|].
  split; reflexivity.
Qed.

(** The copies a complete installation puts into [dest] read like the originals: when the
    package directory on disk is what is installed, opening dest/<resource> gives what the
    loader gives. *)
Theorem C148_installed_copy : forall stream (decode : string -> stream) pkg ex da dest w l b t m,
  tree_ok ex -> is_dir_tree ex -> tree_ok da -> is_dir_tree da ->
  wf (w_fs w) -> cache_ok w -> w_left w = None ->
  fits (w_fs w) dest (bundle ex da) ->
  (forall q u, packaged (bundle ex da) q u -> q <> [] -> w_fs w (sub pkg q) = Some (on_disk u)) ->
  l = rfMoho_example \/ l = rfSed_example \/ l = read_raw_waveform_data ->
  packaged (bundle ex da) (resource l) (TFile b t m) ->
  exists w', install_examples ex da dest w = (Returns, w') /\
    read_rf decode (w_fs w') (resource_filename dest (resource l)) = AStream (decode b) /\
    load decode pkg l (w_fs w) = AStream (decode b).
Proof.
  intros stream decode pkg ex da dest w l b t m Oe De Od Dd W C L F M Hl P.
  destruct (spec_total _ _ _ _ (install_spec ex da dest w Oe De Od Dd W C F) L) as (w' & E & (W' & _ & (C1 & _ & _)) & _).
  exists w'. split; [exact E|]. split.
  - pose proof (open_file _ (resource_filename dest (resource l)) b t m W' (C1 _ _ P)) as O.
    unfold read_rf. rewrite O. reflexivity.
  - apply (C148_stream stream decode pkg (w_fs w) l b t m W Hl). apply (M _ _ P).
    destruct l; discriminate.
Qed.

(** * A concrete case *)

(** A package with a Moho data set in /py/rfsed, and a home directory. *)
Definition pkg1 : path := ["rfsed"; "py"].
Definition da2 : tree := TDir [("rfstreams_Moho", TDir [("rfstreams.h5", TFile "moho" 1 420)])].
Definition ex2 : tree := TDir [("a.txt", TFile "hello" 7 420)].
Definition fs_inst : fs := fs_list [
  (["py"], Dir); (pkg1, Dir); ("examples" :: pkg1, Dir); ("a.txt" :: "examples" :: pkg1, File "hello" 7 420);
  ("data" :: pkg1, Dir); ("rfstreams_Moho" :: "data" :: pkg1, Dir);
  ("rfstreams.h5" :: "rfstreams_Moho" :: "data" :: pkg1, File "moho" 1 420);
  (["home"], Dir)].

Lemma fs_list_wf : forall l,
  (forall n p v, In (n :: p, v) l -> fs_list l p = Some Dir) -> wf (fs_list l).
Proof.
  intros l H. split; [reflexivity|]. intros n p v E. unfold fs_list in E.
  destruct (find (fun e => path_eqb (fst e) (n :: p)) l) as [[q w]|] eqn:Ef; [|discriminate].
  apply find_some in Ef as [Hin Hq]. cbn [fst] in Hq. apply path_eqb_eq in Hq as ->.
  exact (H n p w Hin).
Qed.

Lemma fs_inst_wf : wf fs_inst.
Proof.
  apply fs_list_wf. intros n p v H. cbn [In] in H.
  repeat (destruct H as [H|H]; [injection H as _ <- _; vm_compute; reflexivity|]). destruct H.
Qed.

(** Plots were saved, the examples were installed into /home/t by a process that died after
    five changes, and then again by one that did not. *)
Definition after_events : fs :=
  w_fs (snd (install_examples ex2 da2 target (World
   (w_fs (snd (install_examples ex2 da2 target (World
     (w_fs (snd (save pkg1 save_plot (World fs_inst [] None)))) [] (Some 5))))) [] None))).

Lemma target_apart : forall d, apart (d :: target) pkg1.
Proof.
  intros d. split; intros [r E]; apply (f_equal (@rev string)) in E; rewrite rev_app_distr in E;
    cbn in E; discriminate E.
Qed.

Theorem C148_example :
  wf fs_inst /\ fs_inst pkg1 = Some Dir /\ history pkg1 fs_inst after_events /\
  (forall stream (decode : string -> stream),
     load decode pkg1 rfMoho_example fs_inst = AStream (decode "moho") /\
     load decode pkg1 rfMoho_example after_events = AStream (decode "moho") /\
     load decode pkg1 rfSed_example after_events = NoFile (CannotOpen FileNotFoundError)) /\
  fs_inst ("plots" :: "examples" :: pkg1) = None /\
  after_events ("plots" :: "examples" :: pkg1) = Some Dir /\
  after_events ("rfstreams.h5" :: "rfstreams_Moho" :: "data" :: target) = Some (File "moho" 1 420).
Proof.
  assert (H : history pkg1 fs_inst after_events).
  { eapply then_event; [eapply then_event; [eapply then_event; [apply nothing_yet|]|]|].
    - apply a_save.
    - apply examples_installed; apply target_apart.
    - apply examples_installed; apply target_apart. }
  split; [exact fs_inst_wf|]. split; [reflexivity|]. split; [exact H|]. split; [|vm_compute; auto].
  intros stream decode.
  assert (E : load decode pkg1 rfMoho_example fs_inst = AStream (decode "moho")).
  { apply (C148_stream _ decode pkg1 fs_inst rfMoho_example "moho" 1 420 fs_inst_wf); [auto|vm_compute; reflexivity]. }
  split; [exact E|].
  rewrite !(C148_loaders_unaffected _ decode pkg1 fs_inst after_events fs_inst_wf eq_refl H).
  split; [exact E|]. vm_compute. reflexivity.
Qed.
