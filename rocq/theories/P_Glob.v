(** * P_Glob: which files ExtractEq searches (C105, C106). *)

From Coq Require Import Ascii String NArith Reals Lra Permutation Sorted.
From Verif Require Import Base PoolModel PoolProofs P_Pool ExtractModel P_Extract GlobModel.
Local Open Scope Z_scope.
Local Open Scope string_scope.

(** ** Strings *)
Lemma drop_last_star p : drop_last (p ++ "*") = p.
Proof. induction p as [|c p IH]; [reflexivity|]. cbn [append drop_last]. destruct (p ++ "*") eqn:E; [destruct p; discriminate|]. rewrite <- IH. reflexivity. Qed.
Lemma glob_py_star listdir other p : glob_py listdir other (p ++ "*") = glob_star listdir other p.
Proof. unfold glob_py. rewrite drop_last_star. reflexivity. Qed.
(** No slash in the string. *)
Fixpoint plain (s : string) : bool := match s with "" => true | String c s' => negb (is_slash c) && plain s' end.
Lemma rcut_plain t : plain t = true -> rcut t = ("", t).
Proof. induction t as [|c t IH]; [reflexivity|]. cbn. intro H. apply andb_prop in H as [H1 H2]. rewrite IH by exact H2. destruct (is_slash c); [discriminate|reflexivity]. Qed.
Lemma rcut_slash d t : plain t = true -> rcut (d ++ "/" ++ t) = (d ++ "/", t).
Proof.
  intro Ht. induction d as [|c d IH]; cbn [append].
  - cbn [rcut]. rewrite rcut_plain by exact Ht. reflexivity.
  - cbn [append] in IH. cbn [rcut]. rewrite IH. destruct d; reflexivity.
Qed.
Lemma rstrip_slash d : rstrip (d ++ "/") = rstrip d.
Proof. induction d as [|c d IH]; [reflexivity|]. cbn [append rstrip]. rewrite IH. reflexivity. Qed.
Lemma ends_slash_cons c s : s <> "" -> ends_slash (String c s) = ends_slash s.
Proof. destruct s; [congruence|reflexivity]. Qed.
Lemma rstrip_id d : d <> "" -> ends_slash d = false -> rstrip d = d.
Proof.
  induction d as [|c d IH]; [congruence|]. intros _ H. destruct d as [|c2 d].
  - cbn in *. rewrite H. reflexivity.
  - rewrite ends_slash_cons in H by discriminate. cbn [rstrip] in *. rewrite IH by (discriminate || exact H). reflexivity.
Qed.
Lemma split_slash d t : d <> "" -> ends_slash d = false -> plain t = true -> path_split (d ++ "/" ++ t) = (d, t).
Proof.
  intros Hd He Ht. unfold path_split. rewrite rcut_slash by exact Ht. rewrite rstrip_slash, rstrip_id by assumption. destruct d; [congruence|reflexivity].
Qed.
Lemma split_plain t : plain t = true -> path_split t = ("", t).
Proof. intro Ht. unfold path_split. rewrite rcut_plain by exact Ht. reflexivity. Qed.
Lemma join_plain d n : d <> "" -> ends_slash d = false -> plain n = true -> path_join d n = d ++ "/" ++ n.
Proof.
  intros Hd He Hn. unfold path_join. assert (E : String.eqb d "" || ends_slash d = false).
  { rewrite He. destruct d; [congruence|reflexivity]. }
  rewrite E. destruct n as [|c n]; [reflexivity|]. cbn in Hn. destruct (is_slash c); [discriminate|reflexivity].
Qed.
Lemma magic_app a b : has_magic (a ++ b) = has_magic a || has_magic b.
Proof. induction a as [|c a IH]; [reflexivity|]. cbn [append has_magic]. rewrite IH. rewrite !Bool.orb_assoc. reflexivity. Qed.
Lemma app_assoc_s a b c : (a ++ b) ++ c = a ++ (b ++ c).
Proof. induction a as [|x a IH]; [reflexivity|]. cbn [append]. rewrite IH. reflexivity. Qed.
Lemma app_nil_s a : a ++ "" = a.
Proof. induction a as [|x a IH]; [reflexivity|]. cbn [append]. rewrite IH. reflexivity. Qed.

(** ** Vocabulary, in characters only *)
Definition chars (s : string) : list ascii := list_ascii_of_string s.
(** No slash in the name. *)
Definition no_slash (s : string) : Prop := ~ In "/"%char (chars s).
(** None of the characters glob gives a meaning to. *)
Definition literal (s : string) : Prop := forall c, In c (chars s) -> c <> "*"%char /\ c <> "?"%char /\ c <> "["%char.
(** What a directory listing gives: names without a slash. *)
Definition names_ok (listdir : string -> list string) : Prop := forall d n, In n (listdir d) -> no_slash n.
(** A directory path as a user writes it, without the final slash. *)
Definition dir_path (d : string) : Prop := d <> "" /\ (forall d', d <> d' ++ "/") /\ literal d.
(** A name not starting with a dot. *)
Definition visible (n : string) : Prop := forall n', n <> "." ++ n'.

Lemma no_slash_plain s : no_slash s <-> plain s = true.
Proof.
  unfold no_slash. induction s as [|c s IH]; [split; [reflexivity|intros _ []]|]. unfold chars in *. cbn [list_ascii_of_string plain In].
  unfold is_slash, slash. destruct (Ascii.eqb_spec c "/"%char) as [->|Hc]; cbn [negb andb].
  - split; [intro H; exfalso; apply H; auto|discriminate].
  - rewrite <- IH. split; [tauto|]. intros H [E|E]; [congruence|tauto].
Qed.
Lemma literal_magic s : literal s <-> has_magic s = false.
Proof.
  unfold literal. induction s as [|c s IH]; [split; [reflexivity|intros _ c []]|]. unfold chars in *. cbn [list_ascii_of_string has_magic In].
  destruct (Ascii.eqb_spec c "*"%char) as [->|H1]; [split; [intro H; destruct (H "*"%char (or_introl eq_refl)) as (A & _ & _); congruence|discriminate]|].
  destruct (Ascii.eqb_spec c "?"%char) as [->|H2]; [split; [intro H; destruct (H "?"%char (or_introl eq_refl)) as (_ & A & _); congruence|discriminate]|].
  destruct (Ascii.eqb_spec c "["%char) as [->|H3]; [split; [intro H; destruct (H "["%char (or_introl eq_refl)) as (_ & _ & A); congruence|discriminate]|].
  cbn [orb]. rewrite <- IH. split; [intros H x Hx; apply H; auto|]. intros H x [<-|Hx]; [auto|apply H; exact Hx].
Qed.
Lemma literal_not_magic s c : In c (chars s) -> c = "*"%char \/ c = "?"%char \/ c = "["%char -> has_magic s = true.
Proof.
  intros Hi Hc. destruct (has_magic s) eqn:E; [reflexivity|]. apply literal_magic in E. destruct (E c Hi) as (A & B & C). tauto.
Qed.
Lemma no_end_slash d : (forall d', d <> d' ++ "/") -> ends_slash d = false.
Proof.
  induction d as [|c d IH]; [reflexivity|]. intro H. destruct d as [|c2 d].
  - cbn. unfold is_slash, slash. destruct (Ascii.eqb_spec c "/"%char) as [->|Hc]; [exfalso; apply (H ""); reflexivity|reflexivity].
  - rewrite ends_slash_cons by discriminate. apply IH. intros d' E. apply (H (String c d')). rewrite E. reflexivity.
Qed.
Lemma visible_hidden n : visible n <-> hidden n = false.
Proof.
  unfold visible. destruct n as [|c n]; cbn [hidden]; [split; [reflexivity|discriminate]|].
  destruct (Ascii.eqb_spec c "."%char) as [->|Hc]; [split; [intro H; exfalso; apply (H n); reflexivity|discriminate]|].
  split; [reflexivity|]. intros _ n' E. injection E. congruence.
Qed.
Lemma dir_path_b d : dir_path d -> d <> "" /\ ends_slash d = false /\ has_magic d = false.
Proof. intros (A & B & C). split; [exact A|]. split; [apply no_end_slash, B|apply literal_magic, C]. Qed.
Lemma names_plain listdir d n : names_ok listdir -> In n (listdir d) -> plain n = true.
Proof. intros H K. apply no_slash_plain. exact (H d n K). Qed.

(** C105: with a final slash the files searched are the entries of the directory whose
    name does not start with a dot. *)
Theorem C105_searched listdir other d f : names_ok listdir -> dir_path d ->
  In f (glob_py listdir other ((d ++ "/") ++ "*")) <-> exists n, In n (listdir d) /\ visible n /\ f = d ++ "/" ++ n.
Proof.
  intros Hn Hdp. destruct (dir_path_b _ Hdp) as (Hd & He & Hm). rewrite glob_py_star. unfold glob_star. rewrite magic_app, Hm. cbn [has_magic orb Ascii.eqb Bool.eqb].
  replace (d ++ "/") with (d ++ "/" ++ "") by reflexivity. rewrite split_slash by (try assumption; reflexivity).
  assert (E : String.eqb d "" = false) by (destruct d; [congruence|reflexivity]). rewrite E. unfold glob1.
  split.
  - intro H. apply in_map_iff in H as (n & Hf & H). apply filter_In in H as [H _]. apply filter_In in H as [H Hh].
    exists n. split; [exact H|]. cbn in Hh. split; [apply visible_hidden; destruct (hidden n); [discriminate|reflexivity]|].
    rewrite <- Hf. apply join_plain; [assumption|assumption|]. exact (names_plain _ _ _ Hn H).
  - intros (n & H & Hv & ->). apply in_map_iff. exists n. split; [apply join_plain; [assumption|assumption|exact (names_plain _ _ _ Hn H)]|].
    apply filter_In. split; [|destruct n; reflexivity]. apply filter_In. split; [exact H|]. apply visible_hidden in Hv; rewrite Hv; reflexivity.
Qed.

(** The root directory and the current directory (empty [datapath]) are searched likewise. *)
Theorem C105_root_and_current listdir other f : names_ok listdir ->
  (In f (glob_py listdir other ("/" ++ "*")) <-> exists n, In n (listdir "/") /\ visible n /\ f = "/" ++ n) /\
  (In f (glob_py listdir other ("" ++ "*")) <-> exists n, In n (listdir "") /\ visible n /\ f = n).
Proof.
  intro Hn. rewrite !glob_py_star. unfold glob_star. cbn [has_magic orb Ascii.eqb Bool.eqb].
  change (path_split "/") with ("/", ""). change (path_split "") with ("", "").
  change (String.eqb "/" "") with false. change (String.eqb "" "") with true. cbv iota. unfold glob1.
  assert (P : forall n, path_join "/" n = if match n with String c _ => is_slash c | "" => false end then n else "/" ++ n).
  { intros [|c n]; reflexivity. }
  split; split.
  - intro H. apply in_map_iff in H as (n & Hf & H). apply filter_In in H as [H _]. apply filter_In in H as [H Hh].
    exists n. split; [exact H|]. cbn in Hh. split; [apply visible_hidden; destruct (hidden n); [discriminate|reflexivity]|].
    rewrite <- Hf. rewrite P. pose proof (names_plain _ _ _ Hn H) as Q. destruct n as [|c n]; [reflexivity|].
    cbn in Q. destruct (is_slash c); [discriminate|reflexivity].
  - intros (n & H & Hv & ->). apply in_map_iff. exists n. split.
    + rewrite P. pose proof (names_plain _ _ _ Hn H) as Q. destruct n as [|c n]; [reflexivity|].
      cbn in Q. destruct (is_slash c); [discriminate|reflexivity].
    + apply filter_In. split; [|destruct n; reflexivity]. apply filter_In. split; [exact H|]. apply visible_hidden in Hv; rewrite Hv; reflexivity.
  - intro H. apply filter_In in H as [H _]. apply filter_In in H as [H Hh].
    exists f. split; [exact H|]. cbn in Hh. split; [apply visible_hidden; destruct (hidden f); [discriminate|reflexivity]|reflexivity].
  - intros (n & H & Hv & ->). apply filter_In. split; [|destruct n; reflexivity]. apply filter_In. split; [exact H|].
    apply visible_hidden in Hv; rewrite Hv; reflexivity.
Qed.

(** ** Sorting *)
Lemma leb_antisym a b : String.leb a b = true -> String.leb b a = true -> a = b.
Proof.
  unfold String.leb. pose proof (String.compare_antisym b a) as Hc. pose proof (String.compare_eq_iff a b) as He.
  destruct (String.compare a b); [intros _ _; apply He; reflexivity| |discriminate]. rewrite Hc. discriminate.
Qed.
Lemma sorted_unique l l' : StronglySorted (fun a b => String.leb a b = true) l -> StronglySorted (fun a b => String.leb a b = true) l' ->
  Permutation l l' -> l = l'.
Proof.
  revert l'. induction l as [|x l IH]; intros l' H1 H2 HP.
  - apply Permutation_nil in HP. congruence.
  - destruct l' as [|y l']; [apply Permutation_sym, Permutation_nil in HP; discriminate|].
    inversion H1 as [|? ? S1 F1]; subst. inversion H2 as [|? ? S2 F2]; subst.
    assert (x = y).
    { assert (Ix : In x (y :: l')) by (apply (Permutation_in _ HP); left; reflexivity).
      assert (Iy : In y (x :: l)) by (apply (Permutation_in _ (Permutation_sym HP)); left; reflexivity).
      destruct Ix as [<-|Ix]; [reflexivity|]. destruct Iy as [<-|Iy]; [reflexivity|].
      apply leb_antisym; [exact (proj1 (Forall_forall _ _) F1 y Iy)|exact (proj1 (Forall_forall _ _) F2 x Ix)]. }
    subst y. f_equal. apply IH; [exact S1|exact S2|]. apply Permutation_cons_inv in HP. exact HP.
Qed.
Lemma sorted_perm l l' : Permutation l l' -> sorted l = sorted l'.
Proof.
  intro HP. destruct (C50_file_order l) as [P1 S1]. destruct (C50_file_order l') as [P2 S2]. apply sorted_unique; [exact S1|exact S2|].
  eapply Permutation_trans; [exact P1|]. eapply Permutation_trans; [exact HP|]. apply Permutation_sym. exact P2.
Qed.

Lemma filter_perm {X} (p : X -> bool) l l' : Permutation l l' -> Permutation (filter p l) (filter p l').
Proof.
  induction 1 as [|x l l' HP IH|x y l|l1 l2 l3 H1 IH1 H2 IH2]; cbn; [constructor| | |eapply Permutation_trans; eassumption].
  - destruct (p x); [constructor|]; exact IH.
  - destruct (p x), (p y); try constructor; apply Permutation_refl.
Qed.
Lemma glob_perm listdir listdir' other p : (forall d, Permutation (listdir d) (listdir' d)) ->
  Permutation (glob_star listdir other p) (glob_star listdir' other p).
Proof.
  intro H. unfold glob_star. destruct (has_magic p); [apply Permutation_refl|]. destruct (path_split p) as [d t].
  assert (G : forall d, Permutation (glob1 listdir d t) (glob1 listdir' d t)) by (intro; apply filter_perm, filter_perm, H).
  destruct (String.eqb d ""); [apply G|]. apply Permutation_map, G.
Qed.

(** C105: the order in which the operating system lists a directory does not matter. *)
Theorem C105_listing_order {D} listdir listdir' other (rd : string -> res (list (@etr D))) rdw events geo tt datapath filename catalog stalat stalon w :
  (forall d, Permutation (listdir d) (listdir' d)) ->
  ExtractEq (glob_py listdir other) rd rdw events geo tt datapath filename catalog stalat stalon w =
  ExtractEq (glob_py listdir' other) rd rdw events geo tt datapath filename catalog stalat stalon w.
Proof.
  intro H. unfold ExtractEq. rewrite !glob_py_star.
  rewrite (sorted_perm _ _ (glob_perm listdir listdir' other datapath H)). reflexivity.
Qed.

(** C105: trace by trace.  Exactly the visible files of the directory contribute. *)
Theorem C105_written {D} listdir other (rd : string -> res (list (@etr D))) rdw events geo tt d filename catalog stalat stalon w0 w1 name out t :
  names_ok listdir -> dir_path d ->
  ExtractEq (glob_py listdir other) rd rdw events geo tt (d ++ "/") filename catalog stalat stalon [w0; w1] = Ok (name, out) ->
  exists evs, events catalog = Ok evs /\
  (In t out <-> exists n ev w x c, In n (listdir d) /\ visible n /\ In ev evs /\ is_window geo tt stalat stalon w0 w1 ev w /\
      covered rd (d ++ "/" ++ n) w /\ rdw (d ++ "/" ++ n) (w_start w) (w_end w) = Ok c /\ In x c /\ t = set_onset (w_onset w) x).
Proof.
  intros Hn Hd H. destruct (C50_every_trace _ _ _ _ _ _ _ _ _ _ _ _ _ _ _ t H) as (evs & Hev & Hiff). exists evs. split; [exact Hev|].
  rewrite Hiff. split.
  - intros (f & ev & w & c & x & Hf & A & B & C & E & F & G). apply C105_searched in Hf as (n & H1 & H2 & ->); [|assumption|assumption].
    exists n, ev, w, x, c. auto 10.
  - intros (n & ev & w & x & c & H1 & H2 & A & B & C & E & F & G). exists (d ++ "/" ++ n), ev, w, c, x.
    split; [apply C105_searched; eauto|]. auto 10.
Qed.

(** ** Without the final slash *)
Lemma prefix_refl n : String.prefix n n = true.
Proof. induction n as [|c n IH]; [reflexivity|]. cbn. destruct (ascii_dec c c); [exact IH|congruence]. Qed.
(** C106: without the final slash the files searched are the entries of the directory
    above whose name starts with the last component: the directory itself and its
    like-named neighbours, never its contents. *)
Theorem C106_searched listdir other up base f : names_ok listdir -> dir_path up -> no_slash base -> literal base -> visible base ->
  In f (glob_py listdir other ((up ++ "/" ++ base) ++ "*")) <->
  exists n, In n (listdir up) /\ visible n /\ String.prefix base n = true /\ f = up ++ "/" ++ n.
Proof.
  intros Hn Hdp Hb Hmb Hv. destruct (dir_path_b _ Hdp) as (Hd & He & Hm). apply no_slash_plain in Hb. apply literal_magic in Hmb. rewrite glob_py_star. unfold glob_star. rewrite magic_app, Hm, magic_app, Hmb. cbn [has_magic orb Ascii.eqb Bool.eqb].
  rewrite split_slash by assumption. assert (E : String.eqb up "" = false) by (destruct up; [congruence|reflexivity]). rewrite E. unfold glob1.
  apply visible_hidden in Hv; rewrite Hv. split.
  - intro H. apply in_map_iff in H as (n & Hf & H). apply filter_In in H as [H Hp]. apply filter_In in H as [H Hh].
    exists n. split; [exact H|]. cbn in Hh. split; [apply visible_hidden; destruct (hidden n); [discriminate|reflexivity]|]. split; [exact Hp|].
    rewrite <- Hf. apply join_plain; [assumption|assumption|]. exact (names_plain _ _ _ Hn H).
  - intros (n & H & Hvn & Hp & ->). apply in_map_iff. exists n. split; [apply join_plain; [assumption|assumption|exact (names_plain _ _ _ Hn H)]|].
    apply filter_In. split; [|exact Hp]. apply filter_In. split; [exact H|]. apply visible_hidden in Hvn; rewrite Hvn; reflexivity.
Qed.

(** C106: if the directory exists and reading a directory raises, ExtractEq raises: no
    stream is written from the wrong files. *)
Lemma forM_reads {D} (rd : string -> res (list (@etr D))) rdw wins files acc r f :
  forM files (extract_file rd rdw wins) acc = Ok r -> In f files -> exists st, rd f = Ok st.
Proof.
  revert acc. induction files as [|g files IH]; intros acc H []; cbn [forM] in H; apply bind_Ok_inv in H as (a & Ha & H).
  - subst g. unfold extract_file in Ha. apply bind_Ok_inv in Ha as (st & Hst & _). eauto.
  - eapply IH; eassumption.
Qed.
Theorem C106_raises {D} listdir other (rd : string -> res (list (@etr D))) rdw events geo tt up base filename catalog stalat stalon w r :
  names_ok listdir -> dir_path up -> no_slash base -> literal base -> visible base ->
  In base (listdir up) -> (exists e, rd (up ++ "/" ++ base) = Err e) ->
  ExtractEq (glob_py listdir other) rd rdw events geo tt (up ++ "/" ++ base) filename catalog stalat stalon w <> Ok r.
Proof.
  intros Hn Hd Hb Hmb Hv Hin (e & He) H. unfold ExtractEq in H.
  apply bind_Ok_inv in H as (f0 & _ & H). apply bind_Ok_inv in H as (s0 & _ & H). apply bind_Ok_inv in H as (fl & _ & H).
  apply bind_Ok_inv in H as (sl & _ & H). apply bind_Ok_inv in H as (h0 & _ & H). apply bind_Ok_inv in H as (hl & _ & H).
  apply bind_Ok_inv in H as (evs & Hev & H). apply bind_Ok_inv in H as (wins & Hw & H). apply bind_Ok_inv in H as (data & Hd' & H).
  eapply (forM_reads rd rdw wins _ _ _ (up ++ "/" ++ base)) in Hd'; [destruct Hd' as [st Hst]; congruence|].
  apply (Permutation_in _ (Permutation_sym (proj1 (C50_file_order _)))). apply C106_searched; auto. exists base. auto using prefix_refl.
Qed.

(** ** A concrete tree: seismic/day holds two records, seismic/day_old a third. *)
Definition tree_ls (d : string) : list string :=
  if String.eqb d "seismic" then ["day_old"; "day"]
  else if String.eqb d "seismic/day" then ["b.mseed"; ".lock"; "a.mseed"]
  else if String.eqb d "seismic/day_old" then ["z.mseed"]
  else [].
Lemma tree_names : names_ok tree_ls.
Proof.
  intros d n. unfold tree_ls. destruct (String.eqb d "seismic"); [|destruct (String.eqb d "seismic/day"); [|destruct (String.eqb d "seismic/day_old")]];
  cbn; intro H; repeat (destruct H as [<-|H]; [apply no_slash_plain; reflexivity|]); contradiction.
Qed.
(** Data files read; directories raise. *)
Definition tree_rd (f : string) : res (list (@etr unit)) :=
  if String.eqb f "seismic/day" || String.eqb f "seismic/day_old" then Err (LibError 0) else ex_rd f.
Lemma tree_dirs : dir_path "seismic" /\ dir_path "seismic/day".
Proof.
  assert (E : forall d, ends_slash d = false -> forall d', d <> d' ++ "/").
  { intros d H d' ->. revert H. induction d' as [|c d' IH]; [discriminate|]. cbn [append]. rewrite ends_slash_cons by (destruct d'; discriminate). exact IH. }
  split; (split; [discriminate|]; split; [apply E; reflexivity|apply literal_magic; reflexivity]).
Qed.
(** C105: a path with one of those characters is handed to the pattern search. *)
Theorem C105_pattern listdir other p c : In c (chars p) -> c = "*"%char \/ c = "?"%char \/ c = "["%char ->
  glob_py listdir other (p ++ "*") = other p.
Proof. intros Hi Hc. rewrite glob_py_star. unfold glob_star. rewrite (literal_not_magic p c Hi Hc). reflexivity. Qed.
Theorem C105_pattern_example :
  In "["%char (chars "seismic/day[1]/") /\ glob_py tree_ls (fun p => [p]) ("seismic/day[1]/" ++ "*") = ["seismic/day[1]/"].
Proof. split; [cbn; tauto|reflexivity]. Qed.
Theorem C105_example :
  names_ok tree_ls /\ dir_path "seismic/day" /\
  sorted (glob_py tree_ls (fun _ => []) (("seismic/day" ++ "/") ++ "*")) = ["seismic/day/a.mseed"; "seismic/day/b.mseed"] /\
  ExtractEq (glob_py tree_ls (fun _ => [])) tree_rd ex_rdw ex_events ex_geo ex_tt ("seismic/day" ++ "/") "eq.mseed" "cat.xml" 52 4 [(-10)%R; 10%R] =
    Ok ("eq.mseed", (ex_serial ++ ex_serial)%list).
Proof.
  split; [exact tree_names|]. split; [apply tree_dirs|]. split; [reflexivity|].
  unfold ExtractEq. set (files := sorted _). assert (Ef : files = ["seismic/day/a.mseed"; "seismic/day/b.mseed"]) by reflexivity. rewrite Ef.
  unfold ex_events. cbn [getitem nth_error bind length Nat.sub mapM]. unfold tree_rd, ex_rd. cbn [String.eqb Ascii.eqb Bool.eqb orb getitem nth_error bind].
  rewrite (ex_window (sec 50) 50), (ex_window (sec 88) 88) by (try reflexivity; apply ex_abs). cbn [bind]. reflexivity.
Qed.

(** C106 is refuted: the same directory without the final slash. *)
Theorem C106_refuted :
  ~ (forall D listdir other (rd : string -> res (list (@etr D))) rdw events geo tt d filename catalog stalat stalon w,
      names_ok listdir -> dir_path d ->
      ExtractEq (glob_py listdir other) rd rdw events geo tt d filename catalog stalat stalon w =
      ExtractEq (glob_py listdir other) rd rdw events geo tt (d ++ "/") filename catalog stalat stalon w).
Proof.
  intro H. pose proof (H unit tree_ls (fun _ => []) tree_rd ex_rdw ex_events ex_geo ex_tt "seismic/day" "eq.mseed" "cat.xml" 52%R 4%R [(-10)%R; 10%R] tree_names (proj2 tree_dirs)) as E.
  rewrite (proj2 (proj2 (proj2 C105_example))) in E. revert E.
  apply (C106_raises tree_ls (fun _ => []) tree_rd ex_rdw ex_events ex_geo ex_tt "seismic" "day" "eq.mseed" "cat.xml" 52%R 4%R [(-10)%R; 10%R] _ tree_names (proj1 tree_dirs)); try reflexivity.
  - apply no_slash_plain. reflexivity.
  - apply literal_magic. reflexivity.
  - apply visible_hidden. reflexivity.
  - right; left; reflexivity.
  - eexists. reflexivity.
Qed.
