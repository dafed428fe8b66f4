From Coq Require Import String Ascii List Bool ZArith Lia.
From Verif Require Import FsModel SpecFs FsProofs.
Import ListNotations.

(** ** A small program logic: [m] from [w] either returns in [Q], or was killed in [K]. *)
Definition spec (m : cmd) (w : world) (K Q : world -> Prop) : Prop :=
  (fst (m w) = Returns /\ Q (snd (m w)) /\ (w_left w = None -> w_left (snd (m w)) = None)) \/
  (fst (m w) = Raises Killed /\ w_left w <> None /\ K (snd (m w))).

Lemma spec_ret : forall w (K Q : world -> Prop), Q w -> spec ret w K Q.
Proof. intros; left; simpl; auto. Qed.

Lemma spec_seq : forall m k w (K Q R : world -> Prop),
  spec m w K Q ->
  (forall w', Q w' -> spec k w' K R) ->
  spec (m ;; k) w K R.
Proof.
  intros m k w K Q R H Hk. unfold spec. rewrite seq_run.
  destruct H as [(E & HQ & L) | (E & L & HK)]; destruct (m w) as [o w'] eqn:Em; cbn [fst snd] in *; subst.
  - specialize (Hk w' HQ). destruct Hk as [(E' & HR & L') | (E' & L' & HK')].
    + left; auto.
    + right; repeat split; auto.
  - right; auto.
Qed.

Lemma spec_weaken : forall m w (K K' Q Q' : world -> Prop),
  spec m w K Q -> (forall w', K w' -> K' w') -> (forall w', Q w' -> Q' w') -> spec m w K' Q'.
Proof. intros m w K K' Q Q' [(E & HQ & L) | (E & L & HK)] HKK HQQ; [left|right]; auto. Qed.

Lemma spec_modify : forall g w (K Q : world -> Prop),
  K w ->
  (forall l, Q (World (g (w_fs w)) (w_cache w) l)) ->
  spec (modify g) w K Q.
Proof.
  intros g w K Q HK HQ. unfold spec, modify. destruct (w_left w) as [[|k]|] eqn:E; cbn [fst snd].
  - right; repeat split; auto; congruence.
  - left; repeat split; auto; discriminate.
  - left; repeat split; auto.
Qed.

Definition cache_ok (w : world) : Prop := forall p, In p (w_cache w) -> w_fs w p = Some Dir.

Lemma cached_false : forall w p, cache_ok w -> w_fs w p <> Some Dir -> cached w p = false.
Proof.
  intros w p H Hp. unfold cached. destruct (existsb _ _) eqn:E; auto.
  apply existsb_exists in E as (q & Hq & E). apply path_eqb_eq in E; subst q.
  exfalso; auto.
Qed.

(** ** mkpath *)
Definition dirs_made (f : fs) (d : path) (f' : fs) : Prop :=
  (forall p, above p d -> f' p = Some Dir) /\ (forall p, ~ above p d -> f' p = f p).
Definition dirs_part (f : fs) (d : path) (f' : fs) : Prop :=
  (forall p, above p d -> f' p = f p \/ f' p = Some Dir) /\ (forall p, ~ above p d -> f' p = f p).

Lemma dirs_made_part : forall f d f', dirs_made f d f' -> dirs_part f d f'.
Proof. intros f d f' [A B]; split; auto. Qed.

Lemma make_all_app : forall a b w, make_all (a ++ b) w = (make_all a ;; make_all b) w.
Proof.
  induction a as [|p a IH]; intros b w; [reflexivity|].
  cbn [make_all app]. rewrite seq_assoc_run. rewrite !seq_run.
  destruct (make_one p w) as [[|e] w']; auto.
Qed.

Lemma spec_ext : forall m m' w K Q, m w = m' w -> spec m' w K Q -> spec m w K Q.
Proof. unfold spec; intros m m' w K Q ->; auto. Qed.

Lemma make_missing : forall p w,
  wf (w_fs w) -> cache_ok w ->
  (forall q, above q p -> w_fs w q = None \/ w_fs w q = Some Dir) ->
  spec (make_all (missing_above (w_fs w) p)) w
    (fun w' => wf (w_fs w') /\ dirs_part (w_fs w) p (w_fs w'))
    (fun w' => wf (w_fs w') /\ cache_ok w' /\ dirs_made (w_fs w) p (w_fs w')).
Proof.
  induction p as [|n up IH]; intros w W C H.
  - apply spec_ret. split; [auto|split; auto]. split; auto.
    intros p Hp; apply above_nil in Hp; subst; apply W.
  - cbn [missing_above]. destruct (isdir (w_fs w) (n :: up)) eqn:D.
    + apply isdir_true in D. apply spec_ret. split; [auto|split; auto]. split; auto.
      intros p Hp. eapply wf_dir_above; eauto.
    + apply isdir_false in D.
      eapply spec_ext; [apply make_all_app|].
      eapply spec_seq.
      { eapply spec_weaken; [apply IH; auto| |].
        - intros q Hq; apply H; apply above_cons; auto.
        - intros w' (W' & A & B). split; auto. split.
          + intros q Hq. apply above_cons in Hq as [->|Hq]; auto.
            left. apply B. intros K; apply above_length in K; simpl in K; lia.
          + intros q Hq. apply B. intros K; apply Hq, above_cons; auto.
        - intros w' Hw; exact Hw. }
      intros w1 (W1 & C1 & A1 & B1).
      assert (Hup : w_fs w1 up = Some Dir) by (apply A1, above_refl).
      assert (Hna : ~ above (n :: up) up)
        by (intros K; apply above_length in K; simpl in K; lia).
      assert (Hp : w_fs w1 (n :: up) = None).
      { rewrite B1 by auto. destruct (H (n :: up) (above_refl _)); congruence. }
      cbn [make_all].
      eapply spec_seq with (Q := fun w' => wf (w_fs w') /\ cache_ok w' /\ dirs_made (w_fs w) (n :: up) (w_fs w'));
        [|intros w' Hw; apply spec_ret; exact Hw].
      assert (Hc : cached w1 (n :: up) = false) by (apply cached_false; auto; congruence).
      assert (Hm : mkdir_error (w_fs w1) (n :: up) = None)
        by (apply mkdir_error_none; auto; exists n, up; auto).
      eapply spec_ext with (m' := modify (fun f => upd f (n :: up) (Some Dir)) ;; remember (n :: up)).
      { unfold make_one. rewrite Hc, Hm. reflexivity. }
      assert (HK : wf (w_fs w1) /\ dirs_part (w_fs w) (n :: up) (w_fs w1)).
      { split; auto. split.
        - intros q Hq. apply above_cons in Hq as [->|Hq]; auto.
        - intros q Hq. apply B1. intros K; apply Hq, above_cons; auto. }
      eapply spec_seq with (Q := fun w' => w_fs w' = upd (w_fs w1) (n :: up) (Some Dir) /\ w_cache w' = w_cache w1).
      { apply spec_modify; auto. }
      intros w2 (F2 & Ca2). left. cbn [remember fst snd w_fs w_cache w_left].
      repeat split; auto.
      * rewrite F2. apply wf_upd_some; auto.
      * rewrite F2. apply wf_upd_some; auto.
      * intros q Hq. cbn [w_fs w_cache] in *. rewrite F2.
        destruct Hq as [<-|Hq]; [apply upd_same|].
        destruct (list_eq_dec string_dec q (n :: up)) as [->|E]; [apply upd_same|].
        rewrite upd_other by auto. apply C1. rewrite <- Ca2; auto.
      * intros q Hq. rewrite F2. apply above_cons in Hq as [->|Hq]; [apply upd_same|].
        rewrite upd_other; auto. intros ->; auto.
      * intros q Hq. rewrite F2. rewrite upd_other.
        apply B1. intros K; apply Hq, above_cons; auto.
        intros ->; apply Hq, above_refl.
Qed.

Lemma mkpath_ok : forall p w,
  wf (w_fs w) -> cache_ok w ->
  (forall q, above q p -> w_fs w q = None \/ w_fs w q = Some Dir) ->
  spec (mkpath p) w
    (fun w' => wf (w_fs w') /\ dirs_part (w_fs w) p (w_fs w'))
    (fun w' => wf (w_fs w') /\ cache_ok w' /\ dirs_made (w_fs w) p (w_fs w')).
Proof.
  intros p w W C H. destruct (isdir (w_fs w) p) eqn:D.
  - apply spec_ext with (m' := ret). unfold mkpath; rewrite D; reflexivity.
    apply isdir_true in D. apply spec_ret. split; [auto|split; auto]. split; auto.
    intros q Hq. eapply wf_dir_above; eauto.
  - apply spec_ext with (m' := make_all (missing_above (w_fs w) p)).
    unfold mkpath; rewrite D. apply isdir_false in D.
    rewrite cached_false by auto. reflexivity.
    apply make_missing; auto.
Qed.

(** ** copy_file *)
Lemma append_nil : forall s, (s ++ "")%string = s.
Proof. induction s; simpl; congruence. Qed.
Lemma append_assoc : forall a b c, ((a ++ b) ++ c)%string = (a ++ (b ++ c))%string.
Proof. induction a; simpl; intros; congruence. Qed.
Lemma prefix_append : forall a b, String.prefix a (a ++ b)%string = true.
Proof.
  induction a as [|c a IH]; intros b; simpl. destruct b; reflexivity.
  destruct (ascii_dec c c); [apply IH|congruence].
Qed.

Definition only_at (p : path) (f f' : fs) : Prop := forall q, q <> p -> f' q = f q.

Lemma wf_same_file : forall f f' p b t m,
  wf f -> only_at p f f' -> f' p = Some (File b t m) ->
  (exists b0 t0 m0, f p = Some (File b0 t0 m0)) -> wf f'.
Proof.
  intros f f' p b t m [W0 W] O Hp (b0 & t0 & m0 & H0). split.
  - rewrite O; auto. intros <-. congruence.
  - intros n q v H. destruct (list_eq_dec string_dec (n :: q) p) as [<-|E].
    + rewrite O. eapply W; eauto. intros K; symmetry in K; apply (cons_neq _ _ K).
    + rewrite O in H by auto.
      destruct (list_eq_dec string_dec q p) as [->|E'].
      * pose proof (W _ _ _ H). congruence.
      * rewrite O by auto. eapply W; eauto.
Qed.

Section OneFile.
  Variables (f0 : fs) (c0 : list path) (p : path) (bytes : string).

  (** the file [p] exists with a beginning of the content, the rest is as in [f0] *)
  Definition writing (b : string) (w : world) : Prop :=
    wf (w_fs w) /\ w_cache w = c0 /\ only_at p f0 (w_fs w) /\
    exists t m, w_fs w p = Some (File b t m).

  Definition killed_file (w : world) : Prop :=
    wf (w_fs w) /\ only_at p f0 (w_fs w) /\
    (w_fs w p = f0 p \/ w_fs w p = None \/
     exists b t m, w_fs w p = Some (File b t m) /\ String.prefix b bytes = true).

  Lemma writing_killed : forall b r w, bytes = (b ++ r)%string -> writing b w -> killed_file w.
  Proof.
    intros b r w E (W & _ & O & t & m & H). split; auto. split; auto.
    right; right. exists b, t, m. split; auto. rewrite E; apply prefix_append.
  Qed.

  Lemma set_bytes_writing : forall b b' w,
    writing b w -> forall l, writing b' (World (set_bytes b' (w_fs w) p) (w_cache w) l).
  Proof.
    intros b b' w (W & C & O & t & m & H) l. unfold set_bytes. rewrite H.
    split; [|split; [auto|split]]; cbn [w_fs w_cache].
    - eapply wf_same_file with (f := w_fs w); eauto.
      + intros q Hq; apply upd_other; auto.
      + apply upd_same.
    - intros q Hq. rewrite upd_other; auto.
    - exists t, m. apply upd_same.
  Qed.

  Lemma write_ok : forall todo written w,
    bytes = (written ++ todo)%string -> writing written w ->
    spec (write_from p written todo) w killed_file (writing bytes).
  Proof.
    induction todo as [|c r IH]; intros written w E Hw.
    - apply spec_ret. rewrite append_nil in E. rewrite E; auto.
    - cbn [write_from].
      assert (E' : bytes = ((written ++ String c EmptyString) ++ r)%string)
        by (rewrite append_assoc; auto).
      eapply spec_seq.
      + apply spec_modify with (Q := writing (written ++ String c EmptyString)%string).
        exact (writing_killed _ _ _ E Hw).
        exact (set_bytes_writing _ _ _ Hw).
      + intros w' Hw'. apply IH; auto.
  Qed.
End OneFile.

Lemma copy_file_ok : forall bytes mtime mode base n d w,
  wf (w_fs w) -> w_fs w d = Some Dir -> w_fs w (n :: d) <> Some Dir ->
  spec (copy_file bytes mtime mode base (n :: d)) w
    (killed_file (w_fs w) (n :: d) bytes)
    (fun w' => wf (w_fs w') /\ w_cache w' = w_cache w /\
       only_at (n :: d) (w_fs w) (w_fs w') /\ w_fs w' (n :: d) = Some (File bytes mtime mode)).
Proof.
  intros bytes mtime mode base n d w W Hd Hp. set (p := n :: d) in *.
  eapply spec_ext with (m' := remove_old p ;; create p ;; write_from p "" bytes ;; set_time mtime p ;; set_mode mode p).
  { unfold copy_file. apply isdir_false in Hp. rewrite Hp. reflexivity. }
  assert (Hdp : d <> p) by (intros K; symmetry in K; apply (cons_neq _ _ K)).
  assert (HK0 : killed_file (w_fs w) p bytes w).
  { split; auto. split; [intros q _; reflexivity|]. auto. }
  eapply spec_seq with (Q := fun w' => wf (w_fs w') /\ w_cache w' = w_cache w /\ only_at p (w_fs w) (w_fs w') /\ w_fs w' p = None).
  { destruct (w_fs w p) as [[|b t m]|] eqn:E; [congruence| |].
    - apply spec_ext with (m' := modify (fun f => upd f p None)). unfold remove_old; rewrite E; auto.
      apply spec_modify. exact HK0. intros l; cbn [w_fs w_cache].
      split. apply wf_upd_none; auto. unfold p; discriminate. congruence.
      split; auto. split. intros q Hq; apply upd_other; auto. apply upd_same.
    - apply spec_ext with (m' := ret). unfold remove_old; rewrite E; auto.
      apply spec_ret. split; [auto|split; [auto|split; auto]]. intros q _; auto. }
  intros w1 (W1 & C1 & O1 & N1).
  assert (Hd1 : w_fs w1 d = Some Dir) by (rewrite O1; auto).
  assert (HK1 : killed_file (w_fs w) p bytes w1) by (split; auto).
  eapply spec_seq with (Q := writing (w_fs w) (w_cache w) p "").
  { apply spec_ext with (m' := modify (fun f => upd f p (Some (File "" now default_mode)))).
    unfold create, p. rewrite walk_ok by auto. reflexivity.
    apply spec_modify; auto. intros l. split; [|split; [auto|split]]; cbn [w_fs].
    - apply wf_upd_some; auto. right. fold p. rewrite N1; discriminate.
    - intros q Hq. rewrite upd_other by auto. apply O1; auto.
    - exists now, default_mode. apply upd_same. }
  intros w2 H2. eapply spec_seq. { apply write_ok; eauto. }
  intros w3 H3.
  eapply spec_seq with (Q := fun w' => wf (w_fs w') /\ w_cache w' = w_cache w /\ only_at p (w_fs w) (w_fs w') /\
     exists m, w_fs w' p = Some (File bytes mtime m)).
  { apply spec_modify. eapply writing_killed with (r := EmptyString); eauto. symmetry; apply append_nil.
    intros l; cbn [w_fs w_cache]. destruct H3 as (W3 & C3 & O3 & t & m & E3). rewrite E3.
    split; [|split; [auto|split]].
    - eapply wf_same_file with (f := w_fs w3); eauto. intros q Hq; apply upd_other; auto. apply upd_same.
    - intros q Hq; rewrite upd_other; auto.
    - exists m; apply upd_same. }
  intros w4 (W4 & C4 & O4 & m & E4).
  apply spec_modify.
  - split; auto. split; auto. right; right. exists bytes, mtime, m. split; auto.
    rewrite <- (append_nil bytes) at 2. apply prefix_append.
  - intros l; cbn [w_fs w_cache]. rewrite E4. split; [|split; [auto|split]].
    + eapply wf_same_file with (f := w_fs w4); eauto. intros q Hq; apply upd_other; auto. apply upd_same.
    + intros q Hq; rewrite upd_other; auto.
    + apply upd_same.
Qed.

(** ** copy_tree *)
Definition targets (dst : path) (l : list (string * tree)) (p : path) : Prop :=
  exists n s q u, In (n, s) l /\ String.prefix ".nfs" n = false /\ packaged s q u /\ p = sub (n :: dst) q.

Definition entries_done (f : fs) (dst : path) (l : list (string * tree)) (f' : fs) : Prop :=
  (forall n s q u, In (n, s) l -> String.prefix ".nfs" n = false -> packaged s q u ->
     f' (sub (n :: dst) q) = Some (on_disk u)) /\
  (forall p, ~ targets dst l p -> f' p = f p).
Definition entries_part (f : fs) (dst : path) (l : list (string * tree)) (f' : fs) : Prop :=
  (forall n s q u, In (n, s) l -> String.prefix ".nfs" n = false -> packaged s q u ->
     halfway (f (sub (n :: dst) q)) u (f' (sub (n :: dst) q))) /\
  (forall p, ~ targets dst l p -> f' p = f p).

Lemma done_halfway : forall v u, halfway v u (Some (on_disk u)).
Proof.
  intros v [b t m|l]; right; simpl; auto. right. exists b, t, m. split; auto.
  rewrite <- (append_nil b) at 2. apply prefix_append.
Qed.

Lemma packaged_file : forall b t m q u, packaged (TFile b t m) q u -> q = [] /\ u = TFile b t m.
Proof. intros b t m q u H; inversion H; auto. Qed.

Definition IHtree (s : tree) : Prop := forall dst w,
  tree_ok s -> (exists l, s = TDir l) -> wf (w_fs w) -> cache_ok w -> fits (w_fs w) dst s ->
  spec (copy_tree s dst) w
    (fun w' => wf (w_fs w') /\ partly_copied (w_fs w) dst s (w_fs w'))
    (fun w' => wf (w_fs w') /\ cache_ok w' /\ copied (w_fs w) dst s (w_fs w')).

Lemma target_not_above : forall dst l p, targets dst l p -> ~ above p dst.
Proof. intros dst l p (n & s & q & u & _ & _ & _ & ->). rewrite <- sub_cons. apply sub_not_above. Qed.

Lemma copy_entry_ok : forall dst n s w,
  IHtree s -> tree_ok s -> wf (w_fs w) -> cache_ok w -> w_fs w dst = Some Dir ->
  (String.prefix ".nfs" n = false -> forall q u, packaged s q u -> room (w_fs w (sub (n :: dst) q)) u) ->
  spec (copy_entry dst (n, s)) w
    (fun w' => wf (w_fs w') /\ entries_part (w_fs w) dst [(n, s)] (w_fs w'))
    (fun w' => wf (w_fs w') /\ cache_ok w' /\ entries_done (w_fs w) dst [(n, s)] (w_fs w')).
Proof.
  intros dst n s w IH Ok W C D Room. unfold copy_entry; cbn [fst snd]. unfold nfs.
  destruct (String.prefix ".nfs" n) eqn:Hn.
  - apply spec_ret. split; [auto|split; [auto|]]. split; auto.
    intros n' s' q u [E|[]] Hn'. injection E as <- <-. congruence.
  - specialize (Room eq_refl).
    assert (TG : forall p q u, packaged s q u -> p = sub (n :: dst) q -> targets dst [(n, s)] p).
    { intros p q u Hq ->. exists n, s, q, u. simpl; auto. }
    destruct s as [b t m|l].
    + pose proof (Room [] _ (packaged_here _)) as R. rewrite sub_nil in R.
      eapply spec_weaken; [apply copy_file_ok; auto| |].
      * destruct (w_fs w (n :: dst)) as [[|]|]; simpl in R; [contradiction|discriminate|discriminate].
      * intros w' (W' & O & H). split; auto. split.
        -- intros n' s' q u [E|[]] _ Hq. injection E as <- <-.
           apply packaged_file in Hq as [-> ->]. rewrite sub_nil. destruct H as [H|[H|H]]; [left|right|right]; simpl; auto.
        -- intros p Hp. apply O. intros ->. apply Hp. eapply TG; [apply packaged_here|]. reflexivity.
      * intros w' (W' & C' & O & H). split; auto. split.
        -- intros p Hp. rewrite C' in Hp. pose proof (C _ Hp) as Hd. rewrite O; auto.
           intros ->. rewrite Hd in R. exact R.
        -- split.
           ++ intros n' s' q u [E|[]] _ Hq. injection E as <- <-.
              apply packaged_file in Hq as [-> ->]. rewrite sub_nil. auto.
           ++ intros p Hp. apply O. intros ->. apply Hp. eapply TG; [apply packaged_here|]. reflexivity.
    + eapply spec_weaken; [apply IH; eauto| |].
      * split.
        -- intros p Hp. apply above_cons in Hp as [->|Hp].
           ++ pose proof (Room [] _ (packaged_here _)) as R. rewrite sub_nil in R.
              destruct (w_fs w (n :: dst)) as [[|]|]; simpl in R; auto; contradiction.
           ++ right. eapply wf_dir_above; eauto.
        -- exact Room.
      * intros w' (W' & P1 & P2 & P3). split; auto. split.
        -- intros n' s' q u [E|[]] _ Hq. injection E as <- <-. apply P1; auto.
        -- intros p Hp. destruct (above_dec p (n :: dst)) as [A|A].
           ++ apply above_cons in A as [->|A].
              { exfalso; apply Hp. eapply TG; [apply packaged_here|reflexivity]. }
              assert (w_fs w p = Some Dir) by (eapply wf_dir_above; eauto).
              destruct (P2 p) as [E|E]; [apply above_cons; auto|auto|congruence].
           ++ apply P3; auto. intros q u Hq ->. apply Hp. eapply TG; eauto.
      * intros w' (W' & C' & P1 & P2 & P3). split; [auto|split; [auto|]]. split.
        -- intros n' s' q u [E|[]] _ Hq. injection E as <- <-. apply P1; auto.
        -- intros p Hp. destruct (above_dec p (n :: dst)) as [A|A].
           ++ apply above_cons in A as [->|A].
              { exfalso; apply Hp. eapply TG; [apply packaged_here|reflexivity]. }
              assert (w_fs w p = Some Dir) by (eapply wf_dir_above; eauto).
              rewrite P2; auto. apply above_cons; auto.
           ++ apply P3; auto. intros q u Hq ->. apply Hp. eapply TG; eauto.
Qed.

Lemma copy_entries_ok : forall dst l w,
  (forall n s, In (n, s) l -> IHtree s) ->
  (forall n s, In (n, s) l -> tree_ok s) ->
  NoDup (map fst l) ->
  wf (w_fs w) -> cache_ok w -> w_fs w dst = Some Dir ->
  (forall n s, In (n, s) l -> String.prefix ".nfs" n = false ->
     forall q u, packaged s q u -> room (w_fs w (sub (n :: dst) q)) u) ->
  spec (copy_entries dst l) w
    (fun w' => wf (w_fs w') /\ entries_part (w_fs w) dst l (w_fs w'))
    (fun w' => wf (w_fs w') /\ cache_ok w' /\ entries_done (w_fs w) dst l (w_fs w')).
Proof.
  intros dst l; induction l as [|[n s] l IH]; intros w HI HT ND W C D Room.
  - apply spec_ret. split; [auto|split; [auto|]]. split; auto. intros n s q u [].
  - cbn [copy_entries]. inversion ND as [|x xs Hx ND' Ex]; subst.
    assert (NT : forall n' s' q u, In (n', s') l -> packaged s' q u -> ~ targets dst [(n, s)] (sub (n' :: dst) q)).
    { intros n' s' q u Hin Hq (n2 & s2 & q2 & u2 & [E|[]] & _ & _ & E2). injection E as <- <-.
      revert E2. apply sub_disjoint. intros ->. apply Hx. apply (in_map fst) in Hin. exact Hin. }
    assert (NT' : forall q u, packaged s q u -> ~ targets dst l (sub (n :: dst) q)).
    { intros q u Hq (n2 & s2 & q2 & u2 & Hin & _ & _ & E2).
      revert E2. apply sub_disjoint. intros <-. apply Hx. apply (in_map fst) in Hin. exact Hin. }
    assert (Tin : forall p, targets dst [(n, s)] p -> targets dst ((n, s) :: l) p).
    { intros p (n2 & s2 & q2 & u2 & [E|[]] & A). exists n2, s2, q2, u2; split; auto. left; auto. }
    assert (Tin' : forall p, targets dst l p -> targets dst ((n, s) :: l) p).
    { intros p (n2 & s2 & q2 & u2 & E & A). exists n2, s2, q2, u2; split; auto. right; auto. }
    eapply spec_seq.
    { eapply spec_weaken; [apply copy_entry_ok with (n := n) (s := s); auto| |].
      - apply (HI n); left; auto.
      - apply (HT n); left; auto.
      - intros Hn q u Hq. eapply Room; eauto. left; auto.
      - intros w' (W' & P1 & P2). split; auto. split.
        + intros n' s' q u [E|Hin] Hn Hq.
          * injection E as <- <-. apply (P1 n s); auto. left; auto.
          * left. apply P2. eapply NT; eauto.
        + intros p Hp; apply P2; auto.
      - intros w' Hw; exact Hw. }
    intros w1 (W1 & C1 & P1 & P2).
    assert (D1 : w_fs w1 dst = Some Dir).
    { rewrite P2; auto. intros T. apply target_not_above in T. apply T, above_refl. }
    eapply spec_weaken; [apply IH; auto| |].
    + intros n' s' Hin; apply (HI n'); right; auto.
    + intros n' s' Hin; apply (HT n'); right; auto.
    + intros n' s' Hin Hn q u Hq. rewrite P2 by (eapply NT; eauto). eapply Room; eauto. right; auto.
    + intros w' (W' & Q1 & Q2). split; auto. split.
      * intros n' s' q u [E|Hin] Hn Hq.
        -- injection E as <- <-. rewrite (Q2 _ (NT' _ _ Hq)). rewrite (P1 n s q u); auto using done_halfway. left; auto.
        -- rewrite <- (P2 _ (NT _ _ _ _ Hin Hq)). eapply Q1; eauto.
      * intros p Hp. rewrite Q2 by auto. apply P2; auto.
    + intros w' (W' & C' & Q1 & Q2). split; [auto|split; [auto|]]. split.
      * intros n' s' q u [E|Hin] Hn Hq.
        -- injection E as <- <-. rewrite (Q2 _ (NT' _ _ Hq)). apply (P1 n s); auto. left; auto.
        -- eapply Q1; eauto.
      * intros p Hp. rewrite Q2 by auto. apply P2; auto.
Qed.

Theorem copy_tree_ok : forall t, IHtree t.
Proof.
  induction t as [b t m|l IH] using tree_ind'; intros dst w Ok [l' E] W C F; [discriminate|].
  clear l' E. inversion Ok as [|l0 ND HT El]; subst.
  eapply spec_ext; [apply copy_tree_dir|].
  destruct F as [FA FP].
  assert (PT : forall p, targets dst l p <-> exists n q u, packaged (TDir l) (n :: q) u /\ p = sub dst (n :: q)).
  { intros p; split.
    - intros (n & s & q & u & Hin & Hn & Hq & ->). exists n, q, u. rewrite sub_cons. split; auto.
      econstructor; eauto.
    - intros (n & q & u & Hq & ->). inversion Hq; subst. exists n, s, q, u. rewrite sub_cons; auto. }
  eapply spec_seq.
  { eapply spec_weaken; [apply mkpath_ok; auto| |].
    - intros w' (W' & A & B). split; auto. split; [|split; auto].
      + intros q u Hq. destruct q as [|n q].
        * inversion Hq; subst. rewrite sub_nil. destruct (A dst (above_refl _)) as [E|E]; [left|right]; auto.
        * left. apply B. apply sub_not_above.
    - intros w' Hw; exact Hw. }
  intros w1 (W1 & C1 & A1 & B1).
  eapply spec_weaken; [apply copy_entries_ok; auto| |].
  - apply A1, above_refl.
  - intros n s Hin Hn q u Hq. rewrite <- sub_cons. rewrite B1 by apply sub_not_above.
    apply FP. econstructor; eauto.
  - intros w' (W' & P1 & P2). split; auto. split; [|split].
    + intros q u Hq. destruct q as [|n q].
      * inversion Hq; subst. rewrite sub_nil. right. rewrite P2. apply A1, above_refl.
        intros T. apply target_not_above in T. apply T, above_refl.
      * inversion Hq; subst. rewrite sub_cons. rewrite <- (B1 (sub (n :: dst) q)).
        eapply P1; eauto. rewrite <- sub_cons; apply sub_not_above.
    + intros p Hp. right. rewrite P2. apply A1; auto.
      intros T. apply target_not_above in T. auto.
    + intros p Hp HT'. rewrite P2. apply B1; auto.
      intros T. apply PT in T as (n & q & u & Hq & E). eapply HT'; eauto.
  - intros w' (W' & C' & P1 & P2). split; [auto|split; [auto|]]. split; [|split].
    + intros q u Hq. destruct q as [|n q].
      * inversion Hq; subst. rewrite sub_nil. simpl. rewrite P2. apply A1, above_refl.
        intros T. apply target_not_above in T. apply T, above_refl.
      * inversion Hq; subst. rewrite sub_cons. eapply P1; eauto.
    + intros p Hp. rewrite P2. apply A1; auto.
      intros T. apply target_not_above in T. auto.
    + intros p Hp HT'. rewrite P2. apply B1; auto.
      intros T. apply PT in T as (n & q & u & Hq & E). eapply HT'; eauto.
Qed.
