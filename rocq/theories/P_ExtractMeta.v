(** * P_ExtractMeta: extraction event by event and file by file (C113). *)

From Coq Require Import Ascii String NArith Reals Lra Permutation Sorted.
From Verif Require Import Base PoolModel PoolProofs P_Pool ExtractModel P_Extract P_Samples GlobModel P_Glob.
Local Open Scope Z_scope.

(** ** Lists *)
Lemma ss_concat {X} (a b : list (list X)) : Forall2 subseq a b -> subseq (concat a) (concat b).
Proof. intro H. induction H; cbn [concat]; [constructor|]. apply ss_app; assumption. Qed.
Lemma subseq_insert x l : subseq l (insert x l).
Proof.
  induction l as [|y l IH]; cbn [insert]; [repeat constructor|].
  destruct (String.leb x y); [constructor; apply ss_refl|constructor; exact IH].
Qed.
Lemma ss_trans {X} (a b c : list X) : subseq a b -> subseq b c -> subseq a c.
Proof.
  intros H1 H2. revert a H1. induction H2 as [|x b c H IH|x b c H IH]; intros a H1; [exact H1| |].
  - constructor. apply IH. exact H1.
  - inversion H1; subst; [apply ss_skip; apply IH; assumption|apply ss_keep; apply IH; assumption].
Qed.
Lemma subseq_sorted_app extra l : subseq (sorted l) (sorted (extra ++ l)).
Proof.
  induction extra as [|x e IH]; cbn [app sorted]; [apply ss_refl|].
  eapply ss_trans; [exact IH|apply subseq_insert].
Qed.

Section Tables.
Context {D : Type}.
Notation etr := (@etr D).
Variable entry : string -> window -> list etr -> Prop.

Lemma listing_app_wins files wins1 wins2 out :
  listing entry files (wins1 ++ wins2) out ->
  exists out1 out2, listing entry files wins1 out1 /\ listing entry files wins2 out2 /\ Permutation out (out1 ++ out2).
Proof.
  intros (table & HT & ->). induction HT as [|f row files table HR HT (o1 & o2 & (t1 & H1 & E1) & (t2 & H2 & E2) & HP)].
  - exists [], []. split; [exists []; split; [constructor|reflexivity]|]. split; [exists []; split; [constructor|reflexivity]|]. constructor.
  - apply Forall2_app_inv_l in HR as (r1 & r2 & HR1 & HR2 & ->). subst o1 o2.
    exists (concat (map (@concat _) (r1 :: t1))), (concat (map (@concat _) (r2 :: t2))).
    split; [exists (r1 :: t1); split; [constructor; assumption|reflexivity]|].
    split; [exists (r2 :: t2); split; [constructor; assumption|reflexivity]|].
    cbn [map concat]. rewrite concat_app, HP.
    rewrite <- !app_assoc. apply Permutation_app_head. rewrite !app_assoc. apply Permutation_app_tail.
    apply Permutation_app_comm.
Qed.
Lemma app_wins_listing files wins1 wins2 out1 out2 :
  listing entry files wins1 out1 -> listing entry files wins2 out2 ->
  exists out, listing entry files (wins1 ++ wins2) out.
Proof.
  intros (t1 & H1 & _) (t2 & H2 & _).
  assert (G : exists t, Forall2 (fun f row => Forall2 (entry f) (wins1 ++ wins2) row) files t).
  { revert t2 H2. induction H1 as [|f r1 files t1 HR1 H1 IH]; intros t2 H2; inversion H2 as [|? r2 ? t2' HR2 H2']; subst; [exists []; constructor|].
    destruct (IH t2' H2') as [t HT]. exists ((r1 ++ r2) :: t). constructor; [apply Forall2_app; assumption|exact HT]. }
  destruct G as [t HT]. eexists. exists t. split; [exact HT|reflexivity].
Qed.
Lemma listing_app_files files1 files2 wins out :
  listing entry (files1 ++ files2) wins out <->
  exists out1 out2, listing entry files1 wins out1 /\ listing entry files2 wins out2 /\ out = out1 ++ out2.
Proof.
  split.
  - intros (table & HT & ->). apply Forall2_app_inv_l in HT as (t1 & t2 & H1 & H2 & ->).
    exists (concat (map (@concat _) t1)), (concat (map (@concat _) t2)).
    split; [exists t1; auto|]. split; [exists t2; auto|]. rewrite map_app, concat_app. reflexivity.
  - intros (o1 & o2 & (t1 & H1 & ->) & (t2 & H2 & ->) & ->). exists (t1 ++ t2).
    split; [apply Forall2_app; assumption|]. rewrite map_app, concat_app. reflexivity.
Qed.
Lemma listing_perm_files files files' wins out : Permutation files files' ->
  listing entry files wins out -> exists out', listing entry files' wins out' /\ Permutation out out'.
Proof.
  intros HP (table & HT & ->).
  assert (G : exists t', Forall2 (fun f row => Forall2 (entry f) wins row) files' t' /\ Permutation table t').
  { revert table HT. induction HP; intros table HT.
    - inversion HT; subst. exists []. split; constructor.
    - inversion HT as [|? r ? t HR HT']; subst. destruct (IHHP t HT') as (t' & H' & P'). exists (r :: t'). split; constructor; assumption.
    - inversion HT as [|? r ? t HR HT']; subst. inversion HT' as [|? r2 ? t2 HR2 HT2]; subst.
      exists (r2 :: r :: t2). split; [repeat constructor; assumption|constructor].
    - destruct (IHHP1 table HT) as (t1 & H1 & P1). destruct (IHHP2 t1 H1) as (t2 & H2 & P2). exists t2. split; [exact H2|]. eapply perm_trans; eassumption. }
  destruct G as (t' & H' & P'). exists (concat (map (@concat _) t')). split; [exists t'; auto|].
  clear -P'. induction P'; cbn [map concat]; [constructor|apply Permutation_app_head; assumption| |eapply perm_trans; eassumption].
  rewrite !app_assoc. apply Permutation_app_tail. apply Permutation_app_comm.
Qed.
Lemma listing_perm_wins files wins wins' out : Permutation wins wins' ->
  listing entry files wins out -> exists out', listing entry files wins' out' /\ Permutation out out'.
Proof.
  intros HP (table & HT & ->).
  assert (R : forall f row, Forall2 (entry f) wins row -> exists row', Forall2 (entry f) wins' row' /\ Permutation (concat row) (concat row')).
  { clear HT. intro f. induction HP; intros row HR.
    - inversion HR; subst. exists []. split; constructor.
    - inversion HR as [|? r ? t Hr HR']; subst. destruct (IHHP t HR') as (t' & H' & P'). exists (r :: t'). split; [constructor; assumption|].
      cbn [concat]. apply Permutation_app_head. exact P'.
    - inversion HR as [|? r ? t Hr HR']; subst. inversion HR' as [|? r2 ? t2 Hr2 HR2]; subst.
      exists (r2 :: r :: t2). split; [repeat constructor; assumption|]. cbn [concat]. rewrite !app_assoc. apply Permutation_app_tail. apply Permutation_app_comm.
    - destruct (IHHP1 row HR) as (t1 & H1 & P1). destruct (IHHP2 t1 H1) as (t2 & H2 & P2). exists t2. split; [exact H2|]. eapply perm_trans; eassumption. }
  clear HP. induction HT as [|f row files table HR HT (o' & (t' & H' & ->) & P')].
  - exists []. split; [exists []; split; [constructor|reflexivity]|]. constructor.
  - destruct (R f row HR) as (row' & HR' & PR). exists (concat (map (@concat _) (row' :: t'))).
    split; [exists (row' :: t'); split; [constructor; assumption|reflexivity]|]. cbn [map concat]. apply Permutation_app; assumption.
Qed.
Lemma listing_unique files wins out out' :
  (forall f w a b, entry f w a -> entry f w b -> a = b) ->
  listing entry files wins out -> listing entry files wins out' -> out = out'.
Proof.
  intros HU H1 H2. eapply (listing_rel _ _ _ _ eq entry entry); [reflexivity|intros; congruence| |exact H1|exact H2].
  intros f w a b _ _. apply HU.
Qed.
Lemma listing_subseq files files' wins out out' :
  (forall f w a b, entry f w a -> entry f w b -> a = b) ->
  subseq files files' -> listing entry files wins out -> listing entry files' wins out' -> subseq out out'.
Proof.
  intros HU HS (t & HT & ->) (t' & HT' & ->).
  assert (G : subseq (map (@concat _) t) (map (@concat _) t')).
  { revert t HT t' HT'. induction HS as [|f l1 l2 HS IH|f l1 l2 HS IH]; intros t HT t' HT'.
    - inversion HT; inversion HT'; subst. constructor.
    - inversion HT' as [|? r' ? t2 HR' HT2]; subst. cbn [map]. apply ss_skip. apply IH; assumption.
    - inversion HT as [|? r ? t1 HR HT1]; subst. inversion HT' as [|? r' ? t2 HR' HT2]; subst.
      assert (r = r').
      { clear -HR HR' HU. revert r' HR'. induction HR; intros r' HR'; inversion HR'; subst; [reflexivity|]. f_equal; [eapply HU; eassumption|]. apply IHHR. assumption. }
      subst r'. cbn [map]. apply ss_keep. apply IH; assumption. }
  clear -G. induction G; cbn [concat]; [constructor| |].
  - apply (ss_app [] x); [apply ss_empty|assumption].
  - apply ss_app; [apply ss_refl|assumption].
Qed.
End Tables.

(** ** Exactly when ExtractEq succeeds *)
Section Serial.
Context {D : Type}.
Notation etr := (@etr D).
Variable events : string -> res (list event).
Variable geo : R -> R -> R -> R -> res R.
Variable tt : R -> R -> list R.

(** Every file of the listing opens and has a trace. *)
Definition readable (glob : string -> list string) (rd : string -> res (list etr)) (datapath : string) : Prop :=
  forall f, In f (glob (datapath ++ "*")%string) -> exists h st, rd f = Ok (h :: st).

Lemma serial_entry_unique rd rdw f w (a b : list etr) : serial_entry rd rdw f w a -> serial_entry rd rdw f w b -> a = b.
Proof.
  intros [A1 A2] [B1 B2]. destruct (covered_dec rd f w) as [HC|HC]; [|rewrite A2, B2 by exact HC; reflexivity].
  destruct (A1 HC) as ((d & Ed & ->) & _). destruct (B1 HC) as ((d' & Ed' & ->) & _). congruence.
Qed.

Theorem C113_succeeds glob (rd : string -> res (list etr)) rdw datapath filename catalog stalat stalon w0 w1 name out :
  ExtractEq glob rd rdw events geo tt datapath filename catalog stalat stalon [w0; w1] = Ok (name, out) <->
  name = filename /\ glob (datapath ++ "*")%string <> [] /\ readable glob rd datapath /\
  exists evs wins, events catalog = Ok evs /\ Forall (fun ev => ev_mags ev <> []) evs /\
    Forall2 (is_window geo tt stalat stalon w0 w1) evs wins /\
    listing (serial_entry rd rdw) (sorted (glob (datapath ++ "*")%string)) wins out.
Proof.
  split.
  - intro H. destruct (C50_written _ _ _ _ _ _ _ _ _ _ _ _ _ _ _ H) as (-> & evs & wins & Hev & Hw & Hl).
    destruct (C50_file_order (glob (datapath ++ "*")%string)) as [HP _].
    split; [reflexivity|]. split; [|split].
    + intro E. unfold ExtractEq in H. rewrite E in H. discriminate H.
    + intros f Hf. unfold ExtractEq in H.
      apply bind_Ok_inv in H as (f0 & _ & H). apply bind_Ok_inv in H as (s0 & _ & H). apply bind_Ok_inv in H as (fl & _ & H).
      apply bind_Ok_inv in H as (sl & _ & H). apply bind_Ok_inv in H as (h0 & _ & H). apply bind_Ok_inv in H as (hl & _ & H).
      apply bind_Ok_inv in H as (evs' & _ & H). apply bind_Ok_inv in H as (wins' & _ & H). apply bind_Ok_inv in H as (data & Hd & _).
      assert (Hf' : In f (sorted (glob (datapath ++ "*")%string))) by (apply (Permutation_in _ (Permutation_sym HP)); exact Hf).
      clear -Hd Hf'. revert Hd. generalize (@nil etr). induction (sorted (glob (datapath ++ "*")%string)) as [|g l IH]; intros acc Hd; [contradiction|].
      cbn [forM] in Hd. apply bind_Ok_inv in Hd as (a & Ha & Hd). destruct Hf' as [<-|Hf']; [|eapply IH; eassumption].
      unfold extract_file in Ha. apply bind_Ok_inv in Ha as (st & Hst & Ha). apply bind_Ok_inv in Ha as (h & Hh & _).
      destruct st as [|h' st]; [discriminate|]. eauto.
    + exists evs, wins. split; [exact Hev|]. split; [|split; assumption].
      unfold ExtractEq in H.
      apply bind_Ok_inv in H as (f0 & _ & H). apply bind_Ok_inv in H as (s0 & _ & H). apply bind_Ok_inv in H as (fl & _ & H).
      apply bind_Ok_inv in H as (sl & _ & H). apply bind_Ok_inv in H as (h0 & _ & H). apply bind_Ok_inv in H as (hl & _ & H).
      apply bind_Ok_inv in H as (evs' & Hev' & H). apply bind_Ok_inv in H as (wins' & Hw' & _).
      assert (evs' = evs) by congruence. subst evs'. apply mapM_Ok in Hw'. clear -Hw'.
      induction Hw' as [|ev w evs wins Hx F IH]; constructor; [|exact IH].
      unfold event_window in Hx. apply bind_Ok_inv in Hx as (o & _ & Hx). apply bind_Ok_inv in Hx as (m & Hm & _).
      intro E. rewrite E in Hm. discriminate.
  - intros (-> & Hne & Hrd & evs & wins & Hev & Hm & Hw & Hl).
    eapply C50_complete; eassumption.
Qed.

(** ** Event by event *)
(** C113: a catalog read in two parts. *)
Theorem C113_catalog_parts glob (rd : string -> res (list etr)) rdw datapath filename filename1 filename2 cat cat1 cat2 evs1 evs2 stalat stalon w0 w1 :
  events cat1 = Ok evs1 -> events cat2 = Ok evs2 -> events cat = Ok (evs1 ++ evs2) ->
  let run file c := ExtractEq glob rd rdw events geo tt datapath file c stalat stalon [w0; w1] in
  ((exists out, run filename cat = Ok (filename, out)) <->
   (exists out1, run filename1 cat1 = Ok (filename1, out1)) /\ (exists out2, run filename2 cat2 = Ok (filename2, out2))) /\
  (forall out out1 out2, run filename cat = Ok (filename, out) ->
     run filename1 cat1 = Ok (filename1, out1) -> run filename2 cat2 = Ok (filename2, out2) -> Permutation out (out1 ++ out2)).
Proof.
  intros E1 E2 E run.
  assert (Split : forall out, run filename cat = Ok (filename, out) -> exists out1 out2,
     run filename1 cat1 = Ok (filename1, out1) /\ run filename2 cat2 = Ok (filename2, out2) /\ Permutation out (out1 ++ out2)).
  { intros out H. apply C113_succeeds in H as (_ & Hne & Hrd & evs & wins & Hev & Hm & Hw & Hl).
    assert (evs = evs1 ++ evs2) by congruence. subst evs. apply Forall2_app_inv_l in Hw as (wins1 & wins2 & Hw1 & Hw2 & ->).
    apply Forall_app in Hm as [Hm1 Hm2]. apply listing_app_wins in Hl as (out1 & out2 & Hl1 & Hl2 & HP).
    exists out1, out2. split; [|split; [|exact HP]]; apply C113_succeeds; (split; [reflexivity|]); (split; [exact Hne|]); (split; [exact Hrd|]).
    - exists evs1, wins1. auto.
    - exists evs2, wins2. auto. }
  split.
  - split.
    + intros [out H]. destruct (Split out H) as (o1 & o2 & H1 & H2 & _). eauto.
    + intros [[o1 H1] [o2 H2]]. apply C113_succeeds in H1 as (_ & Hne & Hrd & e1 & wins1 & Hev1 & Hm1 & Hw1 & Hl1).
      apply C113_succeeds in H2 as (_ & _ & _ & e2 & wins2 & Hev2 & Hm2 & Hw2 & Hl2).
      assert (e1 = evs1) by congruence. assert (e2 = evs2) by congruence. subst e1 e2.
      destruct (app_wins_listing _ _ _ _ _ _ Hl1 Hl2) as [out Hl]. exists out. apply C113_succeeds.
      split; [reflexivity|]. split; [exact Hne|]. split; [exact Hrd|]. exists (evs1 ++ evs2), (wins1 ++ wins2).
      split; [exact E|]. split; [apply Forall_app; auto|]. split; [apply Forall2_app; assumption|exact Hl].
  - intros out o1 o2 H H1 H2. destruct (Split out H) as (p1 & p2 & Q1 & Q2 & HP).
    assert (p1 = o1) by congruence. assert (p2 = o2) by congruence. subst. exact HP.
Qed.
(** C113: the order of the events in the catalog only reorders what is written. *)
Theorem C113_catalog_order glob (rd : string -> res (list etr)) rdw datapath filename cat cat' evs evs' stalat stalon w0 w1 name out :
  events cat = Ok evs -> events cat' = Ok evs' -> Permutation evs evs' ->
  ExtractEq glob rd rdw events geo tt datapath filename cat stalat stalon [w0; w1] = Ok (name, out) ->
  exists out', ExtractEq glob rd rdw events geo tt datapath filename cat' stalat stalon [w0; w1] = Ok (name, out') /\ Permutation out out'.
Proof.
  intros E E' HP H. apply C113_succeeds in H as (-> & Hne & Hrd & evs0 & wins & Hev & Hm & Hw & Hl).
  assert (evs0 = evs) by congruence. subst evs0.
  assert (G : exists wins', Forall2 (is_window geo tt stalat stalon w0 w1) evs' wins' /\ Permutation wins wins').
  { clear -HP Hw. revert wins Hw. induction HP; intros wins Hw.
    - inversion Hw; subst. exists []. split; constructor.
    - inversion Hw as [|? r ? t HR HT']; subst. destruct (IHHP t HT') as (t' & H' & P'). exists (r :: t'). split; constructor; assumption.
    - inversion Hw as [|? r ? t HR HT']; subst. inversion HT' as [|? r2 ? t2 HR2 HT2]; subst.
      exists (r2 :: r :: t2). split; [repeat (constructor; [assumption|]); assumption|constructor].
    - destruct (IHHP1 wins Hw) as (t1 & H1 & P1). destruct (IHHP2 t1 H1) as (t2 & H2 & P2). exists t2. split; [exact H2|]. eapply perm_trans; eassumption. }
  destruct G as (wins' & Hw' & PW). destruct (listing_perm_wins _ _ _ _ _ PW Hl) as (out' & Hl' & PO).
  exists out'. split; [|exact PO]. apply C113_succeeds. split; [reflexivity|]. split; [exact Hne|]. split; [exact Hrd|].
  exists evs', wins'. split; [exact E'|]. split; [|auto]. rewrite <- HP. exact Hm.
Qed.

(** ** File by file *)
(** C113: files are added to the directory, the old ones keep their contents: what was
    written is still written, in the same order, and the rest comes from the new files. *)
Theorem C113_more_files glob (rd : string -> res (list etr)) rdw glob' rd' rdw' extra datapath filename cat stalat stalon w0 w1 name out name' out' :
  Permutation (glob' (datapath ++ "*")%string) (extra ++ glob (datapath ++ "*")%string) ->
  (forall f, In f (glob (datapath ++ "*")%string) -> rd' f = rd f /\ forall s e, rdw' f s e = rdw f s e) ->
  ExtractEq glob rd rdw events geo tt datapath filename cat stalat stalon [w0; w1] = Ok (name, out) ->
  ExtractEq glob' rd' rdw' events geo tt datapath filename cat stalat stalon [w0; w1] = Ok (name', out') ->
  name' = name /\ subseq out out' /\
  exists new, Permutation out' (new ++ out) /\
    forall t, In t new -> exists f w d x, In f extra /\ covered rd' f w /\ rdw' f (w_start w) (w_end w) = Ok d /\ In x d /\ t = set_onset (w_onset w) x.
Proof.
  intros HG Hsame H H'. apply C113_succeeds in H as (-> & _ & _ & evs & wins & Hev & _ & Hw & Hl).
  apply C113_succeeds in H' as (-> & _ & _ & evs' & wins' & Hev' & _ & Hw' & Hl').
  assert (evs' = evs) by congruence. subst evs'.
  assert (wins' = wins).
  { clear -Hw Hw'. revert wins' Hw'. induction Hw as [|ev w evs ws Hx F IH]; intros ws' H'; inversion H' as [|? w' ? ws'' Hx' F']; subst; [reflexivity|].
    f_equal; [|apply IH; exact F']. eapply is_window_unique; eassumption. }
  subst wins'. split; [reflexivity|].
  set (files := glob (datapath ++ "*")%string) in *.
  assert (Hl2 : listing (serial_entry rd' rdw') (sorted files) wins out).
  { destruct Hl as (t & HT & ->). exists t. split; [|reflexivity].
    assert (HF : forall f, In f (sorted files) -> In f files) by (intro f; apply Permutation_in; apply C50_file_order).
    revert HF HT. generalize (sorted files). intros l HF HT. induction HT as [|f row l t HR HT IH]; constructor.
    - destruct (Hsame f (HF f (or_introl eq_refl))) as [S1 S2]. revert HR. clear -S1 S2. intro HR. induction HR as [|w x ws row [A B] HR IH]; constructor; [|exact IH].
      unfold serial_entry, covered, cut_with_onset in *. rewrite S1, S2. split; assumption.
    - apply IH. intros g Hg. apply HF. right. exact Hg. }
  rewrite (sorted_perm _ _ HG) in Hl'. split.
  - eapply listing_subseq; [apply serial_entry_unique|apply subseq_sorted_app|exact Hl2|exact Hl'].
  - assert (PS : Permutation (sorted (extra ++ files)) (extra ++ sorted files)).
    { etransitivity; [apply C50_file_order|]. apply Permutation_app_head. symmetry. apply C50_file_order. }
    destruct (listing_perm_files _ _ _ _ _ PS Hl') as (o & Hl3 & PO).
    apply listing_app_files in Hl3 as (new & o2 & Hn & Ho & ->).
    assert (o2 = out) by (eapply listing_unique; [apply serial_entry_unique|exact Ho|exact Hl2]). subst o2.
    exists new. split; [exact PO|]. intros t Ht. destruct Hn as (tb & HT & ->).
    apply in_concat in Ht as (lf & Hlf & Ht). apply in_map_iff in Hlf as (row & <- & Hrow). apply in_concat in Ht as (l & Hll & Ht).
    destruct (F2_r _ _ _ HT row Hrow) as (f & Hf & HR). destruct (F2_r _ _ _ HR l Hll) as (w & Hww & [He1 He2]).
    destruct (covered_dec rd' f w) as [HC|HC]; [|rewrite (He2 HC) in Ht; contradiction].
    destruct (He1 HC) as ((d & Ed & ->) & _). apply in_map_iff in Ht as (x & <- & Hx). exists f, w, d, x. auto.
Qed.
End Serial.

(** ** The multiprocessing version *)
(** C113: for any numbers of processes and any schedules, the files given in two parts are
    extracted part by part. *)
Theorem C113_multiproc_files {D} rdw files1 files2 wins nproc nproc1 nproc2 fn fn1 fn2 (out : list (@etr D)) out1 out2 :
  (0 < nproc)%nat -> (0 < nproc1)%nat -> (0 < nproc2)%nat ->
  ExtractEq_Multiproc rdw (files1 ++ files2) (map (fun w => [w]) wins) nproc fn (Ok (fn, out)) ->
  ExtractEq_Multiproc rdw files1 (map (fun w => [w]) wins) nproc1 fn1 (Ok (fn1, out1)) ->
  ExtractEq_Multiproc rdw files2 (map (fun w => [w]) wins) nproc2 fn2 (Ok (fn2, out2)) ->
  out = out1 ++ out2.
Proof.
  intros Hp Hp1 Hp2 H H1 H2. apply C53_written in H as [_ H]; [|exact Hp]. apply C53_written in H1 as [_ H1]; [|exact Hp1]. apply C53_written in H2 as [_ H2]; [|exact Hp2].
  eapply listing_unique; [|exact H|apply listing_app_files; eauto].
  intros f w a b (d & Ed & ->) (d' & Ed' & ->). congruence.
Qed.
(** C113: the windows given in two parts: the same traces in all. *)
Theorem C113_multiproc_windows {D} rdw files wins1 wins2 nproc nproc1 nproc2 fn fn1 fn2 (out : list (@etr D)) out1 out2 :
  (0 < nproc)%nat -> (0 < nproc1)%nat -> (0 < nproc2)%nat ->
  ExtractEq_Multiproc rdw files (map (fun w => [w]) (wins1 ++ wins2)) nproc fn (Ok (fn, out)) ->
  ExtractEq_Multiproc rdw files (map (fun w => [w]) wins1) nproc1 fn1 (Ok (fn1, out1)) ->
  ExtractEq_Multiproc rdw files (map (fun w => [w]) wins2) nproc2 fn2 (Ok (fn2, out2)) ->
  Permutation out (out1 ++ out2).
Proof.
  intros Hp Hp1 Hp2 H H1 H2. apply C53_written in H as [_ H]; [|exact Hp]. apply C53_written in H1 as [_ H1]; [|exact Hp1]. apply C53_written in H2 as [_ H2]; [|exact Hp2].
  apply listing_app_wins in H as (o1 & o2 & L1 & L2 & HP).
  assert (U : forall f w (a b : list (@etr D)), cut_with_onset rdw f w a -> cut_with_onset rdw f w b -> a = b) by (intros f w a b (d & Ed & ->) (d' & Ed' & ->); congruence).
  rewrite (listing_unique _ _ _ _ _ U L1 H1), (listing_unique _ _ _ _ _ U L2 H2) in HP. exact HP.
Qed.

(** ** Concrete cases *)
Local Open Scope string_scope.
(** The archive of [C50_example] with the catalog in parts: the event at 50 s, then the one at 88 s. *)
Definition parts_events (s : string) : res (list event) :=
  if String.eqb s "one.xml" then Ok [ex_event (sec 50)]
  else if String.eqb s "two.xml" then Ok [ex_event (sec 88)]
  else if String.eqb s "rev.xml" then Ok [ex_event (sec 88); ex_event (sec 50)]
  else Ok [ex_event (sec 50); ex_event (sec 88)].
(** A second file is added: the same record, under a name that sorts first. *)
Definition more_glob (s : string) : list string := "data/a.mseed" :: ex_glob s.
Example C113_example :
  let run g c := ExtractEq g ex_rd ex_rdw parts_events ex_geo ex_tt "data/" "eq.mseed" c 52 4 [(-10)%R; 10%R] in
  run ex_glob "all.xml" = Ok ("eq.mseed", ex_serial) /\ run ex_glob "one.xml" = Ok ("eq.mseed", ex_serial) /\
  run ex_glob "two.xml" = Ok ("eq.mseed", []) /\ run ex_glob "rev.xml" = Ok ("eq.mseed", ex_serial) /\
  run more_glob "all.xml" = Ok ("eq.mseed", (ex_serial ++ ex_serial)%list).
Proof.
  cbv zeta. unfold ExtractEq, more_glob, ex_glob, ex_rd, parts_events.
  repeat split; cbn [sorted insert getitem nth_error bind length Nat.sub mapM String.eqb Ascii.eqb Bool.eqb];
  rewrite ?(ex_window (sec 50) 50), ?(ex_window (sec 88) 88) by (try reflexivity; apply ex_abs); cbn [bind]; reflexivity.
Qed.
Print Assumptions C113_succeeds.
Print Assumptions C113_catalog_parts.
Print Assumptions C113_more_files.
Print Assumptions C113_multiproc_windows.
