(** * P_Extract: what ExtractEq and ExtractEq_Multiproc write (C50-C53, C67). *)

From Coq Require Import Reals Lra Permutation Sorted.
From Verif Require Import Base PoolModel PoolProofs P_Pool ExtractModel.
Local Open Scope Z_scope.

(** ** Rounding of seconds to nanoseconds *)
Lemma round_bounds x : (x - 1 / 2 <= IZR (round_half_even x) <= x + 1 / 2)%R.
Proof.
  unfold round_half_even. destruct (base_Int_part x) as [H1 H2].
  destruct (Rlt_dec (x - IZR (Int_part x)) (1 / 2)) as [|A]; [lra|].
  destruct (Rlt_dec (1 / 2) (x - IZR (Int_part x))) as [B|B]; [rewrite plus_IZR; lra|].
  apply Rnot_lt_le in A, B. destruct (Z.even (Int_part x)); [lra|rewrite plus_IZR; lra].
Qed.
Lemma round_nonneg x : (0 <= x)%R -> 0 <= round_half_even x.
Proof.
  intro H. pose proof (round_bounds x) as [B _]. destruct (Z.lt_ge_cases (round_half_even x) 0) as [L|L]; [|exact L].
  exfalso. assert (E : (IZR (round_half_even x) <= IZR (-1))%R) by (apply IZR_le; lia). lra.
Qed.
Lemma round_nonpos x : (x <= 0)%R -> round_half_even x <= 0.
Proof.
  intro H. pose proof (round_bounds x) as [_ B]. destruct (Z.lt_ge_cases 0 (round_half_even x)) as [L|L]; [|exact L].
  exfalso. assert (E : (IZR 1 <= IZR (round_half_even x))%R) by (apply IZR_le; lia). lra.
Qed.
(** The rounded time is within half a nanosecond of the exact one. *)
Lemma utc_add_exact t s : (Rabs (IZR (utc_add t s) - (IZR t + s * 1000000000)) <= 1 / 2)%R.
Proof. unfold utc_add. rewrite plus_IZR. pose proof (round_bounds (s * 1000000000)). apply Rabs_le. lra. Qed.

Section Any.
Context {D : Type}.
Variable glob : string -> list string.
Variable rd : string -> res (list (@etr D)).
Variable rdw : string -> Z -> Z -> res (list (@etr D)).
Variable events : string -> res (list event).
Variable geo : R -> R -> R -> R -> res R.
Variable tt : R -> R -> list R.

(** Onset of an event at a station: origin time plus the first arrival of the table at
    the depth of its first origin and its epicentral distance. *)
Definition is_onset (stalat stalon : R) (ev : event) (on : Z) : Prop :=
  exists o os depth dist p ps, ev_origins ev = o :: os /\ o_depth o = Some depth /\
    geo stalat stalon (o_lat o) (o_lon o) = Ok dist /\ tt (depth / 1000)%R dist = p :: ps /\
    on = utc_add (o_time o) p.
(** The request window around the onset: |w0| seconds before to |w1| seconds after. *)
Definition is_window (stalat stalon w0 w1 : R) (ev : event) (w : window) : Prop :=
  is_onset stalat stalon ev (w_onset w) /\
  w_start w = utc_add (w_onset w) (- Rabs w0) /\ w_end w = utc_add (w_onset w) (Rabs w1).

(** ** Sorted file names *)
Lemma ascii_compare_refl c : Ascii.compare c c = Eq.
Proof. unfold Ascii.compare. apply N.compare_refl. Qed.
Lemma leb_trans s1 s2 s3 : String.leb s1 s2 = true -> String.leb s2 s3 = true -> String.leb s1 s3 = true.
Proof.
  unfold String.leb. revert s2 s3. induction s1 as [|c1 s1 IH]; intros s2 s3 H1 H2.
  - cbn. destruct s3; reflexivity.
  - destruct s2 as [|c2 s2]; [discriminate|]. destruct s3 as [|c3 s3]; [discriminate|]. cbn [String.compare] in *.
    destruct (Ascii.compare c1 c2) eqn:E1; [|clear H1|discriminate];
    destruct (Ascii.compare c2 c3) eqn:E2; [|clear H2|discriminate| |clear H2|discriminate].
    + apply Ascii.compare_eq_iff in E1, E2. subst. rewrite ascii_compare_refl. eapply IH; eassumption.
    + apply Ascii.compare_eq_iff in E1. subst. rewrite E2. reflexivity.
    + apply Ascii.compare_eq_iff in E2. subst. rewrite E1. reflexivity.
    + unfold Ascii.compare in *. apply N.compare_lt_iff in E1, E2. rewrite (proj2 (N.compare_lt_iff _ _) (N.lt_trans _ _ _ E1 E2)). reflexivity.
Qed.
Lemma insert_perm x l : Permutation (insert x l) (x :: l).
Proof.
  induction l as [|y l IH]; cbn [insert]; [reflexivity|]. destruct (String.leb x y); [reflexivity|].
  rewrite IH. apply perm_swap.
Qed.
(** The files are visited once each, in the order of their names. *)
Theorem C50_file_order l : Permutation (sorted l) l /\ StronglySorted (fun a b => String.leb a b = true) (sorted l).
Proof.
  induction l as [|x l [IH1 IH2]]; cbn [sorted]; [split; constructor|]. split.
  - rewrite insert_perm. constructor; exact IH1.
  - revert IH2. generalize (sorted l). clear. intros l H. induction H as [|y l H IH F]; cbn [insert].
    + constructor; constructor.
    + destruct (String.leb x y) eqn:E.
      * constructor; [constructor; assumption|]. constructor; [exact E|].
        eapply Forall_impl; [|exact F]. intros a Ha. eapply leb_trans; eassumption.
      * constructor; [exact IH|]. rewrite insert_perm. constructor; [|exact F].
        destruct (String.leb_total x y) as [T|T]; [congruence|exact T].
Qed.

(** ** Windows *)
Lemma event_window_spec stalat stalon a b ev w : event_window geo tt stalat stalon (Ok a) (Ok b) ev = Ok w ->
  is_window stalat stalon a b ev w.
Proof.
  unfold event_window. intro H.
  apply bind_Ok_inv in H as (o & Ho & H). apply bind_Ok_inv in H as (m & Hm & H). apply bind_Ok_inv in H as (d & Hd & H).
  apply bind_Ok_inv in H as (dist & Hdist & H). apply bind_Ok_inv in H as (p & Hp & H). cbn [bind] in H. inversion H; subst w.
  unfold is_window. cbn [w_onset w_start w_end]. split; [|split; reflexivity].
  destruct (ev_origins ev) as [|o' os] eqn:Eo; [discriminate|]. inversion Ho; subst o'.
  destruct (o_depth o) as [d'|] eqn:Ed; [|discriminate]. inversion Hd; subst d'.
  destruct (tt (d / 1000) dist) as [|p' ps] eqn:Et; [discriminate|]. inversion Hp; subst p'.
  exists o, os, d, dist, p, ps. repeat split; auto.
Qed.
Lemma event_window_ok stalat stalon a b ev w m ms : is_window stalat stalon a b ev w -> ev_mags ev = m :: ms ->
  event_window geo tt stalat stalon (Ok a) (Ok b) ev = Ok w.
Proof.
  intros ((o & os & d & dist & p & ps & E1 & E2 & E3 & E4 & E5) & E6 & E7) Em.
  unfold event_window. rewrite E1, Em. cbn [getitem nth_error bind]. rewrite E2. cbn [need bind]. rewrite E3. cbn [bind]. rewrite E4. cbn [getitem nth_error bind].
  destruct w as [s e on]. cbn [w_start w_end w_onset] in *. subst. reflexivity.
Qed.

(** C51: the window does not depend on the signs of the request and contains the onset;
    up to half a nanosecond per rounding it is [onset-|w0|, onset+|w1|]. *)
Theorem C51_window stalat stalon w0 w1 ev w : is_window stalat stalon w0 w1 ev w ->
  is_window stalat stalon (- w0) w1 ev w /\ is_window stalat stalon w0 (- w1) ev w /\
  is_window stalat stalon (- w0) (- w1) ev w /\
  w_start w <= w_onset w <= w_end w /\
  (Rabs ((IZR (w_onset w) - IZR (w_start w)) / 1000000000 - Rabs w0) <= 1 / 2000000000)%R /\
  (Rabs ((IZR (w_end w) - IZR (w_onset w)) / 1000000000 - Rabs w1) <= 1 / 2000000000)%R.
Proof.
  intros (H1 & H2 & H3). unfold is_window. rewrite !Rabs_Ropp. repeat split; auto.
  - rewrite H2. unfold utc_add. pose proof (Rabs_pos w0). pose proof (round_nonpos (- Rabs w0 * 1000000000) ltac:(lra)). lia.
  - rewrite H3. unfold utc_add. pose proof (Rabs_pos w1). pose proof (round_nonneg (Rabs w1 * 1000000000) ltac:(lra)). lia.
  - pose proof (utc_add_exact (w_onset w) (- Rabs w0)) as Q. rewrite <- H2 in Q. apply Rabs_le. apply Rabs_def2' in Q || idtac.
    assert (Q' : (- (1 / 2) <= IZR (w_start w) - (IZR (w_onset w) + - Rabs w0 * 1000000000) <= 1 / 2)%R) by (split; [|]; revert Q; unfold Rabs at 1; destruct (Rcase_abs _); lra).
    lra.
  - pose proof (utc_add_exact (w_onset w) (Rabs w1)) as Q. rewrite <- H3 in Q. apply Rabs_le.
    assert (Q' : (- (1 / 2) <= IZR (w_end w) - (IZR (w_onset w) + Rabs w1 * 1000000000) <= 1 / 2)%R) by (split; [|]; revert Q; unfold Rabs at 1; destruct (Rcase_abs _); lra).
    lra.
Qed.

(** C51: this is the window both programs use. *)
Theorem C51_both stalat stalon w0 w1 ev w m ms : ev_mags ev = m :: ms ->
  (event_window geo tt stalat stalon (getitem [w0; w1] 0) (getitem [w0; w1] 1) ev = Ok w <-> is_window stalat stalon w0 w1 ev w) /\
  (Eq_times geo tt (mkMev ev stalat stalon w0 w1) = Ok [w] <-> is_window stalat stalon w0 w1 ev w).
Proof.
  intro Em. assert (G : event_window geo tt stalat stalon (Ok w0) (Ok w1) ev = Ok w <-> is_window stalat stalon w0 w1 ev w).
  { split; [apply event_window_spec|]. intro H. eapply event_window_ok; eassumption. }
  split; [exact G|]. unfold Eq_times. cbn [m_ev m_lat m_lon m_w0 m_w1]. rewrite <- G.
  destruct (event_window geo tt stalat stalon (Ok w0) (Ok w1) ev) as [w'|e]; cbn [bind]; split; intro H; inversion H; reflexivity.
Qed.

(** ** The written stream *)
(** The whole request window lies inside the first trace of the file. *)
Definition covered (f : string) (w : window) : Prop :=
  exists h st, rd f = Ok (h :: st) /\ e_start h <= w_start w /\ w_end w <= e_end h.
(** The data of file [f] in window [w], every trace marked with the onset of [w]. *)
Definition cut_with_onset (f : string) (w : window) (l : list etr) : Prop :=
  exists d, rdw f (w_start w) (w_end w) = Ok d /\ l = map (set_onset (w_onset w)) d.
(** [out] lists, file by file and within a file event by event, what [entry] gives. *)
Definition listing (entry : string -> window -> list (@etr D) -> Prop) (files : list string) (wins : list window) (out : list etr) : Prop :=
  exists table, Forall2 (fun f row => Forall2 (entry f) wins row) files table /\ out = concat (map (@concat _) table).

Definition serial_entry (f : string) (w : window) (l : list etr) : Prop :=
  (covered f w -> cut_with_onset f w l /\ l <> []) /\ (~ covered f w -> l = []).

Lemma forM_listing {X} (body : X -> list (@etr D) -> res (list etr)) (entry : X -> list etr -> Prop) (l : list X) :
  (forall x acc r, In x l -> body x acc = Ok r -> exists d, r = acc ++ d /\ entry x d) ->
  forall acc r, forM l body acc = Ok r -> exists row, Forall2 entry l row /\ r = acc ++ concat row.
Proof.
  intro H. induction l as [|x l IH]; intros acc r E; cbn [forM] in E.
  - inversion E. exists []. split; [constructor|]. cbn. rewrite app_nil_r. reflexivity.
  - apply bind_Ok_inv in E as (r1 & E1 & E). destruct (H x acc r1 (or_introl eq_refl) E1) as (d & -> & Hd).
    destruct (IH (fun y a r Hy => H y a r (or_intror Hy)) _ _ E) as (row & HF & ->).
    exists (d :: row). split; [constructor; assumption|]. cbn [concat]. rewrite app_assoc. reflexivity.
Qed.
Lemma forM_listing_ok {X} (body : X -> list (@etr D) -> res (list etr)) (entry : X -> list etr -> Prop) (l : list X) row :
  (forall x acc d, In x l -> entry x d -> body x acc = Ok (acc ++ d)) -> Forall2 entry l row ->
  forall acc, forM l body acc = Ok (acc ++ concat row).
Proof.
  intros H F. induction F as [|x d l row Hd F IH]; intro acc; cbn [forM concat]; [rewrite app_nil_r; reflexivity|].
  rewrite (H x acc d (or_introl eq_refl) Hd). cbn [bind]. rewrite IH; [|intros; apply H; [right|]; assumption]. rewrite app_assoc. reflexivity.
Qed.

Lemma extract_file_spec wins f acc r : extract_file rd rdw wins f acc = Ok r ->
  exists row, Forall2 (serial_entry f) wins row /\ r = acc ++ concat row.
Proof.
  intro H. unfold extract_file in H. apply bind_Ok_inv in H as (st & Hst & H). apply bind_Ok_inv in H as (h & Hh & H).
  destruct st as [|h' st]; [discriminate|]. inversion Hh; subst h'. clear Hh.
  apply (forM_listing _ (serial_entry f)) in H; [exact H|].
  intros w a r' _ E. unfold extract_pair in E.
  destruct (Z.leb_spec (e_start h) (w_start w)) as [L1|L1]; cbn [andb] in E.
  - destruct (Z.leb_spec (w_end w) (e_end h)) as [L2|L2].
    + apply bind_Ok_inv in E as (d & Ed & E). apply bind_Ok_inv in E as (x & Ex & E). inversion E; subst r'.
      eexists. split; [reflexivity|]. split.
      * intros _. split; [exists d; split; [exact Ed|reflexivity]|]. destruct d; [discriminate|]. discriminate.
      * intro N. exfalso. apply N. exists h, st. auto.
    + inversion E; subst. exists []. split; [rewrite app_nil_r; reflexivity|]. split; [|reflexivity].
      intros (h2 & st2 & E2 & _ & E3). rewrite Hst in E2. inversion E2; subst. lia.
  - inversion E; subst. exists []. split; [rewrite app_nil_r; reflexivity|]. split; [|reflexivity].
    intros (h2 & st2 & E2 & E3 & _). rewrite Hst in E2. inversion E2; subst. lia.
Qed.

(** C50: what ExtractEq writes. *)
Theorem C50_written datapath filename catalog stalat stalon w0 w1 name out :
  ExtractEq glob rd rdw events geo tt datapath filename catalog stalat stalon [w0; w1] = Ok (name, out) ->
  name = filename /\
  exists evs wins, events catalog = Ok evs /\ Forall2 (is_window stalat stalon w0 w1) evs wins /\
    listing serial_entry (sorted (glob (datapath ++ "*")%string)) wins out.
Proof.
  unfold ExtractEq. intro H.
  apply bind_Ok_inv in H as (f0 & _ & H). apply bind_Ok_inv in H as (s0 & _ & H). apply bind_Ok_inv in H as (fl & _ & H).
  apply bind_Ok_inv in H as (sl & _ & H). apply bind_Ok_inv in H as (h0 & _ & H). apply bind_Ok_inv in H as (hl & _ & H).
  apply bind_Ok_inv in H as (evs & Hev & H). apply bind_Ok_inv in H as (wins & Hw & H). apply bind_Ok_inv in H as (data & Hd & H).
  inversion H; subst. split; [reflexivity|]. exists evs, wins. split; [exact Hev|]. split.
  - apply mapM_Ok in Hw. clear -Hw. induction Hw as [|ev w evs wins Hx F IH]; constructor; [apply event_window_spec; exact Hx|exact IH].
  - apply (forM_listing _ (fun f l => exists row, Forall2 (serial_entry f) wins row /\ l = concat row)) in Hd.
    + destruct Hd as (ls & HF & ->). cbn [app]. clear -HF.
      assert (G : exists table, Forall2 (fun f row => Forall2 (serial_entry f) wins row) (sorted (glob (datapath ++ "*")%string)) table /\ ls = map (@concat _) table).
      { induction HF as [|f l fs ls (row & Hr & ->) F (table & HT & ->)]; [exists []; split; constructor|].
        exists (row :: table). split; [constructor; assumption|reflexivity]. }
      destruct G as (table & HT & ->). exists table. split; [exact HT|reflexivity].
    + intros f a r _ E. apply extract_file_spec in E as (row & HR & ->). eexists. split; [reflexivity|]. eauto.
Qed.

(** C50, the converse: if the listing is not empty, every file opens and has a trace, the
    events have an origin with a depth, a magnitude and an arrival, and no covered window
    reads empty, then ExtractEq succeeds with exactly that listing. *)
Theorem C50_complete datapath filename catalog stalat stalon w0 w1 evs wins out :
  glob (datapath ++ "*")%string <> [] ->
  (forall f, In f (glob (datapath ++ "*")%string) -> exists h st, rd f = Ok (h :: st)) ->
  events catalog = Ok evs -> Forall (fun ev => ev_mags ev <> []) evs ->
  Forall2 (is_window stalat stalon w0 w1) evs wins ->
  listing serial_entry (sorted (glob (datapath ++ "*")%string)) wins out ->
  ExtractEq glob rd rdw events geo tt datapath filename catalog stalat stalon [w0; w1] = Ok (filename, out).
Proof.
  intros Hne Hrd Hev Hmag Hwin (table & HT & ->). unfold ExtractEq.
  destruct (C50_file_order (glob (datapath ++ "*")%string)) as [HP _]. set (files := sorted (glob (datapath ++ "*")%string)) in *.
  assert (Hrd' : forall f, In f files -> exists h st, rd f = Ok (h :: st)) by (intros f Hf; apply Hrd; apply (Permutation_in _ HP); exact Hf).
  assert (Hl : (0 < length files)%nat).
  { rewrite (Permutation_length HP). destruct (glob _); [congruence|cbn; lia]. }
  assert (Gi : forall i, (i < length files)%nat -> exists f h st, getitem files i = Ok f /\ rd f = Ok (h :: st)).
  { intros i Hi. destruct (nth_error files i) as [f|] eqn:E; [|apply nth_error_None in E; lia].
    destruct (Hrd' f) as (h & st & Er); [eapply nth_error_In; exact E|]. exists f, h, st. split; [apply getitem_Ok; exact E|exact Er]. }
  destruct (Gi 0%nat Hl) as (f0 & h0 & st0 & E0 & R0). rewrite E0. cbn [bind]. rewrite R0. cbn [bind].
  destruct (Gi (length files - 1)%nat) as (fl & hl & stl & El & Rl); [lia|]. rewrite El. cbn [bind]. rewrite Rl. cbn [bind getitem nth_error].
  rewrite Hev. cbn [bind].
  assert (EW : mapM (event_window geo tt stalat stalon (Ok w0) (Ok w1)) evs = Ok wins).
  { apply mapM_Ok. clear -Hmag Hwin. induction Hwin as [|ev w evs wins Hx F IH]; constructor; inversion Hmag; subst.
    - destruct (ev_mags ev) as [|m ms] eqn:E; [congruence|]. eapply event_window_ok; eassumption.
    - apply IH; assumption. }
  change (mapM (event_window geo tt stalat stalon (getitem [w0; w1] 0) (getitem [w0; w1] 1)) evs) with (mapM (event_window geo tt stalat stalon (Ok w0) (Ok w1)) evs).
  rewrite EW. cbn [bind].
  rewrite (forM_listing_ok (extract_file rd rdw wins) (fun f l => exists row, Forall2 (serial_entry f) wins row /\ l = concat row) files (map (@concat _) table)); [reflexivity| |].
  - intros f acc d Hf (row & HR & ->). unfold extract_file. destruct (Hrd' f Hf) as (h & st & Er). rewrite Er. cbn [bind getitem nth_error].
    apply (forM_listing_ok _ (serial_entry f)); [|exact HR].
    intros w a d _ [He1 He2]. unfold extract_pair.
    destruct (Z.leb_spec (e_start h) (w_start w)) as [L1|L1]; cbn [andb]; [destruct (Z.leb_spec (w_end w) (e_end h)) as [L2|L2]|].
    + destruct He1 as ((x & Ex & ->) & N); [exists h, st; auto|]. rewrite Ex. cbn [bind]. destruct x as [|x0 x]; [exfalso; apply N; reflexivity|]. reflexivity.
    + rewrite He2; [rewrite app_nil_r; reflexivity|]. intros (h2 & st2 & E2 & _ & E3). rewrite Er in E2. inversion E2; subst. lia.
    + rewrite He2; [rewrite app_nil_r; reflexivity|]. intros (h2 & st2 & E2 & E3 & _). rewrite Er in E2. inversion E2; subst. lia.
  - clear -HT. induction HT as [|f row fs table H F IH]; constructor; [eauto|exact IH].
Qed.

(** C50: seen trace by trace. *)
Theorem C50_every_trace datapath filename catalog stalat stalon w0 w1 name out t :
  ExtractEq glob rd rdw events geo tt datapath filename catalog stalat stalon [w0; w1] = Ok (name, out) ->
  exists evs, events catalog = Ok evs /\
  (In t out <-> exists f ev w d x, In f (glob (datapath ++ "*")%string) /\ In ev evs /\ is_window stalat stalon w0 w1 ev w /\
      covered f w /\ rdw f (w_start w) (w_end w) = Ok d /\ In x d /\ t = set_onset (w_onset w) x).
Proof.
  intro H. apply C50_written in H as (_ & evs & wins & Hev & Hw & table & HT & ->). exists evs. split; [exact Hev|].
  destruct (C50_file_order (glob (datapath ++ "*")%string)) as [HP _].
  set (files := sorted _) in *.
  assert (Cov : forall f w l, serial_entry f w l -> forall t, In t l <-> covered f w /\ exists d x, rdw f (w_start w) (w_end w) = Ok d /\ In x d /\ t = set_onset (w_onset w) x).
  { intros f w l [H1 H2] t0. split.
    - intro Ht. assert (HC : covered f w).
      { destruct (rd f) as [[|h st]|e] eqn:Er.
        - rewrite H2 in Ht; [contradiction|]. intros (? & ? & ? & _). congruence.
        - destruct (Z.le_gt_cases (e_start h) (w_start w)) as [L1|L1]; [destruct (Z.le_gt_cases (w_end w) (e_end h)) as [L2|L2]|].
          + exists h, st. auto.
          + rewrite H2 in Ht; [contradiction|]. intros (? & ? & ? & ? & ?). assert (x = h) by congruence. subst. lia.
          + rewrite H2 in Ht; [contradiction|]. intros (? & ? & ? & ? & ?). assert (x = h) by congruence. subst. lia.
        - rewrite H2 in Ht; [contradiction|]. intros (? & ? & ? & _). congruence. }
      split; [exact HC|]. destruct (H1 HC) as ((d & Ed & ->) & _). apply in_map_iff in Ht as (x & <- & Hx). eauto.
    - intros (HC & d & x & Ed & Hx & Et). subst t0. destruct (H1 HC) as ((d' & Ed' & ->) & _). assert (d' = d) by congruence. subst. apply in_map. exact Hx. }
  assert (F2l : forall X Y (P : X -> Y -> Prop) l1 l2, Forall2 P l1 l2 -> forall a, In a l1 -> exists b, In b l2 /\ P a b).
  { intros X Y P l1 l2 F. induction F as [|a b l1 l2 Hab F IH]; intros a' []; [subst; exists b; split; [left; reflexivity|exact Hab]|].
    destruct (IH a' H) as (b' & ? & ?). exists b'. split; [right|]; assumption. }
  assert (F2r : forall X Y (P : X -> Y -> Prop) l1 l2, Forall2 P l1 l2 -> forall b, In b l2 -> exists a, In a l1 /\ P a b).
  { intros X Y P l1 l2 F. induction F as [|a b l1 l2 Hab F IH]; intros b' []; [subst; exists a; split; [left; reflexivity|exact Hab]|].
    destruct (IH b' H) as (a' & ? & ?). exists a'. split; [right|]; assumption. }
  split.
  - intro Ht. apply in_concat in Ht as (lf & Hlf & Ht). apply in_map_iff in Hlf as (row & <- & Hrow). apply in_concat in Ht as (l & Hl & Ht).
    destruct (F2r _ _ _ _ _ HT row Hrow) as (f & Hf & HR). destruct (F2r _ _ _ _ _ HR l Hl) as (w & Hww & He).
    destruct (F2r _ _ _ _ _ Hw w Hww) as (ev & Hevi & Hwin). destruct (proj1 (Cov f w l He t) Ht) as (HC & d & x & Ed & Hx & Et).
    exists f, ev, w, d, x. repeat split; auto; try apply Hwin. apply (Permutation_in _ HP). exact Hf.
  - intros (f & ev & w & d & x & Hf & Hevi & Hwin & HC & Ed & Hx & Et). subst t.
    destruct (F2l _ _ _ _ _ HT f) as (row & Hrow & HR); [apply (Permutation_in _ (Permutation_sym HP)); exact Hf|].
    destruct (F2l _ _ _ _ _ Hw ev Hevi) as (w' & Hw' & Hwin').
    assert (w' = w).
    { destruct Hwin as ((o & os & dd & dist & p & ps & E1 & E2 & E3 & E4 & E5) & E6 & E7).
      destruct Hwin' as ((o' & os' & dd' & dist' & p' & ps' & E1' & E2' & E3' & E4' & E5') & E6' & E7').
      destruct w as [ws we wo], w' as [ws' we' wo']. cbn [w_start w_end w_onset] in *.
      assert (o' = o) by congruence. subst o'. assert (dd' = dd) by congruence. subst dd'. assert (dist' = dist) by congruence. subst dist'.
      assert (p' = p) by congruence. subst. reflexivity. }
    subst w'. destruct (F2l _ _ _ _ _ HR w Hw') as (l & Hl & He).
    apply in_concat. exists (concat row). split; [apply in_map; exact Hrow|]. apply in_concat. exists l. split; [exact Hl|].
    apply (Cov f w l He). split; [exact HC|]. eauto.
Qed.

(** ** The multiprocessing version *)
Lemma stream_spec f wins l : Get_EqStream_multiproc rdw ([f], map (fun w => [w]) wins) = Ok l <->
  exists row, Forall2 (cut_with_onset f) wins row /\ l = concat row.
Proof.
  unfold Get_EqStream_multiproc. cbn [getitem nth_error bind].
  assert (G : forall ws acc, forM (map (fun w => [w]) ws) (fun i a => w <- getitem i 0 ;; eqd <- rdw f (w_start w) (w_end w) ;; Ok (a ++ map (set_onset (w_onset w)) eqd)) acc
     = forM ws (fun w a => eqd <- rdw f (w_start w) (w_end w) ;; Ok (a ++ map (set_onset (w_onset w)) eqd)) acc).
  { induction ws as [|w ws IH]; intro acc; cbn [map forM getitem nth_error bind]; [reflexivity|].
    destruct (rdw f (w_start w) (w_end w)) as [d|e]; cbn [bind]; [apply IH|reflexivity]. }
  rewrite G. clear G. split.
  - intro H. apply (forM_listing _ (cut_with_onset f)) in H; [exact H|].
    intros w a r _ E. apply bind_Ok_inv in E as (d & Ed & E). inversion E; subst. eexists. split; [reflexivity|]. exists d. auto.
  - intros (row & HR & ->). apply (forM_listing_ok _ (cut_with_onset f) wins row); [|exact HR].
    intros w a d _ (d' & Ed & ->). rewrite Ed. reflexivity.
Qed.
Lemma join_some ls acc : join_streams (map (@Some (list (@etr D))) ls) acc = Ok (acc ++ concat ls).
Proof.
  revert acc. induction ls as [|l ls IH]; intro acc; cbn [map join_streams concat]; [rewrite app_nil_r; reflexivity|].
  rewrite IH, app_assoc. reflexivity.
Qed.
Lemma streams_spec datafiles wins ls :
  mapM (Get_EqStream_multiproc rdw) (map (fun f => ([f], map (fun w => [w]) wins)) datafiles) = Ok ls <->
  exists table, Forall2 (fun f row => Forall2 (cut_with_onset f) wins row) datafiles table /\ ls = map (@concat _) table.
Proof.
  rewrite mapM_Ok. split.
  - revert ls. induction datafiles as [|f fs IH]; intros ls H; cbn [map] in H; inversion H; subst; [exists []; split; [constructor|reflexivity]|].
    apply stream_spec in H2 as (row & HR & ->). destruct (IH _ H4) as (table & HT & ->). exists (row :: table). split; [constructor; assumption|reflexivity].
  - intros (table & HT & ->). induction HT as [|f row fs table HR HT IH]; cbn [map]; constructor; [apply stream_spec; eauto|exact IH].
Qed.

(** C53: whatever the number of processes and the schedule, a stream that is written lists,
    in the order of [datafiles] and then of the windows, the data cut with each window,
    every trace marked with the onset of the window it was cut with. *)
Theorem C53_written datafiles wins nproc filename name out : (0 < nproc)%nat ->
  ExtractEq_Multiproc rdw datafiles (map (fun w => [w]) wins) nproc filename (Ok (name, out)) ->
  name = filename /\ listing cut_with_onset datafiles wins out.
Proof.
  intros Hp (p & Hr & E).
  destruct (mapM (Get_EqStream_multiproc rdw) (map (fun f => ([f], map (fun w => [w]) wins)) datafiles)) as [ls|e] eqn:EM.
  - apply C46_returns_ok with (ys := ls) in Hr; [|exact Hp|exact EM]. subst p. cbn [bind] in E. rewrite join_some in E. cbn [bind app] in E.
    inversion E; subst. split; [reflexivity|]. apply streams_spec in EM as (table & HT & ->). exists table. auto.
  - apply C46_returns_err with (e := e) in Hr; [|exact Hp|exact EM]. destruct Hr as (x & e' & _ & _ & ->). discriminate.
Qed.

(** C53, the converse: if every window can be read from every file, there is such a
    listing, the call returns, and every way it can return writes that listing. *)
Theorem C53_complete datafiles wins nproc filename : (0 < nproc)%nat ->
  (forall f w, In f datafiles -> In w wins -> exists d, rdw f (w_start w) (w_end w) = Ok d) ->
  exists out, listing cut_with_onset datafiles wins out /\
    forall r, ExtractEq_Multiproc rdw datafiles (map (fun w => [w]) wins) nproc filename r <-> r = Ok (filename, out).
Proof.
  intros Hp Hrd.
  assert (HT : exists table, Forall2 (fun f row => Forall2 (cut_with_onset f) wins row) datafiles table).
  { clear Hp. induction datafiles as [|f fs IH]; [exists []; constructor|].
    destruct IH as [table HT]; [intros; apply Hrd; [right|]; assumption|].
    assert (HR : exists row, Forall2 (cut_with_onset f) wins row).
    { assert (Hrd1 : forall w, In w wins -> exists d, rdw f (w_start w) (w_end w) = Ok d) by (intros; apply Hrd; [left; reflexivity|assumption]).
      clear -Hrd1. induction wins as [|w ws IH]; [exists []; constructor|].
      destruct IH as [row HR]; [intros; apply Hrd1; right; assumption|]. destruct (Hrd1 w (or_introl eq_refl)) as [d Ed].
      exists (map (set_onset (w_onset w)) d :: row). constructor; [exists d; auto|exact HR]. }
    destruct HR as [row HR]. exists (row :: table). constructor; assumption. }
  destruct HT as [table HT]. exists (concat (map (@concat _) table)). split; [exists table; auto|].
  assert (EM : mapM (Get_EqStream_multiproc rdw) (map (fun f => ([f], map (fun w => [w]) wins)) datafiles) = Ok (map (@concat _) table)) by (apply streams_spec; eauto).
  assert (Fin : forall p, pool_map_returns (Get_EqStream_multiproc rdw) nproc (map (fun f => ([f], map (fun w => [w]) wins)) datafiles) p ->
     p = Ok (map Some (map (@concat _) table))) by (intros p Hr; apply C46_returns_ok with (ys := map (@concat _) table) in Hr; assumption).
  intro r. split.
  - intros (p & Hr & ->). apply Fin in Hr. subst p. cbn [bind]. rewrite join_some. reflexivity.
  - intros ->. destruct (C46_pool_returns (Get_EqStream_multiproc rdw) nproc (map (fun f => ([f], map (fun w => [w]) wins)) datafiles) Hp) as [p Hr].
    exists p. split; [exact Hr|]. rewrite (Fin p Hr). cbn [bind]. rewrite join_some. reflexivity.
Qed.

(** C53: the windows handed over by Get_Eqtimes_multiproc are those of the events, in
    catalog order, for every number of processes and every schedule. *)
Theorem C53_windows catalog stalat stalon w0 w1 cat nproc l : (0 < nproc)%nat ->
  Add_sta_time_2cat events catalog stalat stalon [w0; w1] = Ok cat ->
  Get_Eqtimes_multiproc geo tt nproc cat (Ok l) ->
  exists evs wins, events catalog = Ok evs /\ Forall2 (is_window stalat stalon w0 w1) evs wins /\
    l = map Some (map (fun w => [w]) wins).
Proof.
  intros Hp Hc Hr. unfold Add_sta_time_2cat in Hc. apply bind_Ok_inv in Hc as (evs & Hev & Hc). cbn [getitem nth_error bind] in Hc.
  assert (Ec : cat = map (fun ev => mkMev ev stalat stalon w0 w1) evs).
  { apply mapM_Ok in Hc. clear -Hc. induction Hc as [|ev m evs cat H F IH]; [reflexivity|]. inversion H; subst. reflexivity. }
  subst cat. unfold Get_Eqtimes_multiproc in Hr.
  destruct (mapM (Eq_times geo tt) (map (fun ev => mkMev ev stalat stalon w0 w1) evs)) as [ys|e] eqn:EM.
  - apply C46_returns_ok with (ys := ys) in Hr; [|exact Hp|exact EM]. inversion Hr; subst l. apply mapM_Ok in EM. exists evs.
    clear -EM Hev. assert (G : exists wins, Forall2 (is_window stalat stalon w0 w1) evs wins /\ ys = map (fun w => [w]) wins).
    { clear Hev. revert ys EM. induction evs as [|ev evs IH]; intros ys EM; cbn [map] in EM; inversion EM as [|? y ? ys' H1 H2]; subst; [exists []; split; [constructor|reflexivity]|].
      unfold Eq_times in H1. apply bind_Ok_inv in H1 as (w & Hw & Hy). inversion Hy; subst y. apply event_window_spec in Hw.
      destruct (IH _ H2) as (wins & HF & ->). exists (w :: wins). split; [constructor; assumption|reflexivity]. }
    destruct G as (wins & HF & ->). exists wins. auto.
  - apply C46_returns_err with (e := e) in Hr; [|exact Hp|exact EM]. destruct Hr as (x & e' & _ & _ & E). discriminate.
Qed.

(** ** Serial against multiprocessing *)
Inductive subseq {X} : list X -> list X -> Prop :=
| ss_nil : subseq [] []
| ss_skip : forall x l1 l2, subseq l1 l2 -> subseq l1 (x :: l2)
| ss_keep : forall x l1 l2, subseq l1 l2 -> subseq (x :: l1) (x :: l2).
Lemma ss_refl {X} (l : list X) : subseq l l.
Proof. induction l; constructor; assumption. Qed.
Lemma ss_empty {X} (l : list X) : subseq [] l.
Proof. induction l; constructor; assumption. Qed.
Lemma ss_app {X} (a b c d : list X) : subseq a b -> subseq c d -> subseq (a ++ c) (b ++ d).
Proof. intros H1 H2. induction H1; cbn [app]; [exact H2| |]; constructor; assumption. Qed.

Lemma covered_dec f w : covered f w \/ ~ covered f w.
Proof.
  destruct (rd f) as [[|h st]|e] eqn:Er.
  - right. intros (? & ? & ? & _). congruence.
  - destruct (Z.le_gt_cases (e_start h) (w_start w)) as [L1|L1]; [destruct (Z.le_gt_cases (w_end w) (e_end h)) as [L2|L2]|].
    + left. exists h, st. auto.
    + right. intros (h' & st' & E & E1 & E2). assert (h' = h) by congruence. subst. lia.
    + right. intros (h' & st' & E & E1 & E2). assert (h' = h) by congruence. subst. lia.
  - right. intros (? & ? & ? & _). congruence.
Qed.
Lemma entry_sub f w a b : serial_entry f w a -> cut_with_onset f w b -> subseq a b.
Proof.
  intros [H1 H2] (d & Ed & ->). destruct (covered_dec f w) as [HC|HC].
  - destruct (H1 HC) as ((d' & Ed' & ->) & _). assert (d' = d) by congruence. subst. apply ss_refl.
  - rewrite (H2 HC). apply ss_empty.
Qed.
Lemma entry_eq f w a b : (~ covered f w -> rdw f (w_start w) (w_end w) = Ok []) -> serial_entry f w a -> cut_with_onset f w b -> a = b.
Proof.
  intros Hn [H1 H2] (d & Ed & ->). destruct (covered_dec f w) as [HC|HC].
  - destruct (H1 HC) as ((d' & Ed' & ->) & _). congruence.
  - rewrite (H2 HC). rewrite (Hn HC) in Ed. inversion Ed. reflexivity.
Qed.
Lemma listing_rel files wins o1 o2 (R : list (@etr D) -> list etr -> Prop) (E1 E2 : string -> window -> list etr -> Prop) :
  R [] [] -> (forall a b c d, R a b -> R c d -> R (a ++ c) (b ++ d)) ->
  (forall f w a b, In f files -> In w wins -> E1 f w a -> E2 f w b -> R a b) ->
  listing E1 files wins o1 -> listing E2 files wins o2 -> R o1 o2.
Proof.
  intros R0 RA RE (t1 & H1 & ->) (t2 & H2 & ->). revert t2 H2. induction H1 as [|f row files t1 HR H1 IH]; intros t2 H2; inversion H2 as [|? row2 ? t2' HR2 H2']; subst; [exact R0|].
  cbn [map concat]. apply RA; [|apply IH; [intros; eapply RE; [right| | |]; eassumption|assumption]].
  assert (RE' : forall w a b, In w wins -> E1 f w a -> E2 f w b -> R a b) by (intros; eapply RE; [left; reflexivity| | |]; eassumption).
  clear -R0 RA RE' HR HR2. revert row2 HR2. induction HR as [|w a wins row Ha HR IH]; intros row2 H2; inversion H2; subst; [exact R0|].
  cbn [concat]. apply RA; [eapply RE'; [left; reflexivity| |]; eassumption|]. apply IH; [intros; eapply RE'; [right| |]; eassumption|assumption].
Qed.

(** C67: for the same files (in name order) and windows, what ExtractEq writes is a
    subsequence of what ExtractEq_Multiproc writes, and the two are equal if a window not
    covered by the file's first trace reads no data. *)
Theorem C67_serial_within_multiproc datapath filename filename' catalog stalat stalon w0 w1 nproc cat l wins name out name' out' :
  (0 < nproc)%nat ->
  ExtractEq glob rd rdw events geo tt datapath filename catalog stalat stalon [w0; w1] = Ok (name, out) ->
  Add_sta_time_2cat events catalog stalat stalon [w0; w1] = Ok cat ->
  Get_Eqtimes_multiproc geo tt nproc cat (Ok l) -> l = map Some wins ->
  ExtractEq_Multiproc rdw (sorted (glob (datapath ++ "*")%string)) wins nproc filename' (Ok (name', out')) ->
  subseq out out' /\
  ((forall f w, In f (glob (datapath ++ "*")%string) -> ~ covered f w -> rdw f (w_start w) (w_end w) = Ok []) -> out = out').
Proof.
  intros Hp HS HA HT El HM. apply C50_written in HS as (-> & evs & ws & Hev & Hw & Hl).
  destruct (C53_windows _ _ _ _ _ _ _ _ Hp HA HT) as (evs' & ws' & Hev' & Hw' & El').
  assert (evs' = evs) by congruence. subst evs'.
  assert (ws' = ws).
  { clear -Hw Hw'. revert ws' Hw'. induction Hw as [|ev w evs ws Hx F IH]; intros ws' H'; inversion H' as [|? w' ? ws'' Hx' F']; subst; [reflexivity|].
    f_equal; [|apply IH; exact F'].
    destruct Hx as ((o & os & dd & dist & p & ps & E1 & E2 & E3 & E4 & E5) & E6 & E7).
    destruct Hx' as ((o' & os' & dd' & dist' & p' & ps' & E1' & E2' & E3' & E4' & E5') & E6' & E7').
    destruct w as [a b c], w' as [a' b' c']. cbn [w_start w_end w_onset] in *.
    assert (o' = o) by congruence. subst o'. assert (dd' = dd) by congruence. subst dd'. assert (dist' = dist) by congruence. subst dist'.
    assert (p' = p) by congruence. subst. reflexivity. }
  subst ws'. assert (wins = map (fun w => [w]) ws).
  { clear -El El'. subst l. revert El'. generalize (map (fun w => [w]) ws). clear. induction wins as [|a wins IH]; intros [|b m] E; cbn [map] in E; inversion E; [reflexivity|]. f_equal. apply IH. assumption. }
  subst wins. apply C53_written in HM as (-> & Hl'); [|exact Hp].
  destruct (C50_file_order (glob (datapath ++ "*")%string)) as [HP _]. split.
  - eapply (listing_rel _ _ _ _ subseq serial_entry cut_with_onset); [constructor|intros; apply ss_app; assumption| |exact Hl|exact Hl'].
    intros f w a b _ _. apply entry_sub.
  - intro Hn. eapply (listing_rel _ _ _ _ eq serial_entry cut_with_onset); [reflexivity|intros; congruence| |exact Hl|exact Hl'].
    intros f w a b Hf _. apply entry_eq. intro HC. apply Hn; [|exact HC]. apply (Permutation_in _ HP). exact Hf.
Qed.
End Any.

(** ** A concrete archive: one file, samples from 0 s to 100 s, two events. *)
Lemma Int_part_IZR k : Int_part (IZR k) = k.
Proof.
  unfold Int_part. assert (E : up (IZR k) = k + 1); [|lia].
  symmetry. apply tech_up; rewrite plus_IZR; lra.
Qed.
Lemma utc_add_int t s k : s = IZR k -> utc_add t s = t + k * 1000000000.
Proof.
  intros ->. unfold utc_add. rewrite <- (mult_IZR k 1000000000). unfold round_half_even. rewrite Int_part_IZR.
  destruct (Rlt_dec _ _) as [H|H]; [reflexivity|]. exfalso. lra.
Qed.
Definition sec (k : Z) : Z := k * 1000000000.
Definition ex_glob (s : string) : list string := ["data/day1.mseed"%string].
Definition ex_rd (s : string) : res (list (@etr unit)) := Ok [mkE 0 (sec 100) None tt].
(** obspy trims to the overlap and drops empty traces. *)
Definition ex_rdw (s : string) (a b : Z) : res (list (@etr unit)) :=
  let a' := Z.max a 0 in let b' := Z.min b (sec 100) in Ok (if a' <=? b' then [mkE a' b' None tt] else []).
Definition ex_event (t : Z) : event := mkEv [mkOri t 0 0 (Some 10000%R)] [6%R].
Definition ex_events (s : string) : res (list event) := Ok [ex_event (sec 50); ex_event (sec 88)].
Definition ex_geo (a b c d : R) : res R := Ok 40%R.
Definition ex_tt (d g : R) : list R := [7%R; 9%R].
Definition ex_wins : list window := [mkW (sec 47) (sec 67) (sec 57); mkW (sec 85) (sec 105) (sec 95)].

Lemma ex_window t k w0 w1 : Rabs w0 = 10%R -> Rabs w1 = 10%R -> t = sec k ->
  event_window ex_geo ex_tt 52 4 (Ok w0) (Ok w1) (ex_event t) = Ok (mkW (sec (k - 3)) (sec (k + 17)) (sec (k + 7))).
Proof.
  intros H0 H1 ->. unfold event_window, ex_event, ex_geo, ex_tt. cbn [ev_origins ev_mags o_depth o_lat o_lon o_time getitem nth_error need bind].
  rewrite H0, H1. rewrite (utc_add_int _ 7 7 eq_refl), (utc_add_int _ 10 10 eq_refl).
  rewrite (utc_add_int _ (- (10)) (-10)) by lra. unfold sec. do 2 f_equal; lia.
Qed.
Lemma ex_abs : Rabs (-10) = 10%R /\ Rabs 10 = 10%R.
Proof. split; [rewrite Rabs_left; lra|apply Rabs_pos_eq; lra]. Qed.

Definition ex_serial : list (@etr unit) := [mkE (sec 47) (sec 67) (Some (sec 57)) tt].
Definition ex_multi : list (@etr unit) := ex_serial ++ [mkE (sec 85) (sec 100) (Some (sec 95)) tt].
Example C50_example : ExtractEq ex_glob ex_rd ex_rdw ex_events ex_geo ex_tt "data/" "eq.mseed" "cat.xml" 52 4 [(-10)%R; 10%R] = Ok ("eq.mseed"%string, ex_serial).
Proof.
  unfold ExtractEq, ex_glob, ex_rd, ex_events. cbn [sorted insert getitem nth_error bind length Nat.sub mapM].
  rewrite (ex_window (sec 50) 50), (ex_window (sec 88) 88) by (try reflexivity; apply ex_abs). cbn [bind]. reflexivity.
Qed.

Example C53_example nproc : (0 < nproc)%nat ->
  exists cat, Add_sta_time_2cat ex_events "cat.xml" 52 4 [(-10)%R; 10%R] = Ok cat /\
  (forall r, Get_Eqtimes_multiproc ex_geo ex_tt nproc cat r <-> r = Ok (map Some (map (fun w => [w]) ex_wins))) /\
  (forall r, ExtractEq_Multiproc ex_rdw (sorted (ex_glob "data/*")) (map (fun w => [w]) ex_wins) nproc "eq.mseed" r <-> r = Ok ("eq.mseed"%string, ex_multi)).
Proof.
  intro Hp. eexists. split; [reflexivity|]. cbn [mapM getitem nth_error bind].
  assert (EM : mapM (Eq_times ex_geo ex_tt) [mkMev (ex_event (sec 50)) 52 4 (-10) 10; mkMev (ex_event (sec 88)) 52 4 (-10) 10] = Ok (map (fun w => [w]) ex_wins)).
  { cbn [mapM]. unfold Eq_times. cbn [m_ev m_lat m_lon m_w0 m_w1]. rewrite (ex_window (sec 50) 50), (ex_window (sec 88) 88) by (try reflexivity; apply ex_abs). reflexivity. }
  split.
  - intro r. split; [apply C46_returns_ok; assumption|]. intros ->.
    destruct (C46_pool_returns (Eq_times ex_geo ex_tt) nproc [mkMev (ex_event (sec 50)) 52 4 (-10) 10; mkMev (ex_event (sec 88)) 52 4 (-10) 10] Hp) as [r Hr].
    pose proof (C46_returns_ok _ _ _ _ _ Hp EM Hr). subst r. exact Hr.
  - destruct (C53_complete (D := unit) ex_rdw (sorted (ex_glob "data/*")) ex_wins nproc "eq.mseed" Hp) as (out & Hl & Hr).
    { intros f w _ _. eexists. reflexivity. }
    assert (out = ex_multi); [|subst out; exact Hr].
    destruct Hl as (table & HT & ->). inversion HT as [|f row fs t2 HR HT2]; subst. inversion HT2; subst.
    inversion HR as [|? a ? r1 (d1 & D1 & ->) H1]; subst. inversion H1 as [|? b ? r2 (d2 & D2 & ->) H2]; subst. inversion H2; subst.
    unfold ex_rdw in D1, D2. inversion D1; subst d1. inversion D2; subst d2. reflexivity.
Qed.

(** C52 is refuted: on this archive the window of the second event reaches past the end
    of the file; ExtractEq leaves it out, ExtractEq_Multiproc writes the part it finds. *)
Theorem C52_agree_refuted :
  ~ (forall (D : Type) glob (rd : string -> res (list (@etr D))) rdw events geo tt datapath filename catalog stalat stalon w0 w1 nproc cat wins out out',
      (0 < nproc)%nat ->
      ExtractEq glob rd rdw events geo tt datapath filename catalog stalat stalon [w0; w1] = Ok (filename, out) ->
      Add_sta_time_2cat events catalog stalat stalon [w0; w1] = Ok cat ->
      Get_Eqtimes_multiproc geo tt nproc cat (Ok (map Some wins)) ->
      ExtractEq_Multiproc rdw (sorted (glob (datapath ++ "*")%string)) wins nproc filename (Ok (filename, out')) ->
      out = out').
Proof.
  intro H. destruct (C53_example 1 ltac:(lia)) as (cat & Hc & Hw & Hm).
  assert (E : ex_serial = ex_multi); [|discriminate E].
  eapply (H unit ex_glob ex_rd ex_rdw ex_events ex_geo ex_tt "data/"%string "eq.mseed"%string "cat.xml"%string 52%R 4%R (-10)%R 10%R 1%nat cat (map (fun w => [w]) ex_wins)); [lia|exact C50_example|exact Hc|apply Hw; reflexivity|apply Hm; reflexivity].
Qed.
Print Assumptions C50_complete.
Print Assumptions C67_serial_within_multiproc.
