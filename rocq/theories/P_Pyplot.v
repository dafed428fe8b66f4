(** * Figures across calls: what a saved file holds, what stays open (C132-C135).

    pyplot's figures are global.  Most of rfsed's plots open their own figure and close everything
    afterwards; the search functions and the filter plots draw on whatever figure is current, and the
    plots of unstacked results leave theirs open. *)

From Coq Require Import String List Lia Arith.
From Verif Require Import Base PyplotModel.
Import ListNotations.
Open Scope list_scope.

Section S.
Context {E : Type}.
Notation fig := (string * list E)%type.
Implicit Types (s : pyst E) (figs : list fig) (b : bool).

(** ** Specification *)

(** A file (or window) [w] shows only drawings of figure [g]: an initial part of them. *)
Definition part_of (g : fig) (w : list E) : Prop := exists rest, snd g = w ++ rest.

(** The functions whose last figure stays open after a normal return. *)
Definition leaves_open (f : pfun) : bool :=
  match f with Fplothk false | FplotSeqhk false => true | _ => false end.

(** A call as the library makes it: as many figures as the function has. *)
Definition complete (f : pfun) figs : Prop := length figs = nfigs f.

(** Files expected from a list of returned calls when [plt.show] does not close anything: a function
    without its own figure adds to the drawings the previous call left on the current figure. *)
Fixpoint files (left : list E) (l : list (pfun * list fig)) : list fig :=
  match l with
  | [] => []
  | (f, figs) :: r =>
      (if saves f then
         match figs with
         | [] => []
         | g :: gs => (fst g, (if own f then [] else left) ++ snd g) :: gs
         end
       else []) ++
      files (if leaves_open f then snd (last figs (EmptyString, [])) else []) r
  end.

(** Number of figures open after a list of returned calls (non-blocking [plt.show]). *)
Fixpoint still_open (n : nat) (l : list pfun) : nat :=
  match l with
  | [] => n
  | Fplothk false :: r => still_open (S n) r
  | FplotSeqhk false :: r => still_open 1 r
  | _ :: r => still_open 0 r
  end.

Definition returned (c : pfun * list fig) : item E := Returned (fst c) (snd c).

(** ** Running *)

Lemma pyrun_app b o1 o2 s : pyrun b (o1 ++ o2) s = pyrun b o2 (pyrun b o1 s).
Proof. unfold pyrun. apply fold_left_app. Qed.

Lemma py_eta s : mkPy (py_open s) (py_saved s) (py_shown s) = s.
Proof. destruct s. reflexivity. Qed.

Lemma run_puts b (ds : list E) : forall w r sv sh,
  pyrun b (map OPut ds) (mkPy (w :: r) sv sh) = mkPy ((w ++ ds) :: r) sv sh.
Proof.
  induction ds as [|e ds IH]; intros w r sv sh.
  - cbn. now rewrite app_nil_r.
  - cbn [map pyrun fold_left pystep on_current gcf py_open py_saved py_shown].
    change (fold_left (pystep b) (map OPut ds) ?x) with (pyrun b (map OPut ds) x).
    rewrite IH. now rewrite <- app_assoc.
Qed.

Lemma run_puts_any b (ds : list E) s : ds <> [] ->
  pyrun b (map OPut ds) s = mkPy ((hd [] (py_open s) ++ ds) :: tl (py_open s)) (py_saved s) (py_shown s).
Proof.
  destruct ds as [|e ds]; [congruence|]. intros _. destruct s as [op sv sh].
  cbn [map pyrun fold_left pystep py_open py_saved py_shown].
  change (fold_left (pystep b) (map OPut ds) ?x) with (pyrun b (map OPut ds) x).
  destruct op as [|w r]; unfold on_current; cbn [gcf hd tl]; rewrite run_puts; [reflexivity|].
  now rewrite <- app_assoc.
Qed.

Lemma run_own_stage b f i (g : fig) s : own f = true ->
  pyrun b (stage f i g) s =
  mkPy (if closes f i then [] else if b then [] else snd g :: py_open s)
       (py_saved s ++ [g]) (py_shown s ++ [snd g :: py_open s]).
Proof.
  intro O. assert (Sv : saves f = true) by (destruct f; try reflexivity; discriminate O).
  unfold stage. rewrite O, Sv. rewrite pyrun_app.
  change (pyrun b [OFig] s) with (mkPy ([] :: py_open s) (py_saved s) (py_shown s)).
  rewrite pyrun_app, run_puts. destruct g as [n ds]. cbn [app fst snd].
  destruct (closes f i), b; reflexivity.
Qed.

Lemma run_shared_stage b f i (g : fig) s : own f = false -> saves f = true ->
  pyrun b (stage f i g) s =
  mkPy [] (py_saved s ++ [(fst g, hd [] (py_open s) ++ snd g)])
       (py_shown s ++ [(hd [] (py_open s) ++ snd g) :: tl (py_open s)]).
Proof.
  intros O Sv. assert (Cl : closes f i = true) by (destruct f; try discriminate O; try discriminate Sv; reflexivity).
  unfold stage. rewrite O, Sv, Cl. cbn [app]. rewrite pyrun_app. destruct g as [n [|e ds]]; cbn [fst snd].
  - rewrite app_nil_r. destruct s as [[|w r] sv sh], b; reflexivity.
  - rewrite run_puts_any by discriminate. destruct b; reflexivity.
Qed.

Lemma run_search_stage b f i (g : fig) s : saves f = false -> snd g <> [] ->
  pyrun b (stage f i g) s =
  mkPy [] (py_saved s) (py_shown s ++ [(hd [] (py_open s) ++ snd g) :: tl (py_open s)]).
Proof.
  intros Sv Hd. assert (O : own f = false) by (destruct f; try discriminate Sv; reflexivity).
  assert (Cl : closes f i = true) by (destruct f; try discriminate Sv; reflexivity).
  unfold stage. rewrite O, Sv, Cl. cbn [app]. rewrite pyrun_app, run_puts_any by exact Hd. destruct b; reflexivity.
Qed.

Lemma run_close b o s : py_open (pyrun b (o ++ [OClose]) s) = [].
Proof. rewrite pyrun_app. reflexivity. Qed.

Lemma closing_stage b f i (g : fig) s : closes f i = true -> py_open (pyrun b (stage f i g) s) = [].
Proof.
  intro C. unfold stage. rewrite C. rewrite !app_assoc. apply run_close.
Qed.

Lemma nosave_stage b f i (g : fig) s : saves f = false -> py_saved (pyrun b (stage f i g) s) = py_saved s.
Proof.
  intro Sv. assert (O : own f = false) by (destruct f; try discriminate Sv; reflexivity).
  unfold stage. rewrite O, Sv. cbn [app]. rewrite pyrun_app.
  assert (P : forall ds s0, py_saved (pyrun b (map OPut ds) s0) = py_saved s0).
  { clear. induction ds as [|e ds IH]; intro s0; [reflexivity|]. cbn [map]. unfold pyrun. cbn [fold_left].
    change (fold_left (pystep b) (map OPut ds) ?x) with (pyrun b (map OPut ds) x). rewrite IH. reflexivity. }
  destruct (closes f i); cbn; apply P.
Qed.

(** ** C132 - a plot with its own figure saves exactly its own drawings *)

Lemma firstn_puts (n : nat) (ds : list E) : firstn n (map OPut ds) = map OPut (firstn n ds).
Proof. apply firstn_map. Qed.

Lemma part_firstn (g : fig) k : part_of g (firstn k (snd g)).
Proof. exists (skipn k (snd g)). symmetry. apply firstn_skipn. Qed.

Lemma own_stage_prefix b f i (g : fig) s k : own f = true -> k < length (stage f i g) ->
  exists m news kept,
    py_saved (pyrun b (firstn k (stage f i g)) s) = py_saved s ++ firstn m [g] /\
    py_open (pyrun b (firstn k (stage f i g)) s) = news ++ kept /\
    (kept = py_open s \/ kept = []) /\ Forall (part_of g) news.
Proof.
  intros O. assert (Sv : saves f = true) by (destruct f; try reflexivity; discriminate O).
  destruct g as [n ds]. unfold stage. rewrite O, Sv. cbn [fst snd app].
  destruct k as [|k].
  { intros _. exists 0, [], (py_open s). cbn. rewrite app_nil_r. auto. }
  cbn [firstn]. intro Hk. cbn [length] in Hk.
  change (pyrun b (OFig :: ?x) s) with (pyrun b x (mkPy ([] :: py_open s) (py_saved s) (py_shown s))).
  destruct (Nat.le_gt_cases k (length ds)) as [L|L].
  - rewrite firstn_app. rewrite map_length. replace (k - length ds) with 0 by lia.
    cbn [firstn]. rewrite app_nil_r, firstn_puts, run_puts. cbn [py_saved py_open app].
    exists 0, [firstn k ds], (py_open s). cbn [firstn]. rewrite app_nil_r.
    split; [reflexivity|]. split; [reflexivity|]. split; [auto|]. constructor; [|constructor].
    exact (part_firstn (n, ds) k).
  - rewrite firstn_app, map_length, (firstn_all2 (map OPut ds)) by (rewrite map_length; lia).
    rewrite pyrun_app, run_puts. cbn [app].
    destruct (k - length ds) as [|j] eqn:J; [lia|].
    rewrite app_length, map_length in Hk. cbn [length app] in Hk.
    assert (P : part_of (n, ds) ds) by (exists []; cbn; now rewrite app_nil_r).
    exists 1. cbn [firstn].
    destruct j as [|j].
    { exists [ds], (py_open s). cbn. auto. }
    destruct j as [|j].
    { cbn [firstn]. destruct b.
      - exists [], []. cbn. auto.
      - exists [ds], (py_open s). cbn. auto. }
    destruct (closes f i); cbn [length] in Hk; lia.
Qed.

Lemma own_stages_prefix b f : own f = true -> forall figs i s k,
  let s' := pyrun b (firstn k (stages f i figs)) s in
  exists m news kept, m <= length figs /\
    py_saved s' = py_saved s ++ firstn m figs /\
    py_open s' = news ++ kept /\ (kept = py_open s \/ kept = []) /\
    Forall (fun w => exists g, In g figs /\ part_of g w) news.
Proof.
  intro O. induction figs as [|g figs IH]; intros i s k; cbv zeta.
  - exists 0, [], (py_open s). rewrite firstn_nil. cbn. rewrite app_nil_r. repeat split; auto.
  - cbn [stages]. destruct (Nat.lt_ge_cases k (length (stage f i g))) as [L|L].
    + rewrite firstn_app. replace (k - length (stage f i g)) with 0 by lia. cbn [firstn]. rewrite app_nil_r.
      destruct (own_stage_prefix b f i g s k O L) as (m & news & kept & Hs & Ho & Hk & Hn).
      exists (Nat.min m 1), news, kept. split; [cbn; lia|]. split.
      { rewrite Hs. destruct m as [|m]; [reflexivity|]. rewrite Nat.min_r by lia. cbn. destruct m; reflexivity. }
      split; [exact Ho|]. split; [exact Hk|]. eapply Forall_impl; [|exact Hn].
      intros w Hw. exists g. split; [now left|exact Hw].
    + rewrite firstn_app, firstn_all2 by lia. rewrite pyrun_app, run_own_stage by exact O.
      set (s1 := mkPy _ _ _).
      destruct (IH (S i) s1 (k - length (stage f i g))) as (m & news & kept & Hm & Hs & Ho & Hk & Hn).
      assert (Hn' : Forall (fun w => exists g0, In g0 (g :: figs) /\ part_of g0 w) news).
      { eapply Forall_impl; [|exact Hn]. intros w (g0 & I & P). exists g0. split; [now right|exact P]. }
      assert (Pg : part_of g (snd g)) by (exists []; now rewrite app_nil_r).
      destruct Hk as [Hk|Hk].
      * subst kept. unfold s1 in Ho at 2. cbn [py_open] in Ho.
        destruct (closes f i); [|destruct b].
        -- exists (S m), news, []. split; [cbn; lia|]. split; [rewrite Hs; cbn; now rewrite <- app_assoc|]. auto.
        -- exists (S m), news, []. split; [cbn; lia|]. split; [rewrite Hs; cbn; now rewrite <- app_assoc|]. auto.
        -- exists (S m), (news ++ [snd g]), (py_open s). split; [cbn; lia|].
           split; [rewrite Hs; cbn; now rewrite <- app_assoc|].
           split; [rewrite Ho, <- app_assoc; reflexivity|]. split; [auto|].
           apply Forall_app. split; [exact Hn'|]. constructor; [|constructor]. exists g. split; [now left|exact Pg].
      * exists (S m), news, []. subst kept. split; [cbn; lia|].
        split; [rewrite Hs; cbn; now rewrite <- app_assoc|]. auto.
Qed.

Lemma own_stages_all b f : own f = true -> forall figs i s,
  py_saved (pyrun b (stages f i figs) s) = py_saved s ++ figs /\
  exists shown, py_shown (pyrun b (stages f i figs) s) = py_shown s ++ shown /\
    Forall2 (fun (w : list (list E)) (g : fig) => hd_error w = Some (snd g)) shown figs.
Proof.
  intro O. induction figs as [|g figs IH]; intros i s.
  - cbn. rewrite app_nil_r. split; [reflexivity|]. exists []. rewrite app_nil_r. auto.
  - cbn [stages]. rewrite pyrun_app, run_own_stage by exact O. set (s1 := mkPy _ _ _).
    destruct (IH (S i) s1) as (Hs & shown & Hw & F). split.
    + rewrite Hs. cbn. now rewrite <- app_assoc.
    + exists ((snd g :: py_open s) :: shown). split; [rewrite Hw; cbn; now rewrite <- app_assoc|].
      constructor; [reflexivity|exact F].
Qed.

(** Every plot function with its own figure (all of them but [plotfiltrf], [plotfiltSynthrf]), whatever
    is open, whatever the backend, wherever the call stops: the files it writes are its own figures,
    complete and in order; every figure it leaves open holds drawings of one of its figures only; the
    figures open before are untouched or closed. *)
Theorem C132_own_figures b f figs s n : own f = true ->
  let s' := pyrun b (ops_of (Raised f figs n)) s in
  exists m news kept, m <= length figs /\
    py_saved s' = py_saved s ++ firstn m figs /\
    py_open s' = news ++ kept /\ (kept = py_open s \/ kept = []) /\
    Forall (fun w => exists g, In g figs /\ part_of g w) news.
Proof. intros O. exact (own_stages_prefix b f O figs 0 s n). Qed.

(** ... and a call that returns has written all of them, and every [plt.show] had the call's own figure
    as the current one. *)
Theorem C132_own_returned b f figs s : own f = true ->
  let s' := pyrun b (ops_of (Returned f figs)) s in
  py_saved s' = py_saved s ++ figs /\
  exists shown, py_shown s' = py_shown s ++ shown /\
    Forall2 (fun (w : list (list E)) (g : fig) => hd_error w = Some (snd g)) shown figs.
Proof. intros O. exact (own_stages_all b f O figs 0 s). Qed.

(** The functions meant: everything that plots results but the two filter plots. *)
Theorem C132_which f : own f = true <->
  In f [Fplothk true; Fplothk false; FplotSeqhk true; FplotSeqhk false; FplothkYu; FplothkSynth;
        FplothkSeqSynth; FPlotWaveformFitting; Fplotbestmodel].
Proof.
  split.
  - intro O. destruct f; try discriminate O; try destruct stack; cbn; tauto.
  - cbn. intros H. repeat (destruct H as [<-|H]; [reflexivity|]). destruct H.
Qed.

(** ** C133 - the functions that draw on the current figure *)

Lemma shared_blank_stages b f : own f = false -> saves f = true -> forall figs i s, py_open s = [] ->
  py_saved (pyrun b (stages f i figs) s) = py_saved s ++ figs /\
  py_shown (pyrun b (stages f i figs) s) = py_shown s ++ map (fun g => [snd g]) figs /\
  py_open (pyrun b (stages f i figs) s) = [].
Proof.
  intros O Sv. induction figs as [|g figs IH]; intros i s Ho.
  - cbn. rewrite !app_nil_r. auto.
  - cbn [stages]. rewrite pyrun_app, run_shared_stage by assumption. rewrite Ho. cbn [hd tl app].
    destruct (IH (S i) (mkPy [] (py_saved s ++ [(fst g, snd g)]) (py_shown s ++ [[snd g]])) eq_refl) as (A & B & C).
    rewrite A, B, C. cbn [py_saved py_shown]. rewrite <- !app_assoc. destruct g. auto.
Qed.

(** What the filter plots write: the first file also holds everything that was on the current figure. *)
Theorem C133_filter_plots b f g figs s : f = Fplotfiltrf \/ f = FplotfiltSynthrf ->
  let s' := pyrun b (ops_of (Returned f (g :: figs))) s in
  py_saved s' = py_saved s ++ (fst g, hd [] (py_open s) ++ snd g) :: figs /\
  py_shown s' = py_shown s ++ ((hd [] (py_open s) ++ snd g) :: tl (py_open s)) :: map (fun g => [snd g]) figs /\
  py_open s' = [].
Proof.
  intros Hf. assert (O : own f = false /\ saves f = true) by (destruct Hf; subst f; auto). destruct O as [O Sv].
  cbn [ops_of]. unfold script. cbn [stages]. cbv zeta.
  rewrite pyrun_app, run_shared_stage by assumption.
  destruct (shared_blank_stages b f O Sv figs 1 (mkPy [] (py_saved s ++ [(fst g, hd [] (py_open s) ++ snd g)])
     (py_shown s ++ [(hd [] (py_open s) ++ snd g) :: tl (py_open s)])) eq_refl) as (A & B & C).
  rewrite A, B, C. cbn [py_saved py_shown]. rewrite <- !app_assoc. auto.
Qed.

(** ... so the files are right exactly when the current figure, if any, is blank. *)
Theorem C133_filter_plots_iff b f g figs s : f = Fplotfiltrf \/ f = FplotfiltSynthrf ->
  (py_saved (pyrun b (ops_of (Returned f (g :: figs))) s) = py_saved s ++ g :: figs <-> hd [] (py_open s) = []).
Proof.
  intro Hf. destruct (C133_filter_plots b f g figs s Hf) as (A & _ & _). rewrite A. split.
  - intro H. apply app_inv_head in H. apply (f_equal (fun l => length (snd (hd g l)))) in H.
    cbn [hd snd] in H. rewrite app_length in H. destruct (hd [] (py_open s)); [reflexivity|cbn in H; lia].
  - intro H. rewrite H. destruct g. reflexivity.
Qed.

Lemma search_stages b f : saves f = false -> forall figs i s, py_open s = [] -> Forall (fun g => snd g <> []) figs ->
  py_saved (pyrun b (stages f i figs) s) = py_saved s /\
  py_shown (pyrun b (stages f i figs) s) = py_shown s ++ map (fun g => [snd g]) figs /\
  py_open (pyrun b (stages f i figs) s) = [].
Proof.
  intros Sv. induction figs as [|g figs IH]; intros i s Ho Hd.
  - cbn. rewrite !app_nil_r. auto.
  - inversion Hd; subst. cbn [stages]. rewrite pyrun_app, run_search_stage by assumption. rewrite Ho. cbn [hd tl app].
    destruct (IH (S i) (mkPy [] (py_saved s) (py_shown s ++ [[snd g]])) eq_refl) as (A & B & C); [assumption|].
    rewrite A, B, C. cbn [py_saved py_shown]. rewrite <- !app_assoc. auto.
Qed.

(** The search functions write nothing, show their first figure on top of the drawings of the current
    one, and close everything. *)
Theorem C133_searches b f g figs s : saves f = false -> Forall (fun g => snd g <> []) (g :: figs) ->
  let s' := pyrun b (ops_of (Returned f (g :: figs))) s in
  py_saved s' = py_saved s /\
  py_shown s' = py_shown s ++ ((hd [] (py_open s) ++ snd g) :: tl (py_open s)) :: map (fun g => [snd g]) figs /\
  py_open s' = [].
Proof.
  intros Sv Hd. inversion Hd; subst. cbn [ops_of]. unfold script. cbn [stages]. cbv zeta.
  rewrite pyrun_app, run_search_stage by assumption.
  destruct (search_stages b f Sv figs 1 (mkPy [] (py_saved s)
     (py_shown s ++ [(hd [] (py_open s) ++ snd g) :: tl (py_open s)])) eq_refl) as (A & B & C); [assumption|].
  rewrite A, B, C. cbn [py_saved py_shown]. rewrite <- !app_assoc. auto.
Qed.

(** ** One returned call, from any state *)

Lemma closing_all b f : forall figs i s, (forall j, closes f j = true) -> figs <> [] ->
  py_open (pyrun b (stages f i figs) s) = [].
Proof.
  induction figs as [|g figs IH]; intros i s C Hn; [congruence|]. cbn [stages]. rewrite pyrun_app.
  destruct figs as [|g' figs]; [cbn [stages pyrun fold_left]; apply closing_stage, C|].
  apply IH; [exact C|discriminate].
Qed.
Lemma nosave_all b f : saves f = false -> forall figs i s, py_saved (pyrun b (stages f i figs) s) = py_saved s.
Proof.
  intro Sv. induction figs as [|g figs IH]; intros i s; [reflexivity|]. cbn [stages].
  rewrite pyrun_app, IH. apply nosave_stage, Sv.
Qed.

(** Open figures after a returned call. *)
Theorem C134_one_call b f figs s : complete f figs ->
  py_open (pyrun b (ops_of (Returned f figs)) s) =
  if b then [] else
  match f with
  | Fplothk false => snd (last figs (EmptyString, [])) :: py_open s
  | FplotSeqhk false => [snd (last figs (EmptyString, []))]
  | _ => []
  end.
Proof.
  intro Hc. unfold complete in Hc. cbn [ops_of]. unfold script.
  assert (Hn : figs <> []) by (intro C; subst; destruct f; discriminate Hc).
  destruct (leaves_open f) eqn:L.
  - destruct f; try discriminate L; destruct stack; try discriminate L; cbn [nfigs] in Hc.
    + destruct figs as [|g [|? ?]]; try discriminate Hc. cbn [stages]. rewrite app_nil_r, run_own_stage by reflexivity.
      destruct b; reflexivity.
    + destruct figs as [|g [|g' [|? ?]]]; try discriminate Hc. cbn [stages].
      rewrite app_nil_r, pyrun_app, !run_own_stage by reflexivity. destruct b; reflexivity.
  - assert (C : forall j, closes f j = true).
    { intro j. destruct f; try reflexivity; destruct stack; try reflexivity; discriminate L. }
    rewrite (closing_all b f figs 0 s C Hn).
    destruct b; [reflexivity|]. destruct f; try reflexivity; destruct stack; try reflexivity; discriminate L.
Qed.

(** Files written by a returned call. *)
Theorem C133_one_call b f g figs s :
  py_saved (pyrun b (ops_of (Returned f (g :: figs))) s) =
  py_saved s ++ if saves f then (fst g, (if own f then [] else hd [] (py_open s)) ++ snd g) :: figs else [].
Proof.
  destruct (own f) eqn:O.
  - assert (Sv : saves f = true) by (destruct f; try reflexivity; discriminate O). rewrite Sv.
    destruct (C132_own_returned b f (g :: figs) s O) as [A _]. rewrite A. destruct g. reflexivity.
  - destruct (saves f) eqn:Sv.
    + assert (Hf : f = Fplotfiltrf \/ f = FplotfiltSynthrf) by (destruct f; try discriminate O; try discriminate Sv; auto).
      apply C133_filter_plots; exact Hf.
    + rewrite app_nil_r. apply nosave_all, Sv.
Qed.

(** ** Sessions of calls that return *)

Lemma complete_cons f figs : complete f figs -> exists g gs, figs = g :: gs.
Proof. intro C. destruct figs as [|g gs]; [destruct f; discriminate C|eauto]. Qed.

Lemma session_cons b it l s : session b (it :: l) s = session b l (pyrun b (ops_of it) s).
Proof. reflexivity. Qed.

(** With a blocking [plt.show], as long as every call returns and no figure is open at the start, every
    file holds exactly the drawings of its own call, and no figure is left open. *)
Theorem C133_blocking l : forall s, Forall (fun c => complete (fst c) (snd c)) l -> py_open s = [] ->
  py_saved (session true (map returned l) s) =
    py_saved s ++ concat (map (fun c => if saves (fst c) then snd c else []) l) /\
  py_open (session true (map returned l) s) = [].
Proof.
  induction l as [|[f figs] l IH]; intros s Hc Ho; [cbn; rewrite app_nil_r; auto|].
  inversion Hc as [|? ? C Hc']; subst. cbn [fst snd] in C.
  cbn [map fst snd concat]. change (returned (f, figs)) with (Returned f figs). rewrite session_cons.
  pose proof (C134_one_call true f figs s C) as Op. cbn iota in Op.
  destruct (IH _ Hc' Op) as [A B]. split; [|exact B]. rewrite A.
  destruct (complete_cons f figs C) as (g & gs & ->). rewrite C133_one_call, Ho, <- app_assoc. f_equal. f_equal.
  cbn [hd app]. destruct (own f); cbn [app]; destruct g; reflexivity.
Qed.

(** Otherwise the history of the calls decides, exactly. *)
Theorem C133_history l : forall s, Forall (fun c => complete (fst c) (snd c)) l ->
  py_saved (session false (map returned l) s) = py_saved s ++ files (hd [] (py_open s)) l.
Proof.
  induction l as [|[f figs] l IH]; intros s Hc; [cbn; now rewrite app_nil_r|].
  inversion Hc as [|? ? C Hc']; subst. cbn [fst snd] in C.
  cbn [map fst snd files]. change (returned (f, figs)) with (Returned f figs). rewrite session_cons, (IH _ Hc').
  pose proof (C134_one_call false f figs s C) as Op. rewrite Op. cbn iota.
  destruct (complete_cons f figs C) as (g & gs & ->). rewrite C133_one_call, <- app_assoc. f_equal. f_equal. f_equal.
  destruct f; try reflexivity; destruct stack; reflexivity.
Qed.

(** In particular: without the plots of unstacked results, every file is right with any backend. *)
Theorem C133_stacked_only l s : Forall (fun c => complete (fst c) (snd c)) l ->
  Forall (fun c => leaves_open (fst c) = false) l -> py_open s = [] ->
  py_saved (session false (map returned l) s) =
    py_saved s ++ concat (map (fun c => if saves (fst c) then snd c else []) l).
Proof.
  intros Hc Hl Ho. rewrite C133_history, Ho by exact Hc. cbn [hd]. f_equal. clear Ho s.
  induction l as [|[f figs] l IH]; [reflexivity|]. inversion Hc as [|? ? C Hc']; subst. inversion Hl as [|? ? L Hl']; subst.
  cbn [fst snd] in *. cbn [files map concat fst snd]. rewrite L, (IH Hc' Hl'). f_equal.
  destruct (complete_cons f figs C) as (g & gs & ->). destruct (own f); destruct g; reflexivity.
Qed.

(** ** C134 - the number of open figures *)

Theorem C134_count l : forall s, Forall (fun c => complete (fst c) (snd c)) l ->
  length (py_open (session false (map returned l) s)) = still_open (length (py_open s)) (map fst l).
Proof.
  induction l as [|[f figs] l IH]; intros s Hc; [reflexivity|].
  inversion Hc as [|? ? C Hc']; subst. cbn [fst snd] in C. cbn [map fst snd]. change (returned (f, figs)) with (Returned f figs). rewrite session_cons, (IH _ Hc').
  rewrite (C134_one_call false f figs s C). cbn iota. destruct f; try reflexivity; destruct stack; reflexivity.
Qed.

Theorem C134_blocking l s : Forall (fun c => complete (fst c) (snd c)) l -> py_open s = [] ->
  py_open (session true (map returned l) s) = [].
Proof. intros Hc Ho. exact (proj2 (C133_blocking l s Hc Ho)). Qed.

Lemma still_open_repeat n : forall m, still_open m (repeat (Fplothk false) n) = n + m.
Proof. induction n as [|n IH]; intro m; [reflexivity|]. cbn [repeat still_open]. rewrite IH. lia. Qed.

Lemma map_repeat' {A B} (f : A -> B) (x : A) n : map f (repeat x n) = repeat (f x) n.
Proof. induction n as [|n IH]; [reflexivity|]. cbn. now rewrite IH. Qed.

(** There is no bound on the number of figures rfsed leaves open. *)
Theorem C134_refuted (g : fig) : ~ (exists bound, forall l, Forall (fun c => complete (fst c) (snd c)) l ->
  length (py_open (session false (map returned l) py0)) <= bound).
Proof.
  intros [m H]. specialize (H (repeat (Fplothk false, [g]) (S m))).
  assert (Hc : Forall (fun c : pfun * list fig => complete (fst c) (snd c)) (repeat (Fplothk false, [g]) (S m))).
  { apply Forall_forall. intros c I. apply repeat_spec in I. subst c. reflexivity. }
  specialize (H Hc). rewrite C134_count in H by exact Hc. rewrite map_repeat' in H. cbn [fst] in H.
  rewrite still_open_repeat in H. cbn in H. lia.
Qed.

(** ** C135 - the user's own figures *)

(** After a returned call of [plothk] on an unstacked result under a non-blocking backend the figures the
    user had open are still open, unchanged; in every other case they are all closed: at most the last
    figure of the call itself is open. *)
Theorem C135_kept figs s : complete (Fplothk false) figs ->
  py_open (pyrun false (ops_of (Returned (Fplothk false) figs)) s) = snd (last figs (EmptyString, [])) :: py_open s.
Proof. intro C. rewrite (C134_one_call false _ figs s C). reflexivity. Qed.

Theorem C135_closed b f figs s : complete f figs -> ~ (b = false /\ f = Fplothk false) ->
  let now := py_open (pyrun b (ops_of (Returned f figs)) s) in
  now = [] \/ (b = false /\ f = FplotSeqhk false /\ now = [snd (last figs (EmptyString, []))]).
Proof.
  intros C N. rewrite (C134_one_call b f figs s C). destruct b; [auto|].
  destruct f; auto; destruct stack; auto. destruct N. auto.
Qed.

(** A call that raises: until its first [plt.show], a function with its own figure has left the others
    alone; one without has drawn on the current figure. *)
Theorem C135_raised_shared b f g figs s w r n : own f = false -> py_open s = w :: r -> n <= length (snd g) ->
  py_open (pyrun b (ops_of (Raised f (g :: figs) n)) s) = (w ++ firstn n (snd g)) :: r.
Proof.
  intros O Ho Hn. cbn [ops_of]. unfold script. cbn [stages]. unfold stage. rewrite O. cbn [app].
  rewrite <- !app_assoc, firstn_app, map_length. replace (n - length (snd g)) with 0 by lia.
  cbn [firstn]. rewrite app_nil_r, firstn_puts. destruct s as [op sv sh]. cbn [py_open] in Ho. subst op.
  rewrite run_puts. reflexivity.
Qed.
End S.

(** ** The claims as a user would state them, and why they fail *)

(** "Every file rfsed writes holds what the call that wrote it drew." *)
Definition files_are_own (b : bool) : Prop :=
  forall l : list (item nat),
    Forall (fun it => match it with Returned f figs | Raised f figs _ => complete f figs | User _ => False end) l ->
    forall file, In file (py_saved (session b l py0)) ->
      exists it, In it l /\ match it with Returned f figs | Raised f figs _ => In file figs | User _ => False end.

(** A plot of an unstacked result followed by a filter plot: the curves go onto the first plot
    (non-blocking backend). *)
Definition unstacked_then_filter : list (item nat) :=
  [Returned (Fplothk false) [("out/hk.pdf"%string, [1; 2])];
   Returned Fplotfiltrf [("out/Autocorrelation.jpg"%string, [3]); ("out/Filter.jpg"%string, [4]); ("out/RF.jpg"%string, [5; 6])]].

(** A plot that raises after it drew something, followed by a filter plot (any backend). *)
Definition raised_then_filter : list (item nat) :=
  [Raised (Fplothk true) [("out/hk.pdf"%string, [1; 2])] 2;
   Returned Fplotfiltrf [("out/Autocorrelation.jpg"%string, [3]); ("out/Filter.jpg"%string, [4]); ("out/RF.jpg"%string, [5; 6])]].

Theorem C133_refuted : forall b, ~ files_are_own b.
Proof.
  intros b H. specialize (H raised_then_filter).
  assert (W : Forall (fun it : item nat => match it with Returned f figs | Raised f figs _ => complete f figs | User _ => False end) raised_then_filter).
  { repeat constructor. }
  specialize (H W ("out/Autocorrelation.jpg"%string, [1; 3])).
  assert (I : In ("out/Autocorrelation.jpg"%string, [1; 3]) (py_saved (session b raised_then_filter py0))).
  { destruct b; cbn; auto. }
  destruct (H I) as (it & [<-|[<-|[]]] & J); cbn in J; intuition congruence.
Qed.

Theorem C133_refuted_returned : ~ (forall l : list (pfun * list (string * list nat)),
  Forall (fun c => complete (fst c) (snd c)) l ->
  forall file, In file (py_saved (session false (map returned l) py0)) -> exists c, In c l /\ In file (snd c)).
Proof.
  intro H. specialize (H [(Fplothk false, [("out/hk.pdf"%string, [1; 2])]);
    (Fplotfiltrf, [("out/Autocorrelation.jpg"%string, [3]); ("out/Filter.jpg"%string, [4]); ("out/RF.jpg"%string, [5; 6])])]).
  assert (W : Forall (fun c : pfun * list (string * list nat) => complete (fst c) (snd c)) [(Fplothk false, [("out/hk.pdf"%string, [1; 2])]);
    (Fplotfiltrf, [("out/Autocorrelation.jpg"%string, [3]); ("out/Filter.jpg"%string, [4]); ("out/RF.jpg"%string, [5; 6])])]).
  { repeat constructor. }
  destruct (H W ("out/Autocorrelation.jpg"%string, [1; 2; 3])) as (c & [<-|[<-|[]]] & J).
  - cbn. auto.
  - cbn in J. intuition congruence.
  - cbn in J. intuition congruence.
Qed.

(** "A figure I have open is still there, as I left it, after a call of rfsed." *)
Theorem C135_refuted f : f <> Fplothk false -> ~ (forall b (figs : list (string * list nat)) s, complete f figs ->
  exists news, py_open (pyrun b (ops_of (Returned f figs)) s) = news ++ py_open s).
Proof.
  intros Nf H. specialize (H true (repeat (EmptyString, [1]) (nfigs f)) (mkPy [[7]] [] [])).
  assert (C : complete f (repeat (EmptyString, [1]) (nfigs f))) by apply repeat_length.
  destruct (H C) as [news E0]. rewrite (C134_one_call true f _ _ C) in E0. cbn [py_open] in E0.
  destruct news; discriminate E0.
Qed.

(** Concrete sessions. *)
Example C132_example :
  py_saved (pyrun false (ops_of (Returned (FplotSeqhk false) [("sed.pdf"%string, [1; 2]); ("moho.pdf"%string, [3])])) (mkPy [[9]] [] []))
    = [("sed.pdf"%string, [1; 2]); ("moho.pdf"%string, [3])] /\
  own (FplotSeqhk false) = true.
Proof. split; reflexivity. Qed.
Example C133_example :
  py_saved (session false unstacked_then_filter py0) =
    [("out/hk.pdf"%string, [1; 2]); ("out/Autocorrelation.jpg"%string, [1; 2; 3]); ("out/Filter.jpg"%string, [4]); ("out/RF.jpg"%string, [5; 6])] /\
  py_saved (session true unstacked_then_filter py0) =
    [("out/hk.pdf"%string, [1; 2]); ("out/Autocorrelation.jpg"%string, [3]); ("out/Filter.jpg"%string, [4]); ("out/RF.jpg"%string, [5; 6])].
Proof. split; reflexivity. Qed.
Example C134_example : let c := (Fplothk false, [("hk.pdf"%string, [1])]) in
  length (py_open (session false (map returned [c; c; c]) py0)) = 3 /\
  length (py_open (session false (map returned [c; c; (Fhk, [(EmptyString, [2])])]) py0)) = 0.
Proof. split; reflexivity. Qed.
