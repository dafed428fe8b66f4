(** * PlotProofs2: whole-function facts for the plot functions. *)

From Verif Require Import Base Num NumPy HkModel HkProofs PlotModel PlotProofs.

Lemma pbind_step {N : Num} {D A B} (m : @PM N D A) (f : A -> @PM N D B) s s1 a :
  m s = (s1, Ok a) -> pbind m f s = f a s1.
Proof. intro E. unfold pbind. rewrite E. reflexivity. Qed.
Lemma pbind_err {N : Num} {D A B} (m : @PM N D A) (f : A -> @PM N D B) s s1 e :
  m s = (s1, Err e) -> pbind m f s = (s1, Err e).
Proof. intro E. unfold pbind. rewrite E. reflexivity. Qed.
Lemma pbind_assoc {N : Num} {D A B C} (m : @PM N D A) (f : A -> @PM N D B) (g : B -> @PM N D C) s :
  pbind (pbind m f) g s = pbind m (fun a => pbind (f a) g) s.
Proof. unfold pbind. destruct (m s) as [s1 [a|e]]; reflexivity. Qed.

Section Gen.
Context {N : Num} (pyplot : list (pev N) -> pev N -> option exn) {D : Type}.

(** Panels, then [savefig], then [show]. *)
Lemma tail_any (m : @PM N D unit) f (s : pst N D) :
  quiet m ->
  let out := pbind m (fun _ => pbind (emit pyplot (ESave f)) (fun _ => emit pyplot EShow)) s in
  ps_d (fst out) = ps_d s /\
  (saves (ps_ev (fst out)) = saves (ps_ev s) \/
   saves (ps_ev (fst out)) = saves (ps_ev s) ++ [f] /\ exists s1 u, m s = (s1, Ok u)).
Proof.
  intro Q. unfold pbind. specialize (Q s). destruct (m s) as [s1 [u|e]]; simpl in *.
  2:{ destruct Q; auto. }
  destruct Q as [Q1 Q2]. unfold emit.
  destruct (pyplot (ps_ev s1) (ESave f)) as [x1|]; cbn [fst snd ps_d ps_ev]; [auto|].
  destruct (pyplot (ps_ev s1 ++ [ESave f]) EShow) as [x2|]; cbn [fst snd ps_d ps_ev].
  - split; [assumption|]. right. rewrite saves_app, Q2. split; [reflexivity|eauto].
  - split; [assumption|]. right. rewrite !saves_app, Q2. split; [|eauto].
    cbn [saves flat_map app]. rewrite app_nil_r. reflexivity.
Qed.

Lemma tail_ok (m : @PM N D unit) f (s s' : pst N D) u :
  pbind m (fun _ => pbind (emit pyplot (ESave f)) (fun _ => emit pyplot EShow)) s = (s', Ok u) ->
  exists s1 v, m s = (s1, Ok v) /\ s' = mkPst (ps_ev s1 ++ [ESave f; EShow]) (ps_d s1).
Proof.
  intro E. apply pbind_ok in E. destruct E as [s1 [v [E1 E]]].
  apply pbind_ok in E. destruct E as [s2 [v2 [E2 E]]]. apply emit_ok in E2, E.
  exists s1, v. split; [exact E1|]. subst. simpl. rewrite <- app_assoc. reflexivity.
Qed.
End Gen.

Lemma clip_row_idem {N : Num} (r : row N) : clip_row (clip_row r) = clip_row r.
Proof.
  unfold clip_row. destruct (nleb (rS r) (nofZ 0)) eqn:E; simpl.
  - destruct (nleb (nofZ 0) (nofZ 0)); reflexivity.
  - rewrite E. reflexivity.
Qed.
Lemma map_clip_idem {N : Num} (l : list (row N)) : map clip_row (map clip_row l) = map clip_row l.
Proof. rewrite map_map. apply map_ext. intro; apply clip_row_idem. Qed.
Lemma clip_row_HK {N : Num} (r : row N) : rH (clip_row r) = rH r /\ rK (clip_row r) = rK r.
Proof. unfold clip_row. destruct (nleb (rS r) (nofZ 0)); auto. Qed.

Section PlotHk.
Context {N : Num} (pyplot : list (pev N) -> pev N -> option exn).

Lemma hr_id (d : hkres N) : hr_setStk (hr_setRF d (hr_RF d)) (hr_stk d) = d.
Proof. destruct d; reflexivity. Qed.

(** The part of [plothk] up to the clip. *)
Definition plothk_data (d d' : hkres N) (rmneg full : bool) : Prop :=
  exists RF' stk', d' = hr_setStk (hr_setRF d RF') stk' /\
    Forall2 hdr_only (hr_RF d) RF' /\ (hr_stack d = true -> RF' = hr_RF d) /\
    (full = false /\ stk' = hr_stk d \/
     stk' = if rmneg then map clip_row (hr_stk d) else hr_stk d).

Definition times_written (km1 : N) (H K : N) (d d' : hkres N) : Prop :=
  Forall2 (fun tr tr' => exists ts,
     hk_times (hr_Vp d) (nmul km1 (tr_slow tr)) (tr_slowk tr) H K = Ok ts /\ tr' = set_hdr tr ts)
    (hr_RF d) (hr_RF d').

Lemma F2_refl (l : stream N) : Forall2 hdr_only l l.
Proof. induction l; constructor; auto using hdr_only_refl. Qed.

Definition panels (g : list N) (win : option (Z * Z * N)) (d : hkres N)
    (ts : option (tval N * tval N * tval N)) : @PM N (hkres N) unit :=
  pbind (panel1 pyplot (hr_stk d) (hr_best d) (hr_H d) (hr_K d)) (fun _ =>
  if hr_stack d then
    pbind (plift (bound ts)) (fun ts =>
    pbind (panel_one pyplot (hr_RFStack d) (hr_time d) g (fun x => x) win ts) (fun _ =>
    pbind (plift (bound win)) (fun w => let '(_, _, span) := w in spans3 pyplot 2 ts span)))
  else
    pbind (panel_stream pyplot 2 (hr_RF d) g 0 tr_baz win) (fun _ =>
    panel_stream pyplot 3 (hr_RF d) g 2 tr_dist win)).

Lemma quiet_panels g win d ts : quiet (panels g win d ts).
Proof.
  unfold panels. apply quiet_bind; [apply quiet_panel1|intros _]. destruct (hr_stack d).
  - apply quiet_bind; [apply quiet_lift|intro t].
    apply quiet_bind; [apply quiet_panel_one|intros _].
    apply quiet_bind; [apply quiet_lift|intros [[a b] sp]]. apply quiet_spans3.
  - apply quiet_bind; [apply quiet_panel_stream|intros _]. apply quiet_panel_stream.
Qed.

(** The whole function: a data stage (always described), then the drawing stage. *)
Lemma plothk_split km1 path g rmneg fmt (s : pst N (hkres N)) :
  let d := ps_d s in
  let rm := dflt rmneg true in
  (exists d' e, plothk pyplot km1 path g rmneg fmt s = (mkPst (ps_ev s) d', Err e) /\
      plothk_data d d' rm false)
  \/
  (exists d' bm ts, plothk_data d d' rm true /\
     nth_error (hr_stk d) (hr_best d) = Some bm /\
     (if hr_stack d then
        exists t, hk_times (hr_Vp d) (nmul km1 (hr_AvgSlow d)) NpF (rH bm) (rK bm) = Ok t /\ ts = Some t
      else ts = None /\ times_written km1 (rH bm) (rK bm) d d') /\
     plothk pyplot km1 path g rmneg fmt s
     = pbind (panels (dflt g g_default) (layer_window (hr_layer d)) d' ts)
         (fun _ => pbind (emit pyplot (ESave (fname4 path (hr_staname d) (hr_comp d) (hr_layer d)
                                        (dflt fmt "pdf"%string))))
                         (fun _ => emit pyplot EShow)) (mkPst (ps_ev s) d')).
Proof.
  intros d rm.
  set (out := plothk pyplot km1 path g rmneg fmt s).
  assert (E0 : out = plothk pyplot km1 path g rmneg fmt s) by reflexivity. clearbody out.
  unfold plothk in E0. fold rm in E0.
  rewrite (pbind_step _ _ s s d) in E0 by reflexivity.
  destruct (getitem (hr_stk d) (hr_best d)) as [bm|e] eqn:Eb.
  2:{ left. exists d, e. split.
      - rewrite E0. rewrite (pbind_err _ _ s s e); [destruct s; reflexivity|]. reflexivity.
      - exists (hr_RF d), (hr_stk d). split; [symmetry; apply hr_id|].
        split; [apply F2_refl|]. split; [reflexivity|left; auto]. }
  rewrite (pbind_step _ _ s s bm) in E0 by reflexivity. cbv beta zeta in E0.
  apply getitem_Ok in Eb.
  destruct (hr_stack d) eqn:Es.
  - (* stacked *)
    destruct (hk_times (hr_Vp d) (nmul km1 (hr_AvgSlow d)) NpF (rH bm) (rK bm)) as [t|e] eqn:Et.
    2:{ left. exists d, e. split.
        - rewrite E0. rewrite (pbind_err _ _ s s e); [destruct s; reflexivity|]. reflexivity.
        - exists (hr_RF d), (hr_stk d). split; [symmetry; apply hr_id|].
          split; [apply F2_refl|]. split; [reflexivity|left; auto]. }
    rewrite (pbind_step _ _ s s (Some t)) in E0 by reflexivity. cbv beta in E0.
    set (d' := if rm then hr_setStk d (map clip_row (hr_stk d)) else d).
    rewrite (pbind_step _ _ s (mkPst (ps_ev s) d') tt) in E0.
    2:{ rewrite clip_in_place_eq. unfold d', d. destruct rm; [reflexivity|destruct s; reflexivity]. }
    rewrite (pbind_step _ _ _ (mkPst (ps_ev s) d') d') in E0 by reflexivity.
    right. exists d', bm, (Some t).
    split. { exists (hr_RF d), (hr_stk d'). split; [unfold d'; destruct rm, d; reflexivity|].
             split; [apply F2_refl|]. split; [reflexivity|right; unfold d'; destruct rm; reflexivity]. }
    split; [exact Eb|]. split; [exists t; auto|].
    assert (Hst : hr_stack d' = true) by (unfold d'; destruct rm; exact Es).
    assert (Hsta : hr_staname d' = hr_staname d) by (unfold d'; destruct rm; reflexivity).
    assert (Hcmp : hr_comp d' = hr_comp d) by (unfold d'; destruct rm; reflexivity).
    assert (Hlay : hr_layer d' = hr_layer d) by (unfold d'; destruct rm; reflexivity).
    rewrite Hst, Hsta, Hcmp, Hlay in E0. rewrite E0. unfold panels. rewrite Hst, pbind_assoc. reflexivity.
  - (* per trace *)
    destruct (write_headers_spec hr_RF hr_setRF
      (fun _ _ => eq_refl) (fun _ _ _ => eq_refl) (fun x => match x with mkHkRes _ _ _ _ _ _ _ _ _ _ _ _ _ => eq_refl end)
      km1 (fun rp k => hk_times (hr_Vp d) rp k (rH bm) (rK bm)) s) as [l' [F [E1 E2]]].
    fold d in F, E1, E2.
    destruct (write_headers hr_RF hr_setRF km1 (fun rp k => hk_times (hr_Vp d) rp k (rH bm) (rK bm)) s)
      as [s1 [u|e]] eqn:Ew; cbn [fst snd] in E1, E2.
    2:{ left. exists (hr_setRF d l'), e. split.
        - rewrite E0. rewrite (pbind_err _ _ s s1 e); [rewrite E1; reflexivity|].
          rewrite (pbind_err _ _ s s1 e); [reflexivity|exact Ew].
        - exists l', (hr_stk d). split; [reflexivity|]. split; [exact F|].
          split; [congruence|left; auto]. }
    specialize (E2 u eq_refl).
    rewrite (pbind_step _ _ s s1 None) in E0.
    2:{ rewrite (pbind_step _ _ s s1 u); [reflexivity|exact Ew]. }
    cbv beta in E0. subst s1.
    set (d1 := hr_setRF d l') in *.
    set (d' := if rm then hr_setStk d1 (map clip_row (hr_stk d1)) else d1).
    rewrite (pbind_step _ _ _ (mkPst (ps_ev s) d') tt) in E0.
    2:{ rewrite clip_in_place_eq. unfold d'. destruct rm; reflexivity. }
    rewrite (pbind_step _ _ _ (mkPst (ps_ev s) d') d') in E0 by reflexivity.
    right. exists d', bm, None.
    split. { exists l', (hr_stk d'). split; [unfold d', d1; destruct rm, d; reflexivity|].
             split; [exact F|]. split; [congruence|right; unfold d', d1; destruct rm; reflexivity]. }
    split; [exact Eb|]. split.
    { split; [reflexivity|]. unfold times_written.
      replace (hr_RF d') with l' by (unfold d', d1; destruct rm; reflexivity). exact E2. }
    assert (Hst : hr_stack d' = false) by (unfold d', d1; destruct rm; exact Es).
    assert (Hsta : hr_staname d' = hr_staname d) by (unfold d'; destruct rm; reflexivity).
    assert (Hcmp : hr_comp d' = hr_comp d) by (unfold d'; destruct rm; reflexivity).
    assert (Hlay : hr_layer d' = hr_layer d) by (unfold d'; destruct rm; reflexivity).
    rewrite Hst, Hsta, Hcmp, Hlay in E0. rewrite E0. unfold panels. rewrite Hst, pbind_assoc. reflexivity.
Qed.

Lemma plothk_any km1 path g rmneg fmt (s : pst N (hkres N)) :
  let out := plothk pyplot km1 path g rmneg fmt s in
  plothk_data (ps_d s) (ps_d (fst out)) (dflt rmneg true)
     (match snd out with Ok _ => true | Err _ => false end) /\
  (saves (ps_ev (fst out)) = saves (ps_ev s) \/
   saves (ps_ev (fst out)) = saves (ps_ev s) ++
      [fname4 path (hr_staname (ps_d s)) (hr_comp (ps_d s)) (hr_layer (ps_d s)) (dflt fmt "pdf"%string)]
   /\ layer_window (N := N) (hr_layer (ps_d s)) <> None).
Proof.
  cbv zeta. destruct (plothk_split km1 path g rmneg fmt s) as [(d'&e&E&P)|(d'&bm&ts&P&Eb&_&E)]; rewrite E.
  - cbn [fst snd ps_d ps_ev]. split; [exact P|left; reflexivity].
  - match goal with |- context [pbind ?m (fun _ => pbind (emit _ (ESave ?f)) _) ?st] =>
      destruct (tail_any pyplot m f st (quiet_panels _ _ _ _)) as [Ed Es] end.
    cbn [ps_d ps_ev] in Ed, Es. split.
    + rewrite Ed. destruct P as (RF'&stk'&A&B&C&[[F _]|G]); [discriminate F|].
      exists RF', stk'. repeat (split; [assumption|]). right; exact G.
    + destruct Es as [Es|[Es [s1 [u Hm]]]]; [left; exact Es|]. right. split; [exact Es|].
      unfold panels in Hm. apply pbind_ok in Hm. destruct Hm as [s2 [u2 [_ Hm]]].
      destruct (hr_stack d').
      * apply pbind_ok in Hm. destruct Hm as [s3 [t3 [_ Hm]]].
        apply pbind_ok in Hm. destruct Hm as [s4 [t4 [Hm _]]].
        apply panel_one_ok in Hm. destruct Hm as (g0&g1&lo&hi&sp&_&_&Hw&_). congruence.
      * apply pbind_ok in Hm. destruct Hm as [s4 [t4 [Hm _]]].
        apply panel_stream_ok in Hm. destruct Hm as (g0&g1&lo&hi&sp&r1&r2&r3&_&_&Hw&_). congruence.
Qed.

End PlotHk.
