(** * PlotProofs: facts about the plot functions. *)

From Verif Require Import Base Num NumPy HkModel HkProofs PlotModel.

(** ** Observations on a list of drawing events *)

Section Obs.
Context {N : Num}.
(** Files written, in order. *)
Definition saves (es : list (pev N)) : list string :=
  flat_map (fun e => match e with ESave f => [f] | _ => [] end) es.
(** Arrival marks drawn on a panel: time and the two ends. *)
Definition marks (pan : nat) (es : list (pev N)) : list (tval N * N * N) :=
  flat_map (fun e => match e with EMark p t a b => if p =? pan then [(t, a, b)] else [] | _ => [] end) es.
(** Curves drawn on a panel. *)
Definition curves (pan : nat) (es : list (pev N)) : list (list N * list N) :=
  flat_map (fun e => match e with ELine p x y => if p =? pan then [(x, y)] else [] | _ => [] end) es.
Definition contours (es : list (pev N)) : list (list (row N)) :=
  flat_map (fun e => match e with EContour t => [t] | _ => [] end) es.
Definition bests (es : list (pev N)) : list (N * N) :=
  flat_map (fun e => match e with EBest h k _ => [(h, k)] | _ => [] end) es.

Lemma saves_app a b : saves (a ++ b) = saves a ++ saves b. Proof. apply flat_map_app. Qed.
Lemma marks_app p a b : marks p (a ++ b) = marks p a ++ marks p b. Proof. apply flat_map_app. Qed.
Lemma curves_app p a b : curves p (a ++ b) = curves p a ++ curves p b. Proof. apply flat_map_app. Qed.
Lemma contours_app a b : contours (a ++ b) = contours a ++ contours b. Proof. apply flat_map_app. Qed.
Lemma bests_app a b : bests (a ++ b) = bests a ++ bests b. Proof. apply flat_map_app. Qed.
End Obs.

Section Prog.
Context {N : Num} (pyplot : list (pev N) -> pev N -> option exn).
Context {D : Type}.
Notation M := (@PM N D).

Lemma pbind_ok {A B} (m : M A) (f : A -> M B) s s' b :
  pbind m f s = (s', Ok b) -> exists s1 a, m s = (s1, Ok a) /\ f a s1 = (s', Ok b).
Proof. unfold pbind. destruct (m s) as [s1 [a|e]]; intro H; [eauto|discriminate]. Qed.

Lemma plift_ok {A} (r : res A) (s s' : pst N D) a : plift r s = (s', Ok a) -> s' = s /\ r = Ok a.
Proof. unfold plift. intro H. inversion H; auto. Qed.

Lemma pret_ok {A} (a b : A) (s s' : pst N D) : pret a s = (s', Ok b) -> s' = s /\ b = a.
Proof. unfold pret. intro H. inversion H; auto. Qed.

Lemma pget_ok (s s' : pst N D) d : pget s = (s', Ok d) -> s' = s /\ d = ps_d s.
Proof. unfold pget. intro H. inversion H; auto. Qed.

Lemma emit_ok e (s s' : pst N D) u : emit pyplot e s = (s', Ok u) -> s' = mkPst (ps_ev s ++ [e]) (ps_d s).
Proof. unfold emit. destruct (pyplot (ps_ev s) e); intro H; inversion H; reflexivity. Qed.

(** [m] appends exactly [es] when it succeeds and leaves the data alone. *)
Definition emits {A} (m : M A) (es : list (pev N)) : Prop :=
  forall s s' a, m s = (s', Ok a) -> s' = mkPst (ps_ev s ++ es) (ps_d s).

Lemma emits_emit e : emits (emit pyplot e) [e].
Proof. intros s s' a H. eapply emit_ok; exact H. Qed.

Lemma emits_bind {A B} (m : M A) (f : A -> M B) e1 e2 :
  emits m e1 -> (forall a, emits (f a) e2) -> emits (pbind m f) (e1 ++ e2).
Proof.
  intros H1 H2 s s' b E. apply pbind_ok in E. destruct E as [s1 [a [E1 E2]]].
  apply H1 in E1. apply H2 in E2. subst. simpl. rewrite app_assoc. reflexivity.
Qed.

(** [m] never saves a file and never changes the data, whatever its outcome. *)
Definition quiet {A} (m : M A) : Prop :=
  forall s, ps_d (fst (m s)) = ps_d s /\ saves (ps_ev (fst (m s))) = saves (ps_ev s).

Lemma quiet_bind {A B} (m : M A) (f : A -> M B) :
  quiet m -> (forall a, quiet (f a)) -> quiet (pbind m f).
Proof.
  intros H1 H2 s. unfold pbind. specialize (H1 s). destruct (m s) as [s1 [a|e]]; simpl in *; [|exact H1].
  destruct (H2 a s1) as [Ea Eb]. destruct H1 as [Ec Ed]. split; congruence.
Qed.
Lemma quiet_lift {A} (r : res A) : quiet (plift r).
Proof. intro s. split; reflexivity. Qed.
Lemma quiet_ret {A} (a : A) : quiet (pret a).
Proof. intro s. split; reflexivity. Qed.
Lemma quiet_get : quiet pget.
Proof. intro s. split; reflexivity. Qed.
Lemma quiet_emit e : (forall f, e <> ESave f) -> quiet (emit pyplot e).
Proof.
  intros H s. unfold emit. destruct (pyplot (ps_ev s) e); simpl; split; auto.
  rewrite saves_app. destruct e; simpl; try apply app_nil_r. exfalso; eapply H; reflexivity.
Qed.
Lemma quiet_forP {A B} (l : list A) (body : A -> B -> M B) b :
  (forall x y, quiet (body x y)) -> quiet (forP l body b).
Proof.
  intro H. revert b. induction l as [|x l IH]; intro b; simpl; [apply quiet_ret|].
  apply quiet_bind; [apply H|]. intro b'. apply IH.
Qed.

Ltac q := repeat first [ apply quiet_bind; [|intro] | apply quiet_lift | apply quiet_ret | apply quiet_get
                       | apply quiet_emit; intros; discriminate ].

Lemma quiet_marks3 pan ts c g : quiet (marks3 pyplot pan ts c g).
Proof. destruct ts as [[a b] c']. unfold marks3. q. Qed.
Lemma quiet_spans3 pan ts sp : quiet (spans3 pyplot pan ts sp).
Proof. destruct ts as [[a b] c']. unfold spans3. q. Qed.
Lemma quiet_panel1 stk ib H K : quiet (panel1 pyplot stk ib H K).
Proof. unfold panel1. q. Qed.
Lemma quiet_panel_one data t g f win ts : quiet (panel_one pyplot data t g f win ts).
Proof. unfold panel_one. q. destruct a0 as [[lo hi] sp]. q. apply quiet_marks3. Qed.
Lemma quiet_panel_stream pan st g gi c win : quiet (panel_stream pyplot pan st g gi c win).
Proof.
  unfold panel_stream. apply quiet_bind.
  - apply quiet_forP. intros rf last. q. destruct a1 as [[lo hi] sp]. q. apply quiet_marks3.
  - intro last. q. destruct a0 as [[lo hi] sp]. apply quiet_spans3.
Qed.

(** ** Exact events of the blocks on success *)

Definition ev_marks3 (pan : nat) (ts : tval N * tval N * tval N) (c g : N) : list (pev N) :=
  let '(t1, t2, t3) := ts in
  [EMark pan t1 (nadd c g) (nsub c g); EMark pan t2 (nadd c g) (nsub c g); EMark pan t3 (nadd c g) (nsub c g)].
Definition ev_spans3 (pan : nat) (ts : tval N * tval N * tval N) (sp : N) : list (pev N) :=
  let '(t1, t2, t3) := ts in
  [ESpan pan (tsubr t1 sp) (taddr t1 sp); ESpan pan (tsubr t2 sp) (taddr t2 sp);
   ESpan pan (tsubr t3 sp) (taddr t3 sp)].

Lemma emits_marks3 pan ts c g : emits (marks3 pyplot pan ts c g) (ev_marks3 pan ts c g).
Proof.
  destruct ts as [[t1 t2] t3]. unfold marks3, ev_marks3.
  change [?x; ?y; ?z] with ([x] ++ [y] ++ [z]).
  apply emits_bind; [apply emits_emit|intros _]. apply emits_bind; [apply emits_emit|intros _]. apply emits_emit.
Qed.
Lemma emits_spans3 pan ts sp : emits (spans3 pyplot pan ts sp) (ev_spans3 pan ts sp).
Proof.
  destruct ts as [[t1 t2] t3]. unfold spans3, ev_spans3.
  change [?x; ?y; ?z] with ([x] ++ [y] ++ [z]).
  apply emits_bind; [apply emits_emit|intros _]. apply emits_bind; [apply emits_emit|intros _]. apply emits_emit.
Qed.

Lemma panel1_ok stk ib H K (s s' : pst N D) u :
  panel1 pyplot stk ib H K s = (s', Ok u) ->
  exists bm hlo hhi klo khi, nth_error stk ib = Some bm /\
    pymin H = Ok hlo /\ pymax H = Ok hhi /\ pymin K = Ok klo /\ pymax K = Ok khi /\
    s' = mkPst (ps_ev s ++ [EContour stk; EBest (rH bm) (rK bm) (rH bm, nadd (rK bm) (nlit 1 1000)); EGrid hlo hhi klo khi]) (ps_d s).
Proof.
  unfold panel1. intro E.
  apply pbind_ok in E. destruct E as [s1 [u1 [E1 E]]]. apply emit_ok in E1.
  apply pbind_ok in E. destruct E as [s2 [bm [E2 E]]]. apply plift_ok in E2. destruct E2 as [-> E2].
  apply pbind_ok in E. destruct E as [s3 [u3 [E3 E]]]. apply emit_ok in E3.
  apply pbind_ok in E. destruct E as [s4 [hlo [E4 E]]]. apply plift_ok in E4. destruct E4 as [-> E4].
  apply pbind_ok in E. destruct E as [s5 [hhi [E5 E]]]. apply plift_ok in E5. destruct E5 as [-> E5].
  apply pbind_ok in E. destruct E as [s6 [klo [E6 E]]]. apply plift_ok in E6. destruct E6 as [-> E6].
  apply pbind_ok in E. destruct E as [s7 [khi [E7 E]]]. apply plift_ok in E7. destruct E7 as [-> E7].
  apply emit_ok in E. apply getitem_Ok in E2.
  exists bm, hlo, hhi, klo, khi. repeat (split; [assumption|]). subst. simpl. rewrite <- !app_assoc. reflexivity.
Qed.

Lemma panel_one_ok data t g f win ts (s s' : pst N D) u :
  panel_one pyplot data t g f win ts s = (s', Ok u) ->
  exists g0 g1 lo hi sp, nth_error g 0 = Some g0 /\ nth_error g 1 = Some g1 /\ win = Some (lo, hi, sp) /\
    s' = mkPst (ps_ev s ++ [EXlim 2 lo hi; ELine 2 t (scaled data (f g0) (nofZ 180))]
                 ++ ev_marks3 2 ts (nofZ 180) g1) (ps_d s).
Proof.
  unfold panel_one. intro E.
  apply pbind_ok in E. destruct E as [s1 [g0 [E1 E]]]. apply plift_ok in E1. destruct E1 as [-> E1].
  apply pbind_ok in E. destruct E as [s2 [w [E2 E]]]. apply plift_ok in E2. destruct E2 as [-> E2].
  destruct w as [[lo hi] sp].
  apply pbind_ok in E. destruct E as [s3 [u3 [E3 E]]]. apply emit_ok in E3.
  apply pbind_ok in E. destruct E as [s4 [u4 [E4 E]]]. apply emit_ok in E4.
  apply pbind_ok in E. destruct E as [s5 [g1 [E5 E]]]. apply plift_ok in E5. destruct E5 as [-> E5].
  apply emits_marks3 in E. apply getitem_Ok in E1, E5.
  exists g0, g1, lo, hi, sp. repeat (split; [assumption|]).
  split; [destruct win; inversion E2; reflexivity|].
  subst. simpl. rewrite <- !app_assoc. reflexivity.
Qed.

(** One trace of a stream panel. *)
Definition ev_trace (pan : nat) (lo hi : Z) (g0 g1 : N) (centre : trace N -> N) (rf : trace N)
    : list (pev N) :=
  match tr_hdr rf with
  | None => []
  | Some ts => [EXlim pan lo hi; ELine pan (own_axis rf) (scaled (tr_data rf) g0 (centre rf))]
               ++ ev_marks3 pan ts (centre rf) g1
  end.

Lemma panel_stream_ok pan st g gi centre win (s s' : pst N D) u :
  panel_stream pyplot pan st g gi centre win s = (s', Ok u) ->
  exists g0 g1 lo hi sp rest rl tsl,
    nth_error g gi = Some g0 /\ nth_error g (S gi) = Some g1 /\
    win = Some (lo, hi, sp) /\ st = rest ++ [rl] /\ tr_hdr rl = Some tsl /\
    (forall rf, In rf st -> tr_hdr rf <> None) /\
    s' = mkPst (ps_ev s ++ flat_map (ev_trace pan lo hi g0 g1 centre) st ++ ev_spans3 pan tsl sp) (ps_d s).
Proof.
  unfold panel_stream. intro E.
  apply pbind_ok in E. destruct E as [s1 [last [E1 E]]].
  apply pbind_ok in E. destruct E as [s2 [tsl [E2 E]]]. apply plift_ok in E2. destruct E2 as [-> E2].
  apply pbind_ok in E. destruct E as [s3 [w [E3 E]]]. apply plift_ok in E3. destruct E3 as [-> E3].
  destruct w as [[lo hi] sp]. apply emits_spans3 in E.
  assert (Hw : win = Some (lo, hi, sp)) by (destruct win; inversion E3; reflexivity). clear E3.
  assert (Hl : last = Some tsl) by (destruct last; inversion E2; reflexivity). clear E2. subst last win.
  assert (G : forall l (last0 : option (tval N * tval N * tval N)) (s0 s1 : pst N D),
    forP l (fun rf _ =>
      pbind (plift (header (tr_hdr rf))) (fun ts =>
      pbind (plift (getitem g gi)) (fun g0 =>
      pbind (plift (bound (Some (lo, hi, sp)))) (fun w =>
      let '(lo, hi, _) := w in
      pbind (emit pyplot (EXlim pan lo hi)) (fun _ =>
      pbind (emit pyplot (ELine pan (own_axis rf) (scaled (tr_data rf) g0 (centre rf)))) (fun _ =>
      pbind (plift (getitem g (S gi))) (fun ampgain =>
      pbind (marks3 pyplot pan ts (centre rf) ampgain) (fun _ => pret (Some ts))))))))) last0 s0
      = (s1, Ok (Some tsl)) ->
    (l = [] /\ last0 = Some tsl /\ s1 = s0) \/
    exists g0 g1 rest rl, nth_error g gi = Some g0 /\ nth_error g (S gi) = Some g1 /\
      l = rest ++ [rl] /\ tr_hdr rl = Some tsl /\ (forall rf, In rf l -> tr_hdr rf <> None) /\
      s1 = mkPst (ps_ev s0 ++ flat_map (ev_trace pan lo hi g0 g1 centre) l) (ps_d s0)).
  { clear. induction l as [|rf l IH]; intros last0 s0 s1 H.
    - left. simpl in H. apply pret_ok in H. destruct H as [-> H]. auto.
    - right. cbn [forP] in H.
      apply pbind_ok in H. destruct H as [sb [b [Hb H]]].
      apply pbind_ok in Hb. destruct Hb as [sa [ts [E1 Hb]]]. apply plift_ok in E1. destruct E1 as [-> E1].
      apply pbind_ok in Hb. destruct Hb as [sc [g0 [E2 Hb]]]. apply plift_ok in E2. destruct E2 as [-> E2].
      apply pbind_ok in Hb. destruct Hb as [sd [w [E3 Hb]]]. apply plift_ok in E3. destruct E3 as [-> E3].
      cbn [bound] in E3. injection E3 as <-.
      apply pbind_ok in Hb. destruct Hb as [se [u4 [E4 Hb]]]. apply emit_ok in E4.
      apply pbind_ok in Hb. destruct Hb as [sf [u5 [E5 Hb]]]. apply emit_ok in E5.
      apply pbind_ok in Hb. destruct Hb as [sg [g1 [E6 Hb]]]. apply plift_ok in E6. destruct E6 as [-> E6].
      apply pbind_ok in Hb. destruct Hb as [sh [u7 [E7 Hb]]]. apply emits_marks3 in E7.
      apply pret_ok in Hb. destruct Hb as [-> ->].
      assert (Hh : tr_hdr rf = Some ts) by (destruct (tr_hdr rf); inversion E1; reflexivity).
      apply getitem_Ok in E2, E6.
      assert (Es : sh = mkPst (ps_ev s0 ++ ev_trace pan lo hi g0 g1 centre rf) (ps_d s0)).
      { subst sh sf se. unfold ev_trace. rewrite Hh. simpl. rewrite <- !app_assoc. reflexivity. }
      apply IH in H. destruct H as [[El [Elast Es1]]|H].
      + injection Elast as ->. subst l s1.
        exists g0, g1, [], rf. repeat (split; [assumption || reflexivity|]).
        split; [|rewrite Es; simpl; rewrite app_nil_r; reflexivity].
        intros rf' [<-|[]]. congruence.
      + destruct H as (g0'&g1'&rest&rl&A1&A2&El&A3&A4&As).
        rewrite A1 in E2. injection E2 as ->. rewrite A2 in E6. injection E6 as ->.
        exists g0, g1, (rf :: rest), rl. repeat (split; [assumption|]).
        split; [rewrite El; reflexivity|]. split; [assumption|].
        split; [intros rf' [<-|Hin]; [congruence|apply A4; assumption]|].
        rewrite As, Es. simpl. rewrite <- app_assoc. reflexivity. }
  apply G in E1. destruct E1 as [[_ [C _]]|E1]; [discriminate|].
  destruct E1 as (g0&g1&rest&rl&A1&A2&El&A3&A4&As).
  exists g0, g1, lo, hi, sp, rest, rl, tsl. repeat (split; [assumption || reflexivity|]).
  rewrite E, As. simpl. rewrite <- app_assoc. reflexivity.
Qed.

(** ** Header writing *)

Context (getS : D -> stream N) (setS : D -> stream N -> D).
Hypothesis get_set : forall d st, getS (setS d st) = st.
Hypothesis set_set : forall d a b, setS (setS d a) b = setS d b.
Hypothesis set_get : forall d, setS d (getS d) = d.

(** Same trace up to the arrival-time headers. *)
Definition hdr_only (tr tr' : trace N) : Prop :=
  tr_data tr' = tr_data tr /\ tr_delta tr' = tr_delta tr /\ tr_slow tr' = tr_slow tr /\
  tr_slowk tr' = tr_slowk tr /\ tr_b tr' = tr_b tr /\ tr_baz tr' = tr_baz tr /\
  tr_dist tr' = tr_dist tr /\ tr_sta tr' = tr_sta tr /\ tr_chan tr' = tr_chan tr.

Lemma hdr_only_refl tr : hdr_only tr tr.
Proof. repeat split. Qed.
Lemma hdr_only_set tr ts : hdr_only tr (set_hdr tr ts).
Proof. repeat split. Qed.

Lemma write_loop km1 times_of l : forall i (pre : stream N) (s : pst N D),
  length pre = i -> getS (ps_d s) = pre ++ l ->
  exists l', Forall2 hdr_only l l' /\
    let out := forP (seq i (length l)) (header_step getS setS km1 times_of) tt s in
    fst out = mkPst (ps_ev s) (setS (ps_d s) (pre ++ l')) /\
    (forall u, snd out = Ok u ->
      Forall2 (fun tr tr' => exists ts, times_of (nmul km1 (tr_slow tr)) (tr_slowk tr) = Ok ts /\
                                        tr' = set_hdr tr ts) l l').
Proof.
  induction l as [|tr l IH]; intros i pre s Hi Hs.
  - exists []. split; [constructor|]. simpl. split; [|intros; constructor].
    rewrite <- Hs, set_get. destruct s; reflexivity.
  - cbn [length seq forP].
    assert (Eg : getitem (getS (ps_d s)) i = Ok tr).
    { apply getitem_Ok. rewrite Hs, nth_error_app2, Hi, Nat.sub_diag by lia. reflexivity. }
    assert (Hb : header_step getS setS km1 times_of i tt s =
      match times_of (nmul km1 (tr_slow tr)) (tr_slowk tr) with
      | Ok ts => (mkPst (ps_ev s) (setS (ps_d s) (upd (getS (ps_d s)) i (set_hdr tr ts))), Ok tt)
      | Err e => (s, Err e)
      end).
    { unfold header_step, pbind, pget, plift, pput. rewrite Eg.
      destruct (times_of (nmul km1 (tr_slow tr)) (tr_slowk tr)); reflexivity. }
    unfold pbind. rewrite Hb.
    destruct (times_of (nmul km1 (tr_slow tr)) (tr_slowk tr)) as [ts|e] eqn:Et.
    + assert (Eu : upd (getS (ps_d s)) i (set_hdr tr ts) = (pre ++ [set_hdr tr ts]) ++ l).
      { rewrite Hs, <- Hi. rewrite upd_app_length. rewrite <- app_assoc. reflexivity. }
      destruct (IH (S i) (pre ++ [set_hdr tr ts]) (mkPst (ps_ev s) (setS (ps_d s) (upd (getS (ps_d s)) i (set_hdr tr ts)))))
        as [l' [F [E1 E2]]].
      { rewrite app_length; simpl; lia. }
      { simpl. rewrite get_set. exact Eu. }
      exists (set_hdr tr ts :: l'). split; [constructor; [apply hdr_only_set|exact F]|].
      cbn zeta. split.
      * etransitivity; [exact E1|]. simpl. rewrite set_set, <- app_assoc. reflexivity.
      * intros u Hu. constructor; [exists ts; auto|]. apply (E2 u Hu).
    + exists (tr :: l). split; [constructor; [apply hdr_only_refl|]|].
      { clear. induction l; constructor; auto using hdr_only_refl. }
      cbn [fst snd]. split; [|intros u C; discriminate C].
      rewrite <- Hs, set_get. destruct s; reflexivity.
Qed.

Lemma write_headers_spec km1 times_of (s : pst N D) :
  exists l', Forall2 hdr_only (getS (ps_d s)) l' /\
    let out := write_headers getS setS km1 times_of s in
    fst out = mkPst (ps_ev s) (setS (ps_d s) l') /\
    (forall u, snd out = Ok u ->
      Forall2 (fun tr tr' => exists ts, times_of (nmul km1 (tr_slow tr)) (tr_slowk tr) = Ok ts /\
                                        tr' = set_hdr tr ts) (getS (ps_d s)) l').
Proof.
  destruct (write_loop km1 times_of (getS (ps_d s)) 0 [] s eq_refl eq_refl) as [l' H].
  exists l'. exact H.
Qed.
End Prog.

Section Clip.
Context {N : Num} {D : Type} (getT : D -> list (row N)) (setT : D -> list (row N) -> D).
Lemma clip_in_place_eq rmneg (s : pst N D) :
  clip_in_place getT setT rmneg s
  = (if rmneg then mkPst (ps_ev s) (setT (ps_d s) (map clip_row (getT (ps_d s)))) else s, Ok tt).
Proof.
  unfold clip_in_place. destruct rmneg; [|reflexivity].
  unfold pbind, pget, plift, pput. rewrite clip_loop_eq. reflexivity.
Qed.
End Clip.
