(** * P_Session: several analyses and figures of the same Trace objects (C126, C127). *)

From Verif Require Import Base Num NumPy HkModel HkProofs PlotModel PlotProofs P_Plot P_Plot3 SessionModel.

Section Session.
Context {N : Num}.

(** ** Vocabulary *)
(** A trace without its arrival-time entries. *)
Definition bare (tr : trace N) : trace N := with_hdr tr None.
(** Equal but for the arrival-time entries of the traces. *)
Definition like (st st' : stream N) : Prop := map bare st = map bare st'.
Definition like_hk (d d' : hkres N) : Prop := hr_setRF d [] = hr_setRF d' [] /\ like (hr_RF d) (hr_RF d').
Definition like_seq (d d' : seqres N) : Prop :=
  sr_setMoho (sr_setSed d []) [] = sr_setMoho (sr_setSed d' []) [] /\
  like (sr_RFSed d) (sr_RFSed d') /\ like (sr_RFMoho d) (sr_RFMoho d').
Definition like_res {A} (R : A -> A -> Prop) (r r' : res A) : Prop :=
  match r, r' with Ok a, Ok a' => R a a' | Err e, Err e' => e = e' | _, _ => False end.
(** RFStream.stack does not look at the arrival-time entries. *)
Definition header_blind (stackO : stream N -> res (list (trace N))) : Prop :=
  forall st st', like st st' -> like_res like (stackO st) (stackO st').

(** Specification: a session in which every analysis works on its own copy of the traces
    and every result owns the copy it was computed from. *)
Inductive own := OwnHk (d : hkres N) | OwnSeq (d : seqres N).
Section Separate.
Context (km1 : N) (stackO : stream N -> res (list (trace N))) (draw : list (row N) -> res unit)
        (pyplot : list (pev N) -> pev N -> option exn).
Fixpoint separate (objs : nat -> trace N) (rs : list own) (ops : list (op N)) : list (out N) :=
  match ops with
  | [] => []
  | AHk rf preonset H K Vp w1 w2 w3 layer stack :: ops' =>
      let r := hk km1 stackO draw (map objs rf) preonset H K Vp w1 w2 w3 layer stack in
      OHk r :: separate objs (match r with Ok d => rs ++ [OwnHk d] | Err _ => rs end) ops'
  | ASeq sed moho preonset HS KS VpS w1S w2S w3S HM KM VpM w1M w2M w3M stack :: ops' =>
      let r := hkSeq km1 stackO draw (map objs sed) (map objs moho) preonset HS KS VpS w1S w2S w3S HM KM VpM w1M w2M w3M stack in
      OSeq r :: separate objs (match r with Ok d => rs ++ [OwnSeq d] | Err _ => rs end) ops'
  | Plot r path g rmneg format :: ops' =>
      match nth_error rs r with
      | None => OPlot [] (Err IndexError) :: separate objs rs ops'
      | Some (OwnHk d) =>
          let '(s, x) := plothk pyplot km1 path g rmneg format (mkPst [] d) in
          OPlot (ps_ev s) x :: separate objs (upd rs r (OwnHk (ps_d s))) ops'
      | Some (OwnSeq d) =>
          let '(s, x) := plotSeqhk pyplot km1 path g rmneg format (mkPst [] d) in
          OPlot (ps_ev s) x :: separate objs (upd rs r (OwnSeq (ps_d s))) ops'
      end
  | Edit a tr :: ops' => ONone :: separate (fun b => if b =? a then tr else objs b) rs ops'
  end.
End Separate.

(** The same output for the user: dictionaries equal but for arrival-time entries of the
    traces, figures and exceptions equal. *)
Definition same_out (x y : out N) : Prop :=
  match x, y with
  | OHk r, OHk r' => like_res like_hk r r'
  | OSeq r, OSeq r' => like_res like_seq r r'
  | OPlot ev r, OPlot ev' r' => ev = ev' /\ r = r'
  | ONone, ONone => True
  | _, _ => False
  end.
(** The caller changes no trace in place that an earlier unstacked analysis has used
    ([used]: those traces). *)
Fixpoint careful (used : list nat) (ops : list (op N)) : Prop :=
  match ops with
  | [] => True
  | AHk rf _ _ _ _ _ _ _ _ stack :: ops' => careful (match stack with Some true => used | _ => rf ++ used end) ops'
  | ASeq sed moho _ _ _ _ _ _ _ _ _ _ _ _ _ stack :: ops' => careful (match stack with Some true => used | _ => sed ++ moho ++ used end) ops'
  | Plot _ _ _ _ _ :: ops' => careful used ops'
  | Edit a _ :: ops' => ~ In a used /\ careful used ops'
  end.
Definition is_edit (o : op N) : Prop := match o with Edit _ _ => True | _ => False end.
(** Analyses of the stacked trace. *)
Definition stacked (o : op N) : Prop :=
  match o with
  | AHk _ _ _ _ _ _ _ _ _ stack => stack = Some true
  | ASeq _ _ _ _ _ _ _ _ _ _ _ _ _ _ _ stack => stack = Some true
  | _ => True
  end.

(** ** Analyses do not look at the arrival-time entries *)
Definition rmap {A B} (f : A -> B) (r : res A) : res B := match r with Ok a => Ok (f a) | Err e => Err e end.
Lemma getitem_map_r {A B} (f : A -> B) l i : getitem (map f l) i = rmap f (getitem l i).
Proof. unfold getitem. rewrite nth_error_map. destruct (nth_error l i); reflexivity. Qed.
Lemma bind_ext {A B} (m : res A) (f g : A -> res B) : (forall a, f a = g a) -> bind m f = bind m g.
Proof. intro H. destruct m; cbn; auto. Qed.
Lemma rmap_bind {A B C} (m : res A) (f : A -> res B) (h : B -> C) : rmap h (bind m f) = bind m (fun a => rmap h (f a)).
Proof. destruct m; reflexivity. Qed.

Lemma hk_bare km1 stackO stackO' draw st preonset H K Vp w1 w2 w3 layer stack :
  stackO' (map bare st) = rmap (map bare) (stackO st) ->
  hk km1 stackO draw st preonset H K Vp w1 w2 w3 layer stack =
  rmap (fun d => hr_setRF d st) (hk km1 stackO' draw (map bare st) preonset H K Vp w1 w2 w3 layer stack).
Proof.
  intro ES. unfold hk. rewrite ES. destruct (stackO st) as [SL|e]; [|reflexivity]. cbn [rmap bind]. rewrite !getitem_map_r.
  destruct (getitem SL 0) as [s0|e]; [|reflexivity]. cbn [rmap bind].
  destruct (getitem st 0) as [tr0|e]; [|reflexivity]. cbn [rmap bind].
  replace (avgslow (map bare st)) with (avgslow st) by (unfold avgslow; rewrite map_map; reflexivity).
  rewrite map_length. change (tr_data (bare tr0)) with (tr_data tr0). change (tr_delta (bare tr0)) with (tr_delta tr0).
  rewrite rmap_bind.
  match goal with |- bind ?m ?f = bind ?m' ?f' => assert (E : m = m') end.
  { apply forM_ext. intros k st1 _. apply forM_ext. intros h [[stk z] q] _. rewrite forM_map. reflexivity. }
  rewrite <- E. apply bind_ext. intros [[stk z] q]. rewrite rmap_bind. apply bind_ext. intro ib. rewrite rmap_bind. apply bind_ext. intro u. reflexivity.
Qed.
Lemma hkSeq_bare km1 stackO stackO' draw sed moho preonset HS KS VpS w1S w2S w3S HM KM VpM w1M w2M w3M stack :
  stackO' (map bare sed) = rmap (map bare) (stackO sed) -> stackO' (map bare moho) = rmap (map bare) (stackO moho) ->
  hkSeq km1 stackO draw sed moho preonset HS KS VpS w1S w2S w3S HM KM VpM w1M w2M w3M stack =
  rmap (fun d => sr_setMoho (sr_setSed d sed) moho)
    (hkSeq km1 stackO' draw (map bare sed) (map bare moho) preonset HS KS VpS w1S w2S w3S HM KM VpM w1M w2M w3M stack).
Proof.
  intros ES EM. unfold hkSeq. rewrite ES, EM. destruct (stackO sed) as [SL|e]; [|reflexivity]. cbn [rmap bind]. rewrite !getitem_map_r.
  destruct (getitem SL 0) as [s0|e]; [|reflexivity]. cbn [rmap bind].
  destruct (stackO moho) as [ML|e]; [|reflexivity]. cbn [rmap bind]. rewrite !getitem_map_r.
  destruct (getitem ML 0) as [m0|e]; [|reflexivity]. cbn [rmap bind].
  destruct (getitem sed 0) as [tr0|e]; [|reflexivity]. cbn [rmap bind].
  replace (avgslow (map bare moho)) with (avgslow moho) by (unfold avgslow; rewrite map_map; reflexivity).
  change (tr_data (bare tr0)) with (tr_data tr0). change (tr_delta (bare tr0)) with (tr_delta tr0).
  rewrite rmap_bind.
  match goal with |- bind ?m ?f = bind ?m' ?f' => assert (E : m = m') end.
  { apply forM_ext. intros k st1 _. apply forM_ext. intros h [[stk z] q] _. rewrite forM_map. reflexivity. }
  rewrite <- E. clear E. apply bind_ext. intros [[stkS z] q]. rewrite rmap_bind. apply bind_ext. intro ibS. rewrite rmap_bind. apply bind_ext. intro u.
  rewrite rmap_bind. apply bind_ext. intro bm. rewrite rmap_bind.
  match goal with |- bind ?m ?f = bind ?m' ?f' => assert (E : m = m') end.
  { apply forM_ext. intros k st1 _. apply forM_ext. intros h [[stk z'] q'] _. rewrite forM_map. reflexivity. }
  rewrite <- E. apply bind_ext. intros [[stkM z'] q']. rewrite rmap_bind. apply bind_ext. intro ibM. rewrite rmap_bind. apply bind_ext. intro tbl.
  rewrite rmap_bind. apply bind_ext. intro u'. reflexivity.
Qed.
Lemma bare_bare l : map bare (map bare l) = map bare l.
Proof. rewrite map_map. reflexivity. Qed.
Lemma blind_bare stackO st : header_blind stackO -> rmap (map bare) (stackO (map bare st)) = rmap (map bare) (stackO st).
Proof.
  intro Hb. pose proof (Hb (map bare st) st (bare_bare st)) as E. destruct (stackO (map bare st)), (stackO st); cbn in *; try contradiction; congruence.
Qed.
Lemma hk_like km1 stackO draw st st' preonset H K Vp w1 w2 w3 layer stack : header_blind stackO -> like st st' ->
  like_res like_hk (hk km1 stackO draw st preonset H K Vp w1 w2 w3 layer stack) (hk km1 stackO draw st' preonset H K Vp w1 w2 w3 layer stack).
Proof.
  intros Hb E. rewrite !(hk_bare km1 stackO (fun x => rmap (map bare) (stackO x)) draw _ preonset H K Vp w1 w2 w3 layer stack) by (apply blind_bare, Hb).
  unfold like in E. rewrite <- E. destruct (hk _ _ _ _ _ _ _ _ _ _ _ _ _) as [d|e]; cbn; [|reflexivity]. split; [reflexivity|exact E].
Qed.
Lemma hkSeq_like km1 stackO draw sed moho sed' moho' preonset HS KS VpS w1S w2S w3S HM KM VpM w1M w2M w3M stack :
  header_blind stackO -> like sed sed' -> like moho moho' ->
  like_res like_seq (hkSeq km1 stackO draw sed moho preonset HS KS VpS w1S w2S w3S HM KM VpM w1M w2M w3M stack)
                    (hkSeq km1 stackO draw sed' moho' preonset HS KS VpS w1S w2S w3S HM KM VpM w1M w2M w3M stack).
Proof.
  intros Hb E1 E2.
  rewrite !(hkSeq_bare km1 stackO (fun x => rmap (map bare) (stackO x)) draw _ _ preonset HS KS VpS w1S w2S w3S HM KM VpM w1M w2M w3M stack) by (apply blind_bare, Hb).
  unfold like in E1, E2. rewrite <- E1, <- E2. destruct (hkSeq _ _ _ _ _ _ _ _ _ _ _ _ _ _ _ _ _ _ _) as [d|e]; cbn; [|reflexivity].
  split; [reflexivity|]. split; [exact E1|exact E2].
Qed.

(** ** Figures do not look at arrival-time entries they have not written *)
(** Two runs of (two) programs from related data: same drawing, same outcome, related data. *)
Definition sim {D A} (P : D -> D -> Prop) (m m' : PM (N:=N) D A) (Q : A -> A -> D -> D -> Prop) (E : D -> D -> Prop) : Prop :=
  forall ev d d', P d d' ->
    let x := m (mkPst ev d) in let x' := m' (mkPst ev d') in
    ps_ev (fst x) = ps_ev (fst x') /\
    match snd x, snd x' with
    | Ok a, Ok a' => Q a a' (ps_d (fst x)) (ps_d (fst x'))
    | Err e, Err e' => e = e' /\ E (ps_d (fst x)) (ps_d (fst x'))
    | _, _ => False
    end.
Lemma sim_bind {D A B} P (m m' : PM D A) Q (f f' : A -> PM D B) Q2 E :
  sim P m m' Q E -> (forall a a', sim (Q a a') (f a) (f' a') Q2 E) -> sim P (pbind m f) (pbind m' f') Q2 E.
Proof.
  intros H1 H2 ev d d' Hp. specialize (H1 ev d d' Hp). cbv zeta in *. unfold pbind.
  destruct (m (mkPst ev d)) as [[e1 d1] [a|x]], (m' (mkPst ev d')) as [[e2 d2] [a'|x']]; cbn [fst snd ps_ev ps_d] in *; try tauto.
  destruct H1 as [-> H1]. apply (H2 a a' e2 d1 d2 H1).
Qed.
Definition keep {D A} (P : D -> D -> Prop) : A -> A -> D -> D -> Prop := fun a a' d d' => a = a' /\ P d d'.
Lemma sim_bind_keep {D A B} (P : D -> D -> Prop) (m m' : PM D A) (f f' : A -> PM D B) Q2 E :
  sim P m m' (keep P) E -> (forall a, sim P (f a) (f' a) Q2 E) -> sim P (pbind m f) (pbind m' f') Q2 E.
Proof.
  intros H1 H2. eapply sim_bind; [exact H1|]. intros a a' ev d d' [-> Hp]. apply (H2 a' ev d d' Hp).
Qed.
Lemma sim_get {D} (P E : D -> D -> Prop) : sim P pget pget (fun a a' d d' => a = d /\ a' = d' /\ P d d') E.
Proof. intros ev d d' H. cbn. auto. Qed.
Lemma sim_get_bind {D A} (P E : D -> D -> Prop) (f f' : D -> PM D A) Q :
  (forall d0 d0', P d0 d0' -> sim P (f d0) (f' d0') Q E) -> sim P (pbind pget f) (pbind pget f') Q E.
Proof. intros H ev d d' Hp. exact (H d d' Hp ev d d' Hp). Qed.
Lemma sim_get_at {D A} (P E : D -> D -> Prop) (f f' : D -> PM D A) Q :
  (forall d0 d0', P d0 d0' -> sim (fun d d' => d = d0 /\ d' = d0') (f d0) (f' d0') Q E) -> sim P (pbind pget f) (pbind pget f') Q E.
Proof. intros H ev d d' Hp. exact (H d d' Hp ev d d' (conj eq_refl eq_refl)). Qed.
Lemma sim_weaken {D A} (P P' : D -> D -> Prop) (m m' : PM D A) (Q Q' : A -> A -> D -> D -> Prop) (E E' : D -> D -> Prop) :
  sim P' m m' Q' E' -> (forall d d', P d d' -> P' d d') -> (forall a a' d d', Q' a a' d d' -> Q a a' d d') -> (forall d d', E' d d' -> E d d') -> sim P m m' Q E.
Proof.
  intros H Hp Hq He ev d d' Pd. specialize (H ev d d' (Hp _ _ Pd)). cbv zeta in *. destruct H as [A1 A2]. split; [exact A1|].
  destruct (snd (m _)), (snd (m' _)); auto. destruct A2; auto.
Qed.
Lemma sim_pre {D A} (P P' : D -> D -> Prop) (m m' : PM D A) Q E : sim P' m m' Q E -> (forall d d', P d d' -> P' d d') -> sim P m m' Q E.
Proof. intros H Hp. eapply sim_weaken; [exact H|exact Hp|auto|auto]. Qed.
Lemma sim_keep {D A} (P P' : D -> D -> Prop) (m m' : PM D A) : sim P m m' (keep P) P -> (forall d d', P d d' -> P' d d') -> sim P m m' (keep P') P'.
Proof. intros H Hp. eapply sim_weaken; [exact H|auto| |exact Hp]. intros a a' d d' [-> K]. split; auto. Qed.
Lemma sim_lift {D A} (P : D -> D -> Prop) (r : res A) : sim P (plift r) (plift r) (keep P) P.
Proof. intros ev d d' H. cbn. destruct r; unfold keep; auto. Qed.
Lemma sim_ret {D A} (P E : D -> D -> Prop) (a : A) : sim P (pret a) (pret a) (keep P) E.
Proof. intros ev d d' H. cbn. unfold keep; auto. Qed.
Lemma sim_emit {D} pyplot (P : D -> D -> Prop) e : sim P (emit pyplot e) (emit pyplot e) (keep P) P.
Proof. intros ev d d' H. unfold emit. cbn. destruct (pyplot ev e); cbn; unfold keep; auto. Qed.
Lemma sim_eq {D A} (m : PM D A) : sim eq m m (keep eq) eq.
Proof. intros ev d d' ->. cbv zeta. split; [reflexivity|]. destruct (m (mkPst ev d')) as [s [a|e]]; cbn; unfold keep; auto. Qed.
Lemma sim_forP {D A B} (P : D -> D -> Prop) l (body : A -> B -> PM D B) :
  (forall x b, sim P (body x b) (body x b) (keep P) P) -> forall b, sim P (forP l body b) (forP l body b) (keep P) P.
Proof.
  intro H. induction l as [|x l IH]; intro b; cbn [forP]; [apply sim_ret|]. apply sim_bind_keep; [apply H|]. intro b'. apply IH.
Qed.
Ltac sims0 := repeat match goal with
  | |- sim _ (pbind _ _) _ _ _ => apply sim_bind_keep
  | |- sim _ (emit _ _) _ _ _ => apply sim_emit
  | |- sim _ (plift _) _ _ _ => apply sim_lift
  | |- sim _ (pret _) _ _ _ => apply sim_ret
  | |- sim _ (forP _ _ _) _ _ _ => apply sim_forP
  | |- sim _ (match ?x with (_, _) => _ end) _ _ _ => destruct x as [[? ?] ?]
  | |- forall _, _ => intro; cbv beta
  end.
Lemma sim_marks3 {D} pyplot (P : D -> D -> Prop) pan ts c g : sim P (marks3 pyplot pan ts c g) (marks3 pyplot pan ts c g) (keep P) P.
Proof. destruct ts as [[a b] e]. unfold marks3. sims0. Qed.
Lemma sim_spans3 {D} pyplot (P : D -> D -> Prop) pan ts sp : sim P (spans3 pyplot pan ts sp) (spans3 pyplot pan ts sp) (keep P) P.
Proof. destruct ts as [[a b] e]. unfold spans3. sims0. Qed.
Lemma sim_panel1 {D} pyplot (P : D -> D -> Prop) stk ib H K : sim P (panel1 pyplot stk ib H K) (panel1 pyplot stk ib H K) (keep P) P.
Proof. unfold panel1. sims0. Qed.
Lemma sim_panel_one {D} pyplot (P : D -> D -> Prop) data t g gain win ts :
  sim P (panel_one pyplot data t g gain win ts) (panel_one pyplot data t g gain win ts) (keep P) P.
Proof. unfold panel_one. sims0. apply sim_marks3. Qed.
Lemma sim_panel_stream {D} pyplot (P : D -> D -> Prop) pan st g gi centre win :
  sim P (panel_stream pyplot pan st g gi centre win) (panel_stream pyplot pan st g gi centre win) (keep P) P.
Proof.
  unfold panel_stream. sims0; [apply sim_marks3|apply sim_spans3].
Qed.
Ltac sims := repeat match goal with
  | |- sim _ (marks3 _ _ _ _ _) _ _ _ => apply sim_marks3
  | |- sim _ (spans3 _ _ _ _) _ _ _ => apply sim_spans3
  | |- sim _ (panel1 _ _ _ _ _) _ _ _ => apply sim_panel1
  | |- sim _ (panel_one _ _ _ _ _ _ _) _ _ _ => apply sim_panel_one
  | |- sim _ (panel_stream _ _ _ _ _ _ _) _ _ _ => apply sim_panel_stream
  | |- sim _ (pbind _ _) _ _ _ => apply sim_bind_keep
  | |- sim _ (emit _ _) _ _ _ => apply sim_emit
  | |- sim _ (plift _) _ _ _ => apply sim_lift
  | |- sim _ (pret _) _ _ _ => apply sim_ret
  | |- sim _ (match ?x with (_, _) => _ end) _ _ _ => destruct x as [[? ?] ?]
  | |- forall _, _ => intro; cbv beta
  end.
Lemma like_len st st' : like st st' -> length st = length st'.
Proof. intro H. rewrite <- (map_length bare st), <- (map_length bare st'). rewrite H. reflexivity. Qed.
Lemma like_cons tr st st' : like (tr :: st) st' -> exists tr' st2, st' = tr' :: st2 /\ bare tr = bare tr' /\ like st st2.
Proof. destruct st' as [|tr' st2]; intro H; [discriminate|]. exists tr', st2. unfold like in *. cbn [map] in H. split; [reflexivity|]. split; [exact (f_equal (hd (bare tr)) H)|exact (f_equal (@tl _) H)]. Qed.
Lemma bare_eq tr tr' : bare tr = bare tr' -> with_hdr tr' (tr_hdr tr) = tr.
Proof. intro H. destruct tr, tr'. cbn in *. injection H as -> -> -> -> -> -> -> -> ->. reflexivity. Qed.
Lemma like_hdr_only st st' : Forall2 hdr_only st st' -> like st st'.
Proof.
  unfold like. induction 1 as [|tr tr' st st' H F IH]; [reflexivity|]. cbn [map]. rewrite IH. f_equal. unfold bare, with_hdr.
  destruct H as (-> & -> & -> & -> & -> & -> & -> & -> & ->). reflexivity.
Qed.
Lemma like_app a b c : like b c -> like (a ++ b) (a ++ c).
Proof. unfold like. intro H. rewrite !map_app, H. reflexivity. Qed.

Section Write.
Context {D : Type} (getS : D -> stream N) (setS : D -> stream N -> D) (Rr : D -> D -> Prop).
Context (get_set : forall d st, getS (setS d st) = st).
Context (Rr_set : forall d d' a b, Rr d d' -> Rr (setS d a) (setS d' b)).
Lemma write_sim_loop km1 times_of l : forall l' i (pre : stream N) ev d d',
  like l l' -> length pre = i -> getS d = pre ++ l -> getS d' = pre ++ l' -> Rr d d' ->
  let x := forP (seq i (length l)) (header_step getS setS km1 times_of) tt (mkPst ev d) in
  let x' := forP (seq i (length l')) (header_step getS setS km1 times_of) tt (mkPst ev d') in
  ps_ev (fst x) = ps_ev (fst x') /\
  match snd x, snd x' with
  | Ok _, Ok _ => Rr (ps_d (fst x)) (ps_d (fst x')) /\ getS (ps_d (fst x)) = getS (ps_d (fst x'))
  | Err e, Err e' => e = e' /\ Rr (ps_d (fst x)) (ps_d (fst x')) /\ like (getS (ps_d (fst x))) (getS (ps_d (fst x')))
  | _, _ => False
  end.
Proof.
  induction l as [|tr l IH]; intros l' i pre ev d d' L Hi E E' HR.
  - destruct l'; [|discriminate]. cbn. split; [reflexivity|]. split; [exact HR|]. congruence.
  - destruct (like_cons _ _ _ L) as (tr' & l2 & -> & Hb & L2). cbn [length seq forP].
    assert (Eg : getitem (getS d) i = Ok tr) by (apply getitem_Ok; rewrite E, nth_error_app2, Hi, Nat.sub_diag by lia; reflexivity).
    assert (Eg' : getitem (getS d') i = Ok tr') by (apply getitem_Ok; rewrite E', nth_error_app2, Hi, Nat.sub_diag by lia; reflexivity).
    assert (Sl : tr_slow tr' = tr_slow tr) by exact (eq_sym (f_equal tr_slow Hb)).
    assert (Sk : tr_slowk tr' = tr_slowk tr) by exact (eq_sym (f_equal tr_slowk Hb)).
    assert (St : forall ts, set_hdr tr' ts = set_hdr tr ts) by (intro ts; exact (eq_sym (f_equal (fun z => set_hdr z ts) Hb))).
    assert (Hs : forall d tr, getitem (getS d) i = Ok tr -> header_step getS setS km1 times_of i tt (mkPst ev d) =
      match times_of (nmul km1 (tr_slow tr)) (tr_slowk tr) with
      | Ok ts => (mkPst ev (setS d (upd (getS d) i (set_hdr tr ts))), Ok tt)
      | Err e => (mkPst ev d, Err e)
      end).
    { intros d0 t0 G. unfold header_step, pbind, pget, plift, pput. cbn [ps_d ps_ev]. rewrite G. destruct (times_of _ _); reflexivity. }
    unfold pbind. rewrite (Hs d tr Eg), (Hs d' tr' Eg'), Sl, Sk.
    destruct (times_of (nmul km1 (tr_slow tr)) (tr_slowk tr)) as [ts|e].
    + assert (U : forall b t2, upd (pre ++ b :: t2) i (set_hdr tr ts) = (pre ++ [set_hdr tr ts]) ++ t2).
      { intros b t2. rewrite <- Hi, upd_app_length, <- app_assoc. reflexivity. }
      apply (IH l2 (S i) (pre ++ [set_hdr tr ts])); [exact L2|rewrite app_length; cbn; lia| | |].
      * rewrite get_set, E. apply U.
      * rewrite get_set, E', St. apply U.
      * apply Rr_set, HR.
    + cbn. split; [reflexivity|]. split; [reflexivity|]. split; [exact HR|]. rewrite E, E'. apply like_app, L.
Qed.
Lemma write_sim km1 times_of :
  sim (fun d d' => Rr d d' /\ like (getS d) (getS d'))
      (write_headers getS setS km1 times_of) (write_headers getS setS km1 times_of)
      (fun _ _ d d' => Rr d d' /\ getS d = getS d') (fun d d' => Rr d d' /\ like (getS d) (getS d')).
Proof.
  intros ev d d' [HR L]. unfold write_headers. cbn [pbind pget ps_d].
  exact (write_sim_loop km1 times_of (getS d) (getS d') 0 [] ev d d' L eq_refl eq_refl eq_refl HR).
Qed.
End Write.
Lemma clip_sim {D} (getT : D -> list (row N)) (setT : D -> list (row N) -> D) (P : D -> D -> Prop) rmneg :
  (forall d d', P d d' -> getT d = getT d') -> (forall d d' t, P d d' -> P (setT d t) (setT d' t)) ->
  sim P (clip_in_place getT setT rmneg) (clip_in_place getT setT rmneg) (keep P) P.
Proof.
  intros Hg Hs ev d d' Hp. rewrite !clip_in_place_eq. cbn. split; [destruct rmneg; reflexivity|]. split; [reflexivity|].
  destruct rmneg; cbn; [|exact Hp]. rewrite (Hg _ _ Hp). apply Hs, Hp.
Qed.

(** ** plothk *)
Definition hk_rest (d d' : hkres N) : Prop := hr_setRF d [] = hr_setRF d' [].
Lemma hk_rest_eq d d' : hk_rest d d' -> hr_RF d = hr_RF d' -> d = d'.
Proof. intros H E. destruct d, d'. cbn in *. injection H as -> -> -> -> -> -> -> -> -> -> -> ->. rewrite E. reflexivity. Qed.
Lemma hk_rest_fields d d' : hk_rest d d' -> hr_stk d = hr_stk d' /\ hr_best d = hr_best d' /\ hr_Vp d = hr_Vp d' /\ hr_stack d = hr_stack d' /\
   hr_AvgSlow d = hr_AvgSlow d' /\ hr_layer d = hr_layer d' /\ hr_staname d = hr_staname d' /\ hr_comp d = hr_comp d' /\ hr_RFStack d = hr_RFStack d' /\
   hr_time d = hr_time d' /\ hr_H d = hr_H d' /\ hr_K d = hr_K d'.
Proof.
  intro H. destruct d, d'. unfold hk_rest in H. cbn in H. injection H as -> -> -> -> -> -> -> -> -> -> -> ->. cbn. repeat split.
Qed.
Lemma hk_rest_set d d' a b : hk_rest d d' -> hk_rest (hr_setRF d a) (hr_setRF d' b).
Proof. intro H. exact H. Qed.
Lemma hk_rest_stk d d' t : hk_rest d d' -> hk_rest (hr_setStk d t) (hr_setStk d' t).
Proof.
  intro H. destruct d, d'. unfold hk_rest in *. cbn in *. injection H as -> -> -> -> -> -> -> -> -> -> -> ->. reflexivity.
Qed.
(** Related dictionaries: equal but for the stream; the streams alike unless stacked. *)
Definition rel_hk (d d' : hkres N) : Prop := hk_rest d d' /\ (hr_stack d = false -> like (hr_RF d) (hr_RF d')).
Lemma rel_hk_refl d : rel_hk d d.
Proof. split; reflexivity. Qed.
Lemma plothk_sim pyplot km1 path g rmneg fmt :
  sim rel_hk (plothk pyplot km1 path g rmneg fmt) (plothk pyplot km1 path g rmneg fmt) (keep rel_hk) rel_hk.
Proof.
  unfold plothk. apply sim_get_at. intros d0 d0' (HR & Hl).
  destruct (hk_rest_fields _ _ HR) as (E1 & E2 & E3 & E4 & E5 & E6 & _).
  rewrite <- E1, <- E2, <- E3, <- E4, <- E5, <- E6. clear E1 E2 E3 E5 E6. destruct (hr_stack d0) eqn:Hs.
  - set (R1 := fun d d' => hk_rest d d' /\ hr_stack d = true).
    apply sim_pre with (P' := R1); [|intros d d' [-> ->]; split; assumption].
    apply sim_keep; [|intros d d' [A B]; split; [exact A|congruence]].
    apply sim_bind_keep; [apply sim_lift|]. intro bm.
    apply sim_bind_keep; [sims|]. intro ts. apply sim_bind_keep.
    { apply clip_sim; [intros d d' (H & _); apply (hk_rest_fields _ _ H)|]. intros d d' t (H & A). split; [apply hk_rest_stk, H|exact A]. }
    intros []. apply sim_get_bind. intros d d' (H & Hs'). destruct (hk_rest_fields _ _ H) as (F1 & F2 & _ & F4 & _ & F6 & F7 & F8 & F9 & F10 & F11 & F12).
    rewrite <- F1, <- F2, <- F4, <- F6, <- F7, <- F8, <- F9, <- F10, <- F11, <- F12, Hs'. sims.
  - set (R1 := fun d d' => hk_rest d d' /\ like (hr_RF d) (hr_RF d')).
    assert (R1_rel : forall d d', R1 d d' -> rel_hk d d') by (intros d d' [A B]; split; auto).
    apply sim_pre with (P' := R1); [|intros d d' [-> ->]; split; auto].
    apply sim_bind_keep; [apply (sim_weaken _ R1 _ _ _ (keep R1) _ R1); auto; apply sim_lift|]. intro bm.
    apply sim_bind with (Q := keep eq).
    { apply sim_bind with (Q := fun _ _ => eq).
      - eapply sim_weaken; [apply (write_sim hr_RF hr_setRF hk_rest (fun _ _ => eq_refl) hk_rest_set)|auto| |exact R1_rel].
        intros a a' d d' [A B]. apply hk_rest_eq; assumption.
      - intros a a'. apply (sim_weaken _ eq _ _ _ (keep eq) _ eq); auto; [apply sim_ret|]. intros d d' ->. apply rel_hk_refl. }
    intros a a' ev d d' [-> ->]. cbv zeta. split; [reflexivity|].
    match goal with |- match snd ?x with _ => _ end => destruct (snd x) as [u|e]; [split; [reflexivity|apply rel_hk_refl]|split; [reflexivity|apply rel_hk_refl]] end.
Qed.

(** ** plotSeqhk *)
Definition sq_rest (d d' : seqres N) : Prop := sr_setMoho (sr_setSed d []) [] = sr_setMoho (sr_setSed d' []) [].
Ltac sq_cases H := unfold sq_rest in H; cbn in H; injection H as -> -> -> -> -> -> -> -> -> -> -> -> -> -> -> -> ->.
Lemma sq_rest_eq d d' : sq_rest d d' -> sr_RFSed d = sr_RFSed d' -> sr_RFMoho d = sr_RFMoho d' -> d = d'.
Proof. intros H E1 E2. destruct d, d'. cbn in *. sq_cases H. rewrite E1, E2. reflexivity. Qed.
Lemma sq_rest_fields d d' : sq_rest d d' ->
  sr_stkSed d = sr_stkSed d' /\ sr_bestSed d = sr_bestSed d' /\ sr_VpSed d = sr_VpSed d' /\ sr_stack d = sr_stack d' /\ sr_AvgSlow d = sr_AvgSlow d' /\
  sr_HSed d = sr_HSed d' /\ sr_KSed d = sr_KSed d' /\ sr_RFSedStack d = sr_RFSedStack d' /\ sr_time d = sr_time d' /\ sr_staname d = sr_staname d' /\
  sr_comp d = sr_comp d' /\ sr_stkMoho d = sr_stkMoho d' /\ sr_bestMoho d = sr_bestMoho d' /\ sr_VpMoho d = sr_VpMoho d' /\
  sr_HMoho d = sr_HMoho d' /\ sr_KMoho d = sr_KMoho d' /\ sr_RFMohoStack d = sr_RFMohoStack d'.
Proof. intro H. destruct d, d'. sq_cases H. cbn. repeat split. Qed.
Lemma sq_rest_sed d d' t : sq_rest d d' -> sq_rest (sr_setStkSed d t) (sr_setStkSed d' t).
Proof. intro H. destruct d, d'. sq_cases H. reflexivity. Qed.
Lemma sq_rest_moho d d' t : sq_rest d d' -> sq_rest (sr_setStkMoho d t) (sr_setStkMoho d' t).
Proof. intro H. destruct d, d'. sq_cases H. reflexivity. Qed.
Definition rel_seq (d d' : seqres N) : Prop :=
  sq_rest d d' /\ (sr_stack d = false -> like (sr_RFSed d) (sr_RFSed d') /\ like (sr_RFMoho d) (sr_RFMoho d')).
Lemma rel_seq_refl d : rel_seq d d.
Proof. split; [reflexivity|]. intros _. split; reflexivity. Qed.
Lemma plotSeqhk_sim pyplot km1 path g rmneg fmt :
  sim rel_seq (plotSeqhk pyplot km1 path g rmneg fmt) (plotSeqhk pyplot km1 path g rmneg fmt) (keep rel_seq) rel_seq.
Proof.
  unfold plotSeqhk. apply sim_get_at. intros d0 d0' (HR & Hl).
  destruct (sq_rest_fields _ _ HR) as (E1 & E2 & E3 & E4 & E5 & _ & _ & _ & _ & _ & _ & _ & _ & E14 & _).
  rewrite <- E1, <- E2. destruct (sr_stack d0) eqn:Hs.
  - set (R1 := fun d d' => sq_rest d d' /\ sr_stack d = true).
    apply sim_pre with (P' := R1); [|intros d d' [-> ->]; split; assumption].
    apply sim_keep; [|intros d d' [A B]; split; [exact A|congruence]].
    apply sim_bind_keep; [apply sim_lift|]. intro bm. rewrite <- E3, <- E4, <- E5.
    apply sim_bind_keep; [sims|]. intro ts. apply sim_bind_keep.
    { apply clip_sim; [intros d d' (H & _); apply (sq_rest_fields _ _ H)|]. intros d d' t (H & A). split; [apply sq_rest_sed, H|exact A]. }
    intros []. apply sim_get_bind. intros d d' (H & Hs').
    destruct (sq_rest_fields _ _ H) as (F1 & F2 & F3 & F4 & F5 & F6 & F7 & F8 & F9 & F10 & F11 & F12 & F13 & F14 & F15 & F16 & F17).
    rewrite <- F1, <- F2, <- F3, <- F4, <- F5, <- F6, <- F7, <- F8, <- F9, <- F10, <- F11, <- F12, <- F13, <- F14, Hs'.
    apply sim_bind_keep; [sims|]. intros []. apply sim_bind_keep; [sims|]. intros []. apply sim_bind_keep; [sims|]. intros [].
    apply sim_bind_keep; [sims|]. intros []. apply sim_bind_keep; [sims|]. intros bm2. apply sim_bind_keep; [sims|]. intros ts2.
    apply sim_bind_keep.
    { apply clip_sim; [intros x x' (Hx & _); apply (sq_rest_fields _ _ Hx)|]. intros x x' t (Hx & A). split; [apply sq_rest_moho, Hx|exact A]. }
    intros []. apply sim_get_bind. intros x x' (Hx & Hxs).
    destruct (sq_rest_fields _ _ Hx) as (G1 & G2 & G3 & G4 & G5 & G6 & G7 & G8 & G9 & G10 & G11 & G12 & G13 & G14 & G15 & G16 & G17).
    rewrite <- G4, <- G9, <- G10, <- G11, <- G12, <- G13, <- G15, <- G16, <- G17, Hxs. sims.
  - set (R1 := fun d d' => sq_rest d d' /\ sr_stack d = false /\ like (sr_RFSed d) (sr_RFSed d') /\ like (sr_RFMoho d) (sr_RFMoho d')).
    set (R2 := fun d d' => sq_rest d d' /\ sr_stack d = false /\ sr_RFSed d = sr_RFSed d' /\ like (sr_RFMoho d) (sr_RFMoho d')).
    assert (R1_rel : forall d d', R1 d d' -> rel_seq d d') by (intros d d' (A & _ & B & C); split; auto).
    assert (R2_rel : forall d d', R2 d d' -> rel_seq d d') by (intros d d' (A & _ & B & C); split; [exact A|]; intros _; split; [rewrite B; reflexivity|exact C]).
    assert (E_rel : forall d d' : seqres N, d = d' -> rel_seq d d') by (intros d d' ->; apply rel_seq_refl).
    apply sim_pre with (P' := R1); [|intros d d' [-> ->]; split; auto].
    apply sim_bind_keep; [apply (sim_weaken _ R1 _ _ _ (keep R1) _ R1); auto; apply sim_lift|]. intro bm. rewrite <- E3, <- E4; try rewrite <- E5.
    apply sim_bind with (Q := keep R2).
    { apply sim_bind with (Q := fun _ _ => R2).
      - eapply sim_weaken; [apply (write_sim sr_RFSed sr_setSed (fun d d' => sq_rest d d' /\ sr_stack d = false /\ like (sr_RFMoho d) (sr_RFMoho d')) (fun _ _ => eq_refl))| | |].
        + intros d d' a b (A & B & C). split; [exact A|]. split; [exact B|exact C].
        + intros d d' (A & B & C & D). auto.
        + intros a a' d d' ((A & B & C) & D). split; auto.
        + intros d d' ((A & B & C) & D). apply R1_rel. split; auto.
      - intros a a'. apply (sim_weaken _ R2 _ _ _ (keep R2) _ R2); auto. apply sim_ret. }
    intros ts ts'. apply sim_pre with (P' := fun d d' => ts = ts' /\ R2 d d'); [|intros d d' K; exact K].
    intros ev d d' [<- HR2]. revert ev d d' HR2.
    match goal with |- forall ev d d', R2 d d' -> let x := ?m (mkPst ev d) in let x' := ?m' (mkPst ev d') in _ => change (sim R2 m m' (keep rel_seq) rel_seq) end.
    assert (K : forall A (m m' : PM (seqres N) A), sim R2 m m' (keep R2) R2 -> sim R2 m m' (keep R2) rel_seq).
    { intros A m m' H. apply (sim_weaken _ R2 _ _ _ (keep R2) _ R2); auto. }
    apply sim_bind_keep.
    { apply K, clip_sim; [intros d d' (H & _); apply (sq_rest_fields _ _ H)|]. intros d d' t (H & A). split; [apply sq_rest_sed, H|exact A]. }
    intros []. apply sim_get_bind. intros d d' (H & Hs' & HS & HM).
    destruct (sq_rest_fields _ _ H) as (F1 & F2 & F3 & F4 & F5 & F6 & F7 & F8 & F9 & F10 & F11 & F12 & F13 & F14 & F15 & F16 & F17).
    rewrite <- F1, <- F2, <- F3, <- F4, <- F5, <- F6, <- F7, <- F8, <- F9, <- F10, <- F11, <- F12, <- F13, <- F14, <- HS, Hs'.
    apply sim_bind_keep; [apply K; sims|]. intros []. apply sim_bind_keep; [apply K; sims|]. intros []. apply sim_bind_keep; [apply K; sims|]. intros [].
    apply sim_bind_keep; [apply K; sims|]. intros []. apply sim_bind_keep; [apply K; sims|]. intros bm2.
    apply sim_bind with (Q := keep eq).
    { apply sim_bind with (Q := fun _ _ => eq).
      - eapply sim_weaken; [apply (write_sim sr_RFMoho sr_setMoho (fun d d' => sq_rest d d' /\ sr_stack d = false /\ sr_RFSed d = sr_RFSed d') (fun _ _ => eq_refl))| | |].
        + intros x x' a b (A & B & C). split; [exact A|]. split; [exact B|exact C].
        + intros x x' (A & B & C & D). auto.
        + intros a a' x x' ((A & B & C) & D). apply sq_rest_eq; assumption.
        + intros x x' ((A & B & C) & D). apply R2_rel. split; auto.
      - intros a a'. apply (sim_weaken _ eq _ _ _ (keep eq) _ eq); auto. apply sim_ret. }
    intros a a' ev x x' [-> ->]. cbv zeta. split; [reflexivity|].
    match goal with |- match snd ?x with _ => _ end => destruct (snd x) as [u|e]; [split; [reflexivity|apply rel_seq_refl]|split; [reflexivity|apply rel_seq_refl]] end.
Qed.

(** ** The session *)
Section Run.
Context (km1 : N) (stackO : stream N -> res (list (trace N))) (draw : list (row N) -> res unit)
        (pyplot : list (pev N) -> pev N -> option exn).
Context (blind : header_blind stackO).

Definition obj_like (h h' : heap N) : Prop := forall a, bare (o_tr (h a)) = bare (o_tr (h' a)).
Definition sees (see : tobj N -> trace N) : Prop := forall o, bare (see o) = bare (o_tr o).
Definition puts (put : tobj N -> trace N -> tobj N) : Prop := forall o tr, bare (o_tr (put o tr)) = bare tr.
Lemma load_like see h h' rf : sees see -> obj_like h h' -> like (load see h rf) (load see h' rf).
Proof.
  intros Hs Ho. unfold like, load. rewrite !map_map. apply map_ext. intro a. rewrite !Hs. apply Ho.
Qed.
Lemma store_like see put rf : sees see -> puts put -> forall st h, like (load see h rf) st -> obj_like (store put rf st h) h.
Proof.
  intros Hs Hp. induction rf as [|a rf IH]; intros st h L; [destruct st; intro; reflexivity|].
  destruct (like_cons _ _ _ L) as (tr & st2 & -> & Hb & L2). cbn [store].
  assert (O1 : obj_like (set_obj h a (put (h a) tr)) h).
  { intro b. unfold set_obj. destruct (Nat.eqb_spec b a) as [->|]; [|reflexivity]. rewrite Hp, <- Hb, Hs. reflexivity. }
  intro b. etransitivity; [apply IH|apply O1]. unfold like. etransitivity; [apply (load_like see _ h rf Hs O1)|exact L2].
Qed.
Lemma sees_hk : sees see_hk. Proof. intro o; reflexivity. Qed.
Lemma sees_sed : sees see_sed. Proof. intro o; reflexivity. Qed.
Lemma sees_moho : sees see_moho. Proof. intro o; reflexivity. Qed.
Lemma puts_hk : puts put_hk. Proof. intros o tr; reflexivity. Qed.
Lemma puts_sed : puts put_sed. Proof. intros o tr; reflexivity. Qed.
Lemma puts_moho : puts put_moho. Proof. intros o tr; reflexivity. Qed.

Lemma hk_fields st preonset H K Vp w1 w2 w3 layer stack d : hk km1 stackO draw st preonset H K Vp w1 w2 w3 layer stack = Ok d ->
  hr_RF d = st /\ hr_stack d = dflt stack false.
Proof.
  unfold hk. intro E. apply bind_Ok_inv in E as (a & _ & E). apply bind_Ok_inv in E as (b & _ & E). apply bind_Ok_inv in E as (c & _ & E).
  apply bind_Ok_inv in E as (st1 & _ & E). destruct st1 as [[stk z] q]. apply bind_Ok_inv in E as (ib & _ & E). apply bind_Ok_inv in E as (u & _ & E).
  injection E as <-. split; reflexivity.
Qed.
Lemma hkSeq_fields sed moho preonset HS KS VpS w1S w2S w3S HM KM VpM w1M w2M w3M stack d :
  hkSeq km1 stackO draw sed moho preonset HS KS VpS w1S w2S w3S HM KM VpM w1M w2M w3M stack = Ok d ->
  sr_RFSed d = sed /\ sr_RFMoho d = moho /\ sr_stack d = dflt stack false.
Proof.
  unfold hkSeq. intro E. do 5 (apply bind_Ok_inv in E as (? & _ & E)).
  apply bind_Ok_inv in E as (st1 & _ & E). destruct st1 as [[stk z] q]. do 3 (apply bind_Ok_inv in E as (? & _ & E)).
  apply bind_Ok_inv in E as (st2 & _ & E). destruct st2 as [[stk2 z2] q2]. do 3 (apply bind_Ok_inv in E as (? & _ & E)).
  injection E as <-. repeat split.
Qed.

(** A result of the session and the same result with its own copy of the traces *)
Definition rel_res (used : list nat) (h : heap N) (r : result N) (o : own) : Prop :=
  match r, o with
  | RHk rf d, OwnHk d' => hk_rest d d' /\ (hr_stack d = false -> incl rf used /\ like (load see_hk h rf) (hr_RF d'))
  | RSeq sed moho d, OwnSeq d' => sq_rest d d' /\
      (sr_stack d = false -> incl sed used /\ incl moho used /\ like (load see_sed h sed) (sr_RFSed d') /\ like (load see_moho h moho) (sr_RFMoho d'))
  | _, _ => False
  end.
Lemma rel_res_objs used used' h h' r o : incl used used' -> (forall a, In a used -> bare (o_tr (h a)) = bare (o_tr (h' a))) -> rel_res used h r o -> rel_res used' h' r o.
Proof.
  intros Hu Ho. assert (L : forall see rf st, sees see -> incl rf used -> like (load see h rf) st -> like (load see h' rf) st).
  { intros see rf st Hs Hi Hl. unfold like in *. rewrite <- Hl. unfold load. rewrite !map_map. apply map_ext_in. intros a Ha. rewrite !Hs. symmetry. apply Ho, Hi, Ha. }
  destruct r as [rf d|sed moho d], o as [d'|d']; cbn; try tauto.
  - intros (A & B). split; [exact A|]. intro S. destruct (B S) as (C & E). split; [eapply incl_tran; eassumption|]. apply L; auto using sees_hk.
  - intros (A & B). split; [exact A|]. intro S. destruct (B S) as (C & C2 & E & E2). repeat split; try (eapply incl_tran; eassumption); apply L; auto using sees_sed, sees_moho.
Qed.
Lemma F2_upd {A B} (R : A -> B -> Prop) l l' i a b : Forall2 R l l' -> R a b -> Forall2 R (upd l i a) (upd l' i b).
Proof. intros F Hr. revert i. induction F as [|x y l l' Hx F IH]; intros [|i]; cbn; constructor; auto. Qed.
Lemma F2_nth {A B} (R : A -> B -> Prop) l l' i : Forall2 R l l' ->
  match nth_error l i, nth_error l' i with Some a, Some b => R a b | None, None => True | _, _ => False end.
Proof. intros F. revert i. induction F as [|x y l l' Hx F IH]; intros [|i]; cbn; auto. apply IH. Qed.
Lemma F2_imp {A B} (R R' : A -> B -> Prop) l l' : (forall a b, R a b -> R' a b) -> Forall2 R l l' -> Forall2 R' l l'.
Proof. intros H F. induction F; constructor; auto. Qed.

Lemma session_sim ops : forall used h rs objs os,
  careful used ops -> (forall a, bare (o_tr (h a)) = bare (objs a)) -> Forall2 (rel_res used h) rs os ->
  Forall2 same_out (session km1 stackO draw pyplot (h, rs) ops) (separate km1 stackO draw pyplot objs os ops).
Proof.
  induction ops as [|o ops IH]; intros used h rs objs os Hc Ho Hr; [constructor|].
  assert (Ll : forall see rf, sees see -> like (load see h rf) (map objs rf)).
  { intros see rf Hs. unfold like, load. rewrite !map_map. apply map_ext. intro a. rewrite Hs. apply Ho. }
  destruct o as [rf po H K Vp w1 w2 w3 layer stack|sed moho po HS KS VpS w1S w2S w3S HM KM VpM w1M w2M w3M stack|r path g rmneg fmt|a tr];
    cbn [session step separate]; cbv zeta.
  - pose proof (hk_like km1 stackO draw _ _ po H K Vp w1 w2 w3 layer stack blind (Ll see_hk rf sees_hk)) as E.
    cbn [careful] in Hc. set (used' := match stack with Some true => used | _ => rf ++ used end) in Hc.
    assert (Iu : incl used used') by (unfold used'; destruct stack as [[|]|]; try apply incl_refl; apply incl_appr, incl_refl).
    assert (F0 : Forall2 (rel_res used' h) rs os) by (eapply F2_imp; [|exact Hr]; intros x y; apply rel_res_objs; auto).
    destruct (hk km1 stackO draw (load see_hk h rf) po H K Vp w1 w2 w3 layer stack) as [d|e] eqn:E1,
             (hk km1 stackO draw (map objs rf) po H K Vp w1 w2 w3 layer stack) as [d'|e'] eqn:E2; cbn in E; try contradiction.
    + constructor; [exact E|]. eapply IH; [exact Hc|exact Ho|]. apply Forall2_app; [exact F0|]. constructor; [|constructor].
      destruct E as [Ea Eb]. destruct (hk_fields _ _ _ _ _ _ _ _ _ _ _ E1) as [R1 S1]. destruct (hk_fields _ _ _ _ _ _ _ _ _ _ _ E2) as [R2 S2].
      cbn. split; [exact Ea|]. rewrite S1, R2. intro S. split; [|apply Ll, sees_hk].
      unfold used'. destruct stack as [[|]|]; try discriminate; apply incl_appl, incl_refl.
    + subst e'. constructor; [reflexivity|]. eapply IH; [exact Hc|exact Ho|exact F0].
  - pose proof (hkSeq_like km1 stackO draw _ _ _ _ po HS KS VpS w1S w2S w3S HM KM VpM w1M w2M w3M stack blind (Ll see_sed sed sees_sed) (Ll see_moho moho sees_moho)) as E.
    cbn [careful] in Hc. set (used' := match stack with Some true => used | _ => sed ++ moho ++ used end) in Hc.
    assert (Iu : incl used used') by (unfold used'; destruct stack as [[|]|]; try apply incl_refl; apply incl_appr, incl_appr, incl_refl).
    assert (F0 : Forall2 (rel_res used' h) rs os) by (eapply F2_imp; [|exact Hr]; intros x y; apply rel_res_objs; auto).
    destruct (hkSeq km1 stackO draw (load see_sed h sed) (load see_moho h moho) po HS KS VpS w1S w2S w3S HM KM VpM w1M w2M w3M stack) as [d|e] eqn:E1,
             (hkSeq km1 stackO draw (map objs sed) (map objs moho) po HS KS VpS w1S w2S w3S HM KM VpM w1M w2M w3M stack) as [d'|e'] eqn:E2; cbn in E; try contradiction.
    + constructor; [exact E|]. eapply IH; [exact Hc|exact Ho|]. apply Forall2_app; [exact F0|]. constructor; [|constructor].
      destruct E as [Ea Eb]. apply hkSeq_fields in E1 as (R1 & Q1 & S1). apply hkSeq_fields in E2 as (R2 & Q2 & S2).
      cbn. split; [exact Ea|]. rewrite S1, R2, Q2. intro S.
      assert (U : used' = sed ++ moho ++ used) by (unfold used'; destruct stack as [[|]|]; try discriminate; reflexivity). rewrite U.
      split; [apply incl_appl, incl_refl|]. split; [apply incl_appr, incl_appl, incl_refl|]. split; [apply Ll, sees_sed|apply Ll, sees_moho].
    + subst e'. constructor; [reflexivity|]. eapply IH; [exact Hc|exact Ho|exact F0].
  - pose proof (F2_nth _ _ _ r Hr) as En. destruct (nth_error rs r) as [[rf d|sed moho d]|], (nth_error os r) as [[d'|d']|]; try contradiction.
    + cbn in En. destruct En as [Ea Eb].
      assert (Hrel : rel_hk (hr_setRF d (load see_hk h rf)) d').
      { split; [exact Ea|]. cbn. intro S. apply (Eb S). }
      pose proof (plothk_sim pyplot km1 path g rmneg fmt [] _ _ Hrel) as P. cbv zeta in P.
      destruct (plothk pyplot km1 path g rmneg fmt (mkPst [] (hr_setRF d (load see_hk h rf)))) as [s x] eqn:E1.
      destruct (plothk pyplot km1 path g rmneg fmt (mkPst [] d')) as [s' x'] eqn:E2. cbn [fst snd] in P. destruct P as [Pe Px].
      assert (Q : x = x' /\ rel_hk (ps_d s) (ps_d s')) by (destruct x, x'; unfold keep in Px; try contradiction; destruct Px; split; congruence || assumption).
      destruct Q as [<- [Qa Qb]]. constructor; [split; [exact Pe|reflexivity]|].
      pose proof (C11_plothk_result N pyplot km1 path g rmneg fmt _ _ _ E1) as (Sr & Fh & _). cbn [ps_d] in Sr, Fh.
      assert (Lk : like (load see_hk h rf) (hr_RF (ps_d s))) by (apply like_hdr_only; exact Fh).
      pose proof (store_like see_hk put_hk rf sees_hk puts_hk _ h Lk) as Os.
      eapply IH; [exact Hc|intro b; etransitivity; [apply Os|apply Ho]|].
      apply F2_upd; [eapply F2_imp; [|exact Hr]; intros y z; apply rel_res_objs; [apply incl_refl|]; intros b _; symmetry; apply Os|].
      assert (St : hr_stack (ps_d s) = hr_stack d) by apply Sr.
      cbn. split; [exact Qa|]. intro S. rewrite St in S. split; [apply (Eb S)|].
      unfold like. etransitivity; [apply (load_like see_hk _ h rf sees_hk Os)|]. etransitivity; [exact Lk|]. apply Qb. rewrite St. exact S.
    + cbn in En. destruct En as [Ea Eb].
      assert (Hrel : rel_seq (sr_setMoho (sr_setSed d (load see_sed h sed)) (load see_moho h moho)) d').
      { split; [exact Ea|]. cbn. intro S. destruct (Eb S) as (_ & _ & A & B). split; assumption. }
      pose proof (plotSeqhk_sim pyplot km1 path g rmneg fmt [] _ _ Hrel) as P. cbv zeta in P.
      destruct (plotSeqhk pyplot km1 path g rmneg fmt (mkPst [] (sr_setMoho (sr_setSed d (load see_sed h sed)) (load see_moho h moho)))) as [s x] eqn:E1.
      destruct (plotSeqhk pyplot km1 path g rmneg fmt (mkPst [] d')) as [s' x'] eqn:E2. cbn [fst snd] in P. destruct P as [Pe Px].
      assert (Q : x = x' /\ rel_seq (ps_d s) (ps_d s')) by (destruct x, x'; unfold keep in Px; try contradiction; destruct Px; split; congruence || assumption).
      destruct Q as [<- [Qa Qb]]. constructor; [split; [exact Pe|reflexivity]|].
      pose proof (C80_plotSeqhk_result N pyplot km1 path g rmneg fmt _ _ _ E1) as (Sr & F1 & F2 & _). cbn [ps_d] in Sr, F1, F2.
      assert (L1 : like (load see_sed h sed) (sr_RFSed (ps_d s))) by (apply like_hdr_only; exact F1).
      assert (L2 : like (load see_moho h moho) (sr_RFMoho (ps_d s))) by (apply like_hdr_only; exact F2).
      pose proof (store_like see_sed put_sed sed sees_sed puts_sed _ h L1) as O1.
      assert (L2' : like (load see_moho (store put_sed sed (sr_RFSed (ps_d s)) h) moho) (sr_RFMoho (ps_d s))).
      { unfold like. etransitivity; [apply (load_like see_moho _ h moho sees_moho O1)|exact L2]. }
      pose proof (store_like see_moho put_moho moho sees_moho puts_moho _ _ L2') as O2.
      assert (Os : obj_like (store put_moho moho (sr_RFMoho (ps_d s)) (store put_sed sed (sr_RFSed (ps_d s)) h)) h).
      { intro b. etransitivity; [apply O2|apply O1]. }
      eapply IH; [exact Hc|intro b; etransitivity; [apply Os|apply Ho]|].
      apply F2_upd; [eapply F2_imp; [|exact Hr]; intros y z; apply rel_res_objs; [apply incl_refl|]; intros b _; symmetry; apply Os|].
      assert (St : sr_stack (ps_d s) = sr_stack d) by apply Sr.
      cbn. split; [exact Qa|]. intro S. rewrite St in S. destruct (Eb S) as (I1 & I2 & _). split; [exact I1|]. split; [exact I2|].
      rewrite <- St in S. destruct (Qb S) as [Q1 Q2]. split.
      * unfold like. etransitivity; [apply (load_like see_sed _ h sed sees_sed Os)|]. etransitivity; [exact L1|]. exact Q1.
      * unfold like. etransitivity; [apply (load_like see_moho _ h moho sees_moho Os)|]. etransitivity; [exact L2|]. exact Q2.
    + constructor; [split; reflexivity|]. eapply IH; [exact Hc|exact Ho|exact Hr].
  - destruct Hc as [Hn Hc]. constructor; [exact I|]. eapply IH; [exact Hc| |].
    + intro b. unfold set_obj. destruct (b =? a); [reflexivity|apply Ho].
    + eapply F2_imp; [|exact Hr]. intros x y. apply rel_res_objs; [apply incl_refl|]. intros b Hb. unfold set_obj.
      destruct (Nat.eqb_spec b a) as [->|]; [contradiction|reflexivity].
Qed.

(** C126: as long as the caller changes in place no trace that an unstacked analysis has
    used, every analysis and every figure is what it would be had each analysis taken its
    own copy of the traces: results sharing traces do not disturb each other, and figures do
    not disturb later analyses. *)
Theorem C126_shared h ops : careful [] ops ->
  Forall2 same_out (session km1 stackO draw pyplot (h, []) ops) (separate km1 stackO draw pyplot (fun a => o_tr (h a)) [] ops).
Proof. intro Hc. eapply session_sim; [exact Hc|reflexivity|constructor]. Qed.
(** In particular for a caller who changes no trace, or who only stacks. *)
Theorem C126_hands_off h ops : Forall (fun o => ~ is_edit o) ops \/ Forall stacked ops ->
  Forall2 same_out (session km1 stackO draw pyplot (h, []) ops) (separate km1 stackO draw pyplot (fun a => o_tr (h a)) [] ops).
Proof.
  intro H. apply C126_shared. destruct H as [H|H].
  - generalize (@nil nat). induction H as [|o ops Ho H IH]; intro used; [exact I|]. destruct o; cbn in *; auto; contradiction (Ho I).
  - induction H as [|o ops Ho H IH]; [exact I|]. destruct o; cbn in *; subst; auto.
Qed.
End Run.
(** C126: analyses and figures leave every trace as it was but for arrival-time entries. *)
Theorem C126_waveforms km1 stackO draw pyplot h rs ops : Forall (fun o => ~ is_edit o) ops ->
  forall a, bare (o_tr (objects_after km1 stackO draw pyplot (h, rs) ops a)) = bare (o_tr (h a)).
Proof.
  revert h rs. induction ops as [|o ops IH]; intros h rs H a; [reflexivity|]. inversion H as [|? ? Ho H']; subst. cbn [objects_after].
  destruct (step km1 stackO draw pyplot (h, rs) o) as [[h1 rs1] x] eqn:E. cbn [fst]. rewrite (IH h1 rs1 H' a). clear IH H H'.
  revert a. change (obj_like h1 h).
  destruct o as [rf po Hh K Vp w1 w2 w3 layer stack|sed moho po HS KS VpS w1S w2S w3S HM KM VpM w1M w2M w3M stack|r path g rmneg fmt|a tr]; cbn [step] in E.
  - destruct (hk _ _ _ _ _ _ _ _ _ _ _ _ _); apply (f_equal (fun z => fst (fst z))) in E; cbn [fst snd] in E; subst h1; intro; reflexivity.
  - destruct (hkSeq _ _ _ _ _ _ _ _ _ _ _ _ _ _ _ _ _ _ _); apply (f_equal (fun z => fst (fst z))) in E; cbn [fst snd] in E; subst h1; intro; reflexivity.
  - destruct (nth_error rs r) as [[rf d|sed moho d]|]; [| |apply (f_equal (fun z => fst (fst z))) in E; cbn [fst snd] in E; subst h1; intro; reflexivity].
    + destruct (plothk pyplot km1 path g rmneg fmt (mkPst [] (hr_setRF d (load see_hk h rf)))) as [s y] eqn:E1.
      pose proof (C11_plothk_result N pyplot km1 path g rmneg fmt _ _ _ E1) as (_ & Fh & _). try rewrite E1 in E. apply (f_equal (fun z => fst (fst z))) in E; cbn [fst snd] in E; subst h1.
      apply (store_like see_hk put_hk rf sees_hk puts_hk). apply like_hdr_only. exact Fh.
    + destruct (plotSeqhk pyplot km1 path g rmneg fmt (mkPst [] (sr_setMoho (sr_setSed d (load see_sed h sed)) (load see_moho h moho)))) as [s y] eqn:E1.
      pose proof (C80_plotSeqhk_result N pyplot km1 path g rmneg fmt _ _ _ E1) as (_ & F1 & F2 & _). try rewrite E1 in E. apply (f_equal (fun z => fst (fst z))) in E; cbn [fst snd] in E; subst h1.
      pose proof (store_like see_sed put_sed sed sees_sed puts_sed _ h (like_hdr_only _ _ F1)) as O1.
      intro b. etransitivity; [|apply O1]. apply (store_like see_moho put_moho moho sees_moho puts_moho).
      unfold like. etransitivity; [apply (load_like see_moho _ h moho sees_moho O1)|]. exact (like_hdr_only _ _ F2).
  - contradiction (Ho I).
Qed.
End Session.

Lemma Forall2_nth_d {A B} (R : A -> B -> Prop) l l' a b : R a b -> forall i, Forall2 R l l' -> R (nth i l a) (nth i l' b).
Proof. intros Hd i F. revert i. induction F as [|x y l l' Hxy F IH]; intros [|i]; cbn; auto. Qed.

(** ** A session in double precision *)
From Coq Require Import Floats.SpecFloat.
From Verif Require Import P_Hk2.

Definition s_tr (a : Z) : trace B64 :=
  mkTrace (N := B64) [z64 0; z64 a; z64 1; z64 0; z64 0; z64 0; z64 0; z64 0] (z64 1) (nlit 6 100) PyF (z64 0) (z64 90) (z64 60) "STA" "HHR" None.
Definition s_stack (st : stream B64) : res (list (trace B64)) := match st with [] => Ok [] | tr :: _ => Ok [bare tr] end.
Definition s_pyplot (_ : list (pev B64)) (_ : pev B64) : option exn := None.
Definition s_draw (_ : list (row B64)) : res unit := Ok tt.
Definition s_heap : heap B64 := fun a => mkTobj (s_tr (Z.of_nat a + 2)) None None.
Definition s_hk (rf : list nat) : op B64 := AHk rf (z64 0) [z64 30; z64 31] [nlit 17 10] (Some (nlit 65 10)) None None None None (Some false).
Definition s_seq : op B64 :=
  ASeq [0] [0; 1] (z64 0) [z64 1; z64 2] [nlit 2 1] (Some (nlit 3 1)) None None None
       [z64 30; z64 31] [nlit 17 10] (Some (nlit 65 10)) (Some (nlit 6 10)) (Some (nlit 3 10)) (Some (nlit 1 10)) (Some false).
Definition s_plot (r : nat) : op B64 := Plot r "out" None None None.
(** Two analyses share the traces 0 and 1, figures in between; trace 2 is changed freely. *)
Definition s_ops : list (op B64) := [s_hk [0; 1]; s_plot 0; Edit 2 (s_tr 7); s_seq; s_plot 1; s_plot 0; s_hk [2]; s_plot 2].
Definition s_outs := session (z64 1) s_stack s_draw s_pyplot (s_heap, []) s_ops.
(** every step succeeds; number of curves of its figure *)
Definition lines (ev : list (pev B64)) : list (list B64) := flat_map (fun e => match e with ELine _ _ y => [y] | _ => [] end) ev.
Definition went (o : out B64) : option nat :=
  match o with OHk (Ok _) => Some 0 | OSeq (Ok _) => Some 0 | OPlot ev (Ok _) => Some (length (lines ev)) | ONone => Some 0 | _ => None end.
Lemma s_stack_blind : header_blind s_stack.
Proof.
  intros [|a st] [|b st'] H; try discriminate; [reflexivity|]. apply (f_equal (hd (bare a))) in H. cbn [map hd] in H.
  unfold like. cbn [s_stack like_res map]. rewrite H. reflexivity.
Qed.
Theorem C126_example :
  header_blind s_stack /\ careful [] s_ops /\
  map went s_outs = [Some 0; Some 4; Some 0; Some 0; Some 6; Some 4; Some 0; Some 2] /\
  Forall2 same_out s_outs (separate (z64 1) s_stack s_draw s_pyplot (fun a => o_tr (s_heap a)) [] s_ops).
Proof.
  assert (C : careful [] s_ops). { cbn. split; [|exact I]. intuition congruence. }
  split; [exact s_stack_blind|]. split; [exact C|]. split; [vm_compute; reflexivity|].
  apply (C126_shared (z64 1) s_stack s_draw s_pyplot s_stack_blind s_heap s_ops C).
Qed.

(** ** C127: the figure need not show the data the result was computed from *)
(** Trace 0 is analysed on its own, then changed in place (its peak from 2 to 5), then the
    result is drawn. *)
Definition e_ops : list (op B64) := [s_hk [0]; Edit 0 (s_tr 5); s_plot 0].
Definition e_outs := session (z64 1) s_stack s_draw s_pyplot (s_heap, []) e_ops.
Definition e_want := separate (z64 1) s_stack s_draw s_pyplot (fun a => o_tr (s_heap a)) [] e_ops.
(** The peak of the first curve of a figure: back azimuth 90 plus 75 times the sample. *)
Definition peak_is (v : Z) (o : out B64) : bool :=
  match o with OPlot ev (Ok _) => SFeqb (nth 1 (nth 0 (lines ev) []) (z64 0)) (z64 (90 + 75 * v)) | _ => false end.
Lemma peak_same v x y : same_out x y -> peak_is v x = true -> peak_is v y = true.
Proof.
  destruct x; try discriminate. destruct y; try contradiction. intros [-> ->] H. exact H.
Qed.
Theorem C127_refuted :
  exists (km1 : B64) stackO draw pyplot (h : heap B64) ops,
    header_blind stackO /\ (forall st, draw st = Ok tt) /\ (forall ev e, pyplot ev e = None) /\
    ~ Forall2 same_out (session km1 stackO draw pyplot (h, []) ops)
                       (separate km1 stackO draw pyplot (fun a => o_tr (h a)) [] ops).
Proof.
  exists (z64 1), s_stack, s_draw, s_pyplot, s_heap, e_ops. split; [exact s_stack_blind|]. do 2 (split; [reflexivity|]). intro H.
  fold e_outs e_want in H.
  assert (A : peak_is 5 (nth 2 e_outs ONone) = true) by (vm_compute; reflexivity).
  assert (B : peak_is 5 (nth 2 e_want ONone) = false) by (vm_compute; reflexivity).
  rewrite (peak_same 5 _ _ (Forall2_nth_d _ _ _ ONone ONone I 2 H) A) in B. discriminate.
Qed.
(** The figure drawn shows the changed sample, and the session with separate copies the
    sample the result was computed from. *)
Theorem C127_witness :
  map went e_outs = [Some 0; Some 0; Some 2] /\ map went e_want = [Some 0; Some 0; Some 2] /\
  peak_is 5 (nth 2 e_outs ONone) = true /\ peak_is 2 (nth 2 e_want ONone) = true.
Proof. split; [vm_compute; reflexivity|]. split; [vm_compute; reflexivity|]. split; vm_compute; reflexivity. Qed.
