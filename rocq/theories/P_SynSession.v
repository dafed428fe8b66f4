(** * P_SynSession: synrf objects and in-place changes of the caller's arrays (C128, C129). *)

From Coq Require Import Reals Lra.
From Verif Require Import Base Num NumPy Cplx Mat4 SpecElastic SpecSignal DFT ReverbModel DeconModel HaskellModel SynModel P_Haskell P_Haskell2 P_Syn SynSessionModel.
Local Open Scope R_scope.

Section Any.
Variable bp : R -> R -> R -> nat -> bool -> list R -> res (list R).

(** Specification: every object owns copies of the arrays as they were when it was made. *)
Fixpoint separate (h : arrays) (objs : list synobj) (ops : list op) : list out :=
  match ops with
  | [] => []
  | New d v s r rp dt npts ipha :: ops' =>
      match syn_init (h d) (h v) (h s) (h r) (ray_value h rp) dt npts ipha with
      | Ok o => ONew (Ok tt) :: separate h (objs ++ [o]) ops'
      | Err e => ONew (Err e) :: separate h objs ops'
      end
  | Call i c :: ops' =>
      match nth_error objs i with
      | None => ONoObject :: separate h objs ops'
      | Some o => let '(o', r) := do_call bp o c in
                  OCall r (s_rstream o') (s_zstream o') :: separate h (upd objs i o') ops'
      end
  | Change a l :: ops' => ONone :: separate (fun b => if Nat.eqb b a then l else h b) objs ops'
  end.

Definition refs (rp : rayref) : list nat := match rp with RayList a | RayArray a => [a] | _ => [] end.
(** The caller changes no array that was the vp, vs, rho or rayp of an earlier object
    ([used]); depth arrays may be changed. *)
Fixpoint careful (used : list nat) (ops : list op) : Prop :=
  match ops with
  | [] => True
  | New _ v s r rp _ _ _ :: ops' => careful (v :: s :: r :: refs rp ++ used) ops'
  | Call _ _ :: ops' => careful used ops'
  | Change a _ :: ops' => ~ In a used /\ careful used ops'
  end.

(** *** Simulation *)
Definition holds (used : list nat) (s : sref) : Prop :=
  In (f_vp s) used /\ In (f_vs s) used /\ In (f_rho s) used /\ match f_rayp s with Some a => In a used | None => True end.
Definition owned (used : list nat) (h : arrays) (s : sref) (o : synobj) : Prop := holds used s /\ view h s = o.

Lemma owned_weaken used used' h s o : (forall a, In a used -> In a used') -> owned used h s o -> owned used' h s o.
Proof.
  intros I [(A & B & C & D) E]. split; [|exact E]. unfold holds. destruct (f_rayp s); auto 6.
Qed.
Lemma view_change used h s a l : holds used s -> ~ In a used -> view (set_arr h a l) s = view h s.
Proof.
  intros (A & B & C & D) N. unfold view, set_arr.
  assert (K : forall b, In b used -> Nat.eqb b a = false) by (intros b Hb; apply Nat.eqb_neq; intros ->; contradiction).
  rewrite (K _ A), (K _ B), (K _ C). destruct (f_rayp s) as [b|]; [rewrite (K _ D)|]; reflexivity.
Qed.
Lemma view_keep h s c o' r : do_call bp (view h s) c = (o', r) -> view h (keep_streams s o') = o'.
Proof.
  intro E. pose proof (do_call_params bp (view h s) c) as P. rewrite E in P. cbn [fst] in P.
  destruct o' as [a1 a2 a3 a4 a5 a6 a7 a8 a9 a10]. unfold params in P. injection P. intros.
  cbn [view s_vp s_vs s_rho s_dt s_npts s_thickness s_rayp s_ipha s_rstream s_zstream] in *. subst.
  unfold view, keep_streams, with_streams. cbn. destruct (f_rayp s); reflexivity.
Qed.
Lemma F2_upd {A B} (P : A -> B -> Prop) l l' i a b : Forall2 P l l' -> P a b -> Forall2 P (upd l i a) (upd l' i b).
Proof. intros F H. revert i. induction F; intros [|i]; cbn; constructor; auto. Qed.
Lemma F2_nth {A B} (P : A -> B -> Prop) l l' i : Forall2 P l l' ->
  match nth_error l i, nth_error l' i with Some a, Some b => P a b | None, None => True | _, _ => False end.
Proof. intro F. revert i. induction F; intros [|i]; cbn; auto. apply IHF. Qed.

Lemma session_sim used h objs os ops : careful used ops -> Forall2 (owned used h) objs os ->
  session bp (h, objs) ops = separate h os ops.
Proof.
  revert used h objs os. induction ops as [|o ops IH]; intros used h objs os Hc Hr; [reflexivity|].
  destruct o as [d v s r rp dt npts ipha|i c|a l]; cbn [careful] in Hc; cbn [session separate step].
  - destruct (syn_init (h d) (h v) (h s) (h r) (ray_value h rp) dt npts ipha) as [o|e] eqn:E.
    + f_equal. eapply IH; [exact Hc|]. apply Forall2_app.
      * eapply Base.Forall2_imp; [|exact Hr]. intros x y. apply owned_weaken. intros b Hb. do 3 right. apply in_or_app. right. exact Hb.
      * constructor; [|constructor]. split.
        -- unfold holds. cbn. repeat split; auto 6. destruct rp; cbn; auto.
        -- unfold view. cbn. destruct rp; cbn in E |- *; try discriminate; injection E as <-; reflexivity.
    + f_equal. eapply IH; [exact Hc|]. eapply Base.Forall2_imp; [|exact Hr]. intros x y. apply owned_weaken. intros b Hb. do 3 right. apply in_or_app. right. exact Hb.
  - pose proof (F2_nth _ _ _ i Hr) as Q. destruct (nth_error objs i) as [s|], (nth_error os i) as [o|]; try contradiction.
    + destruct Q as [Hh Hv]. rewrite <- Hv. destruct (do_call bp (view h s) c) as [o' r] eqn:E.
      f_equal. eapply IH; [exact Hc|]. apply F2_upd; [exact Hr|]. split; [exact Hh|]. eapply view_keep. exact E.
    + f_equal. eapply IH; eassumption.
  - destruct Hc as [Hn Hc]. f_equal. eapply IH; [exact Hc|]. eapply Base.Forall2_imp; [|exact Hr].
    intros x y [Hh Hv]. split; [exact Hh|]. rewrite <- Hv. apply (view_change used); assumption.
Qed.

(** C128: as long as the caller changes in place no vp, vs, rho or rayp of an existing
    object, any number of objects made from shared arrays behave as if each had copied its
    arguments: no call of a method disturbs another object, and a depth array may be
    changed freely. *)
Theorem C128_shared h ops : careful [] ops -> session bp (h, []) ops = separate h [] ops.
Proof. intro Hc. eapply session_sim; [exact Hc|constructor]. Qed.
Theorem C128_hands_off h ops : (forall a l, ~ In (Change a l) ops) -> session bp (h, []) ops = separate h [] ops.
Proof.
  intro H. apply C128_shared. generalize (@nil nat). induction ops as [|o ops IH]; intro used; [exact I|].
  assert (K : forall a l, ~ In (Change a l) ops) by (intros a l Q; apply (H a l); right; exact Q).
  destruct o as [d v s r rp dt npts ipha|i c|a l]; cbn; try (apply IH; exact K). exfalso. apply (H a l). left. reflexivity.
Qed.

(** *** What a change does (exactly) *)
(** The number of ray parameters the object sees. *)
Definition rays (h : arrays) (s : sref) : nat := length (s_rayp (view h s)).
Lemma syn_filter_ext h h' s fa : rays h s = rays h' s ->
  let '(o, r) := syn_filter bp (view h s) fa in let '(o', r') := syn_filter bp (view h' s) fa in
  s_rstream o = s_rstream o' /\ s_zstream o = s_zstream o' /\ length (s_rayp o) = length (s_rayp o') /\ r = r'.
Proof.
  intro L. unfold rays in L. unfold syn_filter.
  assert (E1 : s_rstream (view h s) = s_rstream (view h' s)) by reflexivity.
  assert (E2 : s_zstream (view h s) = s_zstream (view h' s)) by reflexivity.
  destruct fa; rewrite ?E1, ?E2; try (cbn; auto; fail).
  all: destruct (s_rstream (view h' s)) as [rs|] eqn:R, (s_zstream (view h' s)) as [zs|] eqn:Z; try (rewrite ?E1, ?E2, ?R, ?Z; auto; fail).
  all: destruct (filter_stream bp _ _ _ _ rs) as [rs' [u|e]]; [|cbn; auto].
  all: destruct (filter_stream bp _ _ _ _ zs) as [zs' r2]; cbn; auto.
Qed.
Lemma decon_loop_ext o o' me k idx : s_rstream o = s_rstream o' -> s_zstream o = s_zstream o' -> decon_loop o me k idx = decon_loop o' me k idx.
Proof. intros E1 E2. induction idx as [|i idx IH]; cbn [decon_loop]; [reflexivity|]. rewrite E1, E2, IH. reflexivity. Qed.

(** [filter] and [run_deconvolution] work on the stored seismograms: nothing the caller
    does to the arrays changes what they do, unless it changes the number of entries of a
    rayp list. *)
Theorem C129_stored h h' objs i c : c <> CFwd ->
  (forall s, nth_error objs i = Some s -> rays h s = rays h' s) ->
  snd (step bp (h, objs) (Call i c)) = snd (step bp (h', objs) (Call i c)).
Proof.
  intros Hc Hl. cbn [step]. destruct (nth_error objs i) as [s|]; [|reflexivity]. specialize (Hl s eq_refl).
  destruct c as [|fa|pf po ga me k]; [contradiction (Hc eq_refl)| |]; cbn [do_call].
  - pose proof (syn_filter_ext h h' s fa Hl) as Q. destruct (syn_filter bp (view h s) fa) as [o r], (syn_filter bp (view h' s) fa) as [o' r'].
    destruct Q as (A & B & _ & ->). cbn [snd]. rewrite A, B. reflexivity.
  - unfold run_deconvolution. destruct pf as [fa|].
    + pose proof (syn_filter_ext h h' s fa Hl) as Q. destruct (syn_filter bp (view h s) fa) as [o r], (syn_filter bp (view h' s) fa) as [o' r'].
      destruct Q as (A & B & C & ->). destruct r' as [u|e]; cbn [snd]; rewrite A, B; [|reflexivity]. rewrite C. erewrite decon_loop_ext by eassumption. reflexivity.
    + cbn [snd]. unfold rays in Hl. rewrite Hl. erewrite (decon_loop_ext (view h s) (view h' s)) by reflexivity. reflexivity.
Qed.

(** [made] : the object [i] of the state is the one made from these arguments, with depths
    [D] at that time. *)
Definition made (D : list R) (v s r : nat) (rp : rayref) (dt : R) (npts : nat) (ipha : Z) (x : sref) : Prop :=
  f_vp x = v /\ f_vs x = s /\ f_rho x = r /\ f_rayp x = keeps rp /\
  s_dt (f_own x) = dt /\ s_npts (f_own x) = npts /\ s_ipha (f_own x) = ipha /\ s_thickness (f_own x) = thickness D /\
  match rp with RayFloat p => s_rayp (f_own x) = [p] | RayOther => False | _ => True end.
Lemma made_step D v s r rp dt npts ipha st o i x : nth_error (snd st) i = Some x -> made D v s r rp dt npts ipha x ->
  exists x', nth_error (snd (fst (step bp st o))) i = Some x' /\ made D v s r rp dt npts ipha x'.
Proof.
  destruct st as [h objs]. cbn [snd]. intros Hx M. destruct o as [d' v' s' r' rp' dt' npts' ipha'|j c|a l]; cbn [step].
  - destruct (syn_init _ _ _ _ _ _ _ _) as [o|e]; cbn [fst snd]; [|eauto]. exists x. split; [|exact M].
    rewrite nth_error_app1; [exact Hx|]. apply nth_error_Some. congruence.
  - destruct (nth_error objs j) as [y|] eqn:Ey; cbn [fst snd]; [|eauto].
    destruct (do_call bp (view h y) c) as [o' q]. cbn [fst snd].
    destruct (Nat.eq_dec i j) as [->|Hne].
    + rewrite Ey in Hx. injection Hx as ->. exists (keep_streams x o'). split; [|exact M].
      revert j Ey. clear. induction objs as [|z l IH]; intros [|j] E; cbn in *; try discriminate; [reflexivity|apply IH; exact E].
    + exists x. split; [|exact M]. rewrite <- Hx. clear -Hne. revert i j Hne. induction objs as [|z l IH]; intros [|i] [|j] Hne; cbn; try reflexivity; [contradiction|apply IH; congruence].
  - eauto.
Qed.
Lemma made_after D v s r rp dt npts ipha ops st i x : nth_error (snd st) i = Some x -> made D v s r rp dt npts ipha x ->
  exists x', nth_error (snd (after bp st ops)) i = Some x' /\ made D v s r rp dt npts ipha x'.
Proof.
  revert st x. induction ops as [|o ops IH]; intros st x Hx M; [eauto|]. cbn [after].
  destruct (made_step _ _ _ _ _ _ _ _ st o i x Hx M) as (x1 & H1 & M1). exact (IH _ _ H1 M1).
Qed.

(** [run_fwd] computes, whatever was called before, with the depths of the construction and
    the velocities, densities and ray parameters of the moment of the call. *)
Theorem C129_run_fwd h1 objs d v s r rp dt npts ipha ops h2 objs2 :
  rp <> RayOther ->
  after bp (h1, objs) (New d v s r rp dt npts ipha :: ops) = (h2, objs2) ->
  exists o, syn_init (h1 d) (h2 v) (h2 s) (h2 r) (ray_value h2 rp) dt npts ipha = Ok o /\
    snd (step bp (h2, objs2) (Call (length objs) CFwd)) =
      let '(o', q) := run_fwd o in OCall (OUnit q) (s_rstream o') (s_zstream o').
Proof.
  intros Hrp HA. cbn [after step fst] in HA.
  assert (E0 : exists o0, syn_init (h1 d) (h1 v) (h1 s) (h1 r) (ray_value h1 rp) dt npts ipha = Ok o0 /\
               made (h1 d) v s r rp dt npts ipha (mkSref v s r (keeps rp) o0)).
  { destruct rp; cbn; try contradiction (Hrp eq_refl); eexists; (split; [reflexivity|]); repeat split. }
  destruct E0 as (o0 & E0 & M0). rewrite E0 in HA. cbn [fst] in HA.
  assert (N0 : nth_error (snd (h1, objs ++ [mkSref v s r (keeps rp) o0])) (length objs) = Some (mkSref v s r (keeps rp) o0)).
  { cbn [snd]. rewrite nth_error_app2, Nat.sub_diag by lia. reflexivity. }
  destruct (made_after _ _ _ _ _ _ _ _ ops _ _ _ N0 M0) as (x & Hx & M).
  rewrite HA in Hx. cbn [snd] in Hx.
  exists (mkSyn (h2 v) (h2 s) (h2 r) dt npts (thickness (h1 d)) (ray_list (ray_value h2 rp)) ipha None None).
  split; [destruct rp; try reflexivity; contradiction (Hrp eq_refl)|].
  cbn [step]. rewrite Hx. cbn [do_call]. unfold run_fwd.
  destruct M as (A1 & A2 & A3 & A4 & A5 & A6 & A7 & A8 & A9).
  assert (R : s_rayp (view h2 x) = ray_list (ray_value h2 rp)).
  { unfold view. cbn. rewrite A4. destruct rp; cbn; auto; contradiction. }
  match goal with |- context [fwd_loop ?o (s_rayp ?o) [] []] => rewrite (fwd_loop_ext (view h2 x) o) end.
  2:{ unfold params. rewrite R. unfold view. cbn. congruence. }
  rewrite R. cbn [s_rayp]. destruct (fwd_loop _ _ [] []) as [o' q]. reflexivity.
Qed.
End Any.

(** ** The docstring model *)
(** Addresses 0-4: depth, vp, vs, rho, rayp. *)
Definition d_heap : arrays := fun a =>
  match a with
  | 0%nat => [2; 35; 77.5] | 1%nat => [2; 6.5; 8.045] | 2%nat => [1.36; 3.75; 4.485] | 3%nat => [2.72; 2.92; 3.3455] | 4%nat => [0.04] | _ => []
  end.
Definition d_new : op := New 0 1 2 3 (RayList 4) 0.025 2100 1.
Lemma d_fwd p : p = 0.04 \/ p = 0.06 ->
  exists u, fwd_seis p 0.025 2100 1 [2; 6.5; 8.045] [1.36; 3.75; 4.485] [2.72; 2.92; 3.3455] (thickness [2; 35; 77.5]) = Ok u.
Proof.
  intro Hp.
  destruct (C64_seismograms p 0.025 2100 1 [mkLayer (mkMat 2.72 2 1.36) 2; mkLayer (mkMat 2.92 6.5 3.75) 33] (mkLayer (mkMat 3.3455 8.045 4.485) 42.5)) as (ur & uz & Hr & Hz & E & _);
      [lia|lra|discriminate| |].
  - destruct Hp as [-> | -> ]; unfold admissible; repeat constructor; cbn; lra.
  - exists (ur, uz). rewrite <- E. f_equal. exact (eq_sym (proj2 (proj2 doc_arrays))).
Qed.
(** [n] traces in both streams of the object after a successful call. *)
Definition gives (n : nat) (x : out) : Prop :=
  exists rs zs, x = OCall (OUnit (Ok tt)) (Some rs) (Some zs) /\ length rs = n /\ length zs = n.

(** Two objects share all arrays; the depth array is changed between construction and
    run_fwd: one trace each, as if nothing had happened. *)
Theorem C128_example bp : careful [] [d_new; d_new; Change 0 [1; 2; 3]; Call 0 CFwd; Call 1 CFwd] /\
  exists a b, session bp (d_heap, []) [d_new; d_new; Change 0 [1; 2; 3]; Call 0 CFwd; Call 1 CFwd] =
    [ONew (Ok tt); ONew (Ok tt); ONone; a; b] /\ gives 1 a /\ a = b.
Proof.
  assert (C : careful [] [d_new; d_new; Change 0 [1; 2; 3]; Call 0 CFwd; Call 1 CFwd]).
  { cbn. split; [|exact I]. intuition congruence. }
  split; [exact C|]. rewrite (C128_shared bp _ _ C). destruct (d_fwd 0.04 (or_introl eq_refl)) as [u E].
  cbn [separate d_new syn_init d_heap ray_value nth_error app do_call upd].
  unfold run_fwd. rewrite !(fwd_loop_spec _ [0.04] _ _ [u]) by (constructor; [exact E|constructor]).
  eexists _, _. split; [reflexivity|]. split; [|reflexivity]. eexists _, _. split; [reflexivity|]. split; reflexivity.
Qed.

(** C129: a synrf object does not keep describing the model it was made from: the caller's
    ray parameter list, extended after the construction, gives two traces instead of one. *)
Theorem C129_refuted : exists h ops, forall bp,
  (exists b, session bp (h, []) ops = [ONew (Ok tt); ONone; b] /\ gives 2 b) /\
  (exists b, separate bp h [] ops = [ONew (Ok tt); ONone; b] /\ gives 1 b) /\
  session bp (h, []) ops <> separate bp h [] ops.
Proof.
  exists d_heap, [d_new; Change 4 [0.04; 0.06]; Call 0 CFwd]. intro bp.
  destruct (d_fwd 0.04 (or_introl eq_refl)) as [u E]. destruct (d_fwd 0.06 (or_intror eq_refl)) as [u' E'].
  assert (A : exists b, session bp (d_heap, []) [d_new; Change 4 [0.04; 0.06]; Call 0 CFwd] = [ONew (Ok tt); ONone; b] /\ gives 2 b).
  { cbn [session step d_new syn_init d_heap ray_value nth_error app do_call]. unfold run_fwd. cbn [view s_rayp f_rayp keeps set_arr Nat.eqb].
    rewrite (fwd_loop_spec _ [0.04; 0.06] _ _ [u; u']) by (constructor; [exact E|constructor; [exact E'|constructor]]).
    eexists. split; [reflexivity|]. eexists _, _. split; [reflexivity|]. split; reflexivity. }
  assert (B : exists b, separate bp d_heap [] [d_new; Change 4 [0.04; 0.06]; Call 0 CFwd] = [ONew (Ok tt); ONone; b] /\ gives 1 b).
  { cbn [separate d_new syn_init d_heap ray_value nth_error app do_call]. unfold run_fwd.
    rewrite (fwd_loop_spec _ [0.04] _ _ [u]) by (constructor; [exact E|constructor]).
    eexists. split; [reflexivity|]. eexists _, _. split; [reflexivity|]. split; reflexivity. }
  split; [exact A|]. split; [exact B|]. destruct A as (a & -> & (rs & zs & Ea & L & _)). destruct B as (b & -> & (rs' & zs' & Eb & L' & _)).
  intro Q. subst a b. apply (f_equal (fun l => match l with [_; _; OCall _ (Some r) _] => length r | _ => 0%nat end)) in Q. cbn in Q. congruence.
Qed.
