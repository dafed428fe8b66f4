(** * P_Syn: the synrf object as a state machine (C42, C43, C65).

    [bp] is obspy's bandpass filter, any function (it may also raise). *)

From Coq Require Import Reals Lra.
From Verif Require Import Base Num NumPy Cplx Mat4 SpecElastic SpecSignal DFT ReverbModel DeconModel HaskellModel SynModel.
Local Open Scope R_scope.

Section Any.
Variable bp : R -> R -> R -> nat -> bool -> list R -> res (list R).

(** The constructor arguments as kept by the object. *)
Definition params (o : synobj) := (s_vp o, s_vs o, s_rho o, s_dt o, s_npts o, s_thickness o, s_rayp o, s_ipha o).
Definition ray_list (r : rayparg) : list R :=
  match r with PyFloat x => [x] | PyList l | NdArray l => l | PyOther => [] end.

Lemma with_streams_params o r z : params (with_streams o r z) = params o.
Proof. reflexivity. Qed.
Lemma fwd_loop_params o l rs zs : params (fst (fwd_loop o l rs zs)) = params o.
Proof.
  revert rs zs; induction l as [|p l IH]; intros rs zs; cbn [fwd_loop]; [reflexivity|].
  destruct (fwd_seis p _ _ _ _ _ _ _) as [[ur uz]|e]; [apply IH|reflexivity].
Qed.
Lemma syn_filter_params o fa : params (fst (syn_filter bp o fa)) = params o.
Proof.
  unfold syn_filter. destruct fa; try reflexivity;
  destruct (s_rstream o), (s_zstream o); try reflexivity;
  destruct (filter_stream _ _ _ _ _ l) as [? [?|?]]; try reflexivity;
  destruct (filter_stream _ _ _ _ _ l0) as [? ?]; reflexivity.
Qed.
Lemma decon_params o pf po ga me k : params (fst (run_deconvolution bp o pf po ga me k)) = params o.
Proof.
  unfold run_deconvolution. destruct pf as [fa|]; [|reflexivity].
  pose proof (syn_filter_params o fa) as H. destruct (syn_filter bp o fa) as [o1 [?|?]]; exact H.
Qed.
Lemma do_call_params o c : params (fst (do_call bp o c)) = params o.
Proof.
  destruct c as [|fa|pf po ga me k]; cbn [do_call].
  - pose proof (fwd_loop_params o (s_rayp o) [] []) as H. unfold run_fwd. destruct (fwd_loop _ _ _ _); exact H.
  - pose proof (syn_filter_params o fa) as H. destruct (syn_filter bp o fa); exact H.
  - pose proof (decon_params o pf po ga me k) as H. destruct (run_deconvolution bp o pf po ga me k); exact H.
Qed.

(** C42: no history of calls changes the model parameters, the ray parameters or the
    sampling of the object. *)
Theorem C42_parameters_constant o cs : params (do_calls bp o cs) = params o.
Proof. revert o; induction cs as [|c cs IH]; intro o; cbn [do_calls]; [reflexivity|]. rewrite IH. apply do_call_params. Qed.

Lemma fwd_loop_ext o o' l rs zs : params o = params o' -> fwd_loop o l rs zs = fwd_loop o' l rs zs.
Proof.
  unfold params. intro E. injection E. intros E1 E2 E3 E4 E5 E6 E7 E8.
  assert (W : forall a b, with_streams o a b = with_streams o' a b) by (intros; unfold with_streams; congruence).
  revert rs zs; induction l as [|p l IH]; intros rs zs; cbn [fwd_loop]; [rewrite W; reflexivity|].
  rewrite E8, E7, E6, E5, E4, E3, E1. destruct (fwd_seis p _ _ _ _ _ _ _) as [[ur uz]|e]; [apply IH|rewrite W; reflexivity].
Qed.

(** C42: [run_fwd] gives, after any history of calls, exactly the object and result it
    gives on the freshly constructed object. *)
Theorem C42_run_fwd_resets o cs : run_fwd (do_calls bp o cs) = run_fwd o.
Proof.
  unfold run_fwd. pose proof (C42_parameters_constant o cs) as H.
  rewrite (fwd_loop_ext _ o) by exact H. unfold params in H. congruence.
Qed.

(** C42: as long as [run_fwd] has not been called, every history leaves the object as
    constructed, and [filter] and [run_deconvolution] raise. *)
Theorem C42_before_run_fwd depth vp vs rho rayp dt npts ipha o cs :
  syn_init depth vp vs rho rayp dt npts ipha = Ok o -> ~ In CFwd cs ->
  do_calls bp o cs = o /\
  (forall a b order zp, syn_filter bp o (PF4 a b order zp) = (o, Err AttributeError) /\
     syn_filter bp o (PF3 a b order) = (o, Err AttributeError) /\ syn_filter bp o (PF2 a b) = (o, Err AttributeError)) /\
  syn_filter bp o PFother = (o, Err TypeError) /\
  (forall pf po ga me k, pf <> Some PFother -> pf <> None \/ ray_list rayp <> [] ->
     run_deconvolution bp o pf po ga me k = (o, Err AttributeError)) /\
  (forall po ga me k, run_deconvolution bp o (Some PFother) po ga me k = (o, Err TypeError)) /\
  (forall po ga me k, ray_list rayp = [] -> run_deconvolution bp o None po ga me k = (o, Ok [])).
Proof.
  intros Hi Hcs.
  assert (HN : s_rstream o = None /\ s_zstream o = None /\ s_rayp o = ray_list rayp).
  { unfold syn_init in Hi. destruct rayp; inversion Hi; repeat split. }
  destruct HN as (Hr & Hz & Hp).
  assert (F : forall fa, syn_filter bp o fa = (o, Err (match fa with PFother => TypeError | _ => AttributeError end))).
  { intro fa. unfold syn_filter. rewrite Hr. destruct fa; reflexivity. }
  assert (D : forall pf po ga me k, fst (run_deconvolution bp o pf po ga me k) = o).
  { intros pf po ga me k. unfold run_deconvolution. destruct pf as [fa|]; [rewrite F|]; reflexivity. }
  split; [|split; [intros a b order zp; split; [|split]; apply F|split; [apply F|split; [|split]]]].
  - induction cs as [|c cs IH]; cbn [do_calls]; [reflexivity|].
    assert (E : fst (do_call bp o c) = o).
    { destruct c as [|fa|pf po ga me k]; cbn [do_call].
      - exfalso; apply Hcs; left; reflexivity.
      - rewrite F; reflexivity.
      - pose proof (D pf po ga me k) as E. destruct (run_deconvolution bp o pf po ga me k); exact E. }
    rewrite E. apply IH. intro; apply Hcs; right; assumption.
  - intros pf po ga me k H1 H2. unfold run_deconvolution. destruct pf as [fa|].
    + rewrite F. destruct fa; try reflexivity. congruence.
    + destruct H2 as [H2|H2]; [congruence|]. rewrite Hp. destruct (ray_list rayp) as [|x l]; [congruence|].
      cbn. rewrite Hr. reflexivity.
  - intros po ga me k. unfold run_deconvolution. rewrite F. reflexivity.
  - intros po ga me k H. unfold run_deconvolution. rewrite Hp, H. reflexivity.
Qed.

(** C42: without a pre-filter [run_deconvolution] leaves the object unchanged; so does any
    number of such calls, and each of them gives the result of the first. *)
Theorem C42_decon_pure o po ga me k :
  fst (run_deconvolution bp o None po ga me k) = o /\
  (forall cs, (forall c, In c cs -> exists po' ga' me' k', c = CDecon None po' ga' me' k') ->
     do_calls bp o cs = o /\
     run_deconvolution bp (do_calls bp o cs) None po ga me k = run_deconvolution bp o None po ga me k).
Proof.
  split; [reflexivity|]. intros cs H.
  assert (E : do_calls bp o cs = o).
  { induction cs as [|c cs IH]; [reflexivity|]. cbn [do_calls].
    destruct (H c (or_introl eq_refl)) as (po' & ga' & me' & k' & ->). cbn [do_call].
    change (run_deconvolution bp o None po' ga' me' k') with (o, snd (run_deconvolution bp o None po' ga' me' k')).
    cbn [fst]. apply IH. intros c Hc. apply H. right; exact Hc. }
  rewrite E. split; reflexivity.
Qed.

(** C42: [filter] with two or three numbers is the zero-phase filter, of order 2 if no
    order is given. *)
Theorem C42_filter_defaults o a b order :
  syn_filter bp o (PF2 a b) = syn_filter bp o (PF3 a b 2) /\
  syn_filter bp o (PF3 a b order) = syn_filter bp o (PF4 a b order true).
Proof. split; reflexivity. Qed.

(** C65: with a pre-filter, [run_deconvolution] is [filter] followed by
    [run_deconvolution] without one: the stored traces are filtered in place. *)
Theorem C65_prefilter_is_filter o fa po ga me k :
  run_deconvolution bp o (Some fa) po ga me k =
  match syn_filter bp o fa with
  | (o1, Ok _) => run_deconvolution bp o1 None po ga me k
  | (o1, Err e) => (o1, Err e)
  end.
Proof. unfold run_deconvolution. destruct (syn_filter bp o fa) as [o1 [?|?]]; reflexivity. Qed.
End Any.

(** The trace after [n] passes of a filter [f] (of sampling interval and samples). *)
Fixpoint passes (f : R -> list R -> list R) (n : nat) (t : trace) : trace :=
  match n with O => t | S n' => let t' := passes f n' t in mkTr (tr_delta t') (f (tr_delta t') (tr_data t')) end.

Lemma filter_stream_total bp a b order zp f st : (forall d l, bp d a b order zp l = Ok (f d l)) ->
  filter_stream bp a b order zp st = (map (passes f 1) st, Ok tt).
Proof.
  intro H. induction st as [|t st IH]; cbn [filter_stream map]; [reflexivity|]. rewrite H, IH. reflexivity.
Qed.

(** C65: [n] identical calls with the pre-filter leave every stored trace filtered [n]
    times; the result of the last call is the deconvolution of the [n] times filtered
    traces. *)
Theorem C65_prefilter_accumulates bp f a b o rs zs po ga me k n :
  (forall d l, bp d a b 2%nat true l = Ok (f d l)) ->
  s_rstream o = Some rs -> s_zstream o = Some zs ->
  let o' := do_calls bp o (repeat (CDecon (Some (PF2 a b)) po ga me k) n) in
  s_rstream o' = Some (map (passes f n) rs) /\ s_zstream o' = Some (map (passes f n) zs) /\
  params o' = params o /\
  snd (run_deconvolution bp o' (Some (PF2 a b)) po ga me k) =
  snd (run_deconvolution bp (with_streams o (Some (map (passes f (S n)) rs)) (Some (map (passes f (S n)) zs))) None po ga me k).
Proof.
  intros Hb Hr Hz.
  assert (ONE : forall o1 rs1 zs1, s_rstream o1 = Some rs1 -> s_zstream o1 = Some zs1 ->
            run_deconvolution bp o1 (Some (PF2 a b)) po ga me k =
            run_deconvolution bp (with_streams o1 (Some (map (passes f 1) rs1)) (Some (map (passes f 1) zs1))) None po ga me k).
  { intros o1 rs1 zs1 H1 H2. rewrite C65_prefilter_is_filter. unfold syn_filter. rewrite H1, H2.
    rewrite !(filter_stream_total bp a b 2 true f) by exact Hb. reflexivity. }
  assert (MM : forall m l, map (passes f 1) (map (passes f m) l) = map (passes f (S m)) l).
  { intros m l. rewrite map_map. reflexivity. }
  assert (INV : forall m, exists o', do_calls bp o (repeat (CDecon (Some (PF2 a b)) po ga me k) m) = o' /\
            o' = with_streams o (Some (map (passes f m) rs)) (Some (map (passes f m) zs))).
  { assert (APP : forall cs1 cs2 o1, do_calls bp o1 (cs1 ++ cs2) = do_calls bp (do_calls bp o1 cs1) cs2).
    { induction cs1 as [|c cs1 IH]; intros cs2 o1; cbn [do_calls app]; [reflexivity|apply IH]. }
    induction m as [|m IH].
    - exists o. split; [reflexivity|]. 
      replace (map (passes f 0) rs) with rs by (symmetry; apply map_id).
      replace (map (passes f 0) zs) with zs by (symmetry; apply map_id).
      rewrite <- Hr, <- Hz. destruct o; reflexivity.
    - destruct IH as (o' & E1 & E2). eexists. split; [reflexivity|].
      replace (S m) with (m + 1)%nat at 1 by lia. rewrite repeat_app, APP, E1. cbn [repeat do_calls do_call].
      rewrite (ONE o' (map (passes f m) rs) (map (passes f m) zs)) by (rewrite E2; reflexivity).
      rewrite !MM, E2. reflexivity. }
  cbv zeta. destruct (INV n) as (o' & E1 & E2). rewrite E1.
  rewrite (ONE o' (map (passes f n) rs) (map (passes f n) zs)) by (rewrite E2; reflexivity).
  rewrite !MM, E2. repeat split.
Qed.

(** C43: which [rayp] arguments are accepted, and as which list of ray parameters. *)
Theorem C43_rayp_types depth vp vs rho dt npts ipha :
  (forall r, exists o, syn_init depth vp vs rho (PyFloat r) dt npts ipha = Ok o /\ s_rayp o = [r]) /\
  (forall l, exists o, syn_init depth vp vs rho (PyList l) dt npts ipha = Ok o /\ s_rayp o = l) /\
  (forall l, syn_init depth vp vs rho (NdArray l) dt npts ipha = syn_init depth vp vs rho (PyList l) dt npts ipha) /\
  (forall r, syn_init depth vp vs rho (PyFloat r) dt npts ipha = syn_init depth vp vs rho (PyList [r]) dt npts ipha) /\
  syn_init depth vp vs rho PyOther dt npts ipha = Err TypeError.
Proof. repeat split; intros; eexists; split; reflexivity. Qed.

Lemma fwd_loop_spec o l rs zs us :
  Forall2 (fun p u => fwd_seis p (s_dt o) (s_npts o) (s_ipha o) (s_vp o) (s_vs o) (s_rho o) (s_thickness o) = Ok u) l us ->
  fwd_loop o l rs zs =
  (with_streams o (Some (rs ++ map (fun u => mkTr (s_dt o) (fst u)) us)) (Some (zs ++ map (fun u => mkTr (s_dt o) (snd u)) us)), Ok tt).
Proof.
  intro H. revert rs zs. induction H as [|p u l us H1 H2 IH]; intros rs zs; cbn [fwd_loop map].
  - rewrite !app_nil_r. reflexivity.
  - rewrite H1. destruct u as [ur uz]. rewrite IH, <- !app_assoc. reflexivity.
Qed.
Lemma fwd_loop_ok o l rs zs o' : fwd_loop o l rs zs = (o', Ok tt) ->
  exists us, Forall2 (fun p u => fwd_seis p (s_dt o) (s_npts o) (s_ipha o) (s_vp o) (s_vs o) (s_rho o) (s_thickness o) = Ok u) l us.
Proof.
  revert rs zs. induction l as [|p l IH]; intros rs zs; cbn [fwd_loop]; intro H.
  - exists []. constructor.
  - destruct (fwd_seis p _ _ _ _ _ _ _) as [[ur uz]|e] eqn:E; [|discriminate].
    destruct (IH _ _ H) as [us F]. exists ((ur, uz) :: us). constructor; assumption.
Qed.

Lemma Forall2_nth {A B} (P : A -> B -> Prop) l1 l2 i a : Forall2 P l1 l2 -> nth_error l1 i = Some a ->
  exists b, nth_error l2 i = Some b /\ P a b.
Proof.
  intro H. revert i. induction H as [|x y l1 l2 H1 H2 IH]; intros [|i] E; cbn in *; try discriminate.
  - inversion E; subst. eauto.
  - apply IH; exact E.
Qed.
Lemma Forall2_len {A B} (P : A -> B -> Prop) l1 l2 : Forall2 P l1 l2 -> length l1 = length l2.
Proof. induction 1; cbn; congruence. Qed.

(** C43: after any history, a successful [run_fwd] stores as many radial and vertical
    traces as there are ray parameters; number [i] is the forward model of ray parameter
    number [i] for the layer thicknesses of [depth], sampled at [dt]. *)
Theorem C43_run_fwd bp depth vp vs rho rayp dt npts ipha o cs o' :
  syn_init depth vp vs rho rayp dt npts ipha = Ok o ->
  run_fwd (do_calls bp o cs) = (o', Ok tt) ->
  exists rs zs, s_rstream o' = Some rs /\ s_zstream o' = Some zs /\
    length rs = length (ray_list rayp) /\ length zs = length (ray_list rayp) /\
    forall i p, nth_error (ray_list rayp) i = Some p ->
      exists ur uz, fwd_seis p dt npts ipha vp vs rho (thickness depth) = Ok (ur, uz) /\
        nth_error rs i = Some (mkTr dt ur) /\ nth_error zs i = Some (mkTr dt uz).
Proof.
  intros Hi Hf. rewrite C42_run_fwd_resets in Hf. unfold run_fwd in Hf.
  assert (P : params o = (vp, vs, rho, dt, npts, thickness depth, ray_list rayp, ipha)).
  { unfold syn_init in Hi. destruct rayp; inversion Hi; reflexivity. }
  unfold params in P. injection P. intros E1 E2 E3 E4 E5 E6 E7 E8.
  destruct (fwd_loop_ok _ _ _ _ _ Hf) as [us F].
  rewrite (fwd_loop_spec _ _ _ _ _ F) in Hf. injection Hf as <-.
  rewrite E1, E2, E3, E4, E5, E6, E7, E8 in *. cbn [with_streams s_rstream s_zstream app].
  eexists _, _. split; [reflexivity|]. split; [reflexivity|].
  rewrite !map_length, (Forall2_len _ _ _ F). repeat split; auto.
  intros i p Hp. destruct (Forall2_nth _ _ _ _ _ F Hp) as ([ur uz] & Hu & Hs).
  exists ur, uz. split; [exact Hs|]. split.
  - erewrite map_nth_error by exact Hu. reflexivity.
  - erewrite map_nth_error by exact Hu. reflexivity.
Qed.

Lemma decon_loop_ok o me k idx ts : decon_loop o me k idx = Ok ts ->
  Forall2 (fun i t => exists u w, stream_item (s_rstream o) i = Ok u /\ stream_item (s_zstream o) i = Ok w /\
             rftrace_deconvolve u w me k = Ok t) idx ts.
Proof.
  revert ts. induction idx as [|i idx IH]; intros ts H; cbn [decon_loop] in H.
  - inversion H. constructor.
  - apply bind_Ok_inv in H. destruct H as (u & Hu & H). apply bind_Ok_inv in H. destruct H as (w & Hw & H).
    apply bind_Ok_inv in H. destruct H as (t & Ht & H). apply bind_Ok_inv in H. destruct H as (rest & Hr & H).
    inversion H; subst. constructor; [eauto 6|apply IH; exact Hr].
Qed.
Lemma decon_loop_spec o me k idx ts :
  Forall2 (fun i t => exists u w, stream_item (s_rstream o) i = Ok u /\ stream_item (s_zstream o) i = Ok w /\
             rftrace_deconvolve u w me k = Ok t) idx ts -> decon_loop o me k idx = Ok ts.
Proof.
  induction 1 as [|i t idx ts (u & w & Hu & Hw & Ht) H IH]; cbn [decon_loop]; [reflexivity|].
  rewrite Hu; cbn [bind]. rewrite Hw; cbn [bind]. rewrite Ht; cbn [bind]. rewrite IH. reflexivity.
Qed.

Lemma nth_error_seq' n i : (i < n)%nat -> nth_error (seq 0 n) i = Some i.
Proof.
  intro H. assert (L : (i < length (seq 0 n))%nat) by (rewrite seq_length; exact H).
  rewrite (nth_error_nth' _ 0%nat L), seq_nth by exact H. reflexivity.
Qed.

(** The caller's keywords with [preonset] and [gaussian] put in. *)
Definition with_po_ga (k : kwargs) (po ga : R) : kwargs :=
  mkKw (kw_nt k) (Some po) (Some ga) (kw_itmax k) (kw_minderr k) (kw_phase k) (kw_wlevel k) (kw_normalize k) (kw_other k).

(** C43: [run_fwd(); run_deconvolution(pre_filt=None, ...)] returns one receiver function
    per ray parameter, in order; number [i] is the deconvolution of the radial by the
    vertical seismogram of ray parameter number [i], with the requested pre-onset,
    Gaussian width, method and options, and sampling interval [dt]. *)
Theorem C43_receiver_functions bp depth vp vs rho rayp dt npts ipha o cs o' po ga me k ts :
  syn_init depth vp vs rho rayp dt npts ipha = Ok o ->
  run_fwd (do_calls bp o cs) = (o', Ok tt) ->
  snd (run_deconvolution bp o' None po ga me k) = Ok ts ->
  length ts = length (ray_list rayp) /\
  forall i p, nth_error (ray_list rayp) i = Some p ->
    exists ur uz r, fwd_seis p dt npts ipha vp vs rho (thickness depth) = Ok (ur, uz) /\
      deconvolve ur uz dt (dflt me "iter"%string) (with_po_ga k po ga) = Ok r /\
      nth_error ts i = Some (mkRf dt r).
Proof.
  intros Hi Hf Hd. destruct (C43_run_fwd _ _ _ _ _ _ _ _ _ _ _ _ Hi Hf) as (rs & zs & Hr & Hz & L1 & L2 & Q).
  assert (P : params o' = params o).
  { rewrite C42_run_fwd_resets in Hf. unfold run_fwd in Hf. rewrite <- (fwd_loop_params o (s_rayp o) [] []), Hf. reflexivity. }
  assert (Pr : s_rayp o' = ray_list rayp).
  { unfold params in P. injection P. intros _ -> _ _ _ _ _ _. unfold syn_init in Hi. destruct rayp; inversion Hi; reflexivity. }
  unfold run_deconvolution in Hd. cbn [snd] in Hd. apply decon_loop_ok in Hd. rewrite Pr in Hd.
  split; [rewrite <- (Forall2_len _ _ _ Hd), seq_length; reflexivity|].
  intros i p Hp. destruct (Q i p Hp) as (ur & uz & Hs & Hri & Hzi).
  assert (Li : (i < length (ray_list rayp))%nat) by (apply nth_error_Some; congruence).
  destruct (Forall2_nth _ _ _ _ _ Hd (nth_error_seq' _ _ Li)) as (t & Ht & u & w & Hu & Hw & Htr).
  rewrite Hr in Hu. rewrite Hz in Hw. cbn [stream_item] in Hu, Hw. unfold getitem in Hu, Hw. rewrite Hri in Hu. rewrite Hzi in Hw.
  inversion Hu; inversion Hw; subst u w. unfold rftrace_deconvolve in Htr. cbn [tr_data tr_delta] in Htr.
  apply bind_Ok_inv in Htr. destruct Htr as (r & Hdr & Et). inversion Et; subst t.
  exists ur, uz, r. repeat split; assumption.
Qed.

(** C43: conversely, if every single-ray run succeeds, the run over the list succeeds and
    is the list of the single-ray results: no ray parameter influences another. *)
Theorem C43_rays_independent bp depth vp vs rho l dt npts ipha po ga me k ts :
  Forall2 (fun p t => exists o1 o2, syn_init depth vp vs rho (PyFloat p) dt npts ipha = Ok o1 /\
             run_fwd o1 = (o2, Ok tt) /\ snd (run_deconvolution bp o2 None po ga me k) = Ok [t]) l ts ->
  exists o o', syn_init depth vp vs rho (PyList l) dt npts ipha = Ok o /\ run_fwd o = (o', Ok tt) /\
    snd (run_deconvolution bp o' None po ga me k) = Ok ts.
Proof.
  intro H. eexists. 
  assert (U : exists us, Forall2 (fun p u => fwd_seis p dt npts ipha vp vs rho (thickness depth) = Ok u) l us /\
                Forall2 (fun u t => rftrace_deconvolve (mkTr dt (fst u)) (mkTr dt (snd u)) me (with_po_ga k po ga) = Ok t) us ts).
  { induction H as [|p t l ts (o1 & o2 & H1 & H2 & H3) H IH].
    - exists []. split; constructor.
    - destruct IH as (us & F1 & F2).
      destruct (C43_receiver_functions bp _ _ _ _ _ _ _ _ _ [] _ _ _ _ _ _ H1 H2 H3) as [_ Q].
      destruct (Q 0%nat p eq_refl) as (ur & uz & r & E1 & E2 & E3). cbn in E3. inversion E3; subst t.
      exists ((ur, uz) :: us). split; constructor; try assumption.
      unfold rftrace_deconvolve. cbn [tr_data tr_delta fst snd]. rewrite E2. reflexivity. }
  destruct U as (us & F1 & F2).
  eexists. split; [reflexivity|]. split.
  - unfold run_fwd. cbn [s_rayp]. rewrite (fwd_loop_spec _ _ _ _ us) by exact F1. reflexivity.
  - unfold run_deconvolution. cbn [snd]. apply decon_loop_spec. cbn [with_streams s_rayp s_rstream s_zstream s_dt app].
    fold (with_po_ga k po ga). rewrite (Forall2_len _ _ _ F1).
    clear F1 H.
    assert (G : forall us0 us1 ts1, us = us0 ++ us1 ->
       Forall2 (fun u t => rftrace_deconvolve (mkTr dt (fst u)) (mkTr dt (snd u)) me (with_po_ga k po ga) = Ok t) us1 ts1 ->
       Forall2 (fun i t => exists u w,
         stream_item (Some (map (fun u => mkTr dt (fst u)) us)) i = Ok u /\ stream_item (Some (map (fun u => mkTr dt (snd u)) us)) i = Ok w /\
         rftrace_deconvolve u w me (with_po_ga k po ga) = Ok t) (seq (length us0) (length us1)) ts1).
    { intros us0 us1. revert us0. induction us1 as [|u us1 IH]; intros us0 ts1 E F; inversion F; subst; cbn [length seq]; constructor.
      - exists (mkTr dt (fst u)), (mkTr dt (snd u)). cbn [stream_item]. unfold getitem.
        assert (N : nth_error (us0 ++ u :: us1) (length us0) = Some u) by (rewrite nth_error_app2, Nat.sub_diag; [reflexivity|lia]).
        rewrite !(map_nth_error _ _ _ N). repeat split. assumption.
      - specialize (IH (us0 ++ [u]) l'). rewrite app_length in IH. cbn [length] in IH. rewrite Nat.add_1_r in IH.
        apply IH; [rewrite <- app_assoc; reflexivity|assumption]. }
    apply (G [] us ts eq_refl F2).
Qed.
