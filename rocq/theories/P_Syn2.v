(** * P_Syn2: concrete runs for the theorems of P_Syn (the model of the class docstring). *)

From Coq Require Import Reals Lra.
From Verif Require Import Base Num NumPy Cplx Mat4 SpecElastic SpecSignal DFT DFT2 ReverbModel DeconModel DeconProofs HaskellModel HaskellProofs P_Haskell P_Haskell2 P_Decon P_Decon2 SynModel P_Syn.
Local Open Scope R_scope.

(** The docstring model with two ray parameters: [run_fwd] succeeds (hypothesis of
    [C43_run_fwd]), after a failed [filter] call in the history. *)
Example C43_run_fwd_example bp : exists o o',
  syn_init [2; 35; 77.5] [2; 6.5; 8.045] [1.36; 3.75; 4.485] [2.72; 2.92; 3.3455] (PyList [0.04; 0.06]) 0.025 2100 1 = Ok o /\
  run_fwd (do_calls bp o [CFilter (PF2 0.05 1.25)]) = (o', Ok tt).
Proof.
  eexists. 
  assert (G : forall p, Forall (fun l => admissible p (mat l)) doc_layers ->
     exists u, fwd_seis p 0.025 2100 1 [2; 6.5; 8.045] [1.36; 3.75; 4.485] [2.72; 2.92; 3.3455] (thickness [2; 35; 77.5]) = Ok u).
  { intros p H. destruct (C64_seismograms p 0.025 2100 1 [mkLayer (mkMat 2.72 2 1.36) 2; mkLayer (mkMat 2.92 6.5 3.75) 33] (mkLayer (mkMat 3.3455 8.045 4.485) 42.5)) as (ur & uz & Hr & Hz & E & _);
      [lia|lra|discriminate|exact H|]. exists (ur, uz). rewrite <- E. f_equal. exact (eq_sym (proj2 (proj2 doc_arrays))). }
  destruct (G 0.04) as [u1 E1]; [apply doc_admissible|].
  destruct (G 0.06) as [u2 E2]; [unfold doc_layers, admissible; repeat constructor; cbn; lra|].
  eexists. split; [reflexivity|]. rewrite C42_run_fwd_resets. unfold run_fwd.
  rewrite (fwd_loop_spec _ _ _ _ [u1; u2]); [reflexivity|].
  constructor; [exact E1|constructor; [exact E2|constructor]].
Qed.

(** At vertical incidence the vertical record of four samples is not silent. *)
Lemma vertical_not_silent ls ur uz : ls <> [] -> Forall (fun l => admissible 0 (mat l)) ls ->
  fwd_seis 0 1 4 1 (vps ls) (vss ls) (rhos ls) (thicks ls) = Ok (ur, uz) -> ~ all_zero uz /\ length ur = 4%nat /\ length uz = 4%nat.
Proof.
  intros Hne Ha E.
  set (val := fun i => match haskell (freq 1 4 i) 0 (length ls) 1 (vps ls) (vss ls) (rhos ls) (thicks ls) with Ok v => v | Err _ => (C0, C0) end).
  assert (D : forall i, (1 <= i)%nat -> exists a b, haskell (freq 1 4 i) 0 (length ls) 1 (vps ls) (vss ls) (rhos ls) (thicks ls) = Ok (a, b) /\ (a, b) <> (C0, C0)).
  { intros i Hi. apply C60_defined; [apply freq_nz; [lra|lia|exact Hi]|exact Hne|exact Ha]. }
  assert (V : forall i, (1 <= i <= 2)%nat -> haskell (freq 1 4 i) 0 (length ls) 1 (vps ls) (vss ls) (rhos ls) (thicks ls) = Ok (fst (val i), snd (val i))).
  { intros i Hi. destruct (D i) as (a & b & E1 & _); [lia|]. unfold val. rewrite E1. reflexivity. }
  assert (N : snd (val 1%nat) <> C0).
  { destruct (D 1%nat) as (a & b & E1 & N); [lia|]. pose proof (C32_vertical _ _ _ _ _ E1) as Z. cbn in Z.
    unfold val. rewrite E1. cbn [snd]. intro B. apply N. rewrite Z, B. reflexivity. }
  assert (LT : length (thicks ls) = length ls) by apply map_length.
  destruct (fwd_seis_spec 0 1 4 1 (vps ls) (vss ls) (rhos ls) (thicks ls) (fun i => fst (val i)) (fun i => snd (val i))) as (ur' & uz' & E' & L1 & L2 & Q);
    [lia|lra|rewrite LT; exact V|].
  rewrite E in E'. injection E' as <- <-. split; [|split; assumption].
  intro Z. apply N.
  assert (S : forall k, (k < 4)%nat -> series 1 4 (fun i => snd (val i)) (INR (k + 1) * 1) = 0).
  { intros k Hk. destruct (Q k Hk) as [_ q]. rewrite (Z k) in q. change (2 ^ Nat.log2_up 4)%nat with 4%nat in q. lra. }
  assert (A : forall i k, freq 1 4 i * (INR (k + 1) * 1) = INR i * (INR (k + 1) * (PI / 2))).
  { intros i k. unfold freq. change (INR 4) with (1 + 1 + 1 + 1)%R. field. }
  assert (F : forall k, (k < 4)%nat ->
     Re (snd (val 1%nat) * cis (- (1 * (INR (k + 1) * (PI / 2)))))%C + Re (snd (val 2%nat) * cis (- (2 * (INR (k + 1) * (PI / 2)))))%C = 0).
  { intros k Hk. pose proof (S k Hk) as s. unfold series in s. change (4 / 2)%nat with 2%nat in s. cbn [rsum] in s.
    rewrite !A in s. change (INR 1) with 1 in s. change (INR 2) with (1 + 1) in s. replace (1 + 1) with 2 in s by lra.
    change (INR 4) with (1 + 1 + 1 + 1) in s.
    match type of s with ?a / ?b = 0 => assert (a = 0) by (apply (Rmult_eq_reg_r (/ b)); [change (a * / b) with (a / b); rewrite s; ring|apply Rinv_neq_0_compat; lra]) end.
    lra. }
  pose proof (F 0%nat ltac:(lia)) as F0. pose proof (F 1%nat ltac:(lia)) as F1. pose proof (F 2%nat ltac:(lia)) as F2.
  destruct (snd (val 1%nat)) as [x y], (snd (val 2%nat)) as [x2 y2]. cbn [INR Nat.add] in F0, F1, F2. unfold cis in *.
  rewrite ?cos_neg, ?sin_neg in *. cunf.
  replace (1 * (1 * (PI / 2))) with (PI / 2) in F0 by lra. replace (2 * (1 * (PI / 2))) with PI in F0 by lra.
  replace (1 * ((1 + 1) * (PI / 2))) with PI in F1 by lra. replace (2 * ((1 + 1) * (PI / 2))) with (2 * PI) in F1 by lra.
  replace (1 * ((1 + 1 + 1) * (PI / 2))) with (3 * (PI / 2)) in F2 by lra. replace (2 * ((1 + 1 + 1) * (PI / 2))) with (PI + 2 * PI) in F2 by lra.
  rewrite cos_PI2, sin_PI2, cos_PI, sin_PI in F0. rewrite cos_PI, sin_PI, cos_2PI, sin_2PI in F1.
  rewrite (neg_cos (2 * PI)) in F2 || idtac.
  rewrite cos_plus, sin_plus, cos_PI, sin_PI, cos_2PI, sin_2PI, cos_3PI2, sin_3PI2 in F2.
  f_equal; cbn in *; lra.
Qed.

(** Two vertical rays through the docstring model, water-level deconvolution: all the
    hypotheses of [C43_receiver_functions] and [C43_rays_independent] hold. *)
Example C43_receiver_functions_example bp : exists o o' ts,
  syn_init [2; 35; 77.5] [2; 6.5; 8.045] [1.36; 3.75; 4.485] [2.72; 2.92; 3.3455] (PyList [0; 0]) 1 4 1 = Ok o /\
  run_fwd (do_calls bp o []) = (o', Ok tt) /\
  snd (run_deconvolution bp o' None 1 2 (Some "water"%string) (mkKw None None None None None None None None false)) = Ok ts /\
  length ts = 2%nat.
Proof.
  assert (Ad : Forall (fun l => admissible 0 (mat l)) doc_layers) by (unfold doc_layers, admissible; repeat constructor; cbn; lra).
  destruct (C64_seismograms 0 1 4 1 [mkLayer (mkMat 2.72 2 1.36) 2; mkLayer (mkMat 2.92 6.5 3.75) 33] (mkLayer (mkMat 3.3455 8.045 4.485) 42.5)) as (ur & uz & Hr & Hz & E & _);
      [lia|lra|discriminate|exact Ad|].
  pose proof (vertical_not_silent doc_layers ur uz ltac:(discriminate) Ad E) as (NZ & L1 & L2).
  assert (E' : fwd_seis 0 1 4 1 [2; 6.5; 8.045] [1.36; 3.75; 4.485] [2.72; 2.92; 3.3455] (thickness [2; 35; 77.5]) = Ok (ur, uz)).
  { rewrite <- E. f_equal. exact (eq_sym (proj2 (proj2 doc_arrays))). }
  destruct (C41_returns ur uz 1 1 (5 / 100) 2 false) as (rf & rms & Ed); [congruence|lia|lra|lra|exact NZ|left; lra|].
  assert (Er : rftrace_deconvolve (mkTr 1 ur) (mkTr 1 uz) (Some "water"%string) (with_po_ga (mkKw None None None None None None None None false) 1 2) = Ok (mkRf 1 (RWater rf rms))).
  { unfold rftrace_deconvolve. cbn [tr_data tr_delta dflt].
    change (deconvolve ur uz 1 "water" (with_po_ga (mkKw None None None None None None None None false) 1 2))
      with (r <- deconv_waterlevel ur uz 1 1 (5 / 100) 2 false ;; let '(rf, rms) := r in Ok (RWater rf rms)).
    rewrite Ed. reflexivity. }
  assert (One : exists o1 o2, syn_init [2; 35; 77.5] [2; 6.5; 8.045] [1.36; 3.75; 4.485] [2.72; 2.92; 3.3455] (PyFloat 0) 1 4 1 = Ok o1 /\
     run_fwd o1 = (o2, Ok tt) /\
     snd (run_deconvolution bp o2 None 1 2 (Some "water"%string) (mkKw None None None None None None None None false)) = Ok [mkRf 1 (RWater rf rms)]).
  { eexists _, _. split; [reflexivity|]. split.
    - unfold run_fwd. rewrite (fwd_loop_spec _ _ _ _ [(ur, uz)]); [reflexivity|]. constructor; [exact E'|constructor].
    - unfold run_deconvolution. cbn [snd]. apply decon_loop_spec. constructor; [|constructor].
      exists (mkTr 1 ur), (mkTr 1 uz). split; [reflexivity|]. split; [reflexivity|]. exact Er. }
  destruct (C43_rays_independent bp [2; 35; 77.5] [2; 6.5; 8.045] [1.36; 3.75; 4.485] [2.72; 2.92; 3.3455] [0; 0] 1 4 1 1 2 (Some "water"%string)
    (mkKw None None None None None None None None false) [mkRf 1 (RWater rf rms); mkRf 1 (RWater rf rms)]) as (o & o' & H1 & H2 & H3).
  { constructor; [exact One|constructor; [exact One|constructor]]. }
  exists o, o', [mkRf 1 (RWater rf rms); mkRf 1 (RWater rf rms)]. repeat split; assumption.
Qed.

(** A filter that halves: three calls with a pre-filter leave an eighth. *)
Example C65_example : s_rstream (do_calls (fun _ _ _ _ _ l => Ok (map (fun x => x / 2) l))
    (mkSyn [] [] [] 1 1 [] [] 1 (Some [mkTr 1 [8]]) (Some [mkTr 1 [8]]))
    (repeat (CDecon default_pre_filt 10 2 None (mkKw None None None None None None None None false)) 3)) = Some [mkTr 1 [8 / 2 / 2 / 2]].
Proof.
  apply (C65_prefilter_accumulates (fun _ _ _ _ _ l => Ok (map (fun x => x / 2) l)) (fun _ l => map (fun x => x / 2) l) (5 / 100) 2 _ [mkTr 1 [8]] [mkTr 1 [8]]); reflexivity.
Qed.

(** C65 with the default arguments: [n] calls [run_deconvolution()] leave every stored trace
    band-passed [n] times between 0.05 Hz and 2 Hz (2 corners, zero phase); and so does
    every other choice of preonset, gaussian and keywords.  The next such call returns the
    deconvolution of the traces filtered once more with preonset 10 s and gaussian 2.  An explicit [pre_filt=None] leaves the stored traces alone. *)
Theorem C65_default_calls bp f o rs zs po ga me k n :
  (forall d l, bp d (5 / 100) 2 2%nat true l = Ok (f d l)) ->
  s_rstream o = Some rs -> s_zstream o = Some zs ->
  let o' := do_calls bp o (repeat (decon_call None po ga me k) n) in
  s_rstream o' = Some (map (passes f n) rs) /\ s_zstream o' = Some (map (passes f n) zs) /\
  params o' = params o /\
  snd (do_call bp o' (decon_call None None None me k)) =
  snd (do_call bp (with_streams o (Some (map (passes f (S n)) rs)) (Some (map (passes f (S n)) zs)))
         (CDecon None 10 2 me k)) /\
  fst (do_call bp o' (decon_call (Some None) po ga me k)) = o'.
Proof.
  intros Hb Hr Hz. cbv zeta. unfold decon_call. cbn [dflt]. unfold default_pre_filt.
  destruct (C65_prefilter_accumulates bp f (5 / 100) 2 o rs zs (dflt po 10) (dflt ga 2) me k n Hb Hr Hz) as (H1 & H2 & H3 & H4).
  split; [exact H1|]. split; [exact H2|]. split; [exact H3|]. 
  set (o' := do_calls bp o _) in *. split.
  - destruct (C65_prefilter_accumulates bp f (5 / 100) 2 o' (map (passes f n) rs) (map (passes f n) zs) 10 2 me k 0 Hb H1 H2) as (_ & _ & _ & H5).
    cbn [repeat do_calls] in H5. cbn [do_call].
    assert (W : with_streams o' (Some (map (passes f 1) (map (passes f n) rs))) (Some (map (passes f 1) (map (passes f n) zs))) =
                with_streams o (Some (map (passes f (S n)) rs)) (Some (map (passes f (S n)) zs))).
    { rewrite !map_map. unfold params in H3. destruct o, o'; cbn in *. injection H3 as -> -> -> -> -> -> -> ->. reflexivity. }
    rewrite W in H5. 
    destruct (run_deconvolution bp o' (Some (PF2 (5 / 100) 2)) 10 2 me k) as [x1 y1].
    destruct (run_deconvolution bp (with_streams o _ _) None 10 2 me k) as [x2 y2]. cbn [snd] in *. rewrite H5. reflexivity.
  - reflexivity.
Qed.
