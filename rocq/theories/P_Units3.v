(** * P_Units3: the class [synrf] under a change of units (C110, continued).

    [D], [L], [T]: how many new units of density, length and time make one old one.  The
    object, the calls and their outcomes in the new units are written out below; the
    theorems say that any history of calls then goes through the same motions. *)

From Coq Require Import Reals Lra.
From Verif Require Import Base Num NumPy Cplx Mat4 DFT ReverbModel DeconModel HaskellModel SynModel DeconProofs4 P_Syn P_Syn2 P_Units P_Units2.
Local Open Scope R_scope.

Section Units.
Variables D L T : R.
Context (HD : 0 < D) (HL : 0 < L) (HT : 0 < T).

(** ** The specification: what is what in the new units *)
Definition u_trace (t : trace) : trace := mkTr (T * tr_delta t) (tr_data t).
Definition u_obj (o : synobj) : synobj :=
  mkSyn (map (vel L T) (s_vp o)) (map (vel L T) (s_vs o)) (map (Rmult D) (s_rho o)) (T * s_dt o) (s_npts o)
    (map (Rmult L) (s_thickness o)) (map (slow L T) (s_rayp o)) (s_ipha o)
    (option_map (map u_trace) (s_rstream o)) (option_map (map u_trace) (s_zstream o)).
Definition u_rayp (r : rayparg) : rayparg :=
  match r with PyFloat p => PyFloat (slow L T p) | PyList l => PyList (map (slow L T) l) | NdArray l => NdArray (map (slow L T) l) | PyOther => PyOther end.
(** Frequencies of the band-pass filter. *)
Definition u_filt (fa : filtarg) : filtarg :=
  match fa with PF2 a b => PF2 (a / T) (b / T) | PF3 a b o => PF3 (a / T) (b / T) o | PF4 a b o z => PF4 (a / T) (b / T) o z | PFother => PFother end.
Definition u_call (c : call) : call :=
  match c with
  | CFwd => CFwd
  | CFilter fa => CFilter (u_filt fa)
  | CDecon pf po ga me k => CDecon (option_map u_filt pf) (T * po) (ga / T) me k
  end.
(** A receiver function has the dimension 1/time, unless the water-level method normalised it. *)
Definition u_rf (k : kwargs) (t : rftrace) : rftrace :=
  mkRf (T * rf_delta t)
    (match rf_result t with
     | RIter rf rms it => RIter (map (fun v => v / T) rf) rms it
     | RWater rf rms => RWater (if dflt (kw_normalize k) false then rf else map (fun v => v / T) rf) rms
     end).
Definition u_outcome (c : call) (r : outcome) : outcome :=
  match c, r with CDecon _ _ _ _ k, OTraces q => OTraces (rmapr (map (u_rf k)) q) | _, _ => r end.

(** ** Building the object *)
Lemma thickness_units depth : thickness (map (Rmult L) depth) = map (Rmult L) (thickness depth).
Proof.
  unfold thickness. assert (H : forall l p, thickness_from (option_map (Rmult L) p) (map (Rmult L) l) = map (Rmult L) (thickness_from p l)); [|apply (H depth None)].
  induction l as [|d l IH]; intro p; [reflexivity|]. cbn [map thickness_from]. rewrite (IH (Some d) : thickness_from (Some (L * d)) _ = _). f_equal.
  destruct p; cbn [option_map]; ring.
Qed.
Theorem C110_object depth vp vs rho rayp dt npts ipha :
  syn_init (map (Rmult L) depth) (map (vel L T) vp) (map (vel L T) vs) (map (Rmult D) rho) (u_rayp rayp) (T * dt) npts ipha =
  rmapr u_obj (syn_init depth vp vs rho rayp dt npts ipha).
Proof. unfold syn_init. rewrite thickness_units. destruct rayp; reflexivity. Qed.

(** ** The calls.  obspy's band-pass filter depends only on the ratio of its corner
    frequencies to the sampling frequency. *)
Variable bp : R -> R -> R -> nat -> bool -> list R -> res (list R).
Context (Hbp : forall dt a b o z d, bp (T * dt) (a / T) (b / T) o z d = bp dt a b o z d).

Lemma fwd_loop_units o rayps : forall rs zs,
  fwd_loop (u_obj o) (map (slow L T) rayps) (map u_trace rs) (map u_trace zs) =
  let '(o', r) := fwd_loop o rayps rs zs in (u_obj o', r).
Proof.
  induction rayps as [|p rayps IH]; intros rs zs; cbn [map fwd_loop]; [reflexivity|].
  cbn [u_obj s_dt s_npts s_ipha s_vp s_vs s_rho s_thickness]. rewrite (C110_seismograms D L T HD HL HT).
  destruct (fwd_seis p _ _ _ _ _ _ _) as [[ur uz]|e]; [|reflexivity].
  specialize (IH (rs ++ [mkTr (s_dt o) ur]) (zs ++ [mkTr (s_dt o) uz])). rewrite !map_app in IH. exact IH.
Qed.
Lemma filter_units a b o z st :
  filter_stream bp (a / T) (b / T) o z (map u_trace st) = let '(st', r) := filter_stream bp a b o z st in (map u_trace st', r).
Proof.
  induction st as [|t st IH]; cbn [map filter_stream]; [reflexivity|]. unfold u_trace at 1 2. cbn [tr_delta tr_data]. rewrite Hbp.
  destruct (bp (tr_delta t) a b o z (tr_data t)); [|reflexivity]. rewrite IH. destruct (filter_stream bp a b o z st). reflexivity.
Qed.
Lemma syn_filter_units o fa : syn_filter bp (u_obj o) (u_filt fa) = let '(o', r) := syn_filter bp o fa in (u_obj o', r).
Proof.
  destruct fa; cbn [u_filt syn_filter]; try reflexivity; cbn [u_obj s_rstream s_zstream]; destruct (s_rstream o), (s_zstream o); cbn [option_map]; try reflexivity;
    rewrite !filter_units; destruct (filter_stream bp a b _ _ l) as [rs' [?|?]]; try reflexivity; rewrite ?filter_units; destruct (filter_stream bp a b _ _ l0); reflexivity.
Qed.
Lemma deconvolve_units u w dt me k :
  deconvolve u w (T * dt) me (mkKw (kw_nt k) (option_map (Rmult T) (kw_preonset k)) (option_map (fun g => g / T) (kw_gaussian k)) (kw_itmax k) (kw_minderr k) (kw_phase k) (kw_wlevel k) (kw_normalize k) (kw_other k))
  = match kw_preonset k, kw_gaussian k with
    | Some _, Some _ => rmapr (fun r => rf_result (u_rf k (mkRf dt r))) (deconvolve u w dt me k)
    | _, _ => deconvolve u w (T * dt) me (mkKw (kw_nt k) (option_map (Rmult T) (kw_preonset k)) (option_map (fun g => g / T) (kw_gaussian k)) (kw_itmax k) (kw_minderr k) (kw_phase k) (kw_wlevel k) (kw_normalize k) (kw_other k))
    end.
Proof.
  destruct (kw_preonset k) as [po|] eqn:Ep; [|reflexivity]. destruct (kw_gaussian k) as [ga|] eqn:Eg; [|reflexivity]. cbn [option_map].
  unfold deconvolve. destruct (String.eqb (lower me) "iter").
  - unfold call_iterative. cbn [kw_wlevel kw_normalize kw_other kw_nt kw_preonset kw_gaussian kw_itmax kw_minderr kw_phase]. rewrite Ep, Eg.
    destruct (_ || _)%bool; [reflexivity|]. cbn [dflt]. rewrite (C110_iterative T HT). destruct (deconv_iterative _ _ _ _ _ _ _ _ _) as [[[rf rms] it]|]; reflexivity.
  - destruct (String.eqb (lower me) "water"); [|reflexivity].
    unfold call_waterlevel. cbn [kw_wlevel kw_normalize kw_other kw_nt kw_preonset kw_gaussian kw_itmax kw_minderr kw_phase]. rewrite Ep, Eg.
    destruct (_ || _)%bool; [reflexivity|]. cbn [dflt]. rewrite (C110_waterlevel T HT). destruct (deconv_waterlevel _ _ _ _ _ _ _) as [[rf rms]|]; reflexivity.
Qed.
Definition kwith (po ga : R) (k : kwargs) : kwargs :=
  mkKw (kw_nt k) (Some po) (Some ga) (kw_itmax k) (kw_minderr k) (kw_phase k) (kw_wlevel k) (kw_normalize k) (kw_other k).
Lemma decon_loop_units o me po ga k idx :
  decon_loop (u_obj o) me (kwith (T * po) (ga / T) k) idx = rmapr (map (u_rf k)) (decon_loop o me (kwith po ga k) idx).
Proof.
  assert (SI : forall st i, stream_item (option_map (map u_trace) st) i = rmapr u_trace (stream_item st i)).
  { intros [st|] i; [|reflexivity]. cbn [option_map stream_item]. unfold getitem. rewrite nth_error_map. destruct (nth_error st i); reflexivity. }
  induction idx as [|i idx IH]; cbn [decon_loop]; [reflexivity|]. cbn [u_obj s_rstream s_zstream]. rewrite !SI.
  destruct (stream_item (s_rstream o) i) as [u|]; [|reflexivity]. destruct (stream_item (s_zstream o) i) as [w|]; [|reflexivity]. cbn [bind rmapr].
  unfold rftrace_deconvolve. cbn [u_trace tr_data tr_delta].
  pose proof (deconvolve_units (tr_data u) (tr_data w) (tr_delta u) (dflt me "iter"%string) (kwith po ga k)) as Q. cbn [kwith kw_nt kw_preonset kw_gaussian kw_itmax kw_minderr kw_phase kw_wlevel kw_normalize kw_other option_map] in Q.
  change (mkKw (kw_nt k) (Some (T * po)) (Some (ga / T)) (kw_itmax k) (kw_minderr k) (kw_phase k) (kw_wlevel k) (kw_normalize k) (kw_other k)) with (kwith (T * po) (ga / T) k) in Q.
  change (mkKw (kw_nt k) (Some po) (Some ga) (kw_itmax k) (kw_minderr k) (kw_phase k) (kw_wlevel k) (kw_normalize k) (kw_other k)) with (kwith po ga k) in Q.
  rewrite Q. destruct (deconvolve (tr_data u) (tr_data w) (tr_delta u) _ (kwith po ga k)) as [r|]; [|reflexivity]. cbn [bind rmapr].
  rewrite IH. destruct (decon_loop o me (kwith po ga k) idx); reflexivity.
Qed.

(** C110: a call in the new units does what the call in the old ones does. *)
Theorem C110_call o c :
  do_call bp (u_obj o) (u_call c) = let '(o', r) := do_call bp o c in (u_obj o', u_outcome c r).
Proof.
  destruct c as [|fa|pf po ga me k]; cbn [u_call do_call].
  - unfold run_fwd. change (s_rayp (u_obj o)) with (map (slow L T) (s_rayp o)). rewrite (fwd_loop_units o (s_rayp o) [] [] : fwd_loop (u_obj o) _ [] [] = _).
    destruct (fwd_loop o (s_rayp o) [] []). reflexivity.
  - rewrite syn_filter_units. destruct (syn_filter bp o fa). reflexivity.
  - unfold run_deconvolution. fold (kwith (T * po) (ga / T) k) (kwith po ga k).
    assert (E : match option_map u_filt pf with None => (u_obj o, Ok tt) | Some fa => syn_filter bp (u_obj o) fa end
              = let '(o', r) := match pf with None => (o, Ok tt) | Some fa => syn_filter bp o fa end in (u_obj o', r)).
    { destruct pf as [fa|]; [apply syn_filter_units|reflexivity]. }
    rewrite E. destruct (match pf with None => _ | Some fa => _ end) as [o1 [[]|e]]; [|reflexivity].
    change (s_rayp (u_obj o1)) with (map (slow L T) (s_rayp o1)). rewrite map_length, decon_loop_units. reflexivity.
Qed.
(** C110: and so does any history of calls. *)
Theorem C110_history o cs : do_calls bp (u_obj o) (map u_call cs) = u_obj (do_calls bp o cs).
Proof.
  revert o. induction cs as [|c cs IH]; intro o; cbn [map do_calls]; [reflexivity|]. rewrite C110_call. destruct (do_call bp o c). cbn [fst]. apply IH.
Qed.
End Units.

(** The docstring model of [synrf] in metres, m/s and kg/m^3 instead of km, km/s and g/cm^3
    (s/m for the ray parameters): a successful [run_fwd] in both, with the same streams. *)
Example C110_example (bp := fun dt a (b : R) (o : nat) (z : bool) d => Ok (map (fun x : R => x * (a * dt)) d) : res (list R)) : exists o o',
  syn_init [2; 35; 77.5] [2; 6.5; 8.045] [1.36; 3.75; 4.485] [2.72; 2.92; 3.3455] (PyList [0.04; 0.06]) 0.025 2100 1 = Ok o /\
  do_call bp o CFwd = (o', OUnit (Ok tt)) /\
  exists m m',
  syn_init [2000; 35000; 77500] [2000; 6500; 8045] [1360; 3750; 4485] [2720; 2920; 3345.5] (PyList [0.00004; 0.00006]) 0.025 2100 1 = Ok m /\
  do_call bp m CFwd = (m', OUnit (Ok tt)) /\
  map tr_data (match s_rstream m' with Some l => l | None => [] end) = map tr_data (match s_rstream o' with Some l => l | None => [] end) /\
  length (match s_rstream o' with Some l => l | None => [] end) = 2%nat.
Proof.
  destruct (C43_run_fwd_example bp) as (o & o' & Hi & Hf). rewrite C42_run_fwd_resets in Hf. exists o, o'. split; [exact Hi|]. split; [cbn [do_call]; rewrite Hf; reflexivity|].
  exists (u_obj 1000 1000 1 o), (u_obj 1000 1000 1 o').
  pose proof (C110_object 1000 1000 1 [2; 35; 77.5] [2; 6.5; 8.045] [1.36; 3.75; 4.485] [2.72; 2.92; 3.3455] (PyList [0.04; 0.06]) 0.025 2100 1) as Q.
  rewrite Hi in Q. cbn [rmapr] in Q. split.
  { rewrite <- Q. unfold vel, slow. cbn [map u_rayp]. unfold vel, slow. f_equal; repeat (f_equal; try lra). }
  pose proof (C110_call 1000 1000 1 ltac:(lra) ltac:(lra) ltac:(lra) bp) as C. 
  assert (Hbp : forall dt a b o z d, bp (1 * dt) (a / 1) (b / 1) o z d = bp dt a b o z d).
  { intros. unfold bp. apply f_equal. apply map_ext. intro. field. }
  specialize (C Hbp o CFwd). cbn [u_call do_call] in C. rewrite Hf in C. split; [exact C|].
  destruct (C43_run_fwd bp _ _ _ _ _ _ _ _ o [] o' Hi ltac:(cbn [do_calls]; exact Hf)) as (rs & zs & Hr & Hz & L1 & L2 & _).
  cbn [u_obj s_rstream]. rewrite Hr. cbn [option_map]. split; [rewrite map_map; reflexivity|exact L1].
Qed.
