(** * SynModel: the class [synrf] of synrf.py (lines 454-582) and [RFTrace.deconvolve]
    (lines 326-347), as a state machine over the object's attributes.

    obspy's bandpass filter is a parameter: [bp delta freqmin freqmax corners zerophase
    data].  A method that raises returns the object as it is at that moment. *)

From Coq Require Import Reals Lra.
From Verif Require Import Base Num NumPy Cplx Mat4 DFT ReverbModel DeconModel HaskellModel.
Local Open Scope R_scope.

(** obspy.Trace: sampling interval and samples (other header entries are copied along and
    not modelled). *)
Record trace := mkTr { tr_delta : R; tr_data : list R }.

(** The argument [rayp]: [isinstance] distinguishes these cases (np.float64 is a float;
    an int is none of the three). *)
Inductive rayparg := PyFloat (r : R) | PyList (l : list R) | NdArray (l : list R) | PyOther.

(** Attributes of the object; [None]: the attribute does not exist. *)
Record synobj := mkSyn {
  s_vp : list R; s_vs : list R; s_rho : list R; s_dt : R; s_npts : nat;
  s_thickness : list R; s_rayp : list R; s_ipha : Z;
  s_rstream : option (list trace); s_zstream : option (list trace) }.

(** synrf.py:484-511 [synrf.__init__]; [filter] is not used by the code. *)
Definition syn_init (depth vp vs rho : list R) (rayp : rayparg) (dt : R) (npts : nat) (ipha : Z) : res synobj :=
  let th := thickness depth in                                             (* 495-504 *)
  match rayp with                                                          (* 505-510 *)
  | PyOther => Err TypeError
  | PyFloat r => Ok (mkSyn vp vs rho dt npts th [r] ipha None None)
  | PyList l | NdArray l => Ok (mkSyn vp vs rho dt npts th l ipha None None)
  end.

Definition with_streams (o : synobj) (r z : option (list trace)) : synobj :=
  mkSyn (s_vp o) (s_vs o) (s_rho o) (s_dt o) (s_npts o) (s_thickness o) (s_rayp o) (s_ipha o) r z.

(** synrf.py:524-533, the loop of [run_fwd]; traces are appended to both streams. *)
Fixpoint fwd_loop (o : synobj) (rayps : list R) (rs zs : list trace) : synobj * res unit :=
  match rayps with
  | [] => (with_streams o (Some rs) (Some zs), Ok tt)
  | rp :: rayps' =>
      match fwd_seis rp (s_dt o) (s_npts o) (s_ipha o) (s_vp o) (s_vs o) (s_rho o) (s_thickness o) with
      | Err e => (with_streams o (Some rs) (Some zs), Err e)
      | Ok (ur, uz) => fwd_loop o rayps' (rs ++ [mkTr (s_dt o) ur]) (zs ++ [mkTr (s_dt o) uz])
      end
  end.
(** synrf.py:513-533 [run_fwd] *)
Definition run_fwd (o : synobj) : synobj * res unit := fwd_loop o (s_rayp o) [] [].

Section WithFilter.
Variable bp : R -> R -> R -> nat -> bool -> list R -> res (list R).

(** Arguments of [filter]: freqmin, freqmax, order (default 2), zerophase (default True);
    [PFother]: a list that does not match the signature ([self.filter(star pre_filt)]). *)
Inductive filtarg := PF2 (a b : R) | PF3 (a b : R) (order : nat) | PF4 (a b : R) (order : nat) (zp : bool) | PFother.

(** obspy [Stream.filter]: every trace in turn, in place. *)
Fixpoint filter_stream (a b : R) (order : nat) (zp : bool) (st : list trace) : list trace * res unit :=
  match st with
  | [] => ([], Ok tt)
  | t :: st' =>
      match bp (tr_delta t) a b order zp (tr_data t) with
      | Err e => (t :: st', Err e)
      | Ok d => let '(st'', r) := filter_stream a b order zp st' in (mkTr (tr_delta t) d :: st'', r)
      end
  end.

(** synrf.py:535-555 [filter] *)
Definition syn_filter (o : synobj) (fa : filtarg) : synobj * res unit :=
  let go a b order zp :=
    match s_rstream o, s_zstream o with                                    (* 553 *)
    | Some rs, Some zs =>
        let '(rs', r1) := filter_stream a b order zp rs in
        match r1 with
        | Err e => (with_streams o (Some rs') (Some zs), Err e)
        | Ok _ => let '(zs', r2) := filter_stream a b order zp zs in
                  (with_streams o (Some rs') (Some zs'), r2)
        end
    | _, _ => (o, Err AttributeError)
    end in
  match fa with
  | PF2 a b => go a b 2%nat true
  | PF3 a b order => go a b order true
  | PF4 a b order zp => go a b order zp
  | PFother => (o, Err TypeError)
  end.

(** [RFTrace.deconvolve(utr, wtr, method, **kwargs)], synrf.py:330-347: the header of the
    result is that of [utr] (so its delta), the samples are the receiver function. *)
Record rftrace := mkRf { rf_delta : R; rf_result : dresult }.
Definition rf_data (t : rftrace) : list R :=
  match rf_result t with RIter rf _ _ => rf | RWater rf _ => rf end.
Definition rftrace_deconvolve (utr wtr : trace) (method : option string) (k : kwargs) : res rftrace :=
  r <- deconvolve (tr_data utr) (tr_data wtr) (tr_delta utr) (dflt method "iter"%string) k ;;
  Ok (mkRf (tr_delta utr) r).

(** [self.rstream[i]] *)
Definition stream_item (st : option (list trace)) (i : nat) : res trace :=
  match st with None => Err AttributeError | Some l => getitem l i end.

(** synrf.py:576-581, the loop of [run_deconvolution] *)
Fixpoint decon_loop (o : synobj) (method : option string) (k : kwargs) (idx : list nat) : res (list rftrace) :=
  match idx with
  | [] => Ok []
  | i :: idx' =>
      u <- stream_item (s_rstream o) i ;;
      w <- stream_item (s_zstream o) i ;;
      t <- rftrace_deconvolve u w method k ;;
      rest <- decon_loop o method k idx' ;;
      Ok (t :: rest)
  end.

(** synrf.py:557-582 [run_deconvolution(pre_filt, preonset, gaussian, **kwargs)];
    preonset and gaussian always have a value (defaults 10 and 2.0) and are put into the
    keywords passed on; the caller's own keywords are [k]. *)
Definition run_deconvolution (o : synobj) (pre_filt : option filtarg) (preonset gaussian : R)
    (method : option string) (k : kwargs) : synobj * res (list rftrace) :=
  let k' := mkKw (kw_nt k) (Some preonset) (Some gaussian) (kw_itmax k) (kw_minderr k) (kw_phase k)
                 (kw_wlevel k) (kw_normalize k) (kw_other k) in
  let '(o1, r1) := match pre_filt with None => (o, Ok tt) | Some fa => syn_filter o fa end in  (* 574-575 *)
  match r1 with
  | Err e => (o1, Err e)
  | Ok _ => (o1, decon_loop o1 method k' (seq 0 (length (s_rayp o1))))
  end.

(** A call of one of the three methods. *)
Inductive call :=
| CFwd
| CFilter (fa : filtarg)
| CDecon (pre_filt : option filtarg) (preonset gaussian : R) (method : option string) (k : kwargs).
Inductive outcome := OUnit (r : res unit) | OTraces (r : res (list rftrace)).
Definition do_call (o : synobj) (c : call) : synobj * outcome :=
  match c with
  | CFwd => let '(o', r) := run_fwd o in (o', OUnit r)
  | CFilter fa => let '(o', r) := syn_filter o fa in (o', OUnit r)
  | CDecon pf po ga me k => let '(o', r) := run_deconvolution o pf po ga me k in (o', OTraces r)
  end.
(** A history of calls, exceptions caught by the caller. *)
Fixpoint do_calls (o : synobj) (cs : list call) : synobj :=
  match cs with [] => o | c :: cs' => do_calls (fst (do_call o c)) cs' end.
End WithFilter.

(** synrf.py:557, the default [pre_filt=[0.05, 2]]. *)
Definition default_pre_filt : option filtarg := Some (PF2 (5 / 100) 2).
(** synrf.py:557: a call [run_deconvolution(...)] in which the first three arguments may be
    left out ([None] on the outside; [Some None] is an explicit [pre_filt=None]). *)
Definition decon_call (pre_filt : option (option filtarg)) (preonset gaussian : option R)
    (method : option string) (k : kwargs) : call :=
  CDecon (dflt pre_filt default_pre_filt) (dflt preonset 10) (dflt gaussian 2) method k.
