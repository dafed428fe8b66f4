(** * ExtractModel: ExtractEq.py and ExtractEqMultiproc.py.

    Times are UTCDateTime values: whole nanoseconds ([Z]); adding seconds rounds
    [seconds * 1e9] half to even (the product itself is taken exactly).  obspy and the
    file system are parameters: the directory listing, reading a file (whole, or between
    two times), reading the catalog, the epicentral distance and the travel-time table.
    The result of the two writers is the pair (file name, stream) handed to
    [Stream.write]. *)

From Coq Require Import Reals Lra.
From Verif Require Import Base PoolModel.
Local Open Scope Z_scope.

(** Python's [round]: half to even. *)
Definition round_half_even (x : R) : Z :=
  let k := Int_part x in
  let d := (x - IZR k)%R in
  if Rlt_dec d (1 / 2)%R then k
  else if Rlt_dec (1 / 2)%R d then k + 1
  else if Z.even k then k else k + 1.
(** [UTCDateTime + seconds]; [t - s] is [t + (-s)]. *)
Definition utc_add (t : Z) (s : R) : Z := t + round_half_even (s * 1000000000)%R.

(** obspy.core.event: only what is read. *)
Record origin := mkOri { o_time : Z; o_lat : R; o_lon : R; o_depth : option R }.
Record event := mkEv { ev_origins : list origin; ev_mags : list R }.

(** A window: [eqstart], [eqend], [onset]. *)
Record window := mkW { w_start : Z; w_end : Z; w_onset : Z }.

Section Extract.
Context {D : Type}.   (* samples and remaining header of a trace *)

(** obspy.Trace: start and end time, the header entry [onset], the rest. *)
Record etr := mkE { e_start : Z; e_end : Z; e_onset : option Z; e_data : D }.
Definition set_onset (on : Z) (t : etr) : etr := mkE (e_start t) (e_end t) (Some on) (e_data t).

Variable glob : string -> list string.                      (* glob.glob(pattern) *)
Variable rd : string -> res (list etr).                     (* obspy.read(name) *)
Variable rdw : string -> Z -> Z -> res (list etr).          (* obspy.read(name, starttime, endtime) *)
Variable events : string -> res (list event).               (* obspy.read_events(name) *)
Variable geo : R -> R -> R -> R -> res R.                   (* gps2dist_azimuth, then locations2degrees *)
Variable tt : R -> R -> list R.                             (* iasp91 arrival times for depth (km), distance (deg) *)

(** Python's [sorted] on strings (code point order). *)
Fixpoint insert (x : string) (l : list string) : list string :=
  match l with [] => [x] | y :: l' => if String.leb x y then x :: y :: l' else y :: insert x l' end.
Fixpoint sorted (l : list string) : list string :=
  match l with [] => [] | x :: l' => insert x (sorted l') end.

(** ExtractEq.py:99-115, the body of the event loop; the same computation is
    ExtractEqMultiproc.py:119-135. *)
Definition event_window (stalat stalon : R) (w0 w1 : res R) (ev : event) : res window :=
  o <- getitem (ev_origins ev) 0 ;;
  _ <- getitem (ev_mags ev) 0 ;;
  depth <- need (o_depth o) ;;
  let eqdepth := (depth / 1000)%R in
  distdeg <- geo stalat stalon (o_lat o) (o_lon o) ;;
  p <- getitem (tt eqdepth distdeg) 0 ;;
  let onset := utc_add (o_time o) p in
  a <- w0 ;; b <- w1 ;;
  Ok (mkW (utc_add onset (- Rabs a)) (utc_add onset (Rabs b)) onset).

(** ExtractEq.py:126-132 *)
Definition extract_pair (f : string) (filestart fileend : Z) (t : window) (acc : list etr) : res (list etr) :=
  if (filestart <=? w_start t) && (w_end t <=? fileend) then               (* 126 *)
    eqd <- rdw f (w_start t) (w_end t) ;;
    _ <- getitem eqd 0 ;;                                                  (* 129 *)
    Ok (acc ++ map (set_onset (w_onset t)) eqd)                            (* 130-132 *)
  else Ok acc.

(** ExtractEq.py:120-132 *)
Definition extract_file (wins : list window) (f : string) (acc : list etr) : res (list etr) :=
  st <- rd f ;;
  h <- getitem st 0 ;;
  forM wins (extract_pair f (e_start h) (e_end h)) acc.

(** ExtractEq.py:44-133 *)
Definition ExtractEq (datapath filename catalog : string) (stalat stalon : R) (Request_window : list R)
  : res (string * list etr) :=
  let datafiles := sorted (glob (datapath ++ "*")%string) in               (* 83 *)
  f0 <- getitem datafiles 0 ;; firstfile <- rd f0 ;;                       (* 85 *)
  fl <- getitem datafiles (length datafiles - 1) ;; lastfile <- rd fl ;;   (* 86 *)
  _ <- getitem firstfile 0 ;; _ <- getitem lastfile 0 ;;                   (* 87-88 *)
  evs <- events catalog ;;
  wins <- mapM (event_window stalat stalon (getitem Request_window 0) (getitem Request_window 1)) evs ;;
  data <- forM datafiles (extract_file wins) [] ;;
  Ok (filename, data).                                                     (* 133 *)

(** ExtractEqMultiproc.py:45-87 [Add_sta_time_2cat]: an event with the attributes
    stalat, stalon, Request_start, Request_end. *)
Record mevent := mkMev { m_ev : event; m_lat : R; m_lon : R; m_w0 : R; m_w1 : R }.
Definition Add_sta_time_2cat (catalog : string) (stalat stalon : R) (Request_window : list R) : res (list mevent) :=
  evs <- events catalog ;;
  mapM (fun ev => a <- getitem Request_window 0 ;; b <- getitem Request_window 1 ;;
                  Ok (mkMev ev stalat stalon a b)) evs.

(** ExtractEqMultiproc.py:89-137 [Eq_times]: a list with one dictionary. *)
Definition Eq_times (m : mevent) : res (list window) :=
  w <- event_window (m_lat m) (m_lon m) (Ok (m_w0 m)) (Ok (m_w1 m)) (m_ev m) ;; Ok [w].

(** ExtractEqMultiproc.py:141-175 [Get_Eqtimes_multiproc]: the pool over the events. *)
Definition Get_Eqtimes_multiproc (nproc : nat) (catalog : list mevent) (r : res (list (option (list window)))) : Prop :=
  pool_map_returns Eq_times nproc catalog r.

(** ExtractEqMultiproc.py:178-217 [Get_EqStream_multiproc]; the argument is
    ((datafile,), timewindow). *)
Definition Get_EqStream_multiproc (inp : list string * list (list window)) : res (list etr) :=
  let '(datafiles, timewindow) := inp in
  f <- getitem datafiles 0 ;;                                              (* 208 *)
  forM timewindow (fun i acc =>
    w <- getitem i 0 ;;                                                    (* 210-212 *)
    eqd <- rdw f (w_start w) (w_end w) ;;                                  (* 213 *)
    Ok (acc ++ map (set_onset (w_onset w)) eqd)) [].                       (* 214-216 *)

(** ExtractEqMultiproc.py:265-267; an entry [None] cannot be added to a stream. *)
Fixpoint join_streams (l : list (option (list etr))) (acc : list etr) : res (list etr) :=
  match l with
  | [] => Ok acc
  | Some s :: l' => join_streams l' (acc ++ s)
  | None :: _ => Err TypeError
  end.

(** ExtractEqMultiproc.py:220-268 [ExtractEq_Multiproc] *)
Definition ExtractEq_Multiproc (datafiles : list string) (timewindow : list (list window)) (nproc : nat)
    (filename : string) (r : res (string * list etr)) : Prop :=
  exists p, pool_map_returns Get_EqStream_multiproc nproc (map (fun f => ([f], timewindow)) datafiles) p /\
    r = (l <- p ;; s <- join_streams l [] ;; Ok (filename, s)).
End Extract.
