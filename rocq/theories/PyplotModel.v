(** * PyplotModel: pyplot's figures, which outlive the call that drew them.

    Sources: every function of rfsed that draws: hkZhu.py [hk] 173-186, [plothk] 281-344, 345-443;
    hkSeqYeck.py [hkSeq] 201-214, 265-278, [plotSeqhk] 370-435, 436-544, 585-645, 646-747;
    hkYu.py [hkYu] 171-186, [plothkYu] 273-333; SynthAnalysis.py [hkSynth] 170-183, [hkSeqSynth] 323-336,
    381-394, [plothkSynth] 571-637, [plothkSeqSynth] 703-763, 786-843, [plotfiltSynthrf] 887-917;
    ReverbFilter.py [plotfiltrf] 184-214; WaveformFitting.py [PlotWaveformFitting] 334-431;
    WaveformFittingMultiproc.py [plotbestmodel] 400-494.

    PlotModel gives what each figure of a call is handed and the order of [savefig]/[show]; here is what
    it leaves out: on which figure the drawings go ([plt.figure], the current figure) and which figures
    are open afterwards ([plt.close]).  Drawings are abstract ([E]); axes inside a figure, legends,
    ticks are not distinguished. *)

From Coq Require Import String List.
From Verif Require Import Base.
Import ListNotations.
Open Scope list_scope.

Section Py.
Context {E : Type}.

(** pyplot's global state as a user can see it: the open figures, current one first; the files written,
    oldest first; for every [plt.show], the figures it put on the screen. *)
Record pyst := mkPy { py_open : list (list E); py_saved : list (string * list E); py_shown : list (list (list E)) }.
Definition py0 := mkPy [] [] [].

(** The pyplot calls. *)
Inductive op :=
| OFig                      (* plt.figure(...) *)
| OPut (e : E)              (* plt.plot, plt.tricontourf, ax.plot, ... on the current figure *)
| OSave (name : string)     (* plt.savefig *)
| OShow                     (* plt.show() *)
| OClose.                   (* plt.close("all") *)

(** Every call that needs a figure opens one if none is open (pyplot's gcf). *)
Definition gcf (l : list (list E)) := match l with [] => [[]] | _ => l end.
Definition on_current (e : E) (l : list (list E)) :=
  match gcf l with [] => [] | f :: r => (f ++ [e]) :: r end.

(** [blocking]: [plt.show] returns when the user has closed the windows (a GUI backend; the inline
    backend of a notebook also closes the figures); otherwise (Agg, interactive mode) the figures stay
    open.  The backend is the user's choice, so everything is stated for both. *)
Definition pystep (blocking : bool) (s : pyst) (o : op) : pyst :=
  match o with
  | OFig => mkPy ([] :: py_open s) (py_saved s) (py_shown s)
  | OPut e => mkPy (on_current e (py_open s)) (py_saved s) (py_shown s)
  | OSave n => mkPy (gcf (py_open s)) (py_saved s ++ [(n, hd [] (py_open s))]) (py_shown s)
  | OShow => mkPy (if blocking then [] else py_open s) (py_saved s) (py_shown s ++ [py_open s])
  | OClose => mkPy [] (py_saved s) (py_shown s)
  end.
Definition pyrun (blocking : bool) (os : list op) (s : pyst) : pyst := fold_left (pystep blocking) os s.

(** The functions that draw; the flag is the [stack] entry of the result. *)
Inductive pfun :=
| Fhk | FhkSeq | FhkYu | FhkSynth | FhkSeqSynth
| Fplothk (stack : bool) | FplotSeqhk (stack : bool) | FplothkYu | FplothkSynth | FplothkSeqSynth
| Fplotfiltrf | FplotfiltSynthrf | FPlotWaveformFitting | Fplotbestmodel.

(** Does it start each figure with [plt.figure]?
    Yes: hkZhu.py 281; hkSeqYeck.py 370, 585; hkYu.py 273; SynthAnalysis.py 571, 703, 786;
    WaveformFitting.py 334; WaveformFittingMultiproc.py 400.
    No: hkZhu.py 173; hkSeqYeck.py 201, 265; hkYu.py 171; SynthAnalysis.py 170, 323, 381, 887, 897, 907;
    ReverbFilter.py 184, 194, 204. *)
Definition own (f : pfun) : bool :=
  match f with
  | Fhk | FhkSeq | FhkYu | FhkSynth | FhkSeqSynth | Fplotfiltrf | FplotfiltSynthrf => false
  | _ => true
  end.

(** Does it save its figures?  The search functions only show them ([savefig] is commented out:
    hkZhu.py 184, hkSeqYeck.py 212, 276, hkYu.py 184, SynthAnalysis.py 181, 334, 392). *)
Definition saves (f : pfun) : bool :=
  match f with Fhk | FhkSeq | FhkYu | FhkSynth | FhkSeqSynth => false | _ => true end.

(** Is figure [i] (from 0) followed by [plt.close("all")]?  Everywhere except at the end of the
    branches for unstacked results: hkZhu.py 441-443 and hkSeqYeck.py 745-747. *)
Definition closes (f : pfun) (i : nat) : bool :=
  match f, i with
  | Fplothk false, _ => false
  | FplotSeqhk false, 1 => false
  | _, _ => true
  end.

(** Number of figures of a complete call: the sequential functions have one for the sediment and one for
    the Moho, the filter plots three (autocorrelation, filter, receiver functions), the waveform plots one
    for each of the four criteria (WaveformFitting.py 310-313, WaveformFittingMultiproc.py 380-383). *)
Definition nfigs (f : pfun) : nat :=
  match f with
  | FhkSeq | FhkSeqSynth | FplotSeqhk _ | FplothkSeqSynth => 2
  | Fplotfiltrf | FplotfiltSynthrf => 3
  | FPlotWaveformFitting | Fplotbestmodel => 4
  | _ => 1
  end.

(** The pyplot calls of one figure; [fig] is its file name and what is drawn (PlotModel's [figures] of the
    events of the call). *)
Definition stage (f : pfun) (i : nat) (fig : string * list E) : list op :=
  (if own f then [OFig] else []) ++ map OPut (snd fig) ++
  (if saves f then [OSave (fst fig)] else []) ++ [OShow] ++ (if closes f i then [OClose] else []).
Fixpoint stages (f : pfun) (i : nat) (figs : list (string * list E)) : list op :=
  match figs with [] => [] | fig :: r => stage f i fig ++ stages f (S i) r end.
Definition script (f : pfun) (figs : list (string * list E)) : list op := stages f 0 figs.

(** What happens in a Python session: calls that return (all their pyplot calls are made), calls that
    raise (only the first [n] are made), and pyplot calls by the user. *)
Inductive item :=
| Returned (f : pfun) (figs : list (string * list E))
| Raised (f : pfun) (figs : list (string * list E)) (n : nat)
| User (o : op).
Definition ops_of (it : item) : list op :=
  match it with
  | Returned f figs => script f figs
  | Raised f figs n => firstn n (script f figs)
  | User o => [o]
  end.
Definition session (blocking : bool) (l : list item) (s : pyst) : pyst :=
  fold_left (fun s it => pyrun blocking (ops_of it) s) l s.

End Py.
Arguments pyst : clear implicits.
Arguments op : clear implicits.
Arguments item : clear implicits.
