(** * The plot functions of PlotModel, run against pyplot's global figures (C132, C133).

    P_Pyplot takes the figures of a call as given; here they are the ones PlotModel's functions draw
    ([figures] of the events of the call), for every result, every arithmetic and every pyplot state. *)

From Coq Require Import String List Lia.
From Verif Require Import Base Num NumPy HkModel HkProofs P_Hk4 PlotModel PlotProofs PlotProofs2 PlotProofs3 PlotProofs4 P_Plot3 P_Plot4 P_Plot5 PyplotModel P_Pyplot.
Import ListNotations.
Open Scope list_scope.

(** The files a returned call adds, when pyplot is in state [ps]. *)
Definition files_of {N : Num} (b : bool) (f : pfun) (es : list (pev N)) (ps : pyst (pev N)) (new : list (string * list (pev N))) : Prop :=
  py_saved (pyrun b (ops_of (Returned f (figures es))) ps) = py_saved ps ++ new.

Ltac own_files Ev :=
  split; [exact Ev|]; split; [unfold complete; match goal with H : figures _ = _ |- _ => rewrite H end; reflexivity|];
  intros ? ?; apply C132_own_returned; reflexivity.

Theorem C132_plothk (N : Num) pyplot (km1 : N) path g rmneg fmt (s s' : pst N (hkres N)) u :
  plothk pyplot km1 path g rmneg fmt s = (s', Ok u) ->
  let f := Fplothk (hr_stack (ps_d s)) in
  exists es, ps_ev s' = ps_ev s ++ es /\ complete f (figures es) /\ forall b ps, files_of b f es ps (figures es).
Proof.
  intros E f.
  assert (Hb : exists bm, nth_error (hr_stk (ps_d s)) (hr_best (ps_d s)) = Some bm).
  { destruct (plothk_split pyplot km1 path g rmneg fmt s) as [(d'&e&E'&P)|(d'&bm0&ts&P&Eb&Ets&E')]; [|eauto].
    rewrite E' in E. discriminate E. }
  destruct Hb as [bm Hb].
  destruct (plothk_events N pyplot km1 path g rmneg fmt s s' u bm E Hb) as (lo&hi&sp&a&b&c&e&g0&g1&W&X).
  unfold f. destruct (hr_stack (ps_d s)).
  - destruct X as (ts & _ & Ev). match type of Ev with _ = _ ++ ?x => exists x; assert (F : exists nm y, figures x = [(nm, y)]) end.
    { eexists _, _. apply figures_one. apply Forall_app. split; [apply plain_fig_one|apply plain_spans3]. }
    destruct F as (nm & y & F). own_files Ev.
  - destruct X as (g2&g3&tsl&_&_&Ev). match type of Ev with _ = _ ++ ?x => exists x; assert (F : exists nm y, figures x = [(nm, y)]) end.
    { eexists _, _. apply figures_one. apply plain_fig_traces. }
    destruct F as (nm & y & F). own_files Ev.
Qed.

Theorem C132_plotSeqhk (N : Num) pyplot (km1 : N) path g rmneg fmt (s s' : pst N (seqres N)) u :
  plotSeqhk pyplot km1 path g rmneg fmt s = (s', Ok u) ->
  let f := FplotSeqhk (sr_stack (ps_d s)) in
  exists es, ps_ev s' = ps_ev s ++ es /\ complete f (figures es) /\ forall b ps, files_of b f es ps (figures es).
Proof.
  intros E f. destruct (seq_rows N pyplot km1 path g rmneg fmt s s' u E) as (bm1 & bm2 & Hb1 & Hb2). unfold f.
  destruct (sr_stack (ps_d s)) eqn:Hs.
  - destruct (plotSeqhk_stacked_events N pyplot km1 path g rmneg fmt s s' u bm1 bm2 E Hs Hb1 Hb2)
      as (ts1&ts2&a1&b1&c1&e1&a2&b2&c2&e2&g0&g1&_&_&_&_&_&_&Ev).
    match type of Ev with _ = _ ++ ?x => exists x; assert (F : exists n1 y1 n2 y2, figures x = [(n1, y1); (n2, y2)]) end.
    { eexists _, _, _, _. apply figures_two; apply plain_fig_one. }
    destruct F as (n1 & y1 & n2 & y2 & F). own_files Ev.
  - destruct (plotSeqhk_traces_events N pyplot km1 path g rmneg fmt s s' u bm1 bm2 E Hs Hb1 Hb2)
      as (RS&RM&a1&b1&c1&e1&a2&b2&c2&e2&g0&g1&g2&g3&r1&rl1&ts1&r2&rl2&ts2&_&_&_&_&_&_&_&_&_&_&_&_&_&_&_&_&Ev).
    match type of Ev with _ = _ ++ ?x => exists x; assert (F : exists n1 y1 n2 y2, figures x = [(n1, y1); (n2, y2)]) end.
    { eexists _, _, _, _. apply figures_two; apply plain_fig_traces. }
    destruct F as (n1 & y1 & n2 & y2 & F). own_files Ev.
Qed.

Theorem C132_plothkYu (N : Num) pyplot k path g rmneg fmt (s s' : pst N (yures N)) u :
  plothkYu pyplot k path g rmneg fmt s = (s', Ok u) ->
  exists es, ps_ev s' = ps_ev s ++ es /\ complete FplothkYu (figures es) /\ forall b ps, files_of b FplothkYu es ps (figures es).
Proof.
  intros E.
  assert (Hb : exists bm, nth_error (yr_stk (ps_d s)) (yr_best (ps_d s)) = Some bm).
  { unfold plothkYu in E. step E d. apply pget_ok in E0. destruct E0 as [-> ->]. step E bm. pure E0. apply getitem_Ok in L. eauto. }
  destruct Hb as [bm Hb].
  destruct (plothkYu_events N pyplot k path g rmneg fmt s s' u bm E Hb) as (ts&a&b&c&e&g0&g1&_&_&_&_&Ev).
  match type of Ev with _ = _ ++ ?x => exists x; assert (F : exists nm y, figures x = [(nm, y)]) end.
  { eexists _, _. apply figures_one. apply plain_fig_one. }
  destruct F as (nm & y & F). own_files Ev.
Qed.

Theorem C132_plothkSynth (N : Num) pyplot k path g rmneg fmt (s s' : pst N (hksres N)) u :
  plothkSynth pyplot k path g rmneg fmt s = (s', Ok u) ->
  exists es, ps_ev s' = ps_ev s ++ es /\ complete FplothkSynth (figures es) /\ forall b ps, files_of b FplothkSynth es ps (figures es).
Proof.
  intros E.
  assert (Hb : exists bm, nth_error (hs_stk (ps_d s)) (hs_best (ps_d s)) = Some bm).
  { unfold plothkSynth in E. step E d. apply pget_ok in E0. destruct E0 as [-> ->]. step E bm. pure E0. apply getitem_Ok in L. eauto. }
  destruct Hb as [bm Hb].
  destruct (plothkSynth_events N pyplot k path g rmneg fmt s s' u bm E Hb) as (ts'&a&b&c&e&g0&g1&lo&hi&sp&_&_&_&_&_&Ev).
  match type of Ev with _ = _ ++ ?x => exists x; assert (F : exists nm y, figures x = [(nm, y)]) end.
  { eexists _, _. apply figures_one. apply Forall_app. split; [apply plain_fig_one|apply plain_spans3]. }
  destruct F as (nm & y & F). own_files Ev.
Qed.

Theorem C132_plothkSeqSynth (N : Num) pyplot k path g rmneg fmt (s s' : pst N (seqsres N)) u :
  plothkSeqSynth pyplot k path g rmneg fmt s = (s', Ok u) ->
  exists es, ps_ev s' = ps_ev s ++ es /\ complete FplothkSeqSynth (figures es) /\ forall b ps, files_of b FplothkSeqSynth es ps (figures es).
Proof.
  intros E. destruct (seqsyn_rows _ _ _ _ _ _ _ _ _ _ E) as (bm1 & bm2 & Hb1 & Hb2).
  destruct (plothkSeqSynth_events N pyplot k path g rmneg fmt s s' u bm1 bm2 E Hb1 Hb2)
    as (ts1&ts2&a1&b1&c1&e1&a2&b2&c2&e2&g0&g1&_&_&_&_&_&_&Ev).
  match type of Ev with _ = _ ++ ?x => exists x; assert (F : exists n1 y1 n2 y2, figures x = [(n1, y1); (n2, y2)]) end.
  { eexists _, _, _, _. apply figures_two; apply plain_fig_one. }
  destruct F as (n1 & y1 & n2 & y2 & F). own_files Ev.
Qed.

(** The filter plots ([plotfiltrf] and, with the same statements, [plotfiltSynthrf]): three files; the
    first also shows everything that was on the current figure when the call was made. *)
Theorem C133_plotfiltrf (N : Num) pyplot path fmt (s s' : pst N (fltres N)) u f :
  plotfiltrf pyplot path fmt s = (s', Ok u) -> f = Fplotfiltrf \/ f = FplotfiltSynthrf ->
  exists es a ac flt rfs, ps_ev s' = ps_ev s ++ es /\
    figures es = [((path ++ "/Autocorrelation." ++ fmt)%string, a :: ac); ((path ++ "/Resonance_Filter." ++ fmt)%string, flt);
                  ((path ++ "/RF_FilteredRF." ++ fmt)%string, rfs)] /\
    complete f (figures es) /\
    forall b ps, files_of b f es ps
      [((path ++ "/Autocorrelation." ++ fmt)%string, hd [] (py_open ps) ++ a :: ac);
       ((path ++ "/Resonance_Filter." ++ fmt)%string, flt); ((path ++ "/RF_FilteredRF." ++ fmt)%string, rfs)].
Proof.
  unfold plotfiltrf. intros E Hf.
  apply pbind_ok in E. destruct E as [s1 [d1 [E1 E]]]. apply pget_ok in E1. destruct E1 as [-> ->].
  do 9 (apply pbind_ok in E; let s1 := fresh "t" in let u1 := fresh "v" in let E1 := fresh "E1" in
        destruct E as [s1 [u1 [E1 E]]]; apply emit_ok in E1).
  apply emit_ok in E. subst. cbn [ps_ev ps_d]. eexists _, _, _, _, _. rewrite <- !app_assoc. split; [reflexivity|].
  cbn [app]. split; [reflexivity|]. split; [destruct Hf; subst f; reflexivity|].
  intros b ps. unfold files_of.
  destruct Hf as [-> | ->]; (etransitivity; [apply C133_one_call|reflexivity]).
Qed.
