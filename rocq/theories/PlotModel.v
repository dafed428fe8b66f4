(** * PlotModel: what the plot functions do to their argument and to the disk.

    Sources: hkZhu.py [plothk], hkSeqYeck.py [plotSeqhk], hkYu.py [plothkYu],
    SynthAnalysis.py [plothkSynth], [plothkSeqSynth], [plotfiltSynthrf],
    ReverbFilter.py [plotfiltrf].

    Modelled: every read and write of the result dictionary, the data handed to
    pyplot (contour table, best-model marker, curves, arrival marks, highlighted
    spans, time limits) and [savefig].  Not modelled (presentation only): ticks,
    labels, legends, colours, [fill_between]; [plt.figure] and [plt.close] are in PyplotModel.  A pyplot call
    may raise: the oracle [pyplot] decides, from everything drawn so far. *)

From Verif Require Import Base Num NumPy HkModel.

Section Plot.
Context {N : Num}.

(** Effects visible to the user of a plot function. *)
Inductive pev :=
| EContour (tbl : list (row N))              (* plt.tricontourf(stk[:,0],stk[:,1],stk[:,2]) *)
| EBest (H K : N) (label : N * N)            (* ax1.plot(bmod[0], bmod[1], 'k+', label='%s Best Model %.2f km %.2f Vp/Vs' % (staname, label)) *)
| EGrid (hlo hhi klo khi : N)                (* ax1.set_xlim / set_ylim *)
| EXlim (panel : nat) (lo hi : Z)            (* ax.set_xlim *)
| ELine (panel : nat) (x y : list N)         (* ax.plot(t, rfdata) *)
| EMark (panel : nat) (t : tval N) (y1 y2 : N)   (* ax.plot([t,t],[y1,y2],'g-') *)
| ESpan (panel : nat) (lo hi : tval N)       (* ax.axvspan *)
| ESave (fname : string)                     (* plt.savefig *)
| EShow.                                     (* plt.show *)

(** State: what has been drawn/saved so far, and the (mutable) argument. *)
Record pst (D : Type) := mkPst { ps_ev : list pev; ps_d : D }.
Arguments mkPst {D}. Arguments ps_ev {D}. Arguments ps_d {D}.

(** A statement: new state (kept also when it raises) and outcome. *)
Definition PM (D A : Type) := pst D -> pst D * res A.
Definition pret {D A} (a : A) : PM D A := fun s => (s, Ok a).
Definition pbind {D A B} (m : PM D A) (f : A -> PM D B) : PM D B :=
  fun s => let '(s', r) := m s in
           match r with Ok a => f a s' | Err e => (s', Err e) end.
Definition plift {D A} (r : res A) : PM D A := fun s => (s, r).
Definition pget {D} : PM D D := fun s => (s, Ok (ps_d s)).
Definition pput {D} (d : D) : PM D unit := fun s => (mkPst (ps_ev s) d, Ok tt).

Context (pyplot : list pev -> pev -> option exn).
Definition emit {D} (e : pev) : PM D unit :=
  fun s => match pyplot (ps_ev s) e with
           | Some x => (s, Err x)
           | None => (mkPst (ps_ev s ++ [e]) (ps_d s), Ok tt)
           end.

Notation "x <~ m ;; k" := (pbind m (fun x => k)) (at level 61, m at next level, right associativity).
Notation "m ;;; k" := (pbind m (fun _ => k)) (at level 61, right associativity).

(** [for x in l: b = body(x, b)]. *)
Fixpoint forP {D A B} (l : list A) (body : A -> B -> PM D B) (b : B) : PM D B :=
  match l with
  | [] => pret b
  | x :: l' => b' <~ body x b ;; forP l' body b'
  end.

(** A local variable that may be unbound. *)
Definition bound {A} (x : option A) : res A :=
  match x with None => Err UnboundLocalError | Some a => Ok a end.
(** A header that may be missing. *)
Definition header {A} (x : option A) : res A :=
  match x with None => Err AttributeError | Some a => Ok a end.

(** [min(l)] (Python's builtin, first of the smallest). *)
Definition pymin (l : list N) : res N :=
  match l with
  | [] => Err ValueError
  | x :: l' => Ok (fold_left (fun m y => if nltb y m then y else m) l' x)
  end.

(** [g = [75., 10., 15., 2.5]] *)
Definition g_default : list N := [nofZ 75; nofZ 10; nofZ 15; nlit 25 10].

Definition times := (tval N * tval N * tval N)%type.

(** Three [ax.plot([t,t],[c+g,c-g],'g-')] (e.g. hkZhu.py:343-345). *)
Definition marks3 {D} (pan : nat) (ts : times) (c gain : N) : PM D unit :=
  let '(tps, tppps, tpsps) := ts in
  emit (EMark pan tps (nadd c gain) (nsub c gain)) ;;;
  emit (EMark pan tppps (nadd c gain) (nsub c gain)) ;;;
  emit (EMark pan tpsps (nadd c gain) (nsub c gain)).

(** Three [ax.axvspan(t-span, t+span)] (e.g. hkZhu.py:346-348). *)
Definition spans3 {D} (pan : nat) (ts : times) (span : N) : PM D unit :=
  let '(tps, tppps, tpsps) := ts in
  emit (ESpan pan (tsubr tps span) (taddr tps span)) ;;;
  emit (ESpan pan (tsubr tppps span) (taddr tppps span)) ;;;
  emit (ESpan pan (tsubr tpsps span) (taddr tpsps span)).

(** [rfdata * gain + c] *)
Definition scaled (data : list N) (gain c : N) : list N :=
  map (fun x => nadd (nmul x gain) c) data.

(** [(np.arange(0, len(rfdata), 1) * delta) + b] *)
Definition own_axis (tr : trace N) : list N :=
  map (fun i => nadd (nmul (nofZ (Z.of_nat i)) (tr_delta tr)) (tr_b tr))
      (seq 0 (length (tr_data tr))).

(** First panel: contour of the table, best-model marker, axis limits
    (hkZhu.py:289-305; hkSeqYeck.py:381-399, 593-610; hkYu.py:281-297;
    SynthAnalysis.py:579-593, 714-730, 794-811). *)
Definition panel1 {D} (stk : list (row N)) (ib : nat) (H K : list N) : PM D unit :=
  emit (EContour stk) ;;;
  bmod <~ plift (getitem stk ib) ;;
  emit (EBest (rH bmod) (rK bmod) (rH bmod, nadd (rK bmod) (nlit 1 1000))) ;;;
  hlo <~ plift (pymin H) ;; hhi <~ plift (pymax H) ;;
  klo <~ plift (pymin K) ;; khi <~ plift (pymax K) ;;
  emit (EGrid hlo hhi klo khi).

(** Panel with the curve of one stacked/synthetic trace drawn at height 180
    (hkZhu.py:311-345; hkSeqYeck.py:407-436, 617-648; hkYu.py:301-329;
    SynthAnalysis.py:600-622, 735-758, 816-838).  [win]: the x-limits, unbound for
    an unknown layer (hkZhu.py:268-277), where [timestep] is then unbound too. *)
Definition panel_one {D} (data t : list N) (g : list N) (gain0 : N -> N)
    (win : option (Z * Z * N)) (ts : times) : PM D unit :=
  g0 <~ plift (getitem g 0) ;;
  let baz := nofZ 180 in
  let rfdata := scaled data (gain0 g0) baz in
  w <~ plift (bound win) ;;
  let '(lo, hi, span) := w in
  emit (EXlim 2 lo hi) ;;;
  emit (ELine 2 t rfdata) ;;;
  ampgain <~ plift (getitem g 1) ;;
  marks3 2 ts baz ampgain.

(** Panel 2 (by back azimuth) or 3 (by distance) for the traces of a stream
    (hkZhu.py:361-400 and 407-431; hkSeqYeck.py:446-481, 495-533, 658-692,
    703-739): one curve and three marks per trace, then the spans at the times of
    the last trace. *)
Definition panel_stream {D} (pan : nat) (st : stream N) (g : list N) (gi : nat)
    (centre : trace N -> N) (win : option (Z * Z * N)) : PM D unit :=
  last <~ forP st (fun rf (_ : option times) =>
    ts <~ plift (header (tr_hdr rf)) ;;
    g0 <~ plift (getitem g gi) ;;
    let c := centre rf in
    let rfdata := scaled (tr_data rf) g0 c in
    let t := own_axis rf in
    w <~ plift (bound win) ;;
    let '(lo, hi, _) := w in
    emit (EXlim pan lo hi) ;;;
    emit (ELine pan t rfdata) ;;;
    ampgain <~ plift (getitem g (S gi)) ;;
    marks3 pan ts c ampgain ;;;
    pret (Some ts)) None ;;
  ts <~ plift (bound last) ;;
  w <~ plift (bound win) ;;
  let '(_, _, span) := w in
  spans3 pan ts span.

(** [tr.stats['tps'] = tps; ...] *)
Definition set_hdr (tr : trace N) (ts : times) : trace N :=
  mkTrace (tr_data tr) (tr_delta tr) (tr_slow tr) (tr_slowk tr) (tr_b tr) (tr_baz tr)
          (tr_dist tr) (tr_sta tr) (tr_chan tr) (Some ts).

(** The loop that writes the three times of every trace into its header
    (hkZhu.py:253-263; hkSeqYeck.py:355-364, 561-578); [times_of]: the times for a
    ray parameter. *)
Definition header_step {D} (getS : D -> stream N) (setS : D -> stream N -> D) (km1 : N)
    (times_of : N -> fkind -> res times) (i : nat) (_ : unit) : PM D unit :=
  d <~ pget ;;
  tr <~ plift (getitem (getS d) i) ;;
  ts <~ plift (times_of (nmul km1 (tr_slow tr)) (tr_slowk tr)) ;;
  pput (setS d (upd (getS d) i (set_hdr tr ts))).
Definition write_headers {D} (getS : D -> stream N) (setS : D -> stream N -> D) (km1 : N)
    (times_of : N -> fkind -> res times) : PM D unit :=
  d <~ pget ;;
  forP (seq 0 (length (getS d))) (header_step getS setS km1 times_of) tt.

(** The in-place clip [if rmneg == True: for i in range(len(stk)): if stk[i,2] <= 0:
    stk[i,2] = 0] (hkZhu.py:284-287 and the copies cited at [clip_loop]). *)
Definition clip_in_place {D} (getT : D -> list (row N)) (setT : D -> list (row N) -> D)
    (rmneg : bool) : PM D unit :=
  if rmneg then
    d <~ pget ;;
    t' <~ plift (clip_loop (getT d)) ;;
    pput (setT d t')
  else pret tt.

Definition hr_setRF (d : hkres N) (s : stream N) : hkres N :=
  mkHkRes s (hr_RFStack d) (hr_time d) (hr_best d) (hr_staname d) (hr_Vp d) (hr_stk d)
    (hr_layer d) (hr_stack d) (hr_comp d) (hr_AvgSlow d) (hr_H d) (hr_K d).
Definition hr_setStk (d : hkres N) (t : list (row N)) : hkres N :=
  mkHkRes (hr_RF d) (hr_RFStack d) (hr_time d) (hr_best d) (hr_staname d) (hr_Vp d) t
    (hr_layer d) (hr_stack d) (hr_comp d) (hr_AvgSlow d) (hr_H d) (hr_K d).

(** hkZhu.py:268-277, SynthAnalysis.py:560-569 *)
Definition layer_window (layer : string) : option (Z * Z * N) :=
  if String.eqb layer "Moho" then Some (-5, 30, nlit 5 10)%Z
  else if String.eqb layer "Sed" then Some (-1, 10, nlit 1 10)%Z
  else None.

(** ["%s/%s_%s_%s.%s"%(savepath, staname, comp, layer, format)] hkZhu.py:352, 439;
    hkSeqYeck.py:438, 541, 649, 747. *)
Definition fname4 (savepath staname comp layer format : string) : string :=
  (savepath ++ "/" ++ staname ++ "_" ++ comp ++ "_" ++ layer ++ "." ++ format)%string.
(** ["%s/%s_%s.%s"%(savepath, staname, layer, format)] hkYu.py:329,
    SynthAnalysis.py:633, 759, 839, WaveformFitting.py:427,
    WaveformFittingMultiproc.py:490. *)
Definition fname3 (savepath staname layer format : string) : string :=
  (savepath ++ "/" ++ staname ++ "_" ++ layer ++ "." ++ format)%string.
(** ["%s/%s.%s"%(savepath, name, format)] ReverbFilter.py:188, 198, 210;
    SynthAnalysis.py:891, 901, 913. *)
Definition fname2 (savepath name format : string) : string :=
  (savepath ++ "/" ++ name ++ "." ++ format)%string.

(** hkZhu.py:197-443 [plothk]. *)
Definition plothk (km1 : N) (savepath : string) (g : option (list N)) (rmneg : option bool)
    (format : option string) : PM (hkres N) unit :=
  let rmneg := dflt rmneg true in                                        (* 233 *)
  let format := dflt format "pdf"%string in
  let g := dflt g g_default in
  d <~ pget ;;
  bmod <~ plift (getitem (hr_stk d) (hr_best d)) ;;
  let Hbm := rH bmod in
  let Kbm := rK bmod in
  let Vp := hr_Vp d in
  let times_of := fun rp k => hk_times Vp rp k Hbm Kbm in
  ts <~ (if hr_stack d then                                              (* 243 *)
           ts <~ plift (times_of (nmul km1 (hr_AvgSlow d)) NpF) ;; pret (Some ts)
         else
           write_headers hr_RF hr_setRF km1 times_of ;;; pret None) ;;
  let win := layer_window (hr_layer d) in                                (* 268 *)
  clip_in_place hr_stk hr_setStk rmneg ;;;                               (* 284 *)
  d <~ pget ;;
  panel1 (hr_stk d) (hr_best d) (hr_H d) (hr_K d) ;;;
  (if hr_stack d then
     ts <~ plift (bound ts) ;;
     panel_one (hr_RFStack d) (hr_time d) g (fun x => x) win ts ;;;
     w <~ plift (bound win) ;;
     let '(_, _, span) := w in spans3 2 ts span
   else
     panel_stream 2 (hr_RF d) g 0 tr_baz win ;;;
     panel_stream 3 (hr_RF d) g 2 tr_dist win) ;;;
  emit (ESave (fname4 savepath (hr_staname d) (hr_comp d) (hr_layer d) format)) ;;;
  emit EShow.

Definition sr_setSed (d : seqres N) (s : stream N) : seqres N :=
  mkSeqRes s (sr_RFSedStack d) (sr_RFMoho d) (sr_RFMohoStack d) (sr_time d) (sr_bestSed d)
    (sr_stkSed d) (sr_bestMoho d) (sr_stkMoho d) (sr_stack d) (sr_comp d) (sr_AvgSlow d)
    (sr_VpSed d) (sr_VpMoho d) (sr_HSed d) (sr_KSed d) (sr_HMoho d) (sr_KMoho d) (sr_staname d).
Definition sr_setMoho (d : seqres N) (s : stream N) : seqres N :=
  mkSeqRes (sr_RFSed d) (sr_RFSedStack d) s (sr_RFMohoStack d) (sr_time d) (sr_bestSed d)
    (sr_stkSed d) (sr_bestMoho d) (sr_stkMoho d) (sr_stack d) (sr_comp d) (sr_AvgSlow d)
    (sr_VpSed d) (sr_VpMoho d) (sr_HSed d) (sr_KSed d) (sr_HMoho d) (sr_KMoho d) (sr_staname d).
Definition sr_setStkSed (d : seqres N) (t : list (row N)) : seqres N :=
  mkSeqRes (sr_RFSed d) (sr_RFSedStack d) (sr_RFMoho d) (sr_RFMohoStack d) (sr_time d)
    (sr_bestSed d) t (sr_bestMoho d) (sr_stkMoho d) (sr_stack d) (sr_comp d) (sr_AvgSlow d)
    (sr_VpSed d) (sr_VpMoho d) (sr_HSed d) (sr_KSed d) (sr_HMoho d) (sr_KMoho d) (sr_staname d).
Definition sr_setStkMoho (d : seqres N) (t : list (row N)) : seqres N :=
  mkSeqRes (sr_RFSed d) (sr_RFSedStack d) (sr_RFMoho d) (sr_RFMohoStack d) (sr_time d)
    (sr_bestSed d) (sr_stkSed d) (sr_bestMoho d) t (sr_stack d) (sr_comp d) (sr_AvgSlow d)
    (sr_VpSed d) (sr_VpMoho d) (sr_HSed d) (sr_KSed d) (sr_HMoho d) (sr_KMoho d) (sr_staname d).

(** hkSeqYeck.py:293-749 [plotSeqhk].  The headers tpsSed... of the sediment stream
    and tpsMoho... of the Moho stream are both kept in [tr_hdr] (the two streams are
    different objects).  In the stacked branch no spans are drawn. *)
Definition plotSeqhk (km1 : N) (savepath : string) (g : option (list N)) (rmneg : option bool)
    (format : option string) : PM (seqres N) unit :=
  let rmneg := dflt rmneg true in
  let format := dflt format "pdf"%string in
  let g := dflt g g_default in
  d <~ pget ;;
  bmodSed <~ plift (getitem (sr_stkSed d) (sr_bestSed d)) ;;
  let H1 := rH bmodSed in
  let K1 := rK bmodSed in
  let times_sed := fun rp k => hkSeqSed_times (sr_VpSed d) rp k H1 K1 in
  ts <~ (if sr_stack d then                                              (* 344 *)
           ts <~ plift (times_sed (nmul km1 (sr_AvgSlow d)) NpF) ;; pret (Some ts)
         else
           write_headers sr_RFSed sr_setSed km1 times_sed ;;; pret None) ;;
  let win := Some (-1, 10, nlit 1 10)%Z in
  clip_in_place sr_stkSed sr_setStkSed rmneg ;;;                         (* 376 *)
  d <~ pget ;;
  panel1 (sr_stkSed d) (sr_bestSed d) (sr_HSed d) (sr_KSed d) ;;;
  (if sr_stack d then
     ts <~ plift (bound ts) ;;
     panel_one (sr_RFSedStack d) (sr_time d) g (fun x => x) win ts
   else
     panel_stream 2 (sr_RFSed d) g 0 tr_baz win ;;;
     panel_stream 3 (sr_RFSed d) g 2 tr_dist win) ;;;
  emit (ESave (fname4 savepath (sr_staname d) (sr_comp d) "Sediment" format)) ;;;
  emit EShow ;;;
  bmodMoho <~ plift (getitem (sr_stkMoho d) (sr_bestMoho d)) ;;          (* 546 *)
  let H2 := rH bmodMoho in
  let K2 := rK bmodMoho in
  let times_moho := fun rp k => hkSeqMoho_times H1 K1 (sr_VpSed d) (sr_VpMoho d) rp k H2 K2 in
  ts <~ (if sr_stack d then
           ts <~ plift (times_moho (nmul km1 (sr_AvgSlow d)) NpF) ;; pret (Some ts)
         else
           write_headers sr_RFMoho sr_setMoho km1 times_moho ;;; pret None) ;;
  let win := Some (-5, 30, nlit 5 10)%Z in
  clip_in_place sr_stkMoho sr_setStkMoho rmneg ;;;                       (* 588 *)
  d <~ pget ;;
  panel1 (sr_stkMoho d) (sr_bestMoho d) (sr_HMoho d) (sr_KMoho d) ;;;
  (if sr_stack d then
     ts <~ plift (bound ts) ;;
     panel_one (sr_RFMohoStack d) (sr_time d) g (fun x => x) win ts
   else
     panel_stream 2 (sr_RFMoho d) g 0 tr_baz win ;;;
     panel_stream 3 (sr_RFMoho d) g 2 tr_dist win) ;;;
  emit (ESave (fname4 savepath (sr_staname d) (sr_comp d) "Moho" format)) ;;;
  emit EShow.

Definition yr_setStk (d : yures N) (t : list (row N)) : yures N :=
  mkYuRes (yr_FltRF d) (yr_time d) (yr_tlag d) (yr_Pdelay d) (yr_rayp d) (yr_best d)
    (yr_VpMoho d) (yr_VpSed d) t (yr_H d) (yr_K d) (yr_SedThick d).

(** hkYu.py:201-332 [plothkYu]; [raypk]: the type of the stored ray parameter. *)
Definition plothkYu (raypk : fkind) (savepath : string) (g : option (list N))
    (rmneg : option bool) (format : option string) : PM (yures N) unit :=
  let rmneg := dflt rmneg false in                                       (* 238 *)
  let format := dflt format "pdf"%string in
  let g := dflt g g_default in
  d <~ pget ;;
  bmod <~ plift (getitem (yr_stk d) (yr_best d)) ;;
  ts <~ plift (hkYu_times (yr_VpMoho d) (yr_rayp d) raypk (yr_tlag d) (yr_Pdelay d)
                 (rH bmod) (rK bmod)) ;;
  clip_in_place yr_stk yr_setStk rmneg ;;;
  d <~ pget ;;
  panel1 (yr_stk d) (yr_best d) (yr_H d) (yr_K d) ;;;
  panel_one (yr_FltRF d) (yr_time d) g (fun x => x) (Some (-5, 30, nlit 5 10)%Z) ts ;;;
  emit (ESave (fname3 savepath "FilteredRF_HKYu" "SubSediment" format)) ;;;
  emit EShow.

Definition hs_setStk (d : hksres N) (t : list (row N)) : hksres N :=
  mkHksRes (hs_RF d) (hs_time d) (hs_best d) (hs_Vp d) t (hs_layer d) (hs_rayp d)
    (hs_H d) (hs_K d).

(** SynthAnalysis.py:499-637 [plothkSynth]. *)
Definition plothkSynth (raypk : fkind) (savepath : string) (g : option (list N))
    (rmneg : option bool) (format : option string) : PM (hksres N) unit :=
  let rmneg := dflt rmneg false in
  let format := dflt format "pdf"%string in
  let g := dflt g g_default in
  d <~ pget ;;
  bmod <~ plift (getitem (hs_stk d) (hs_best d)) ;;
  ts <~ plift (hkSynth_times (hs_Vp d) (hs_rayp d) raypk (rH bmod) (rK bmod)) ;;
  let win := layer_window (hs_layer d) in
  clip_in_place hs_stk hs_setStk rmneg ;;;
  d <~ pget ;;
  panel1 (hs_stk d) (hs_best d) (hs_H d) (hs_K d) ;;;
  panel_one (hs_RF d) (hs_time d) g (fun x => x) win ts ;;;
  w <~ plift (bound win) ;;
  (let '(_, _, span) := w in spans3 2 ts span) ;;;
  emit (ESave (fname3 savepath "SynthRF" (hs_layer d) format)) ;;;
  emit EShow.

Definition ss_setStkSed (d : seqsres N) (t : list (row N)) : seqsres N :=
  mkSeqsRes (ss_RFSed d) (ss_RFMoho d) (ss_time d) (ss_bestSed d) t (ss_bestMoho d)
    (ss_stkMoho d) (ss_RayP d) (ss_VpSed d) (ss_VpMoho d) (ss_HSed d) (ss_KSed d)
    (ss_HMoho d) (ss_KMoho d).
Definition ss_setStkMoho (d : seqsres N) (t : list (row N)) : seqsres N :=
  mkSeqsRes (ss_RFSed d) (ss_RFMoho d) (ss_time d) (ss_bestSed d) (ss_stkSed d) (ss_bestMoho d)
    t (ss_RayP d) (ss_VpSed d) (ss_VpMoho d) (ss_HSed d) (ss_KSed d) (ss_HMoho d) (ss_KMoho d).

(** SynthAnalysis.py:640-843 [plothkSeqSynth]; the sediment curve is drawn with gain
    [g[0]/2] (736). *)
Definition plothkSeqSynth (raypk : fkind) (savepath : string) (g : option (list N))
    (rmneg : option bool) (format : option string) : PM (seqsres N) unit :=
  let rmneg := dflt rmneg false in
  let format := dflt format "pdf"%string in
  let g := dflt g g_default in
  d <~ pget ;;
  bmodSed <~ plift (getitem (ss_stkSed d) (ss_bestSed d)) ;;
  let H1 := rH bmodSed in
  let K1 := rK bmodSed in
  ts <~ plift (hkSeqSynthSed_times (ss_VpSed d) (ss_RayP d) raypk H1 K1) ;;
  clip_in_place ss_stkSed ss_setStkSed rmneg ;;;
  d <~ pget ;;
  panel1 (ss_stkSed d) (ss_bestSed d) (ss_HSed d) (ss_KSed d) ;;;
  panel_one (ss_RFSed d) (ss_time d) g (fun x => ndiv x (nofZ 2)) (Some (-1, 10, nlit 1 10)%Z) ts ;;;
  emit (ESave (fname3 savepath "SynthRF_SeqHK" "Sediment" format)) ;;;
  emit EShow ;;;
  bmodMoho <~ plift (getitem (ss_stkMoho d) (ss_bestMoho d)) ;;
  ts <~ plift (hkSeqSynthMoho_times H1 K1 (ss_VpSed d) (ss_VpMoho d) (ss_RayP d) raypk
                 (rH bmodMoho) (rK bmodMoho)) ;;
  clip_in_place ss_stkMoho ss_setStkMoho rmneg ;;;
  d <~ pget ;;
  panel1 (ss_stkMoho d) (ss_bestMoho d) (ss_HMoho d) (ss_KMoho d) ;;;
  panel_one (ss_RFMoho d) (ss_time d) g (fun x => x) (Some (-5, 30, nlit 5 10)%Z) ts ;;;
  emit (ESave (fname3 savepath "SynthRF_SeqHK" "Moho" format)) ;;;
  emit EShow.

(** ReverbFilter.py:143-214 [plotfiltrf] and SynthAnalysis.py:846-917
    [plotfiltSynthrf]: the entries of the dictionary that are drawn. *)
Record fltres := mkFltRes { fr_rf : list N; fr_filteredrf : list N; fr_resreal : list N;
                            fr_time : list N; fr_autoc : list N }.
Definition plotfiltrf (savepath format : string) : PM fltres unit :=
  d <~ pget ;;
  emit (ELine 1 (fr_time d) (fr_autoc d)) ;;;
  emit (ESave (fname2 savepath "Autocorrelation" format)) ;;; emit EShow ;;;
  emit (ELine 1 (fr_time d) (fr_resreal d)) ;;;
  emit (ESave (fname2 savepath "Resonance_Filter" format)) ;;; emit EShow ;;;
  emit (ELine 1 (fr_time d) (fr_rf d)) ;;;
  emit (ELine 1 (fr_time d) (fr_filteredrf d)) ;;;
  emit (ESave (fname2 savepath "RF_FilteredRF" format)) ;;; emit EShow.

End Plot.
Arguments pev N : clear implicits.
Arguments pst N D : clear implicits.
Arguments mkPst {N D}. Arguments ps_ev {N D}. Arguments ps_d {N D}.
Arguments fltres N : clear implicits.
