(** * HkModel: getamp, hk, hkSynth, hkSeq, hkSeqSynth, hkYu.

    Sources: src/rfsed/hkZhu.py, hkSeqYeck.py, hkYu.py, SynthAnalysis.py.

    Conventions of the model.
    - [H], [K], time axes and data are numpy arrays of doubles (as documented):
      lists over [N].  Velocities and weights are Python floats (or [None]).
    - [kilometer2degrees(1)] is the constant [km1], [RFStream.stack()] is the
      oracle [stackO], the pyplot calls between the computation and the return
      are the oracle [draw], which may raise (e.g. [tricontourf] on a degenerate
      mesh) but does not change the arrays.
    - [print] is not modelled. *)

From Verif Require Import Base Num NumPy.

(** A Python [float] or a numpy [float64]: they differ in [1/0] (raises / inf)
    and in [negative**0.5] (complex / NaN). *)
Inductive fkind := PyF | NpF.

Section Hk.
Context {N : Num}.

(** A computed time: real, or complex (Python's [negative**0.5]). *)
Inductive tval := TR (x : N) | TC (re im : N).

(** [x ** 0.5] for a float of the given kind. *)
Definition proot (k : fkind) (x : N) : tval :=
  match k with
  | PyF => if nltb x (nofZ 0) then TC (fst (ncroot x)) (snd (ncroot x)) else TR (nroot x)
  | NpF => TR (nroot x)
  end.

(** [a - t], [a + t] for a numpy float [a]. *)
Definition rsubt (a : N) (t : tval) : tval :=
  match t with TR x => TR (nsub a x) | TC re im => TC (nsub a re) (nsub (nofZ 0) im) end.
Definition raddt (a : N) (t : tval) : tval :=
  match t with TR x => TR (nadd a x) | TC re im => TC (nadd a re) (nadd (nofZ 0) im) end.
(** [a * t] (simplification: the products with the zero imaginary part of [a] are
    dropped). *)
Definition rmult (a : N) (t : tval) : tval :=
  match t with TR x => TR (nmul a x) | TC re im => TC (nmul a re) (nmul a im) end.
(** [t + t'], [t + a], [t - a]. *)
Definition taddt (t t' : tval) : tval :=
  match t, t' with
  | TR x, TR y => TR (nadd x y)
  | TR x, TC re im => TC (nadd x re) (nadd (nofZ 0) im)
  | TC re im, TR y => TC (nadd re y) (nadd im (nofZ 0))
  | TC re im, TC re' im' => TC (nadd re re') (nadd im im')
  end.
Definition taddr (t : tval) (a : N) : tval := taddt t (TR a).
Definition tsubr (t : tval) (a : N) : tval :=
  match t with TR x => TR (nsub x a) | TC re im => TC (nsub re a) (nsub im (nofZ 0)) end.

(** [1/Vp] for a Python float. *)
Definition pyinv (v : N) : res N :=
  if neqb v (nofZ 0) then Err ZeroDivisionError else Ok (ndiv (nofZ 1) v).
(** [a/b] where [a] has kind [k] and [b] is a Python float. *)
Definition kdiv (k : fkind) (a b : N) : res N :=
  match k with
  | PyF => if neqb b (nofZ 0) then Err ZeroDivisionError else Ok (ndiv a b)
  | NpF => Ok (ndiv a b)
  end.

(** [np.abs(ti - t)]. *)
Definition tdist (ti : N) (t : tval) : N :=
  match t with
  | TR x => nabs (nsub ti x)
  | TC re im => nhypot (nsub ti re) (nsub (nofZ 0) im)
  end.

(** hkZhu.py:49-63, hkSeqYeck.py:48-65, hkYu.py:49-66, SynthAnalysis.py:46-64:
    [rfdata[(np.abs(tarray - t).argmin())]] (four identical copies). *)
Definition getamp (rfdata tarray : list N) (t : tval) : res N :=
  i <- argmin (map (fun ti => tdist ti t) tarray) ;;
  getitem rfdata i.

(** The fields of an [RFTrace] that rfsed uses. *)
Record trace := mkTrace {
  tr_data : list N;
  tr_delta : N;
  tr_slow : N;
  tr_slowk : fkind;      (* type of stats['slowness'] *)
  tr_b : N;              (* stats.starttime - stats.onset *)
  tr_baz : N;
  tr_dist : N;
  tr_sta : string;
  tr_chan : string;
  tr_hdr : option (tval * tval * tval)   (* stats.tps, tppps, tpsps if set *)
}.
Definition stream := list trace.

(** One row of a stack table: [[Htemp, Ktemp, s]]. *)
Record row := mkRow { rH : N; rK : N; rS : N }.
Definition zrow : row := mkRow (nofZ 0) (nofZ 0) (nofZ 0).
(** [np.zeros((n,3))] *)
Definition zerosT (n : nat) : list row := repeat zrow n.

(** Oracles *)
Context (km1 : N) (stackO : stream -> res (list trace)) (draw : list row -> res unit).

(** [slowness=[]; for tr in s: slowness.append(...); AvgSlow = np.mean(slowness)]
    hkZhu.py:124-128, hkSeqYeck.py:156-160. *)
Definition avgslow (s : stream) : N := npmean (map tr_slow s).

(** hkZhu.py:154-158: the three delays of a node. *)
Definition hk_times (Vp rp : N) (rpk : fkind) (Htemp Ktemp : N) : res (tval * tval * tval) :=
  let term1 := nroot (nsub (nsq (ndiv Ktemp Vp)) (nsq rp)) in
  iv <- pyinv Vp ;;
  let term2 := proot rpk (nsub (nsq iv) (nsq rp)) in
  let tps := rmult Htemp (rsubt term1 term2) in
  let tppps := rmult Htemp (raddt term1 term2) in
  let tpsps := TR (nmul (nmul Htemp (nofZ 2)) term1) in
  Ok (tps, tppps, tpsps).

Record hkres := mkHkRes {
  hr_RF : stream; hr_RFStack : list N; hr_time : list N;
  hr_best : nat;                 (* 'bestmodel' is the view stk[hr_best,:] *)
  hr_staname : string; hr_Vp : N; hr_stk : list row; hr_layer : string;
  hr_stack : bool; hr_comp : string; hr_AvgSlow : N; hr_H : list N; hr_K : list N
}.

(** hkZhu.py:66-196 [hk].  [dbgvalues] (138, 166-168) is local and never read:
    only the bounds check of its write is kept (counter [q]); for a complex delay the write
    of a numpy complex into a float array only warns (ComplexWarning), it does not raise. *)
Definition hk (rfstream : stream) (preonset : N) (H K : list N) (Vp w1 w2 w3 : option N)
    (layer : option string) (stack : option bool) : res hkres :=
  let Vp := dflt Vp (nlit 65 10) in                                     (* 116 *)
  let w1 := dflt w1 (nlit 6 10) in
  let w2 := dflt w2 (nlit 3 10) in
  let w3 := dflt w3 (nlit 1 10) in
  let layer := dflt layer "Moho"%string in
  let stack := dflt stack false in
  StackedRF <- stackO rfstream ;;                                       (* 122 *)
  st0 <- getitem StackedRF 0 ;;
  let RFStacked := tr_data st0 in
  let AvgSlow := avgslow rfstream in
  tr0 <- getitem rfstream 0 ;;                                          (* 130 *)
  let staname := tr_sta tr0 in
  let comp := tr_chan tr0 in
  let l := length (tr_data tr0) in
  let t := taxis (tr_delta tr0) l preonset in                           (* 135-136 *)
  let ndbg := length K * length H * length rfstream in
  st <- forM K (fun Ktemp st =>                                         (* 140 *)
    forM H (fun Htemp st =>
      let '(stk, z, q) := st in
      sq <- forM rfstream (fun tr sq =>                                 (* 145 *)
        let '(s, q) := sq in
        let trdata := if stack then tr_data st0 else tr_data tr in
        let rp := if stack then nmul km1 AvgSlow else nmul km1 (tr_slow tr) in
        let rpk := if stack then NpF else tr_slowk tr in
        ts <- hk_times Vp rp rpk Htemp Ktemp ;;
        let '(tps, tppps, tpsps) := ts in
        ampps <- getamp trdata t tps ;;
        ampppps <- getamp trdata t tppps ;;
        amppsps <- getamp trdata t tpsps ;;
        let stemp := nsub (nadd (nmul w1 ampps) (nmul w2 ampppps)) (nmul w3 amppsps) in
        let s := nadd stemp s in
        if q <? ndbg then Ok (s, S q) else Err IndexError) (nofZ 0, q) ;;
      let '(s, q) := sq in
      stk <- setitem stk z (mkRow Htemp Ktemp s) ;;
      Ok (stk, S z, q)) st)
    (zerosT (length K * length H), 0, 0) ;;
  let '(stk, _, _) := st in
  ib <- argmax (map rS stk) ;;                                          (* 171 *)
  _ <- draw stk ;;
  Ok (mkHkRes rfstream RFStacked t ib staname Vp stk layer stack comp AvgSlow H K).

(** SynthAnalysis.py:154-158: the three delays of a node in [hkSynth]. *)
Definition hkSynth_times (Vp rp : N) (rpk : fkind) (Htemp Ktemp : N) : res (tval * tval * tval) :=
  let term1 := nroot (nsub (nsq (ndiv Ktemp Vp)) (nsq rp)) in
  iv <- pyinv Vp ;;
  let term2 := proot rpk (nsub (nsq iv) (nsq rp)) in
  let tps := rmult Htemp (rsubt term1 term2) in
  let tppps := rmult Htemp (raddt term1 term2) in
  let tpsps := TR (nmul (nmul Htemp (nofZ 2)) term1) in
  Ok (tps, tppps, tpsps).

Record hksres := mkHksRes {
  hs_RF : list N; hs_time : list N; hs_best : nat; hs_Vp : N; hs_stk : list row;
  hs_layer : string; hs_rayp : N; hs_H : list N; hs_K : list N
}.

(** SynthAnalysis.py:67-190 [hkSynth]. *)
Definition hkSynth (Synthrf time : list N) (rayp : N) (raypk : fkind) (H K : list N)
    (Vp w1 w2 w3 : option N) (layer : option string) : res hksres :=
  let Vp := dflt Vp (nlit 65 10) in
  let w1 := dflt w1 (nlit 6 10) in
  let w2 := dflt w2 (nlit 3 10) in
  let w3 := dflt w3 (nlit 1 10) in
  let layer := dflt layer "Moho"%string in
  let rp := rayp in
  let t := time in
  st <- forM K (fun Ktemp st =>
    forM H (fun Htemp st =>
      let '(stk, z) := st in
      s <- (let s := nofZ 0 in
            let trdata := Synthrf in
            ts <- hkSynth_times Vp rp raypk Htemp Ktemp ;;
            let '(tps, tppps, tpsps) := ts in
            ampps <- getamp trdata t tps ;;
            ampppps <- getamp trdata t tppps ;;
            amppsps <- getamp trdata t tpsps ;;
            let stemp := nsub (nadd (nmul w1 ampps) (nmul w2 ampppps)) (nmul w3 amppsps) in
            Ok (nadd stemp s)) ;;
      stk <- setitem stk z (mkRow Htemp Ktemp s) ;;
      Ok (stk, S z)) st)
    (zerosT (length K * length H), 0) ;;
  let '(stk, _) := st in
  ib <- argmax (map rS stk) ;;
  _ <- draw stk ;;
  Ok (mkHksRes Synthrf t ib Vp stk layer rayp H K).

(** hkSeqYeck.py:184-188 (sediment stage of [hkSeq]). *)
Definition hkSeqSed_times (VpSed rp : N) (rpk : fkind) (Htemp Ktemp : N) : res (tval * tval * tval) :=
  let term1 := nroot (nsub (nsq (ndiv Ktemp VpSed)) (nsq rp)) in
  iv <- pyinv VpSed ;;
  let term2 := proot rpk (nsub (nsq iv) (nsq rp)) in
  let tps := rmult Htemp (rsubt term1 term2) in
  let tppps := rmult Htemp (raddt term1 term2) in
  let tpsps := TR (nmul (nmul Htemp (nofZ 2)) term1) in
  Ok (tps, tppps, tpsps).

(** hkSeqYeck.py:242-249 (Moho stage of [hkSeq]: two layers). *)
Definition hkSeqMoho_times (H1 K1 VpSed : N) (VpMoho : option N) (rp : N) (rpk : fkind)
    (Htemp Ktemp : N) : res (tval * tval * tval) :=
  let term1 := nroot (nsub (nsq (ndiv K1 VpSed)) (nsq rp)) in
  iv <- pyinv VpSed ;;
  let term2 := proot rpk (nsub (nsq iv) (nsq rp)) in
  VpMoho <- need VpMoho ;;
  let term3 := nroot (nsub (nsq (ndiv Ktemp VpMoho)) (nsq rp)) in
  ivm <- pyinv VpMoho ;;
  let term4 := proot rpk (nsub (nsq ivm) (nsq rp)) in
  let tpsMoho := taddt (rmult H1 (rsubt term1 term2)) (rmult Htemp (rsubt term3 term4)) in
  let tpppsMoho := taddt (rmult H1 (raddt term1 term2)) (rmult Htemp (raddt term3 term4)) in
  let tpspsMoho := TR (nadd (nmul (nmul (nofZ 2) H1) term1)
                            (nmul (nmul (nofZ 2) Htemp) term3)) in
  Ok (tpsMoho, tpppsMoho, tpspsMoho).

(** hkSeqYeck.py:262-264, SynthAnalysis.py:378-380:
    [for i in range(len(stk)): if stk[i,2] <= 0: stk[i,2] = 0]
    (also hkZhu.py:285-287, hkSeqYeck.py:377-379 and 589-591, hkYu.py:277-279,
    SynthAnalysis.py:575-577, 710-712, 790-792). *)
Definition clip_row (r : row) : row :=
  if nleb (rS r) (nofZ 0) then mkRow (rH r) (rK r) (nofZ 0) else r.
Definition clip_loop (stk : list row) : res (list row) :=
  forM (seq 0 (length stk)) (fun i stk =>
    r <- getitem stk i ;;
    if nleb (rS r) (nofZ 0) then setitem stk i (mkRow (rH r) (rK r) (nofZ 0))
    else Ok stk) stk.

Record seqres := mkSeqRes {
  sr_RFSed : stream; sr_RFSedStack : list N; sr_RFMoho : stream; sr_RFMohoStack : list N;
  sr_time : list N; sr_bestSed : nat; sr_stkSed : list row;
  sr_bestMoho : nat; sr_stkMoho : list row; sr_stack : bool; sr_comp : string;
  sr_AvgSlow : N; sr_VpSed : N; sr_VpMoho : option N;
  sr_HSed : list N; sr_KSed : list N; sr_HMoho : list N; sr_KMoho : list N;
  sr_staname : string
}.

(** hkSeqYeck.py:68-291 [hkSeq].  [sSed]/[sMoho] are local variables that exist
    only after the first assignment: [None] stands for "unbound". *)
Definition hkSeq (rfstreamSed rfstreamMoho : stream) (preonset : N)
    (HSed KSed : list N) (VpSed w1Sed w2Sed w3Sed : option N)
    (HMoho KMoho : list N) (VpMoho w1Moho w2Moho w3Moho : option N)
    (stack : option bool) : res seqres :=
  let VpSed := dflt VpSed (nlit 30 10) in                               (* 144 *)
  let w1Sed := dflt w1Sed (nlit 6 10) in
  let w2Sed := dflt w2Sed (nlit 3 10) in
  let w3Sed := dflt w3Sed (nlit 1 10) in
  let stack := dflt stack false in
  StackedRFSed <- stackO rfstreamSed ;;
  stS0 <- getitem StackedRFSed 0 ;;
  StackedRFMoho <- stackO rfstreamMoho ;;
  stM0 <- getitem StackedRFMoho 0 ;;
  tr0 <- getitem rfstreamSed 0 ;;
  let AvgSlow := avgslow rfstreamMoho in                                (* 156-160 *)
  let t := taxis (tr_delta tr0) (length (tr_data tr0)) preonset in      (* 161-164 *)
  st <- forM KSed (fun Ktemp st =>                                      (* 170 *)
    forM HSed (fun Htemp st =>
      let '(stk, z, q) := st in
      sq <- (let s := nofZ 0 in
             sSed <- forM rfstreamSed (fun tr sSed =>
               let trdata := if stack then tr_data stS0 else tr_data tr in
               let rp := if stack then nmul km1 AvgSlow else nmul km1 (tr_slow tr) in
               let rpk := if stack then NpF else tr_slowk tr in
               ts <- hkSeqSed_times VpSed rp rpk Htemp Ktemp ;;
               let '(tps, tppps, tpsps) := ts in
               ampps <- getamp trdata t tps ;;
               ampppps <- getamp trdata t tppps ;;
               amppsps <- getamp trdata t tpsps ;;
               let stemp := nsub (nadd (nmul w1Sed ampps) (nmul w2Sed ampppps))
                                 (nmul w3Sed amppsps) in
               Ok (Some (nadd stemp s))) q ;;                           (* 195 *)
             match sSed with
             | Some v => Ok (v, sSed)
             | None => Err UnboundLocalError
             end) ;;
      let '(s, q) := sq in
      stk <- setitem stk z (mkRow Htemp Ktemp s) ;;
      Ok (stk, S z, q)) st)
    (zerosT (length KSed * length HSed), 0, None) ;;
  let '(stkSed, _, _) := st in
  ibSed <- argmax (map rS stkSed) ;;                                    (* 198 *)
  _ <- draw stkSed ;;
  bmodSed <- getitem stkSed ibSed ;;
  let H1 := rH bmodSed in
  let K1 := rK bmodSed in
  st <- forM KMoho (fun Ktemp st =>                                     (* 228 *)
    forM HMoho (fun Htemp st =>
      let '(stk, z, q) := st in
      sq <- (let s := nofZ 0 in
             sMoho <- forM rfstreamMoho (fun tr sMoho =>
               let trdata := if stack then tr_data stM0 else tr_data tr in
               let rp := if stack then nmul km1 AvgSlow else nmul km1 (tr_slow tr) in
               let rpk := if stack then NpF else tr_slowk tr in
               ts <- hkSeqMoho_times H1 K1 VpSed VpMoho rp rpk Htemp Ktemp ;;
               let '(tps, tppps, tpsps) := ts in
               ampps <- getamp trdata t tps ;;
               ampppps <- getamp trdata t tppps ;;
               amppsps <- getamp trdata t tpsps ;;
               w1 <- need w1Moho ;; w2 <- need w2Moho ;; w3 <- need w3Moho ;;
               let stemp := nsub (nadd (nmul w1 ampps) (nmul w2 ampppps))
                                 (nmul w3 amppsps) in
               Ok (Some (nadd stemp s))) q ;;                           (* 255 *)
             match sMoho with
             | Some v => Ok (v, sMoho)
             | None => Err UnboundLocalError
             end) ;;
      let '(s, q) := sq in
      stk <- setitem stk z (mkRow Htemp Ktemp s) ;;
      Ok (stk, S z, q)) st)
    (zerosT (length KMoho * length HMoho), 0, None) ;;
  let '(stkMoho, _, _) := st in
  ibMoho <- argmax (map rS stkMoho) ;;                                  (* 259 *)
  stkMoho <- clip_loop stkMoho ;;                                       (* 262-264 *)
  _ <- draw stkMoho ;;
  Ok (mkSeqRes rfstreamSed (tr_data stS0) rfstreamMoho (tr_data stM0) t ibSed stkSed
        ibMoho stkMoho stack (tr_chan tr0) AvgSlow VpSed VpMoho HSed KSed HMoho KMoho
        (tr_sta tr0)).

(** SynthAnalysis.py:306-310 *)
Definition hkSeqSynthSed_times (VpSed rp : N) (rpk : fkind) (Htemp Ktemp : N)
    : res (tval * tval * tval) :=
  let term1 := nroot (nsub (nsq (ndiv Ktemp VpSed)) (nsq rp)) in
  iv <- pyinv VpSed ;;
  let term2 := proot rpk (nsub (nsq iv) (nsq rp)) in
  let tps := rmult Htemp (rsubt term1 term2) in
  let tppps := rmult Htemp (raddt term1 term2) in
  let tpsps := TR (nmul (nmul Htemp (nofZ 2)) term1) in
  Ok (tps, tppps, tpsps).

(** SynthAnalysis.py:358-365 *)
Definition hkSeqSynthMoho_times (H1 K1 VpSed : N) (VpMoho : option N) (rp : N) (rpk : fkind)
    (Htemp Ktemp : N) : res (tval * tval * tval) :=
  let term1 := nroot (nsub (nsq (ndiv K1 VpSed)) (nsq rp)) in
  iv <- pyinv VpSed ;;
  let term2 := proot rpk (nsub (nsq iv) (nsq rp)) in
  VpMoho <- need VpMoho ;;
  let term3 := nroot (nsub (nsq (ndiv Ktemp VpMoho)) (nsq rp)) in
  ivm <- pyinv VpMoho ;;
  let term4 := proot rpk (nsub (nsq ivm) (nsq rp)) in
  let tpsMoho := taddt (rmult H1 (rsubt term1 term2)) (rmult Htemp (rsubt term3 term4)) in
  let tpppsMoho := taddt (rmult H1 (raddt term1 term2)) (rmult Htemp (raddt term3 term4)) in
  let tpspsMoho := TR (nadd (nmul (nmul (nofZ 2) H1) term1)
                            (nmul (nmul (nofZ 2) Htemp) term3)) in
  Ok (tpsMoho, tpppsMoho, tpspsMoho).

Record seqsres := mkSeqsRes {
  ss_RFSed : list N; ss_RFMoho : list N; ss_time : list N;
  ss_bestSed : nat; ss_stkSed : list row; ss_bestMoho : nat; ss_stkMoho : list row;
  ss_RayP : N; ss_VpSed : N; ss_VpMoho : option N;
  ss_HSed : list N; ss_KSed : list N; ss_HMoho : list N; ss_KMoho : list N
}.

(** SynthAnalysis.py:193-404 [hkSeqSynth].  The argument [rmneg] is accepted and
    never used (289); the clip of lines 378-380 is unconditional. *)
Definition hkSeqSynth (rfSynthSed rfSynthMoho time : list N) (rayp : N) (raypk : fkind)
    (HSed KSed : list N) (VpSed w1Sed w2Sed w3Sed : option N)
    (HMoho KMoho : list N) (VpMoho w1Moho w2Moho w3Moho : option N) : res seqsres :=
  let VpSed := dflt VpSed (nlit 30 10) in
  let w1Sed := dflt w1Sed (nlit 6 10) in
  let w2Sed := dflt w2Sed (nlit 3 10) in
  let w3Sed := dflt w3Sed (nlit 1 10) in
  let rp := rayp in
  let t := time in
  st <- forM KSed (fun Ktemp st =>
    forM HSed (fun Htemp st =>
      let '(stk, z) := st in
      s <- (let s := nofZ 0 in
            let trdata := rfSynthSed in
            ts <- hkSeqSynthSed_times VpSed rp raypk Htemp Ktemp ;;
            let '(tps, tppps, tpsps) := ts in
            ampps <- getamp trdata t tps ;;
            ampppps <- getamp trdata t tppps ;;
            amppsps <- getamp trdata t tpsps ;;
            let stemp := nsub (nadd (nmul w1Sed ampps) (nmul w2Sed ampppps))
                              (nmul w3Sed amppsps) in
            Ok (nadd stemp s)) ;;
      stk <- setitem stk z (mkRow Htemp Ktemp s) ;;
      Ok (stk, S z)) st)
    (zerosT (length KSed * length HSed), 0) ;;
  let '(stkSed, _) := st in
  ibSed <- argmax (map rS stkSed) ;;
  _ <- draw stkSed ;;
  bmodSed <- getitem stkSed ibSed ;;
  let H1 := rH bmodSed in
  let K1 := rK bmodSed in
  st <- forM KMoho (fun Ktemp st =>
    forM HMoho (fun Htemp st =>
      let '(stk, z) := st in
      s <- (let s := nofZ 0 in
            let trdata := rfSynthMoho in
            ts <- hkSeqSynthMoho_times H1 K1 VpSed VpMoho rp raypk Htemp Ktemp ;;
            let '(tps, tppps, tpsps) := ts in
            ampps <- getamp trdata t tps ;;
            ampppps <- getamp trdata t tppps ;;
            amppsps <- getamp trdata t tpsps ;;
            w1 <- need w1Moho ;; w2 <- need w2Moho ;; w3 <- need w3Moho ;;
            let stemp := nsub (nadd (nmul w1 ampps) (nmul w2 ampppps))
                              (nmul w3 amppsps) in
            Ok (nadd stemp s)) ;;
      stk <- setitem stk z (mkRow Htemp Ktemp s) ;;
      Ok (stk, S z)) st)
    (zerosT (length KMoho * length HMoho), 0) ;;
  let '(stkMoho, _) := st in
  ibMoho <- argmax (map rS stkMoho) ;;
  stkMoho <- clip_loop stkMoho ;;
  _ <- draw stkMoho ;;
  Ok (mkSeqsRes rfSynthSed rfSynthMoho t ibSed stkSed ibMoho stkMoho rayp VpSed VpMoho
        HSed KSed HMoho KMoho).

(** hkYu.py:150-159: one-layer delays shifted by the sediment delays. *)
Definition hkYu_times (VpMoho rp : N) (rpk : fkind) (tlag Pdelay Htemp Ktemp : N)
    : res (tval * tval * tval) :=
  let term1 := nroot (nsub (nsq (ndiv Ktemp VpMoho)) (nsq rp)) in
  iv <- pyinv VpMoho ;;
  let term2 := proot rpk (nsub (nsq iv) (nsq rp)) in
  let tps := rmult Htemp (rsubt term1 term2) in
  let tppps := rmult Htemp (raddt term1 term2) in
  let tpsps := TR (nmul (nmul Htemp (nofZ 2)) term1) in
  Ok (taddr tps Pdelay, tsubr (taddr tppps tlag) Pdelay, taddr tpsps tlag).

Record yures := mkYuRes {
  yr_FltRF : list N; yr_time : list N; yr_tlag : N; yr_Pdelay : N; yr_rayp : N;
  yr_best : nat; yr_VpMoho : N; yr_VpSed : N; yr_stk : list row;
  yr_H : list N; yr_K : list N; yr_SedThick : N
}.

(** hkYu.py:69-198 [hkYu]; the dictionary [FltResult] is given by its three used
    entries.  [w1 = 0.6] etc. (125-127) assign variables that are never used. *)
Definition hkYu (filteredrf time : list N) (tlag : N) (tlagk : fkind) (rayp : N) (raypk : fkind)
    (H K : list N) (VpMoho VpSed VsSed w1SubSed w2SubSed w3SubSed : option N) : res yures :=
  let VpMoho := dflt VpMoho (nlit 65 10) in                             (* 123 *)
  let VpSed := dflt VpSed (nlit 25 10) in
  let w1 := match w1SubSed with None => Some (@nlit N 6 10) | Some _ => None end in
  let w2 := match w2SubSed with None => Some (@nlit N 3 10) | Some _ => None end in
  let w3 := match w3SubSed with None => Some (@nlit N 1 10) | Some _ => None end in
  let rp := rayp in
  let t := time in
  VsSed <- need VsSed ;;
  let SedH := ndiv (nmul tlag VsSed) (nofZ 2) in                        (* 135 *)
  a <- kdiv tlagk SedH VsSed ;;
  b <- kdiv tlagk SedH VpSed ;;
  let Pdelay := nsub a b in                                             (* 138 *)
  st <- forM K (fun Ktemp st =>
    forM H (fun Htemp st =>
      let '(stk, z) := st in
      s <- (let s := nofZ 0 in
            let trdata := filteredrf in
            ts <- hkYu_times VpMoho rp raypk tlag Pdelay Htemp Ktemp ;;
            let '(tps, tppps, tpsps) := ts in
            ampps <- getamp trdata t tps ;;
            ampppps <- getamp trdata t tppps ;;
            amppsps <- getamp trdata t tpsps ;;
            w1 <- need w1SubSed ;; w2 <- need w2SubSed ;; w3 <- need w3SubSed ;;  (* 165 *)
            let stemp := nsub (nadd (nmul w1 ampps) (nmul w2 ampppps))
                              (nmul w3 amppsps) in
            Ok (nadd stemp s)) ;;
      stk <- setitem stk z (mkRow Htemp Ktemp s) ;;
      Ok (stk, S z)) st)
    (zerosT (length K * length H), 0) ;;
  let '(stk, _) := st in
  ib <- argmax (map rS stk) ;;
  _ <- draw stk ;;
  Ok (mkYuRes filteredrf t tlag Pdelay rayp ib VpMoho VpSed stk H K SedH).

End Hk.
Arguments tval N : clear implicits.
Arguments trace N : clear implicits.
Arguments stream N : clear implicits.
Arguments row N : clear implicits.
Arguments hkres N : clear implicits.
Arguments hksres N : clear implicits.
Arguments seqres N : clear implicits.
Arguments seqsres N : clear implicits.
Arguments yures N : clear implicits.
