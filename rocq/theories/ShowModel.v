(** * ShowModel: what the H-k programs show on screen and print.

    Sources: hkZhu.py [hk] 171-190, hkSeqYeck.py [hkSeq] 198-222 and 259-282, hkYu.py [hkYu] 135-191,
    SynthAnalysis.py [hkSynth] 168-187, [hkSeqSynth] 320-344 and 375-397.

    The functions of HkModel take the pyplot calls as an oracle [draw] and drop the prints.  Here the same
    programs are given with a log of everything shown: the contour of the table, the best-model marker (whose
    coordinates also make up its label), the axis limits, [plt.show] and the printed lines.  A pyplot call may raise
    (oracle [pyplot], from everything shown so far and the call); [print] does not.  Colour bars, legends and axis
    labels are presentation only. *)

From Verif Require Import Base Num NumPy HkModel PlotModel.

Section Show.
Context {N : Num}.

Inductive cev :=
| CContour (tbl : list (row N))          (* plt.tricontourf(stk[:,0], stk[:,1], stk[:,2]) *)
| CBest (h k : N)                        (* plt.plot(bmod[0], bmod[1], label='Best Model %s km %s Vp/Vs') *)
| CXlim (lo hi : N) | CYlim (lo hi : N)  (* plt.xlim(min(H),max(H)); plt.ylim(min(K),max(K)) *)
| CShow                                  (* plt.show() *)
| CPrint (what : string) (vals : list N).

(** A statement: the log (kept when it raises) and its outcome. *)
Definition CM (A : Type) := list cev -> list cev * res A.
Definition cret {A} (a : A) : CM A := fun l => (l, Ok a).
Definition clift {A} (r : res A) : CM A := fun l => (l, r).
Definition cbind {A B} (m : CM A) (f : A -> CM B) : CM B :=
  fun l => let '(l', r) := m l in match r with Ok a => f a l' | Err e => (l', Err e) end.
Notation "x <~ m ;; k" := (cbind m (fun x => k)) (at level 61, m at next level, right associativity).
Notation "m ;;; k" := (cbind m (fun _ => k)) (at level 61, right associativity).

Context (pyplot : list cev -> cev -> option exn).
Definition plt_ (e : cev) : CM unit :=
  fun l => match pyplot l e with Some x => (l, Err x) | None => (l ++ [e], Ok tt) end.
Definition print_ (what : string) (vals : list N) : CM unit := fun l => (l ++ [CPrint what vals], Ok tt).

(** The figure of one stage: hkZhu.py:173-186, hkSeqYeck.py:201-214 and 265-278, hkYu.py:170-186,
    SynthAnalysis.py:170-183, 323-336 and 381-394.  [bmod] is a view of row [ib]. *)
Definition show_table (stk : list (row N)) (ib : nat) (H K : list N) : CM unit :=
  plt_ (CContour stk) ;;;
  bmod <~ clift (getitem stk ib) ;;
  plt_ (CBest (rH bmod) (rK bmod)) ;;;
  hlo <~ clift (pymin H) ;; hhi <~ clift (pymax H) ;;
  plt_ (CXlim hlo hhi) ;;;
  klo <~ clift (pymin K) ;; khi <~ clift (pymax K) ;;
  plt_ (CYlim klo khi) ;;;
  plt_ CShow.

Context (km1 : N) (stackO : stream N -> res (list (trace N))).
(** The computation alone: a [draw] that does nothing. *)
Definition nodraw (_ : list (row N)) : res unit := Ok tt.

(** hkZhu.py:66-196 [hk]: the computation (116-171), the figure (173-186), the line (187-190). *)
Definition hk_shown (rfstream : stream N) (preonset : N) (H K : list N) (Vp w1 w2 w3 : option N)
    (layer : option string) (stack : option bool) : CM (hkres N) :=
  r <~ clift (hk km1 stackO nodraw rfstream preonset H K Vp w1 w2 w3 layer stack) ;;
  show_table (hr_stk r) (hr_best r) H K ;;;
  bmod <~ clift (getitem (hr_stk r) (hr_best r)) ;;
  print_ "Best depth" [rH bmod; rK bmod; rS bmod] ;;;
  cret r.

(** SynthAnalysis.py:67-190 [hkSynth]. *)
Definition hkSynth_shown (Synthrf time : list N) (rayp : N) (raypk : fkind) (H K : list N)
    (Vp w1 w2 w3 : option N) (layer : option string) : CM (hksres N) :=
  r <~ clift (hkSynth nodraw Synthrf time rayp raypk H K Vp w1 w2 w3 layer) ;;
  show_table (hs_stk r) (hs_best r) H K ;;;
  bmod <~ clift (getitem (hs_stk r) (hs_best r)) ;;
  print_ "Best depth" [rH bmod; rK bmod; rS bmod] ;;;
  cret r.

(** hkYu.py:69-198 [hkYu]: the thickness is printed (136) before the delay is computed. *)
Definition hkYu_shown (filteredrf time : list N) (tlag : N) (tlagk : fkind) (rayp : N) (raypk : fkind)
    (H K : list N) (VpMoho VpSed VsSed w1SubSed w2SubSed w3SubSed : option N) : CM (yures N) :=
  vs <~ clift (need VsSed) ;;
  print_ "Sediment thickness" [ndiv (nmul tlag vs) (nofZ 2)] ;;;
  r <~ clift (hkYu nodraw filteredrf time tlag tlagk rayp raypk H K VpMoho VpSed VsSed w1SubSed w2SubSed w3SubSed) ;;
  show_table (yr_stk r) (yr_best r) H K ;;;
  bmod <~ clift (getitem (yr_stk r) (yr_best r)) ;;
  print_ "Best Subsediment thickness" [rH bmod; rK bmod; rS bmod] ;;;
  cret r.

(** The two stages of [hkSeq] as HkModel has them: hkSeqYeck.py:169-198 and 227-264; the Moho stage gives the best
    row (found before the clip, 259) and the clipped table. *)
Definition seq_sed (rfstreamSed : stream N) (stack : bool) (stS0 : trace N) (AvgSlow : N) (t : list N)
    (HSed KSed : list N) (VpSed w1Sed w2Sed w3Sed : N) : res (list (row N) * nat) :=
  st <- forM KSed (fun Ktemp st =>
    forM HSed (fun Htemp st =>
      let '(stk, z, q) := st in
      sq <- (let s := nofZ 0 in
             sSed <- forM rfstreamSed (fun tr sSed =>
               let trdata := if stack then tr_data stS0 else tr_data tr in
               let rp := if stack then nmul km1 AvgSlow else nmul km1 (tr_slow tr) in
               let rpk := if stack then NpF else tr_slowk tr in
               ts <- hkSeqSed_times VpSed rp rpk Htemp Ktemp ;;
               let '(tps, tppps, tpsps) := ts in
               ampps <- getamp trdata t tps ;;
               ampppps <- getamp trdata t tppps ;;
               amppsps <- getamp trdata t tpsps ;;
               let stemp := nsub (nadd (nmul w1Sed ampps) (nmul w2Sed ampppps)) (nmul w3Sed amppsps) in
               Ok (Some (nadd stemp s))) q ;;
             match sSed with Some v => Ok (v, sSed) | None => Err UnboundLocalError end) ;;
      let '(s, q) := sq in
      stk <- setitem stk z (mkRow Htemp Ktemp s) ;;
      Ok (stk, S z, q)) st)
    (zerosT (length KSed * length HSed), 0, None) ;;
  let '(stkSed, _, _) := st in
  ib <- argmax (map rS stkSed) ;;
  Ok (stkSed, ib).

Definition seq_moho (rfstreamMoho : stream N) (stack : bool) (stM0 : trace N) (AvgSlow : N) (t : list N) (H1 K1 VpSed : N)
    (HMoho KMoho : list N) (VpMoho w1Moho w2Moho w3Moho : option N) : res (list (row N) * nat) :=
  st <- forM KMoho (fun Ktemp st =>
    forM HMoho (fun Htemp st =>
      let '(stk, z, q) := st in
      sq <- (let s := nofZ 0 in
             sMoho <- forM rfstreamMoho (fun tr sMoho =>
               let trdata := if stack then tr_data stM0 else tr_data tr in
               let rp := if stack then nmul km1 AvgSlow else nmul km1 (tr_slow tr) in
               let rpk := if stack then NpF else tr_slowk tr in
               ts <- hkSeqMoho_times H1 K1 VpSed VpMoho rp rpk Htemp Ktemp ;;
               let '(tps, tppps, tpsps) := ts in
               ampps <- getamp trdata t tps ;;
               ampppps <- getamp trdata t tppps ;;
               amppsps <- getamp trdata t tpsps ;;
               w1 <- need w1Moho ;; w2 <- need w2Moho ;; w3 <- need w3Moho ;;
               let stemp := nsub (nadd (nmul w1 ampps) (nmul w2 ampppps)) (nmul w3 amppsps) in
               Ok (Some (nadd stemp s))) q ;;
             match sMoho with Some v => Ok (v, sMoho) | None => Err UnboundLocalError end) ;;
      let '(s, q) := sq in
      stk <- setitem stk z (mkRow Htemp Ktemp s) ;;
      Ok (stk, S z, q)) st)
    (zerosT (length KMoho * length HMoho), 0, None) ;;
  let '(stkMoho, _, _) := st in
  ib <- argmax (map rS stkMoho) ;;
  stkMoho <- clip_loop stkMoho ;;
  Ok (stkMoho, ib).

(** hkSeqYeck.py:68-291 [hkSeq]. *)
Definition hkSeq_shown (rfstreamSed rfstreamMoho : stream N) (preonset : N)
    (HSed KSed : list N) (VpSed w1Sed w2Sed w3Sed : option N)
    (HMoho KMoho : list N) (VpMoho w1Moho w2Moho w3Moho : option N) (stack : option bool) : CM (seqres N) :=
  let VpSed := dflt VpSed (nlit 30 10) in
  let w1Sed := dflt w1Sed (nlit 6 10) in
  let w2Sed := dflt w2Sed (nlit 3 10) in
  let w3Sed := dflt w3Sed (nlit 1 10) in
  let stack := dflt stack false in
  StackedRFSed <~ clift (stackO rfstreamSed) ;;
  stS0 <~ clift (getitem StackedRFSed 0) ;;
  StackedRFMoho <~ clift (stackO rfstreamMoho) ;;
  stM0 <~ clift (getitem StackedRFMoho 0) ;;
  tr0 <~ clift (getitem rfstreamSed 0) ;;
  let AvgSlow := avgslow rfstreamMoho in
  let t := taxis (tr_delta tr0) (length (tr_data tr0)) preonset in
  sed <~ clift (seq_sed rfstreamSed stack stS0 AvgSlow t HSed KSed VpSed w1Sed w2Sed w3Sed) ;;
  let '(stkSed, ibSed) := sed in
  show_table stkSed ibSed HSed KSed ;;;                                     (* 201-214 *)
  bmodSed <~ clift (getitem stkSed ibSed) ;;
  let H1 := rH bmodSed in
  let K1 := rK bmodSed in
  let SSed := rS bmodSed in                                                 (* 220 *)
  print_ "Best Sediment depth" [H1; K1; SSed] ;;;                           (* 221 *)
  moho <~ clift (seq_moho rfstreamMoho stack stM0 AvgSlow t H1 K1 VpSed HMoho KMoho VpMoho w1Moho w2Moho w3Moho) ;;
  let '(stkMoho, ibMoho) := moho in
  show_table stkMoho ibMoho HMoho KMoho ;;;                                 (* 265-278 *)
  bmodMoho <~ clift (getitem stkMoho ibMoho) ;;
  print_ "Best Moho depth" [rH bmodMoho; rK bmodMoho; SSed] ;;;             (* 281-282 *)
  cret (mkSeqRes rfstreamSed (tr_data stS0) rfstreamMoho (tr_data stM0) t ibSed stkSed
        ibMoho stkMoho stack (tr_chan tr0) AvgSlow VpSed VpMoho HSed KSed HMoho KMoho
        (tr_sta tr0)).

(** The two stages of [hkSeqSynth]: SynthAnalysis.py:296-320 and 348-380. *)
Definition synth_sed (rfSynthSed t : list N) (rp : N) (raypk : fkind) (HSed KSed : list N) (VpSed w1Sed w2Sed w3Sed : N)
    : res (list (row N) * nat) :=
  st <- forM KSed (fun Ktemp st =>
    forM HSed (fun Htemp st =>
      let '(stk, z) := st in
      s <- (let s := nofZ 0 in
            let trdata := rfSynthSed in
            ts <- hkSeqSynthSed_times VpSed rp raypk Htemp Ktemp ;;
            let '(tps, tppps, tpsps) := ts in
            ampps <- getamp trdata t tps ;;
            ampppps <- getamp trdata t tppps ;;
            amppsps <- getamp trdata t tpsps ;;
            let stemp := nsub (nadd (nmul w1Sed ampps) (nmul w2Sed ampppps)) (nmul w3Sed amppsps) in
            Ok (nadd stemp s)) ;;
      stk <- setitem stk z (mkRow Htemp Ktemp s) ;;
      Ok (stk, S z)) st)
    (zerosT (length KSed * length HSed), 0) ;;
  let '(stkSed, _) := st in
  ib <- argmax (map rS stkSed) ;;
  Ok (stkSed, ib).

Definition synth_moho (rfSynthMoho t : list N) (rp : N) (raypk : fkind) (H1 K1 VpSed : N) (HMoho KMoho : list N)
    (VpMoho w1Moho w2Moho w3Moho : option N) : res (list (row N) * nat) :=
  st <- forM KMoho (fun Ktemp st =>
    forM HMoho (fun Htemp st =>
      let '(stk, z) := st in
      s <- (let s := nofZ 0 in
            let trdata := rfSynthMoho in
            ts <- hkSeqSynthMoho_times H1 K1 VpSed VpMoho rp raypk Htemp Ktemp ;;
            let '(tps, tppps, tpsps) := ts in
            ampps <- getamp trdata t tps ;;
            ampppps <- getamp trdata t tppps ;;
            amppsps <- getamp trdata t tpsps ;;
            w1 <- need w1Moho ;; w2 <- need w2Moho ;; w3 <- need w3Moho ;;
            let stemp := nsub (nadd (nmul w1 ampps) (nmul w2 ampppps)) (nmul w3 amppsps) in
            Ok (nadd stemp s)) ;;
      stk <- setitem stk z (mkRow Htemp Ktemp s) ;;
      Ok (stk, S z)) st)
    (zerosT (length KMoho * length HMoho), 0) ;;
  let '(stkMoho, _) := st in
  ib <- argmax (map rS stkMoho) ;;
  stkMoho <- clip_loop stkMoho ;;
  Ok (stkMoho, ib).

(** SynthAnalysis.py:193-404 [hkSeqSynth]. *)
Definition hkSeqSynth_shown (rfSynthSed rfSynthMoho time : list N) (rayp : N) (raypk : fkind)
    (HSed KSed : list N) (VpSed w1Sed w2Sed w3Sed : option N)
    (HMoho KMoho : list N) (VpMoho w1Moho w2Moho w3Moho : option N) : CM (seqsres N) :=
  let VpSed := dflt VpSed (nlit 30 10) in
  let w1Sed := dflt w1Sed (nlit 6 10) in
  let w2Sed := dflt w2Sed (nlit 3 10) in
  let w3Sed := dflt w3Sed (nlit 1 10) in
  sed <~ clift (synth_sed rfSynthSed time rayp raypk HSed KSed VpSed w1Sed w2Sed w3Sed) ;;
  let '(stkSed, ibSed) := sed in
  show_table stkSed ibSed HSed KSed ;;;                                     (* 323-336 *)
  bmodSed <~ clift (getitem stkSed ibSed) ;;
  let H1 := rH bmodSed in
  let K1 := rK bmodSed in
  let SSed := rS bmodSed in                                                 (* 342 *)
  print_ "Best Sediment depth" [H1; K1; SSed] ;;;
  moho <~ clift (synth_moho rfSynthMoho time rayp raypk H1 K1 VpSed HMoho KMoho VpMoho w1Moho w2Moho w3Moho) ;;
  let '(stkMoho, ibMoho) := moho in
  show_table stkMoho ibMoho HMoho KMoho ;;;                                 (* 381-394 *)
  bmodMoho <~ clift (getitem stkMoho ibMoho) ;;
  print_ "Best Moho depth" [rH bmodMoho; rK bmodMoho; SSed] ;;;             (* 397 *)
  cret (mkSeqsRes rfSynthSed rfSynthMoho time ibSed stkSed ibMoho stkMoho rayp VpSed VpMoho HSed KSed HMoho KMoho).

End Show.
Arguments cev N : clear implicits.
