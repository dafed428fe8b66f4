(** * ArrSessionModel: H-k results over arrays shared with the caller.

    The result dictionaries keep references to arrays of the caller: [hk] H and K
    (hkZhu.py:192-194); [hkSeq] HSed, KSed, HMoho, KMoho (hkSeqYeck.py:283-289); [hkYu] the filtered
    trace and the time axis of FltResult, HSubSed, KSubSed (hkYu.py:131-133, 191-196);
    [hkSynth] the trace, the time axis, H, K (SynthAnalysis.py:144, 188-189); [hkSeqSynth]
    both traces, the time axis and the four grids (SynthAnalysis.py:398-404).  The stack table
    (np.zeros) and the best row, a view of it, belong to the result alone; the numbers are
    immutable.  The analyses and the plots only read the caller's arrays.

    HkModel and PlotModel pass values; here an array is an address in a heap owned by the
    caller, who may change it in place at any time.  The streams of [hk] and [hkSeq] are
    passed by value (their sharing is in SessionModel). *)

From Verif Require Import Base Num NumPy HkModel PlotModel.

Section Session.
Context {N : Num}.
Context (km1 : N) (stackO : stream N -> res (list (trace N))) (draw : list (row N) -> res unit)
        (pyplot : list (pev N) -> pev N -> option exn).

Definition arrays := nat -> list N.
Definition set_arr (h : arrays) (a : nat) (l : list N) : arrays := fun b => if Nat.eqb b a then l else h b.

(** A call of an analysis: arrays by address, the rest by value. *)
Inductive call :=
| CHk (rf : stream N) (preonset : N) (H K : nat) (Vp w1 w2 w3 : option N) (layer : option string) (stack : option bool)
| CSeq (sed moho : stream N) (preonset : N) (HSed KSed : nat) (VpSed w1Sed w2Sed w3Sed : option N)
       (HMoho KMoho : nat) (VpMoho w1Moho w2Moho w3Moho : option N) (stack : option bool)
| CYu (filteredrf time : nat) (tlag : N) (tlagk : fkind) (rayp : N) (raypk : fkind) (H K : nat)
      (VpMoho VpSed VsSed w1 w2 w3 : option N)
| CSynth (rf time : nat) (rayp : N) (raypk : fkind) (H K : nat) (Vp w1 w2 w3 : option N) (layer : option string)
| CSeqS (rfSed rfMoho time : nat) (rayp : N) (raypk : fkind) (HSed KSed : nat) (VpSed w1Sed w2Sed w3Sed : option N)
        (HMoho KMoho : nat) (VpMoho w1Moho w2Moho w3Moho : option N).

(** The contents of a result dictionary ([pk]: the type of the stored ray parameter). *)
Inductive contents := VHk (d : hkres N) | VSeq (d : seqres N) | VYu (pk : fkind) (d : yures N)
                    | VSynth (pk : fkind) (d : hksres N) | VSeqS (pk : fkind) (d : seqsres N).

Definition okmap {A B} (f : A -> B) (r : res A) : res B := match r with Ok a => Ok (f a) | Err e => Err e end.
Definition run_call (h : arrays) (c : call) : res contents :=
  match c with
  | CHk rf pre H K Vp w1 w2 w3 layer stack => okmap VHk (hk km1 stackO draw rf pre (h H) (h K) Vp w1 w2 w3 layer stack)
  | CSeq sed moho pre HS KS VpS w1S w2S w3S HM KM VpM w1M w2M w3M stack =>
      okmap VSeq (hkSeq km1 stackO draw sed moho pre (h HS) (h KS) VpS w1S w2S w3S (h HM) (h KM) VpM w1M w2M w3M stack)
  | CYu f t tlag tk p pk H K VpM VpS VsS w1 w2 w3 =>
      okmap (VYu pk) (hkYu draw (h f) (h t) tlag tk p pk (h H) (h K) VpM VpS VsS w1 w2 w3)
  | CSynth f t p pk H K Vp w1 w2 w3 layer => okmap (VSynth pk) (hkSynth draw (h f) (h t) p pk (h H) (h K) Vp w1 w2 w3 layer)
  | CSeqS fs fm t p pk HS KS VpS w1S w2S w3S HM KM VpM w1M w2M w3M =>
      okmap (VSeqS pk) (hkSeqSynth draw (h fs) (h fm) (h t) p pk (h HS) (h KS) VpS w1S w2S w3S (h HM) (h KM) VpM w1M w2M w3M)
  end.

(** A dictionary: the references are those of the call [c]; its own entries are in [v]
    (the array fields of [v] are not used).  What a reader of the dictionary finds: *)
Definition view (h : arrays) (c : call) (v : contents) : contents :=
  match c, v with
  | CHk _ _ H K _ _ _ _ _ _, VHk d =>
      VHk (mkHkRes (hr_RF d) (hr_RFStack d) (hr_time d) (hr_best d) (hr_staname d) (hr_Vp d) (hr_stk d)
             (hr_layer d) (hr_stack d) (hr_comp d) (hr_AvgSlow d) (h H) (h K))
  | CSeq _ _ _ HS KS _ _ _ _ HM KM _ _ _ _ _, VSeq d =>
      VSeq (mkSeqRes (sr_RFSed d) (sr_RFSedStack d) (sr_RFMoho d) (sr_RFMohoStack d) (sr_time d) (sr_bestSed d)
              (sr_stkSed d) (sr_bestMoho d) (sr_stkMoho d) (sr_stack d) (sr_comp d) (sr_AvgSlow d)
              (sr_VpSed d) (sr_VpMoho d) (h HS) (h KS) (h HM) (h KM) (sr_staname d))
  | CYu f t _ _ _ _ H K _ _ _ _ _ _, VYu pk d =>
      VYu pk (mkYuRes (h f) (h t) (yr_tlag d) (yr_Pdelay d) (yr_rayp d) (yr_best d) (yr_VpMoho d) (yr_VpSed d)
                (yr_stk d) (h H) (h K) (yr_SedThick d))
  | CSynth f t _ _ H K _ _ _ _ _, VSynth pk d =>
      VSynth pk (mkHksRes (h f) (h t) (hs_best d) (hs_Vp d) (hs_stk d) (hs_layer d) (hs_rayp d) (h H) (h K))
  | CSeqS fs fm t _ _ HS KS _ _ _ _ HM KM _ _ _ _, VSeqS pk d =>
      VSeqS pk (mkSeqsRes (h fs) (h fm) (h t) (ss_bestSed d) (ss_stkSed d) (ss_bestMoho d) (ss_stkMoho d)
                  (ss_RayP d) (ss_VpSed d) (ss_VpMoho d) (h HS) (h KS) (h HM) (h KM))
  | _, _ => v
  end.

(** The plot function that belongs to the kind of result: what it leaves in the dictionary,
    what it draws and saves, how it ends. *)
Definition plot (v : contents) (path : string) (g : option (list N)) (rmneg : option bool) (format : option string)
    : contents * (list (pev N) * res unit) :=
  match v with
  | VHk d => let '(s, x) := plothk pyplot km1 path g rmneg format (mkPst [] d) in (VHk (ps_d s), (ps_ev s, x))
  | VSeq d => let '(s, x) := plotSeqhk pyplot km1 path g rmneg format (mkPst [] d) in (VSeq (ps_d s), (ps_ev s, x))
  | VYu pk d => let '(s, x) := plothkYu pyplot pk path g rmneg format (mkPst [] d) in (VYu pk (ps_d s), (ps_ev s, x))
  | VSynth pk d => let '(s, x) := plothkSynth pyplot pk path g rmneg format (mkPst [] d) in (VSynth pk (ps_d s), (ps_ev s, x))
  | VSeqS pk d => let '(s, x) := plothkSeqSynth pyplot pk path g rmneg format (mkPst [] d) in (VSeqS pk (ps_d s), (ps_ev s, x))
  end.

(** One statement: run an analysis; plot or read the [i]-th result; change an array in place. *)
Inductive op :=
| Analyse (c : call)
| Plot (i : nat) (path : string) (g : option (list N)) (rmneg : option bool) (format : option string)
| Read (i : nat)
| Change (a : nat) (l : list N).
(** What the user sees. *)
Inductive out := OResult (r : res contents) | OPlot (ev : list (pev N)) (r : res unit) | ORead (v : contents) | ONoResult | ONone.

Definition step (st : arrays * list (call * contents)) (o : op) : (arrays * list (call * contents)) * out :=
  let '(h, ds) := st in
  match o with
  | Analyse c => match run_call h c with
                 | Ok v => ((h, ds ++ [(c, v)]), OResult (Ok v))
                 | Err e => ((h, ds), OResult (Err e))
                 end
  | Plot i path g rmneg format =>
      match nth_error ds i with
      | None => ((h, ds), ONoResult)
      | Some (c, v) => let '(v', (ev, x)) := plot (view h c v) path g rmneg format in ((h, upd ds i (c, v')), OPlot ev x)
      end
  | Read i => match nth_error ds i with
              | None => ((h, ds), ONoResult)
              | Some (c, v) => ((h, ds), ORead (view h c v))
              end
  | Change a l => ((set_arr h a l, ds), ONone)
  end.
Fixpoint session (st : arrays * list (call * contents)) (ops : list op) : list out :=
  match ops with [] => [] | o :: ops' => let '(st', x) := step st o in x :: session st' ops' end.
Fixpoint after (st : arrays * list (call * contents)) (ops : list op) : arrays * list (call * contents) :=
  match ops with [] => st | o :: ops' => after (fst (step st o)) ops' end.
End Session.
Arguments call N : clear implicits. Arguments contents N : clear implicits. Arguments op N : clear implicits.
Arguments out N : clear implicits. Arguments arrays N : clear implicits.
