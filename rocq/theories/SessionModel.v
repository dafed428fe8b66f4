(** * SessionModel: an interactive session in which several H-k analyses and figures work on
    the same Trace objects.

    The result dictionary of [hk] holds the caller's stream itself ('RF': rfstream,
    hkZhu.py:192), that of [hkSeq] both streams (hkSeqYeck.py:283-284); a stream is a list
    of Trace objects, and different streams may hold the same object (Stream.select, slicing
    and copying by [+] do not copy traces).  [plothk] writes stats['tps'], ['tppps'],
    ['tpsps'] of those objects (hkZhu.py:253-263), [plotSeqhk] the entries tpsSed...
    (hkSeqYeck.py:363-365) and tpsMoho... (582-584).  Everything else in a dictionary
    belongs to the result alone: fresh arrays, or arrays no function writes to.

    HkModel and PlotModel work on stream values; here a stream is a list of addresses, its
    value is read from the heap before a call and written back after it.  The objects of one
    stream are distinct in obspy; for a repeated address the last copy is written back. *)

From Verif Require Import Base Num NumPy HkModel PlotModel.

Section Session.
Context {N : Num}.
Context (km1 : N) (stackO : stream N -> res (list (trace N))) (draw : list (row N) -> res unit)
        (pyplot : list (pev N) -> pev N -> option exn).

(** A Trace object: [o_tr] with the entries tps, tppps, tpsps (in [tr_hdr]); the entries
    tpsSed, tpppsSed, tpspsSed; the entries tpsMoho, tpppsMoho, tpspsMoho. *)
Record tobj := mkTobj { o_tr : trace N; o_sed : option (@times N); o_moho : option (@times N) }.
Definition heap := nat -> tobj.

Definition with_hdr (tr : trace N) (h : option (@times N)) : trace N :=
  mkTrace (tr_data tr) (tr_delta tr) (tr_slow tr) (tr_slowk tr) (tr_b tr) (tr_baz tr)
          (tr_dist tr) (tr_sta tr) (tr_chan tr) h.

(** The object as [plothk], as the first half and as the second half of [plotSeqhk] see it *)
Definition see_hk (o : tobj) : trace N := o_tr o.
Definition see_sed (o : tobj) : trace N := with_hdr (o_tr o) (o_sed o).
Definition see_moho (o : tobj) : trace N := with_hdr (o_tr o) (o_moho o).
(** ... and what is left in it *)
Definition put_hk (o : tobj) (tr : trace N) : tobj := mkTobj tr (o_sed o) (o_moho o).
Definition put_sed (o : tobj) (tr : trace N) : tobj := mkTobj (with_hdr tr (tr_hdr (o_tr o))) (tr_hdr tr) (o_moho o).
Definition put_moho (o : tobj) (tr : trace N) : tobj := mkTobj (with_hdr tr (tr_hdr (o_tr o))) (o_sed o) (tr_hdr tr).

Definition set_obj (h : heap) (a : nat) (o : tobj) : heap := fun b => if b =? a then o else h b.
Definition load (see : tobj -> trace N) (h : heap) (rf : list nat) : stream N := map (fun a => see (h a)) rf.
Fixpoint store (put : tobj -> trace N -> tobj) (rf : list nat) (st : stream N) (h : heap) : heap :=
  match rf, st with
  | a :: rf', tr :: st' => store put rf' st' (set_obj h a (put (h a) tr))
  | _, _ => h
  end.

(** A result dictionary: the addresses of its stream(s) and its own entries (the stream
    fields of the record are not used). *)
Inductive result := RHk (rf : list nat) (d : hkres N) | RSeq (sed moho : list nat) (d : seqres N).

(** One statement of the session.  [Plot r]: [plothk] or [plotSeqhk] on the [r]-th result
    obtained so far; [Edit a tr]: the caller changes the trace object [a] in place. *)
Inductive op :=
| AHk (rf : list nat) (preonset : N) (H K : list N) (Vp w1 w2 w3 : option N)
      (layer : option string) (stack : option bool)
| ASeq (sed moho : list nat) (preonset : N) (HSed KSed : list N) (VpSed w1Sed w2Sed w3Sed : option N)
       (HMoho KMoho : list N) (VpMoho w1Moho w2Moho w3Moho : option N) (stack : option bool)
| Plot (r : nat) (path : string) (g : option (list N)) (rmneg : option bool) (format : option string)
| Edit (a : nat) (tr : trace N).

(** What the user gets: the dictionary (or the exception), or what was drawn and saved
    and how the call ended. *)
Inductive out := OHk (r : res (hkres N)) | OSeq (r : res (seqres N)) | OPlot (ev : list (pev N)) (r : res unit) | ONone.

(** State of the session: Trace objects and results obtained so far. *)
Definition state := (heap * list result)%type.

Definition step (s : state) (o : op) : state * out :=
  let '(h, rs) := s in
  match o with
  | AHk rf preonset H K Vp w1 w2 w3 layer stack =>
      let r := hk km1 stackO draw (load see_hk h rf) preonset H K Vp w1 w2 w3 layer stack in
      (match r with Ok d => (h, rs ++ [RHk rf (hr_setRF d [])]) | Err _ => (h, rs) end, OHk r)
  | ASeq sed moho preonset HS KS VpS w1S w2S w3S HM KM VpM w1M w2M w3M stack =>
      let r := hkSeq km1 stackO draw (load see_sed h sed) (load see_moho h moho) preonset HS KS VpS w1S w2S w3S HM KM VpM w1M w2M w3M stack in
      (match r with Ok d => (h, rs ++ [RSeq sed moho (sr_setMoho (sr_setSed d []) [])]) | Err _ => (h, rs) end, OSeq r)
  | Plot r path g rmneg format =>
      match nth_error rs r with
      | None => ((h, rs), OPlot [] (Err IndexError))
      | Some (RHk rf d) =>
          let '(s', x) := plothk pyplot km1 path g rmneg format (mkPst [] (hr_setRF d (load see_hk h rf))) in
          ((store put_hk rf (hr_RF (ps_d s')) h, upd rs r (RHk rf (hr_setRF (ps_d s') []))), OPlot (ps_ev s') x)
      | Some (RSeq sed moho d) =>
          let '(s', x) := plotSeqhk pyplot km1 path g rmneg format
                            (mkPst [] (sr_setMoho (sr_setSed d (load see_sed h sed)) (load see_moho h moho))) in
          ((store put_moho moho (sr_RFMoho (ps_d s')) (store put_sed sed (sr_RFSed (ps_d s')) h),
            upd rs r (RSeq sed moho (sr_setMoho (sr_setSed (ps_d s') []) []))), OPlot (ps_ev s') x)
      end
  | Edit a tr => ((set_obj h a (mkTobj tr (o_sed (h a)) (o_moho (h a))), rs), ONone)
  end.

Fixpoint session (s : state) (ops : list op) : list out :=
  match ops with
  | [] => []
  | o :: ops' => let '(s', x) := step s o in x :: session s' ops'
  end.
(** The Trace objects after the session. *)
Fixpoint objects_after (s : state) (ops : list op) : heap :=
  match ops with
  | [] => fst s
  | o :: ops' => objects_after (fst (step s o)) ops'
  end.
End Session.
Arguments tobj N : clear implicits. Arguments heap N : clear implicits. Arguments result N : clear implicits.
Arguments op N : clear implicits. Arguments out N : clear implicits. Arguments state N : clear implicits.
