(** * DeconModel: the deconvolution functions of synrf.py (lines 76-347).

    Exact arithmetic over R and C; [fft]/[ifft] are the sums of DFT.v.  Where numpy
    would go on with NaN or inf (division by an exact 0) the model stops with
    [NaNResult].  [next_pow_2] is obspy.signal.util.next_pow_2 without the rounding of
    [log]. *)

From Coq Require Import Reals Lra Ascii.
From Verif Require Import Base Num NumPy Cplx DFT ReverbModel.
Local Open Scope R_scope.

(** synrf.py:76 [class ValueError(Exception)]: inside synrf.py the name [ValueError]
    is this class, which is not a subclass of the builtin [ValueError]. *)
Definition SynrfValueError : exn := LibError 76.
(** numpy continues with NaN/inf; outside exact arithmetic. *)
Definition NaNResult : exn := LibError 100.

(** obspy.signal.util.next_pow_2: [int(pow(2, ceil(log(i)/log(2))))]; [log(0)] raises
    the builtin ValueError. *)
Definition next_pow_2 (i : nat) : res nat :=
  if (i =? 0)%nat then Err ValueError else Ok (2 ^ Nat.log2_up i)%nat.

(** synrf.py:78-91 [gaussFilter(dt, nft, gaussian)].  [nft21 = 0.5*nft + 1]: numpy's
    [arange(0, nft21)] has ceil(nft21) entries, [int(nft21)] is its floor.  The slice
    assignments raise ValueError on a length mismatch. *)
Definition gaussFilter (dt : R) (nft : nat) (gaussian : R) : res (list R) :=
  if Req_EM_T (INR nft * dt) 0 then Err ZeroDivisionError else
  let df := 1 / (INR nft * dt) in                                          (* 79 *)
  let nceil := ((nft + 1) / 2 + 1)%nat in
  let nint := (nft / 2 + 1)%nat in
  let f := map (fun i => df * INR i) (seq 0 nceil) in                      (* 81 *)
  let w := map (fun x => 2 * PI * x) f in
  if Req_EM_T gaussian 0 then Err NaNResult else
  let gauss1 := map (fun x => exp (- (1 / 4) * (x / gaussian) ^ 2) / dt) w in  (* 85 *)
  if (length gauss1 =? Nat.min nint nft)%nat then                          (* 87 *)
    let flipped := rev (slice (gauss1 ++ repeat 0 (nft - nint)) 1 (nint - 1)) in
    if (length flipped =? nft - nint)%nat then Ok (gauss1 ++ flipped)      (* 88 *)
    else Err ValueError
  else Err ValueError.

(** synrf.py:93-97 [gfilter(x, nfft, gauss, dt)]; [gauss] real or complex. *)
Definition gfilter (x : list R) (nfft : nat) (gauss : list C) (dt : R) : res (list R) :=
  Xf <- cprod (fft (map RtoC x) nfft) gauss ;;
  Ok (map Re (ifft (map (fun z => z * RtoC dt)%C Xf) nfft)).

(** synrf.py:99-102 [correl(R, W, nfft)]. *)
Definition correl (r w : list R) (nfft : nat) : res (list R) :=
  X <- cprod (fft (map RtoC r) nfft) (map Cconj (fft (map RtoC w) nfft)) ;;
  Ok (map Re (ifft X nfft)).

(** synrf.py:104-111 [phaseshift(x, nfft, dt, preonset)]: the phase index runs from 1
    to nfft, and the result is divided by cos(2 pi shift_i/nfft). *)
Definition phaseshift (x : list R) (nfft : nat) (dt preonset : R) : res (list R) :=
  let Xf := fft (map RtoC x) nfft in
  if Req_EM_T dt 0 then Err ZeroDivisionError else
  let shift_i := Rtrunc (preonset / dt) in                                 (* 106 *)
  let p := map (fun k => 2 * PI * INR k * IZR shift_i / INR nfft) (seq 1 nfft) in
  Xf <- cprod Xf (map (fun a => (cos a, - sin a)) p) ;;                    (* 108 *)
  let c := cos (2 * PI * IZR shift_i / INR nfft) in
  if Req_EM_T c 0 then Err NaNResult else
  Ok (map (fun z => Re (z * RtoC (/ c))%C) (ifft Xf nfft)).                (* 109-110 *)

(** [a = np.zeros(n); a[0:nt] = x]: a length-1 [x] is broadcast. *)
Definition put_prefix (n nt : nat) (x : list R) : res (list R) :=
  let m := Nat.min nt n in
  if (length x =? m)%nat then Ok (x ++ repeat 0 (n - m))
  else match x with
       | [a] => Ok (repeat a m ++ repeat 0 (n - m))
       | _ => Err ValueError
       end.

Definition sumsqR (x : list R) : R := rsum (length x) (fun j => rnth x j * rnth x j).

(** Variables of the [while] loop of [deconv_iterative]. *)
Record dstate := mkD {
  d_p0 : list R; d_r : list R; d_rms : list R; d_err : R; d_sumsq : R; d_it : nat }.

Section Iter.
Variables (dt minderr : R) (itmax nfft : nat) (phaseP : bool)
          (gaussF u_flt w_flt : list R) (wf : list C) (powerU : R).

(** synrf.py:182-202, one turn of the loop. *)
Definition dstep (s : dstate) : res dstate :=
  rw0 <- correl (d_r s) w_flt nfft ;;                                      (* 182 *)
  let pw := sumsqR w_flt in
  if Req_EM_T pw 0 then Err NaNResult else
  let rw := map (fun x => x / pw) rw0 in                                   (* 183 *)
  let cand := if phaseP then slice0Z rw (Z.of_nat (nfft / 2) - 1) else rw in (* 185-188 *)
  i1 <- @argmax RN (map Rabs cand) ;;
  a <- getitem rw i1 ;;
  if Req_EM_T dt 0 then Err ZeroDivisionError else
  let amp := a / dt in                                                     (* 189 *)
  old <- getitem (d_p0 s) i1 ;;
  p0 <- setitem (d_p0 s) i1 (old + amp) ;;                                 (* 191 *)
  pf1 <- gfilter p0 nfft (map RtoC gaussF) dt ;;                           (* 192 *)
  pf2 <- gfilter pf1 nfft wf dt ;;                                         (* 193 *)
  let r := map (fun ab => fst ab - snd ab) (combine u_flt pf2) in          (* 195 *)
  if Req_EM_T powerU 0 then Err NaNResult else
  let sumsq := sumsqR r / powerU in                                        (* 196 *)
  rms <- setitem (d_rms s) (d_it s) sumsq ;;                               (* 197 *)
  Ok (mkD p0 r rms (100 * (d_sumsq s - sumsq)) sumsq (S (d_it s))).        (* 198-202 *)

(** synrf.py:181 [while np.abs(d_error) > minderr and it < itmax]; [fuel] = itmax is
    enough because [it] grows by one per turn. *)
Fixpoint dloop (fuel : nat) (s : dstate) : res dstate :=
  match fuel with
  | O => Ok s
  | S fuel' =>
      if Rltb minderr (Rabs (d_err s)) && (d_it s <? itmax)%nat then
        s' <- dstep s ;; dloop fuel' s'
      else Ok s
  end.
End Iter.

(** synrf.py:113-209 [deconv_iterative]: returns (RFI, rms, it). *)
Definition deconv_iterative (uin win : list R) (dt : R) (nt : option nat) (preonset gaussian : R)
    (itmax : nat) (minderr : R) (phase : string) : res (list R * list R * nat) :=
  if negb (length uin =? length win)%nat then Err SynrfValueError else     (* 147 *)
  let nt := dflt nt (length uin) in                                        (* 149-150 *)
  let rms := repeat 0 itmax in                                             (* 154 *)
  nfft <- next_pow_2 nt ;;                                                 (* 155 *)
  let p0 := repeat 0 nfft in
  u0 <- put_prefix nfft nt uin ;;                                          (* 161 *)
  w0 <- put_prefix nfft nt win ;;
  gaussF <- gaussFilter dt nfft gaussian ;;                                (* 164 *)
  u_flt <- gfilter u0 nfft (map RtoC gaussF) dt ;;                         (* 167 *)
  w_flt <- gfilter w0 nfft (map RtoC gaussF) dt ;;
  let wf := fft (map RtoC w0) nfft in                                      (* 170 *)
  let powerU := sumsqR u_flt in                                            (* 173 *)
  let phaseP := String.eqb phase "P" in
  s <- dloop dt minderr itmax nfft phaseP gaussF u_flt w_flt wf powerU itmax
         (mkD p0 u_flt rms (100 * powerU + minderr) 1 0) ;;                (* 175-202 *)
  p_flt <- gfilter (d_p0 s) nfft (map RtoC gaussF) dt ;;                   (* 204 *)
  p_flt <- phaseshift p_flt nfft dt preonset ;;                            (* 205 *)
  Ok (slice p_flt 0 nt, slice0Z (d_rms s) (Z.of_nat (d_it s) - 1), d_it s). (* 206-209 *)

(** synrf.py:212-294 [deconv_waterlevel] ([uin], [win] are arrays: lists have no
    [.size]).  Result: (rft, rms); rms = None is NaN/inf (zero numerator). *)
Definition deconv_waterlevel (uin win : list R) (dt preonset wlevel gaussian : R)
    (normalize : bool) : res (list R * option R) :=
  if negb (length uin =? length win)%nat then Err SynrfValueError else     (* 239 *)
  let nt := length uin in
  nft <- next_pow_2 nt ;;                                                  (* 242 *)
  if Req_EM_T (2 * dt) 0 then Err ZeroDivisionError else
  let fny := 1 / (2 * dt) in                                               (* 244 *)
  let delf := fny / (1 / 2 * INR nft) in
  let freq := map (fun k => delf * INR k) (seq 0 ((nft + 1) / 2 + 1)) in   (* 246 *)
  let w := map (fun x => 2 * PI * x) freq in
  let uf := fft (map RtoC uin) nft in                                      (* 254 *)
  let wf := fft (map RtoC win) nft in
  let df := map Cnorm2 wf in                                               (* 258 *)
  dmax <- @pymax RN df ;;
  let phi1 := wlevel * dmax in                                             (* 262 *)
  let df := map (fun d : R => if Rlt_dec d phi1 then phi1 else d) df in    (* 264 *)
  gaussF <- gaussFilter dt nft gaussian ;;
  ug <- cprod (map RtoC gaussF) uf ;;
  nf <- cprod ug (map Cconj wf) ;;                                         (* 266 *)
  if existsb (fun d => Reqb d 0) df then Err NaNResult else
  let rff := cmul2 nf (map (fun d => RtoC (/ d)) df) in                    (* 269 *)
  upf <- cprod rff wf ;;                                                   (* 272 *)
  let w := w ++ map Ropp (rev (slice w 1 (length w - 1))) in               (* 275 *)
  rff <- cprod rff (map (fun x => cis (- (x * preonset))) w) ;;            (* 276 *)
  let rft := map Re (slice (ifft rff nft) 0 nt) in                         (* 279-280 *)
  uf <- cprod (map RtoC gaussF) uf ;;                                      (* 283 *)
  let ut := slice (map Re (ifft uf nft)) 0 nt in
  let upt := slice (map Re (ifft upf nft)) 0 nt in
  let powerU := sumsqR ut in                                               (* 287 *)
  let rms := if Req_EM_T powerU 0 then None
             else Some (sumsqR (map (fun ab => fst ab - snd ab) (combine upt ut)) / powerU) in
  if normalize then
    let gnorm := rsum (length gaussF) (rnth gaussF) * delf * dt in         (* 291 *)
    if Req_EM_T gnorm 0 then Err NaNResult else Ok (map (fun x => x / gnorm) rft, rms)
  else Ok (rft, rms).

(** Keyword arguments given by the caller ([None]: not given); [kw_other]: some
    other keyword is present. *)
Record kwargs := mkKw {
  kw_nt : option nat; kw_preonset : option R; kw_gaussian : option R; kw_itmax : option nat;
  kw_minderr : option R; kw_phase : option string; kw_wlevel : option R;
  kw_normalize : option bool; kw_other : bool }.
Definition given {A} (x : option A) : bool := match x with None => false | Some _ => true end.

(** [deconv_iterative(u, w, dt, **kwargs)] with the defaults of synrf.py:113-114; an
    unexpected keyword raises TypeError. *)
Definition call_iterative (uin win : list R) (dt : R) (k : kwargs) : res (list R * list R * nat) :=
  if given (kw_wlevel k) || given (kw_normalize k) || kw_other k then Err TypeError else
  deconv_iterative uin win dt (kw_nt k) (dflt (kw_preonset k) 10) (dflt (kw_gaussian k) 2)
    (dflt (kw_itmax k) 400%nat) (dflt (kw_minderr k) (1 / 1000)) (dflt (kw_phase k) "P"%string).

(** [deconv_waterlevel(u, w, dt, **kwargs)] with the defaults of synrf.py:212-213. *)
Definition call_waterlevel (uin win : list R) (dt : R) (k : kwargs) : res (list R * option R) :=
  if given (kw_nt k) || given (kw_itmax k) || given (kw_minderr k) || kw_other k then Err TypeError else
  deconv_waterlevel uin win dt (dflt (kw_preonset k) 10) (dflt (kw_wlevel k) (5 / 100))
    (dflt (kw_gaussian k) 2) (dflt (kw_normalize k) false).

(** [str.lower()] on ASCII letters. *)
Definition lower_ascii (c : ascii) : ascii :=
  let n := nat_of_ascii c in if (65 <=? n)%nat && (n <=? 90)%nat then ascii_of_nat (n + 32) else c.
Fixpoint lower (s : string) : string :=
  match s with EmptyString => EmptyString | String c s' => String (lower_ascii c) (lower s') end.

Inductive dresult :=
| RIter (rf : list R) (rms : list R) (it : nat)
| RWater (rf : list R) (rms : option R).

(** synrf.py:296-324 [deconvolve(uin, win, dt, method, **kwargs)]. *)
Definition deconvolve (uin win : list R) (dt : R) (method : string) (k : kwargs) : res dresult :=
  if String.eqb (lower method) "iter" then
    r <- call_iterative uin win dt k ;; let '(rf, rms, it) := r in Ok (RIter rf rms it)
  else if String.eqb (lower method) "water" then
    r <- call_waterlevel uin win dt k ;; let '(rf, rms) := r in Ok (RWater rf rms)
  else Err SynrfValueError.
