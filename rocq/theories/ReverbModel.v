(** * ReverbModel: ResonanceFilt of ReverbFilter.py and of SynthAnalysis.py.

    Exact arithmetic (reals, complex numbers as pairs); [fft]/[ifft] are the sums of
    DFT.v.  [scipy.signal.find_peaks] is modelled for any arithmetic.  Not modelled:
    [print], the unused variables [f], [nf], [filtered_rf = zeros_like]. *)

From Coq Require Import Reals Lra.
From Verif Require Import Base Num NumPy HkModel Cplx DFT.

(** ** scipy.signal.find_peaks(x) without conditions:
    [_local_maxima_1d] of scipy/signal/_peak_finding_utils.pyx (called at
    ReverbFilter.py:123, SynthAnalysis.py:481) *)
Section Peaks.
Context {N : Num}.

Definition at_ (x : list N) (i : nat) : N := nth i x (nofZ 0).

(** [while i_ahead < i_max and x[i_ahead] == x[i]: i_ahead += 1]; [fuel] bounds the
    number of steps by [imax - i_ahead]. *)
Fixpoint lm_ahead (x : list N) (imax : nat) (v : N) (ia fuel : nat) : nat :=
  match fuel with
  | O => ia
  | S fuel' => if (ia <? imax) && neqb (at_ x ia) v then lm_ahead x imax v (S ia) fuel' else ia
  end.

(** The outer [while i < i_max] loop; [fuel]: at most [len(x)] turns, since [i]
    increases in each. *)
Fixpoint lm_loop (x : list N) (imax i fuel : nat) : list nat :=
  match fuel with
  | O => []
  | S fuel' =>
      if i <? imax then
        if nltb (at_ x (i - 1)) (at_ x i) then
          let ia := lm_ahead x imax (at_ x i) (S i) (imax - S i) in
          if nltb (at_ x ia) (at_ x i) then
            ((i + (ia - 1)) / 2) :: lm_loop x imax (S ia) fuel'
          else lm_loop x imax (S i) fuel'
        else lm_loop x imax (S i) fuel'
      else []
  end.

Definition find_peaks (x : list N) : list nat := lm_loop x (length x - 1) 1 (length x).
End Peaks.

Local Open Scope R_scope.

(** [np.mean(D)], [D - np.mean(D)] ReverbFilter.py:114, SynthAnalysis.py:472. *)
Definition rmean (d : list R) : R := rsum (length d) (rnth d) / INR (length d).
Definition demean (d : list R) : list R := map (fun x => x - rmean d) d.

(** [scipy.signal.detrend(D)] (type='linear'), ReverbFilter.py:115,
    SynthAnalysis.py:473: scipy subtracts the least-squares straight line found by
    [lstsq]; here the closed form of that line (centre of mass and slope).  For one
    sample the minimum-norm solution reproduces the sample: residual 0. *)
Definition centre (n : nat) : R := (INR n - 1) / 2.
Definition slope (d : list R) : R :=
  let n := length d in
  rsum n (fun j => (INR j - centre n) * rnth d j) /
  rsum n (fun j => (INR j - centre n) * (INR j - centre n)).
Definition detrend (d : list R) : list R :=
  let n := length d in
  map (fun j => rnth d j - rmean d - slope d * (INR j - centre n)) (seq 0 n).

(** [np.correlate(D, D, mode='full')]: entry [m] is the correlation at lag
    [m - (n-1)]; samples outside the trace count as 0.  ReverbFilter.py:118, SynthAnalysis.py:476. *)
Definition corr_at (d : list R) (lag : Z) : R :=
  rsum (length d) (fun j =>
    (if (0 <=? Z.of_nat j + lag)%Z then rnth d (Z.to_nat (Z.of_nat j + lag)) else 0) * rnth d j).
Definition correlate_full (d : list R) : list R :=
  let n := length d in
  map (fun m => corr_at d (Z.of_nat m - (Z.of_nat n - 1))) (seq 0 (2 * n - 1)).

(** [np.max(ac)] *)
Definition rmax (l : list R) : res R :=
  match l with [] => Err ValueError | x :: l' => Ok (fold_left Rmax l' x) end.

(** [np.arange(a, b)] *)
Definition zarange (a b : Z) : list Z := map (fun i => (a + Z.of_nat i)%Z) (seq 0 (Z.to_nat (b - a))).

(** [np.hstack((np.arange(0, n//2+1), np.arange(-n//2 + 1, 0)))]: [-n//2] is
    [(-n)//2], rounded down.  ReverbFilter.py:111, SynthAnalysis.py:469. *)
Definition freq_index (n : nat) : list Z :=
  zarange 0 (Z.of_nat n / 2 + 1) ++ zarange ((- Z.of_nat n) / 2 + 1) 0.

(** Elementwise product, [ValueError] when the shapes differ (lengths are never 1
    against more than 1 here). *)
Definition cprod (a b : list C) : res (list C) :=
  if (length a =? length b)%nat then Ok (cmul2 a b) else Err ValueError.

Record fltout := mkFlt {
  fl_rf : list R; fl_filtered : list R; fl_res : list C; fl_time : list R;
  fl_autoc : option (list R);      (* None: every entry is NaN (0/0) *)
  fl_r : R; fl_tlag : R; fl_delta : R
}.

(** ReverbFilter.py:62-140 [ResonanceFilt(rfstream, preonset)].  [dt] is a Python
    float: dividing by zero raises. *)
Definition ResonanceFilt (stackO : stream RN -> res (list (trace RN))) (rfstream : stream RN)
    (preonset : R) : res fltout :=
  tr0 <- getitem rfstream 0 ;;                                            (* 92 *)
  let delta := tr_delta tr0 in
  let l := length (tr_data tr0) in
  let time := @taxis RN delta l preonset in                               (* 96-97 *)
  let dt := delta in
  StackedRF <- stackO rfstream ;;                                         (* 100 *)
  st0 <- getitem StackedRF 0 ;;
  let StackedData := tr_data st0 in
  let n := length StackedData in
  if Req_EM_T dt 0 then Err ZeroDivisionError else
  let fmax := 1 / (2 * dt) in                                             (* 106 *)
  if (n =? 0)%nat then Err ZeroDivisionError else
  let df := fmax / (INR n / 2) in
  let dw := 2 * PI * df in
  let w := map (fun k => dw * IZR k) (freq_index n) in
  let D := detrend (demean StackedData) in
  let acf := correlate_full D in                                          (* 118 *)
  mx <- rmax acf ;;
  let nan := if Req_EM_T mx 0 then true else false in
  let ac := slice (map (fun x => x / mx) acf) (n - 1) (2 * n - 1) in
  let rac := map Ropp ac in
  let locs := if nan then [] else @find_peaks RN rac in
  rt <- match locs with
        | [] => Ok (0, 0)
        | p :: _ => x <- getitem rac p ;; Ok (Rabs x, INR p * dt)
        end ;;
  let '(r0, tlag) := rt in
  let resonanceflt := map (fun wk => C1 + RtoC r0 * cis (- (wk * tlag)))%C w in  (* 132 *)
  prod <- cprod (fft (map RtoC D) n) resonanceflt ;;
  let filtered_rf := map Re (ifft prod n) in
  Ok (mkFlt StackedData filtered_rf resonanceflt time (if nan then None else Some ac) r0 tlag delta).

(** SynthAnalysis.py:407-497 [ResonanceFilt(Synthrf, time)].  Here [dt] is a numpy
    float; for [dt = 0] or an empty trace numpy goes on with inf/NaN: not modelled
    ([LibError]). *)
Definition ResonanceFiltSynth (Synthrf time : list R) : res fltout :=
  t1 <- getitem time 1 ;;                                                 (* 458 *)
  t0 <- getitem time 0 ;;
  let delta := t1 - t0 in
  let dt := delta in
  let n := length Synthrf in
  if Req_EM_T dt 0 then Err (LibError 0) else
  let fmax := 1 / (2 * dt) in                                             (* 464 *)
  if (n =? 0)%nat then Err (LibError 1) else
  let df := fmax / (INR n / 2) in
  let dw := 2 * PI * df in
  let w := map (fun k => dw * IZR k) (freq_index n) in
  let D := detrend (demean Synthrf) in
  let acf := correlate_full D in
  mx <- rmax acf ;;
  let nan := if Req_EM_T mx 0 then true else false in
  let ac := slice (map (fun x => x / mx) acf) (n - 1) (2 * n - 1) in
  let rac := map Ropp ac in
  let locs := if nan then [] else @find_peaks RN rac in
  rt <- match locs with
        | [] => Ok (0, 0)
        | p :: _ => x <- getitem rac p ;; Ok (Rabs x, INR p * dt)
        end ;;
  let '(r0, tlag) := rt in
  let resonanceflt := map (fun wk => C1 + RtoC r0 * cis (- (wk * tlag)))%C w in
  prod <- cprod (fft (map RtoC D) n) resonanceflt ;;
  let filtered_rf := map Re (ifft prod n) in
  Ok (mkFlt Synthrf filtered_rf resonanceflt time (if nan then None else Some ac) r0 tlag delta).
