(** * SpecSignal: specification vocabulary for sampled signals.

    Independent of the models: textbook definitions only ([rnth l j] is sample [j],
    [rsum n f] is f 0 + ... + f (n-1), [W n m] is exp(2 pi i m/n),
    [circ n j L] is (j - L) mod n). *)

From Coq Require Import Reals Lra.
From Verif Require Import Base Cplx DFT.
Local Open Scope R_scope.

(** [D] is [d] minus its least-squares straight line: the difference is a straight
    line, and [D] is orthogonal to all straight lines. *)
Definition ls_residual (d D : list R) : Prop :=
  length D = length d /\
  (exists a b, forall j, (j < length d)%nat -> rnth D j = rnth d j - (a + b * INR j)) /\
  rsum (length d) (rnth D) = 0 /\
  rsum (length d) (fun j => INR j * rnth D j) = 0.

(** Autocorrelation at lag [k] (no wrap-around). *)
Definition acorr (D : list R) (k : nat) : R :=
  rsum (length D - k) (fun j => rnth D (j + k) * rnth D j).

(** A trough of [x]: a run [a..b] of equal values, strictly below both neighbours. *)
Definition trough (x : list R) (a b : nat) : Prop :=
  (1 <= a <= b)%nat /\ (b + 1 < length x)%nat /\
  rnth x a < rnth x (a - 1) /\
  (forall i, (a <= i <= b)%nat -> rnth x i = rnth x a) /\
  rnth x a < rnth x (b + 1).

Definition all_zero (D : list R) : Prop := forall j, rnth D j = 0.

(** Circular convolution of two signals of [n] samples. *)
Definition cconv (n : nat) (x h : list R) (j : nat) : R :=
  rsum n (fun m => rnth x m * rnth h (circ n j (Z.of_nat m))).

(** The unit-gain Gaussian low-pass exp(-w^2/(4 a^2)) of Ligorria & Ammon sampled at
    the [n] FFT frequencies of the sampling interval [dt]: gain at bin [k] (bins above
    n/2 are the negative frequencies) and impulse response. *)
Definition gauss_gain (dt : R) (n : nat) (a : R) (k : nat) : R :=
  let w := 2 * PI * (INR (Nat.min k (n - k)) / (INR n * dt)) in exp (- (w / (2 * a)) ^ 2).
Definition gauss_pulse (dt : R) (n : nat) (a : R) : list R :=
  map (fun j => / INR n * rsum n (fun k => gauss_gain dt n a k * cos (2 * PI * INR j * INR k / INR n))) (seq 0 n).

(** A trace padded with zeros to [n] samples. *)
Definition zpad (n : nat) (x : list R) : list R := x ++ repeat 0 (n - length x).

(** Sum of squares of the [n] first values. *)
Definition ssq (n : nat) (f : nat -> R) : R := rsum n (fun j => f j * f j).

(** The Gaussian-filtered trace. *)
Definition gfilt (dt : R) (n : nat) (a : R) (x : list R) : list R :=
  map (cconv n (zpad n x) (gauss_pulse dt n a)) (seq 0 n).

(** Relative misfit of a spike train [p] (amplitudes per unit time): how much of the
    filtered numerator [u] is left after subtracting the filtered denominator [w]
    convolved with the spikes. *)
Definition misfit (dt : R) (n : nat) (u w p : list R) : R :=
  ssq n (fun j => rnth u j - dt * cconv n p w j) / ssq n (rnth u).

(** [p'] is [p] with [b] added at lag [l]. *)
Definition spike_added (n : nat) (p p' : list R) (l : nat) (b : R) : Prop :=
  length p = n /\ length p' = n /\
  forall j, rnth p' j = rnth p j + (if (j =? l)%nat then b else 0).

(** One step of greedy spike fitting with lags below [lim]: a spike is added, no other
    single spike would have left a smaller misfit, and no spike at a smaller lag an
    equal one. *)
Definition greedy_step (dt : R) (n lim : nat) (u w p p' : list R) : Prop :=
  exists l b, (l < lim)%nat /\ spike_added n p p' l b /\
  (forall l' b' p'', (l' < lim)%nat -> spike_added n p p'' l' b' ->
     misfit dt n u w p' <= misfit dt n u w p'' /\
     ((l' < l)%nat -> misfit dt n u w p' < misfit dt n u w p'')).
Fixpoint greedy_run (dt : R) (n lim : nat) (u w p : list R) (Ps : list (list R)) : Prop :=
  match Ps with
  | [] => True
  | p' :: Ps' => greedy_step dt n lim u w p p' /\ greedy_run dt n lim u w p' Ps'
  end.

(** Discrete Fourier transform of a real signal (zero beyond its end). *)
Definition dft (n : nat) (x : list R) (k : nat) : C :=
  csum n (fun j => RtoC (rnth x j) * W n (- (Z.of_nat j * Z.of_nat k)))%C.

(** Angular frequency of bin [k]: bins above n/2 are negative frequencies. *)
Definition omega (dt : R) (n k : nat) : R :=
  2 * PI * (if (k <=? n / 2)%nat then INR k else INR k - INR n) / (INR n * dt).

(** [M] is the largest power of the spectrum [F] of [n] bins. *)
Definition max_power (n : nat) (F : nat -> C) (M : R) : Prop :=
  (forall k, (k < n)%nat -> Cnorm2 (F k) <= M) /\ (exists k, (k < n)%nat /\ Cnorm2 (F k) = M).

(** Real part of the inverse transform of the spectrum [F] at sample [j]. *)
Definition synth (n : nat) (F : nat -> C) (j : nat) : R :=
  / INR n * rsum n (fun k => Re (F k * W n (Z.of_nat j * Z.of_nat k))%C).
