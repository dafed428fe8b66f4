(** * SpecConv: specification of the least-squares receiver function (C101, C102).

    Independent of the models; [misfit] is defined in SpecSignal.v. *)

From Coq Require Import Reals Lra.
From Verif Require Import Base Cplx DFT SpecSignal.
Local Open Scope R_scope.

(** A train of spikes on [n] samples, all at lags below [lim]. *)
Definition spikes_below (n lim : nat) (p : list R) : Prop :=
  length p = n /\ forall k, (lim <= k)%nat -> rnth p k = 0.

(** [r] is such a train and no other one leaves a smaller misfit. *)
Definition best_fit (dt : R) (n lim : nat) (u w r : list R) : Prop :=
  spikes_below n lim r /\ forall p, spikes_below n lim p -> misfit dt n u w r <= misfit dt n u w p.

(** The receiver function of the spike train [p]: spikes replaced by Gaussian pulses,
    delayed by [s] samples. *)
Definition rf_of (dt : R) (n : nat) (gaussian : R) (p : list R) (s : Z) (j : nat) : R :=
  cconv n p (gauss_pulse dt n gaussian) (circ n j s).
