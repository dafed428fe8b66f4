(** * SpecArrival: arrivals of a layered medium.

    Specification for C94 and C95 (nothing of rfsed is used here).  In every layer a
    ray path contributes one of four delays: none (it goes up as P, like the first
    arrival), or the delay of one of the three phases used in H-k stacking, for that
    layer alone: converted at its bottom (Ps), reflected once as P and back up as S
    (PpPs), reflected once as S (PsPs).  Fields have the factor exp(-i omega t), so a
    wave that is late by t has the factor exp(i omega t). *)

From Coq Require Import Reals Lra.
From Verif Require Import Base Cplx SpecElastic.
Local Open Scope R_scope.

Inductive leg := Direct | LPs | LPpPs | LPsPs.
Definition legs : list leg := [Direct; LPs; LPpPs; LPsPs].

Definition leg_delay (p : R) (l : layer) (g : leg) : R :=
  match g with
  | Direct => 0
  | LPs => thick l * (sslow p (mat l) - pslow p (mat l))
  | LPpPs => thick l * (sslow p (mat l) + pslow p (mat l))
  | LPsPs => 2 * thick l * sslow p (mat l)
  end.

(** One leg per layer, top layer first. *)
Fixpoint path_delay (p : R) (ls : list layer) (c : list leg) : R :=
  match ls, c with
  | l :: ls', g :: c' => leg_delay p l g + path_delay p ls' c'
  | _, _ => 0
  end.
Fixpoint paths (n : nat) : list (list leg) :=
  match n with
  | O => [[]]
  | S n' => flat_map (fun g => map (cons g) (paths n')) legs
  end.

Fixpoint lsum {A} (f : A -> C) (l : list A) : C :=
  match l with [] => C0 | x :: l' => (f x + lsum f l')%C end.

(** The spectrum at [omega] of spikes of amplitudes [a], one per path, at the paths'
    delays. *)
Definition spikes (omega p : R) (ls : list layer) (a : list leg -> R) : C :=
  lsum (fun c => RtoC (a c) * cis (omega * path_delay p ls c))%C (paths (length ls)).
