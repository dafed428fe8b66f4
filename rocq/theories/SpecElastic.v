(** * SpecElastic: P-SV motion in a stack of homogeneous elastic layers.

    Specification for C30-C33 and C60-C63, written from the equations of motion and
    Hooke's law only (nothing of rfsed is used here).

    All fields have the factor exp(i omega (p x - t)); z is depth, positive downward.
    A motion-stress vector is (u_x, u_z, t_zx, t_zz). *)

From Coq Require Import Reals Lra.
From Verif Require Import Base Cplx Mat4.
Local Open Scope R_scope.

(** [f] has complex derivative [l] at the real point [z]. *)
Definition cderiv (f : R -> C) (z : R) (l : C) : Prop :=
  derivable_pt_lim (fun t => Re (f t)) z (Re l) /\ derivable_pt_lim (fun t => Im (f t)) z (Im l).

Record material := mkMat { density : R; vp_of : R; vs_of : R }.
Record layer := mkLayer { mat : material; thick : R }.

(** The slowness [p] is below both slownesses of the layer: all waves propagate. *)
Definition admissible (p : R) (m : material) : Prop :=
  0 < density m /\ 0 < vs_of m /\ 0 < vp_of m /\
  p * p * (vs_of m * vs_of m) < 1 /\ p * p * (vp_of m * vp_of m) < 1.

(** Hooke's law (Lame constants from the velocities) and the equations of motion,
    with d/dx = i omega p and d/dt = - i omega, hold at every depth. *)
Definition elastic_field (omega p : R) (m : material) (f : R -> V4) : Prop :=
  let mu := density m * (vs_of m * vs_of m) in
  let lam := density m * (vp_of m * vp_of m) - 2 * mu in
  let ddx := fun c : C => (RtoC (omega * p) * Ci * c)%C in
  forall z, exists dux duz dtzx dtzz txx : C,
    cderiv (fun t => v0 (f t)) z dux /\ cderiv (fun t => v1 (f t)) z duz /\
    cderiv (fun t => v2 (f t)) z dtzx /\ cderiv (fun t => v3 (f t)) z dtzz /\
    v2 (f z) = (RtoC mu * (dux + ddx (v1 (f z))))%C /\
    v3 (f z) = (RtoC (lam + 2 * mu) * duz + RtoC lam * ddx (v0 (f z)))%C /\
    txx = (RtoC (lam + 2 * mu) * ddx (v0 (f z)) + RtoC lam * duz)%C /\
    (RtoC (- (density m * (omega * omega))) * v0 (f z))%C = (ddx txx + dtzx)%C /\
    (RtoC (- (density m * (omega * omega))) * v1 (f z))%C = (ddx (v2 (f z)) + dtzz)%C.

(** One field per layer, each measured from the top of its layer: welded contact
    (displacement and traction continuous) from the state [top] at the surface to the
    state [bot] at the bottom of the last layer. *)
Fixpoint welded (omega p : R) (ls : list layer) (top bot : V4) : Prop :=
  match ls with
  | [] => top = bot
  | l :: ls' => exists f, elastic_field omega p (mat l) f /\ f 0 = top /\
                          welded omega p ls' (f (thick l)) bot
  end.

(** Vertical slownesses. *)
Definition pslow (p : R) (m : material) : R := sqrt (1 / (vp_of m * vp_of m) - p * p).
Definition sslow (p : R) (m : material) : R := sqrt (1 / (vs_of m * vs_of m) - p * p).

(** Plane waves, as displacement: a P wave moves along its direction of propagation
    (vp times its slowness vector, a unit vector), an S wave at right angles to it. *)
Definition down_P (omega p : R) (m : material) (z : R) : C * C :=
  let e := cis (omega * pslow p m * z) in
  ((RtoC (vp_of m * p) * e)%C, (RtoC (vp_of m * pslow p m) * e)%C).
Definition up_P (omega p : R) (m : material) (z : R) : C * C :=
  let e := cis (- (omega * pslow p m * z)) in
  ((RtoC (vp_of m * p) * e)%C, (RtoC (- (vp_of m * pslow p m)) * e)%C).
Definition down_S (omega p : R) (m : material) (z : R) : C * C :=
  let e := cis (omega * sslow p m * z) in
  ((RtoC (vs_of m * sslow p m) * e)%C, (RtoC (- (vs_of m * p)) * e)%C).
Definition up_S (omega p : R) (m : material) (z : R) : C * C :=
  let e := cis (- (omega * sslow p m * z)) in
  ((RtoC (vs_of m * sslow p m) * e)%C, (RtoC (vs_of m * p) * e)%C).

(** The state at depth 0 of a half-space [m] belongs to a field made of downgoing waves
    of any amplitude, an incident (upgoing) P wave of amplitude [aP] and an incident S
    wave of amplitude [aS]. *)
Definition incident (omega p : R) (m : material) (s : V4) (aP aS : C) : Prop :=
  exists (f : R -> V4) (dP dS : C), elastic_field omega p m f /\ f 0 = s /\
    forall z,
      v0 (f z) = (dP * fst (down_P omega p m z) + dS * fst (down_S omega p m z)
                  + aP * fst (up_P omega p m z) + aS * fst (up_S omega p m z))%C /\
      v1 (f z) = (dP * snd (down_P omega p m z) + dS * snd (down_S omega p m z)
                  + aP * snd (up_P omega p m z) + aS * snd (up_S omega p m z))%C.

(** [ux],[uz] are the displacement of the free surface of [ls] over the half-space [m]
    when waves of amplitudes [aP], [aS] come up from the half-space; amplitudes refer to
    the top of the half-space. *)
Definition free_surface_response (omega p : R) (ls : list layer) (m : material) (aP aS ux uz : C) : Prop :=
  exists bot, welded omega p ls (mkV ux uz C0 C0) bot /\ incident omega p m bot aP aS.

(** Upward flux of energy through a level, up to a constant factor:
    Im (conj u_x t_zx + conj u_z t_zz). *)
Definition flux (s : V4) : R := Im (Cconj (v0 s) * v2 s + Cconj (v1 s) * v3 s)%C.

(** A stack of layers as the four arrays a caller passes. *)
Definition vps (ls : list layer) : list R := map (fun l => vp_of (mat l)) ls.
Definition vss (ls : list layer) : list R := map (fun l => vs_of (mat l)) ls.
Definition rhos (ls : list layer) : list R := map (fun l => density (mat l)) ls.
Definition thicks (ls : list layer) : list R := map thick ls.

