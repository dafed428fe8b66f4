(** * SynSessionModel: synrf objects over arrays shared with the caller.

    [synrf.__init__] (synrf.py:484-511) keeps references to the caller's vp, vs, rho
    (490-492) and, for a list or array, rayp (510); the thicknesses are new objects computed
    from depth (495-504), and [self.depth] is not read afterwards.  The methods only read
    the arrays (524-527, 576).  SynModel passes values; here an array is an address in a
    heap owned by the caller, who may change it in place at any time. *)

From Coq Require Import Reals.
From Verif Require Import Base Num NumPy Cplx Mat4 DFT ReverbModel DeconModel HaskellModel SynModel.
Local Open Scope R_scope.

Definition arrays := nat -> list R.
Definition set_arr (h : arrays) (a : nat) (l : list R) : arrays := fun b => if Nat.eqb b a then l else h b.

(** The argument rayp: a float is put into a list of the object (508), a list or an array
    is kept (510), anything else is refused (505-506). *)
Inductive rayref := RayFloat (r : R) | RayList (a : nat) | RayArray (a : nat) | RayOther.
Definition ray_value (h : arrays) (r : rayref) : rayparg :=
  match r with RayFloat x => PyFloat x | RayList a => PyList (h a) | RayArray a => NdArray (h a) | RayOther => PyOther end.

(** An object: the references it keeps, and its own attributes (in [f_own]; the fields vp,
    vs, rho of [f_own] are not used, its rayp only if [f_rayp] is [None]). *)
Record sref := mkSref { f_vp : nat; f_vs : nat; f_rho : nat; f_rayp : option nat; f_own : synobj }.
Definition keeps (r : rayref) : option nat := match r with RayList a | RayArray a => Some a | _ => None end.

(** The object as a method finds it. *)
Definition view (h : arrays) (s : sref) : synobj :=
  let o := f_own s in
  mkSyn (h (f_vp s)) (h (f_vs s)) (h (f_rho s)) (s_dt o) (s_npts o) (s_thickness o)
        (match f_rayp s with Some a => h a | None => s_rayp o end) (s_ipha o) (s_rstream o) (s_zstream o).
(** A method leaves new streams in the object. *)
Definition keep_streams (s : sref) (o : synobj) : sref :=
  mkSref (f_vp s) (f_vs s) (f_rho s) (f_rayp s) (with_streams (f_own s) (s_rstream o) (s_zstream o)).

(** One statement: make an object from the arrays at four addresses; call a method of the
    [i]-th object; change an array in place. *)
Inductive op :=
| New (depth vp vs rho : nat) (rayp : rayref) (dt : R) (npts : nat) (ipha : Z)
| Call (i : nat) (c : call)
| Change (a : nat) (l : list R).
(** What the user sees: how the statement ended, and the seismograms of the object. *)
Inductive out := ONew (r : res unit) | OCall (r : outcome) (rstream zstream : option (list trace)) | ONoObject | ONone.

Section Session.
Variable bp : R -> R -> R -> nat -> bool -> list R -> res (list R).

Definition step (st : arrays * list sref) (o : op) : (arrays * list sref) * out :=
  let '(h, objs) := st in
  match o with
  | New d v s r rp dt npts ipha =>
      match syn_init (h d) (h v) (h s) (h r) (ray_value h rp) dt npts ipha with
      | Ok o => ((h, objs ++ [mkSref v s r (keeps rp) o]), ONew (Ok tt))
      | Err e => ((h, objs), ONew (Err e))
      end
  | Call i c =>
      match nth_error objs i with
      | None => ((h, objs), ONoObject)
      | Some s => let '(o', r) := do_call bp (view h s) c in
                  ((h, upd objs i (keep_streams s o')), OCall r (s_rstream o') (s_zstream o'))
      end
  | Change a l => ((set_arr h a l, objs), ONone)
  end.
Fixpoint session (st : arrays * list sref) (ops : list op) : list out :=
  match ops with [] => [] | o :: ops' => let '(st', x) := step st o in x :: session st' ops' end.
Fixpoint after (st : arrays * list sref) (ops : list op) : arrays * list sref :=
  match ops with [] => st | o :: ops' => after (fst (step st o)) ops' end.
End Session.
