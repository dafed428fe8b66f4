(** * PoolLifeModel: the life of the process pools (C139).

    PoolModel describes what [pool.map] returns; here the statements around it: who closes the pool and waits for
    its worker processes, when [pool.map] returns and when it raises.  multiprocessing/pool.py (CPython 3.11/3.12):
    a pool is RUN, CLOSE or TERMINATE.  A pool object that nobody closes is finalised by Python at the latest at
    exit; this is not modelled (the model says what rfsed itself does). *)

From Verif Require Import Base PoolModel.

Inductive life := Run | Close | Terminate.
(** A pool and the number of its worker processes that are alive. *)
Record pool := mkPool { pl_life : life; pl_workers : nat }.
(** The pools made in this Python process so far, oldest first. *)
Definition pools := list pool.

(** A statement: changes the pools, and returns or raises. *)
Definition stmt (X : Type) := pools -> pools * res X.
Definition sret {X} (x : X) : stmt X := fun s => (s, Ok x).
Definition sbind {X Y} (m : stmt X) (k : X -> stmt Y) : stmt Y := fun s =>
  match m s with (s', Ok x) => k x s' | (s', Err e) => (s', Err e) end.

(** [Pool.__init__]: ValueError for fewer than one process. *)
Definition new_pool (nproc : nat) : stmt nat := fun s =>
  if nproc =? 0 then (s, Err ValueError) else (s ++ [mkPool Run nproc], Ok (length s)).
(** [Pool.map]: ValueError if the pool does not run; else [r], the outcome of the tasks.  Workers stay alive. *)
Definition map_in {X} (i : nat) (r : res X) : stmt X := fun s =>
  match nth_error s i with
  | Some (mkPool Run _) => (s, r)
  | _ => (s, Err ValueError)
  end.
(** [Pool.close]: only a running pool changes. *)
Definition close_pool (i : nat) : stmt unit := fun s =>
  match nth_error s i with
  | Some (mkPool Run w) => (upd s i (mkPool Close w), Ok tt)
  | _ => (s, Ok tt)
  end.
(** [Pool.join]: ValueError while the pool runs; else waits until the workers have gone. *)
Definition join_pool (i : nat) : stmt unit := fun s =>
  match nth_error s i with
  | Some (mkPool Run _) => (s, Err ValueError)
  | Some (mkPool l _) => (upd s i (mkPool l 0), Ok tt)
  | None => (s, Err ValueError)
  end.
(** [Pool.__exit__] = [terminate]: the workers are stopped and waited for. *)
Definition terminate_pool (i : nat) (s : pools) : pools := upd s i (mkPool Terminate 0).
(** The [with] statement: [__exit__] on the normal and on the exceptional way out. *)
Definition with_pool {X} (nproc : nat) (body : nat -> stmt X) : stmt (nat * X) := fun s =>
  match new_pool nproc s with
  | (s, Err e) => (s, Err e)
  | (s, Ok i) => match body i s with
                 | (s, Ok x) => (terminate_pool i s, Ok (i, x))
                 | (s, Err e) => (terminate_pool i s, Err e)
                 end
  end.

(** ExtractEqMultiproc.py:170-175 [Get_Eqtimes_multiproc]; [r] is the outcome of the tasks. *)
Definition eqtimes_pool {X} (nproc : nat) (r : res X) : stmt X :=
  sbind (new_pool nproc) (fun i =>
  sbind (map_in i r) (fun timewindow =>
  sbind (close_pool i) (fun _ =>
  sbind (join_pool i) (fun _ => sret timewindow)))).
(** WaveformFittingMultiproc.py:263-269 [run_waveformfitting], ExtractEqMultiproc.py:258-263 (the same statements). *)
Definition with_map {X} (nproc : nat) (r : res X) : stmt X :=
  sbind (with_pool nproc (fun i => map_in i r)) (fun ix =>
  sbind (close_pool (fst ix)) (fun _ =>
  sbind (join_pool (fst ix)) (fun _ => sret (snd ix)))).

(** A session: calls of the three functions, each with a number of processes and the outcome of its tasks. *)
Inductive pcall (X : Type) := EqTimes (nproc : nat) (r : res X) | WithPool (nproc : nat) (r : res X).
Arguments EqTimes {X}. Arguments WithPool {X}.
Definition pcall_run {X} (c : pcall X) : stmt X :=
  match c with EqTimes n r => eqtimes_pool n r | WithPool n r => with_map n r end.
Fixpoint psession {X} (cs : list (pcall X)) (s : pools) : pools :=
  match cs with [] => s | c :: cs' => psession cs' (fst (pcall_run c s)) end.
