(** * PoolModel: multiprocessing.Pool.map as a transition system.

    The three parallel functions (WaveformFittingMultiproc.py:263-266,
    ExtractEqMultiproc.py:171-172 and 258-261) hand a list of items to
    [pool.map(func, items)] of the Python standard library and wait for the result.  The
    library code modelled is multiprocessing/pool.py (CPython 3.11/3.12): [_map_async],
    [_get_tasks], [mapstar], [worker], [_handle_results], [MapResult].  Pickling is taken
    as a faithful copy; [func] is a function of its item (the three functions read no
    shared mutable state).  A worker that is killed loses its task (the pool starts a
    replacement worker but does not resubmit). *)

From Verif Require Import Base.

Section Pool.
Context {A B : Type}.
Variable f : A -> res B.

(** [_map_async]: [chunksize, extra = divmod(len, nproc*4); if extra: chunksize += 1;
    if len == 0: chunksize = 0] *)
Definition chunksize (nproc len : nat) : nat :=
  if len =? 0 then 0
  else len / (nproc * 4) + (if len mod (nproc * 4) =? 0 then 0 else 1).

(** [_get_tasks]: successive slices of [size] items until one is empty. *)
Fixpoint get_tasks (fuel size : nat) (l : list A) : list (list A) :=
  match fuel with
  | 0 => []
  | S fuel' => match firstn size l with
               | [] => []
               | x => x :: get_tasks fuel' size (skipn size l)
               end
  end.

Definition task := (nat * list A)%type.
Definition msg := (nat * res (list B))%type.

(** The shared task queue, the workers, the result queue, and the fields of [MapResult]
    ([_value] is a list with [None] in the places not yet written, or the exception once
    [_success] is False).  [p_log] lists the items that workers started to evaluate. *)
Record pstate := mkP {
  p_queue : list task;
  p_work : list (option task);
  p_out : list msg;
  p_left : nat;
  p_value : res (list (option B));
  p_log : list A }.

Definition pool_init (nproc : nat) (items : list A) : pstate :=
  let cs := chunksize nproc (length items) in
  let tasks := get_tasks (length items) cs items in
  mkP (combine (seq 0 (length tasks)) tasks) (repeat None nproc) []
      (if cs =? 0 then 0 else length items / cs + (if length items mod cs =? 0 then 0 else 1))
      (Ok (repeat None (length items))) [].

(** [value[a:b] = r] on a list, [a <= b]. *)
Definition slice_assign {X} (l : list X) (a b : nat) (r : list X) : list X :=
  firstn a l ++ r ++ skipn b l.

(** [MapResult._set(i, (success, result))]; cs is [_chunksize]. *)
Definition set_result (cs : nat) (v : res (list (option B))) (m : msg) : res (list (option B)) :=
  match snd m, v with
  | Ok r, Ok l => Ok (slice_assign l (fst m * cs) ((fst m + 1) * cs) (map Some r))
  | Err e, Ok _ => Err e
  | _, Err e => Err e
  end.

(** Items evaluated by [list(map(func, chunk))]: up to the first that raises. *)
Fixpoint evaluated (c : list A) : list A :=
  match c with [] => [] | x :: c' => x :: match f x with Ok _ => evaluated c' | Err _ => [] end end.

Inductive pstep (cs : nat) : pstate -> pstate -> Prop :=
| p_take : forall t q w1 w2 o n v g,          (* an idle worker takes the next task *)
    pstep cs (mkP (t :: q) (w1 ++ None :: w2) o n v g) (mkP q (w1 ++ Some t :: w2) o n v g)
| p_finish : forall i c q w1 w2 o n v g,      (* it sends its result *)
    pstep cs (mkP q (w1 ++ Some (i, c) :: w2) o n v g)
             (mkP q (w1 ++ None :: w2) (o ++ [(i, mapM f c)]) n v (g ++ evaluated c))
| p_collect : forall m q w o n v g,           (* the result handler calls _set *)
    pstep cs (mkP q w (m :: o) (S n) v g) (mkP q w o n (set_result cs v m) g).

(** A worker dies; a fresh one replaces it, the task it had is gone. *)
Inductive pcrash : pstate -> pstate -> Prop :=
| p_die : forall t q w1 w2 o n v g,
    pcrash (mkP q (w1 ++ Some t :: w2) o n v g) (mkP q (w1 ++ None :: w2) o n v g).

(** Executions with and without worker deaths. *)
Inductive pexec (cs : nat) : pstate -> pstate -> Prop :=
| pe_refl : forall s, pexec cs s s
| pe_step : forall s1 s2 s3, pexec cs s1 s2 -> pstep cs s2 s3 -> pexec cs s1 s3.
Inductive pexec_crash (cs : nat) : pstate -> pstate -> Prop :=
| pc_refl : forall s, pexec_crash cs s s
| pc_step : forall s1 s2 s3, pexec_crash cs s1 s2 -> pstep cs s2 s3 \/ pcrash s2 s3 -> pexec_crash cs s1 s3.

(** [Pool(nproc)] rejects nproc < 1; [get()] returns once [_number_left] is 0. *)
Definition pool_map_returns (nproc : nat) (items : list A) (r : res (list (option B))) : Prop :=
  if nproc =? 0 then r = Err ValueError
  else exists s, pexec (chunksize nproc (length items)) (pool_init nproc items) s /\ p_left s = 0 /\ p_value s = r.
Definition pool_map_returns_crash (nproc : nat) (items : list A) (r : res (list (option B))) : Prop :=
  if nproc =? 0 then r = Err ValueError
  else exists s, pexec_crash (chunksize nproc (length items)) (pool_init nproc items) s /\ p_left s = 0 /\ p_value s = r.
End Pool.
