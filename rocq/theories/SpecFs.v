(** Vocabulary of the file-system properties (C54, C55, C74...).  Nothing here mentions
    how the code works. *)
From Coq Require Import String List Bool ZArith.
From Verif Require Import FsModel.
Import ListNotations.

(** The path dst/q1/q2/... (paths are leaf first). *)
Definition sub (dst : path) (q : list string) : path := rev q ++ dst.

(** [p] is [dst] or one of the directories above it. *)
Definition above (p dst : path) : Prop := exists r, dst = r ++ p.

(** A real file system: the root is a directory, and whatever exists is in a directory. *)
Definition wf (f : fs) : Prop :=
  f [] = Some Dir /\ forall n p v, f (n :: p) = Some v -> f p = Some Dir.

(** [u] is found in the tree [t] by following the names [q] (ignoring the NFS
    placeholder files the copy skips). *)
Inductive packaged : tree -> list string -> tree -> Prop :=
| packaged_here : forall t, packaged t [] t
| packaged_in : forall l n s q u,
    In (n, s) l -> String.prefix ".nfs" n = false -> packaged s q u ->
    packaged (TDir l) (n :: q) u.

(** What [u] is on disk. *)
Definition on_disk (u : tree) : node :=
  match u with TFile b t m => File b t m | TDir _ => Dir end.

(** No name occurs twice in a directory. *)
Inductive tree_ok : tree -> Prop :=
| ok_file : forall b t m, tree_ok (TFile b t m)
| ok_dir : forall l, NoDup (map fst l) -> (forall n s, In (n, s) l -> tree_ok s) ->
    tree_ok (TDir l).

(** Nothing of the other kind is in the way: where the copy needs a directory there is
    a directory or nothing, where it puts a file there is a file or nothing. *)
Definition room (v : option node) (u : tree) : Prop :=
  match v, u with
  | None, _ => True
  | Some Dir, TDir _ => True
  | Some (File _ _ _), TFile _ _ _ => True
  | _, _ => False
  end.

Definition fits (f : fs) (dst : path) (t : tree) : Prop :=
  (forall p, above p dst -> f p = None \/ f p = Some Dir) /\
  (forall q u, packaged t q u -> room (f (sub dst q)) u).

(** The result of a complete copy: everything packaged is there as packaged, the
    directories above are there, and every other path is as before. *)
Definition copied (f : fs) (dst : path) (t : tree) (f' : fs) : Prop :=
  (forall q u, packaged t q u -> f' (sub dst q) = Some (on_disk u)) /\
  (forall p, above p dst -> f' p = Some Dir) /\
  (forall p, ~ above p dst -> (forall q u, packaged t q u -> p <> sub dst q) -> f' p = f p).

(** What a killed copy may have left at the place of the packaged [u], where there was
    [before]: nothing done yet; for a directory, the directory; for a file, the old file
    removed, or a new file with a beginning of the packaged content. *)
Definition halfway (before : option node) (u : tree) (after : option node) : Prop :=
  after = before \/
  match u with
  | TDir _ => after = Some Dir
  | TFile b _ _ =>
      after = None \/
      exists b' t m, after = Some (File b' t m) /\ String.prefix b' b = true
  end.

Definition partly_copied (f : fs) (dst : path) (t : tree) (f' : fs) : Prop :=
  (forall q u, packaged t q u -> halfway (f (sub dst q)) u (f' (sub dst q))) /\
  (forall p, above p dst -> f' p = f p \/ f' p = Some Dir) /\
  (forall p, ~ above p dst -> (forall q u, packaged t q u -> p <> sub dst q) -> f' p = f p).
