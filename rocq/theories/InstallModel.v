(** Model of several processes calling [install_examples] (util.py:216-261) or
    [install_rfsed_tests] (util.py:263-291) at the same time: the functions of
    [distutils.dir_util] and [distutils.file_util] they use, cut into their single system
    calls, which the processes perform in any order.

    Compared with FsModel.v (one process): names and files are separate, because a file
    that is unlinked or truncated by one process can still be open in another one.
    Simplifications: as in FsModel.v (no symbolic or hard links, no permissions, no full
    disk, a constant package outside the destination).  Data are written byte by byte, so
    every splitting of the copy into blocks is covered.  A killed process is one that is
    never scheduled again. *)
From Coq Require Import String Ascii List Bool ZArith Lia.
From Verif Require Import FsModel.
Import ListNotations.
Local Open Scope list_scope.

(** ** The file system *)
Record inode := mkInode { i_bytes : list ascii; i_mtime : Z; i_mode : Z }.
Inductive entry := EDir | EFile (i : nat).
Record cfs := mkCfs { names : path -> option entry; inodes : nat -> inode; next : nat }.

(** What a reader of the file system sees. *)
Definition view (c : cfs) : fs := fun p =>
  match names c p with
  | None => None
  | Some EDir => Some Dir
  | Some (EFile i) => Some (File (string_of_list_ascii (i_bytes (inodes c i))) (i_mtime (inodes c i)) (i_mode (inodes c i)))
  end.

Definition set_name (c : cfs) (p : path) (e : option entry) : cfs :=
  mkCfs (fun q => if path_eqb q p then e else names c q) (inodes c) (next c).
Definition set_inode (c : cfs) (i : nat) (x : inode) : cfs :=
  mkCfs (names c) (fun j => if Nat.eqb j i then x else inodes c j) (next c).
(** A new file of length 0 with the name [p]. *)
Definition new_file (c : cfs) (p : path) : cfs :=
  mkCfs (fun q => if path_eqb q p then Some (EFile (next c)) else names c q)
        (fun j => if Nat.eqb j (next c) then mkInode [] now default_mode else inodes c j) (S (next c)).
(** write(2) of one byte at offset [off]; a gap is filled with zeros. *)
Definition write_at (off : nat) (b : ascii) (l : list ascii) : list ascii :=
  firstn off (l ++ repeat zero (off - length l)) ++ b :: skipn (S off) l.

(** ** The statements of distutils *)
Inductive act :=
| AMkpath (p : path)                              (* dir_util.mkpath(p): its first two tests *)
| AScan (q : path) (tails : list path)            (* its while loop: is [q] a directory? *)
| AMake (p : path)                                (* its for loop: os.mkdir *)
| AIsdir (p : path)                               (*   os.path.isdir after EEXIST *)
| AFile (b : string) (t m : Z) (n : string) (dst : path)   (* file_util.copy_file: os.path.isdir(dst) *)
| AOld (b : string) (t m : Z) (d : path)          (* _copy_file_contents: os.path.exists(dst) *)
| AUnlink (b : string) (t m : Z) (d : path)       (*   os.unlink(dst) *)
| AOpen (b : string) (t m : Z) (d : path)         (*   open(dst, 'wb') *)
| AWrite (i off : nat) (rest : list ascii) (t m : Z) (d : path)   (* fdst.write, then close *)
| ATime (t m : Z) (d : path)                      (* copy_file: os.utime(dst) *)
| AMode (m : Z) (d : path)                        (*   os.chmod(dst) *)
| ARaise.                                         (* copy_tree of something that is no directory *)

(** What is done for a packaged tree (dir_util.copy_tree, without the entries [.nfs*]). *)
Fixpoint tree_acts (t : tree) (dst : path) {struct t} : list act :=
  match t with
  | TFile _ _ _ => [ARaise]
  | TDir l =>
      AMkpath dst ::
      (fix entries (l : list (string * tree)) : list act :=
         match l with
         | [] => []
         | (n, s) :: r =>
             (if nfs n then []
              else match s with
                   | TDir _ => tree_acts s (n :: dst)
                   | TFile b t m => [AFile b t m n (n :: dst)]
                   end) ++ entries r
         end) l
  end.
(** util.py:216-261 and 263-291 *)
Definition examples_acts (ex da : tree) (dest : path) : list act :=
  tree_acts ex ("examples"%string :: dest) ++ tree_acts da ("data"%string :: dest).
Definition tests_acts (tests : tree) (dest : path) : list act := tree_acts tests dest.

(** One system call: the new file system, the new cache [_path_created] of the process and
    what it does next, or the exception it raises. *)
Definition exec (c : cfs) (k : list path) (a : act) : cfs * list path * (list act + exn) :=
  match a with
  | AMkpath p =>
      if isdir (view c) p then (c, k, inl [])
      else if existsb (path_eqb p) k then (c, k, inl [])
      else match p with [] => (c, k, inl []) | _ :: up => (c, k, inl [AScan up [p]]) end
  | AScan q tails =>
      match q with
      | [] => (c, k, inl (map AMake tails))
      | _ :: up => if isdir (view c) q then (c, k, inl (map AMake tails)) else (c, k, inl [AScan up (q :: tails)])
      end
  | AMake p =>
      if existsb (path_eqb p) k then (c, k, inl [])
      else match mkdir_error (view c) p with
           | None => (set_name c p (Some EDir), p :: k, inl [])
           | Some FileExistsError => (c, k, inl [AIsdir p])
           | Some _ => (c, k, inr DistutilsFileError)
           end
  | AIsdir p => if isdir (view c) p then (c, p :: k, inl []) else (c, k, inr DistutilsFileError)
  | AFile b t m n dst => (c, k, inl [AOld b t m (if isdir (view c) dst then n :: dst else dst)])
  | AOld b t m d => if lexists (view c) d then (c, k, inl [AUnlink b t m d]) else (c, k, inl [AOpen b t m d])
  | AUnlink b t m d =>
      match names c d with
      | Some (EFile _) => (set_name c d None, k, inl [AOpen b t m d])
      | _ => (c, k, inr DistutilsFileError)
      end
  | AOpen b t m d =>
      match d with
      | [] => (c, k, inr DistutilsFileError)
      | _ :: up =>
          match walk_error (view c) up with
          | Some _ => (c, k, inr DistutilsFileError)
          | None =>
              match names c d with
              | Some EDir => (c, k, inr DistutilsFileError)
              | Some (EFile i) => (set_inode c i (mkInode [] now (i_mode (inodes c i))), k, inl [AWrite i 0 (list_ascii_of_string b) t m d])
              | None => (new_file c d, k, inl [AWrite (next c) 0 (list_ascii_of_string b) t m d])
              end
          end
      end
  | AWrite i off rest t m d =>
      match rest with
      | [] => (c, k, inl [ATime t m d])
      | b :: rest' => (set_inode c i (mkInode (write_at off b (i_bytes (inodes c i))) now (i_mode (inodes c i))), k, inl [AWrite i (S off) rest' t m d])
      end
  | ATime t m d =>
      match names c d with
      | Some (EFile i) => (set_inode c i (mkInode (i_bytes (inodes c i)) t (i_mode (inodes c i))), k, inl [AMode m d])
      | Some EDir => (c, k, inl [AMode m d])
      | None => (c, k, inr FileNotFoundError)
      end
  | AMode m d =>
      match names c d with
      | Some (EFile i) => (set_inode c i (mkInode (i_bytes (inodes c i)) (i_mtime (inodes c i)) m), k, inl [])
      | Some EDir => (c, k, inl [])
      | None => (c, k, inr FileNotFoundError)
      end
  | ARaise => (c, k, inr DistutilsFileError)
  end.

(** ** The processes *)
Inductive proc := Running (cache : list path) (todo : list act) | Ended (o : outcome).

Definition proc_step (c : cfs) (p : proc) : option (cfs * proc) :=
  match p with
  | Ended _ => None
  | Running k [] => Some (c, Ended Returns)
  | Running k (a :: r) =>
      match exec c k a with
      | (c', k', inl l) => Some (c', Running k' (l ++ r))
      | (c', k', inr e) => Some (c', Ended (Raises e))
      end
  end.

Inductive inst_step : cfs * list proc -> cfs * list proc -> Prop :=
| inst_one c c' p p' before after : proc_step c p = Some (c', p') ->
    inst_step (c, before ++ p :: after) (c', before ++ p' :: after).
Inductive inst_run : cfs * list proc -> cfs * list proc -> Prop :=
| inst_refl s : inst_run s s
| inst_more s s' s'' : inst_run s s' -> inst_step s' s'' -> inst_run s s''.

(** A schedule executed (for concrete cases): the numbers of the processes in turn. *)
Fixpoint upd_nth {A} (n : nat) (x : A) (l : list A) : list A :=
  match l, n with [], _ => [] | _ :: l, 0 => x :: l | y :: l, S n => y :: upd_nth n x l end.
Fixpoint follow (sched : list nat) (s : cfs * list proc) : cfs * list proc :=
  match sched with
  | [] => s
  | n :: r =>
      match nth_error (snd s) n with
      | Some p => match proc_step (fst s) p with Some (c', p') => follow r (c', upd_nth n p' (snd s)) | None => follow r s end
      | None => follow r s
      end
  end.
