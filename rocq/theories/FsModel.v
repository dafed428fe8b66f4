(** Model of the file-system helpers of src/rfsed/util.py:
    the six [save_*] directory helpers (util.py:114-209), [install_examples]
    (util.py:211-260) and [install_rfsed_tests] (util.py:262-291), together with
    the part of [distutils.dir_util] / [distutils.file_util] they call.

    Simplifications.
    - A path is the list of its components, LEAF FIRST: ["b"; "a"] is /a/b and [nil]
      is the root.  Paths are absolute and normalised (the code calls
      [os.path.normpath]/[abspath]).
    - A file system maps paths to directories or regular files (content, modification
      time, mode).  No symbolic links (the package ships none, so the
      [os.path.islink] branch of copy_tree is not modelled), no permissions and no
      "disk full".
    - The package directories being copied are a constant tree: the destination is
      assumed to lie outside the package.
    - Log output and the returned list of names are not modelled.
    - A process may be killed between any two system calls: [w_left = Some k] means
      "it is killed before its (k+1)-th modification". *)
From Coq Require Import String Ascii List Bool ZArith Lia.
Import ListNotations.
Local Open Scope list_scope.
Local Open Scope string_scope.

Definition path := list string.

Inductive node : Type :=
| Dir
| File (bytes : string) (mtime mode : Z).

Definition fs := path -> option node.

(** The exceptions that can come out of these functions; [Killed] is not an exception
    but the end of the process. *)
Inductive exn : Type :=
| FileNotFoundError | NotADirectoryError | FileExistsError
| DistutilsFileError
| Killed.

Inductive outcome : Type := Returns | Raises (e : exn).

Definition path_eqb (p q : path) : bool :=
  if list_eq_dec string_dec p q then true else false.

Definition upd (f : fs) (p : path) (v : option node) : fs :=
  fun q => if path_eqb q p then v else f q.

(** os.path.isdir; also [os.path.exists(p + '/')], which is False for a regular file *)
Definition isdir (f : fs) (p : path) : bool :=
  match f p with Some Dir => true | _ => false end.

(** os.path.exists *)
Definition lexists (f : fs) (p : path) : bool :=
  match f p with Some _ => true | None => false end.

(** The error with which the kernel refuses to walk down to directory [d], if any. *)
Fixpoint walk_error (f : fs) (d : path) : option exn :=
  match d with
  | [] => None
  | _ :: up =>
      match walk_error f up with
      | Some e => Some e
      | None =>
          match f d with
          | Some Dir => None
          | Some (File _ _ _) => Some NotADirectoryError
          | None => Some FileNotFoundError
          end
      end
  end.

(** The error of os.mkdir(p), if any. *)
Definition mkdir_error (f : fs) (p : path) : option exn :=
  match p with
  | [] => Some FileExistsError
  | _ :: up =>
      match walk_error f up with
      | Some e => Some e
      | None => if lexists f p then Some FileExistsError else None
      end
  end.

(** ** Processes *)

(** What one Python process can see and change: the file system, the module-level
    cache [distutils.dir_util._path_created] (dir_util.py: "_path_created = {}"),
    and how many modifications it will still live for. *)
Record world := World {
  w_fs : fs;
  w_cache : list path;
  w_left : option nat
}.

Definition cmd := world -> outcome * world.

Definition ret : cmd := fun w => (Returns, w).
Definition raise (e : exn) : cmd := fun w => (Raises e, w).
Definition seq (m k : cmd) : cmd := fun w =>
  match m w with
  | (Returns, w') => k w'
  | (Raises e, w') => (Raises e, w')
  end.
Notation "m ;; k" := (seq m k) (at level 61, right associativity).

(** one system call that changes the file system *)
Definition modify (g : fs -> fs) : cmd := fun w =>
  match w_left w with
  | Some 0 => (Raises Killed, w)
  | Some (S k) => (Returns, World (g (w_fs w)) (w_cache w) (Some k))
  | None => (Returns, World (g (w_fs w)) (w_cache w) None)
  end.

Definition remember (p : path) : cmd := fun w =>
  (Returns, World (w_fs w) (p :: w_cache w) (w_left w)).

Definition cached (w : world) (p : path) : bool :=
  existsb (path_eqb p) (w_cache w).

(** os.mkdir(p) *)
Definition os_mkdir (p : path) : cmd := fun w =>
  match mkdir_error (w_fs w) p with
  | Some e => (Raises e, w)
  | None => modify (fun f => upd f p (Some Dir)) w
  end.

(** ** util.py:114-209: the save_* helpers *)

(** The directory inside the package each helper works on: util.py:126 (save_Eq_data),
    142 (save_IRIS_waveform), 158 (save_calculated_RF), 174 (save_catalog),
    190 (save_plot), 206 (save_tests). *)
Inductive helper :=
| save_Eq_data | save_IRIS_waveform | save_calculated_RF
| save_catalog | save_plot | save_tests.

Definition helper_dir (h : helper) : string :=
  match h with
  | save_Eq_data => "earthquake_data"
  | save_IRIS_waveform => "IRIS_Downloaded_Waveform"
  | save_calculated_RF => "Calculated_Receiver_Functions"
  | save_catalog => "catalog"
  | save_plot => "plots"
  | save_tests => "test_output"
  end.

(** resource_filename('rfsed', 'examples/<dir>/'); [pkg] is the package directory. *)
Definition savepath (pkg : path) (h : helper) : path := helper_dir h :: "examples" :: pkg.

(** util.py:127-129 (and the same three lines in every helper).  The path ends in a
    slash, so [os.path.exists] only succeeds for a directory. *)
Definition save (pkg : path) (h : helper) : cmd := fun w =>
  if negb (isdir (w_fs w) (savepath pkg h))
  then os_mkdir (savepath pkg h) w
  else (Returns, w).

(** *** Several processes calling helpers at the same time.
    A caller first looks ([os.path.exists]) and then, possibly much later, creates. *)
Inductive caller :=
| Looking (h : helper)        (* about to evaluate os.path.exists *)
| Creating (h : helper)       (* saw nothing, about to call os.mkdir *)
| Done (h : helper) (r : outcome).

Definition step1 (pkg : path) (f : fs) (c : caller) : option (fs * caller) :=
  match c with
  | Looking h =>
      if negb (isdir f (savepath pkg h)) then Some (f, Creating h)
      else Some (f, Done h Returns)
  | Creating h =>
      match mkdir_error f (savepath pkg h) with
      | Some e => Some (f, Done h (Raises e))
      | None => Some (upd f (savepath pkg h) (Some Dir), Done h Returns)
      end
  | Done _ _ => None
  end.

(** One step of the machine: some caller does its next action.  A caller that is never
    scheduled again stands for a killed process. *)
Inductive race_step (pkg : path) : fs * list caller -> fs * list caller -> Prop :=
| race_one : forall f f' c c' before after,
    step1 pkg f c = Some (f', c') ->
    race_step pkg (f, (before ++ c :: after)%list) (f', (before ++ c' :: after)%list).

Inductive race (pkg : path) : fs * list caller -> fs * list caller -> Prop :=
| race_refl : forall s, race pkg s s
| race_trans : forall s s' s'', race_step pkg s s' -> race pkg s' s'' -> race pkg s s''.

(** ** distutils *)

(** dir_util.py mkpath: "while head and tail and not os.path.isdir(head)" - the
    directories to create, topmost first. *)
Fixpoint missing_above (f : fs) (p : path) : list path :=
  match p with
  | [] => []
  | _ :: up => if isdir f p then [] else (missing_above f up ++ [p])%list
  end.

(** dir_util.py mkpath: the loop "for d in tails". *)
Definition make_one (p : path) : cmd := fun w =>
  if cached w p then (Returns, w)
  else
    match mkdir_error (w_fs w) p with
    | None => (modify (fun f => upd f p (Some Dir)) ;; remember p) w
    | Some e =>
        match e with
        | FileExistsError =>
            if isdir (w_fs w) p then remember p w else (Raises DistutilsFileError, w)
        | _ => (Raises DistutilsFileError, w)
        end
    end.

Fixpoint make_all (ps : list path) : cmd :=
  match ps with
  | [] => ret
  | p :: r => make_one p ;; make_all r
  end.

(** dir_util.py mkpath *)
Definition mkpath (p : path) : cmd := fun w =>
  if isdir (w_fs w) p then (Returns, w)
  else if cached w p then (Returns, w)
  else make_all (missing_above (w_fs w) p) w.

(** What a freshly created file looks like before utime/chmod. *)
Definition now : Z := 0%Z.
Definition default_mode : Z := 420%Z.

Definition set_bytes (b : string) (f : fs) (p : path) : fs :=
  match f p with
  | Some (File _ t m) => upd f p (Some (File b t m))
  | _ => f
  end.

(** file_util.py _copy_file_contents: the write loop.  Killing the process can leave any
    prefix of the content on disk, so the model writes byte by byte. *)
Fixpoint write_from (p : path) (written todo : string) : cmd :=
  match todo with
  | EmptyString => ret
  | String c r =>
      modify (fun f => set_bytes (written ++ String c EmptyString) f p) ;;
      write_from p (written ++ String c EmptyString) r
  end.

(** file_util.py _copy_file_contents: "if os.path.exists(dst): os.unlink(dst)"; unlinking
    a directory fails. *)
Definition remove_old (p : path) : cmd := fun w =>
  match w_fs w p with
  | Some Dir => (Raises DistutilsFileError, w)
  | Some (File _ _ _) => modify (fun f => upd f p None) w
  | None => (Returns, w)
  end.

(** "fdst = open(dst, 'wb')" *)
Definition create (p : path) : cmd := fun w =>
  match p with
  | [] => (Raises DistutilsFileError, w)
  | _ :: up =>
      match walk_error (w_fs w) up with
      | Some _ => (Raises DistutilsFileError, w)
      | None => modify (fun f => upd f p (Some (File "" now default_mode))) w
      end
  end.

Definition set_time (t : Z) (p : path) : cmd :=
  modify (fun f => match f p with Some (File b _ m) => upd f p (Some (File b t m)) | _ => f end).
Definition set_mode (m : Z) (p : path) : cmd :=
  modify (fun f => match f p with Some (File b t _) => upd f p (Some (File b t m)) | _ => f end).

(** file_util.py copy_file(src, dst) with preserve_mode=1, preserve_times=1, update=0:
    a destination that is a directory receives the file inside it. *)
Definition copy_file (bytes : string) (mtime mode : Z) (basename : string) (dst : path) : cmd :=
  fun w =>
    let d := if isdir (w_fs w) dst then basename :: dst else dst in
    (remove_old d ;; create d ;; write_from d "" bytes ;; set_time mtime d ;; set_mode mode d) w.

(** The packaged directories. *)
Inductive tree : Type :=
| TFile (bytes : string) (mtime mode : Z)
| TDir (entries : list (string * tree)).

Definition nfs (n : string) : bool := String.prefix ".nfs" n.

(** dir_util.py copy_tree(src, dst, preserve_mode=1, preserve_times=1,
    preserve_symlinks=1, update=0, verbose=1, dry_run=0); [os.listdir] returns the
    entries in an arbitrary order: the order of the list. *)
Fixpoint copy_tree (t : tree) (dst : path) {struct t} : cmd :=
  match t with
  | TFile _ _ _ => raise DistutilsFileError
  | TDir l =>
      mkpath dst ;;
      (fix entries (l : list (string * tree)) : cmd :=
         match l with
         | [] => ret
         | (n, s) :: r =>
             (if nfs n then ret
              else match s with
                   | TDir _ => copy_tree s (n :: dst)
                   | TFile b t m => copy_file b t m n (n :: dst)
                   end) ;;
             entries r
         end) l
  end.

(** The same loop as a separate function, for the proofs. *)
Definition copy_entry (dst : path) (e : string * tree) : cmd :=
  if nfs (fst e) then ret
  else match snd e with
       | TDir _ => copy_tree (snd e) (fst e :: dst)
       | TFile b t m => copy_file b t m (fst e) (fst e :: dst)
       end.

Fixpoint copy_entries (dst : path) (l : list (string * tree)) : cmd :=
  match l with
  | [] => ret
  | e :: r => copy_entry dst e ;; copy_entries dst r
  end.

(** util.py:211-260.  [examples] and [data] are the packaged trees. *)
Definition install_examples (examples data : tree) (dest : path) : cmd :=
  copy_tree examples ("examples" :: dest) ;;
  copy_tree data ("data" :: dest).

(** util.py:262-291.  [tests] is the packaged tree examples/rfsed_tests. *)
Definition install_rfsed_tests (tests : tree) (dest : path) : cmd :=
  copy_tree tests dest.
