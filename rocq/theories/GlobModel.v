(** * GlobModel: glob.glob(datapath + "*"), the file search of ExtractEq.py:83.

    Python's standard library (glob.py, posixpath.py, fnmatch.py of 3.6-3.10), for a
    [datapath] without the pattern characters [*?[]; with them the answer is left to the
    arbitrary function [other].  [listdir] is os.listdir, [] where it raises; the empty
    string stands for the current directory. *)

From Coq Require Import Ascii String.
From Verif Require Import Base.
Local Open Scope string_scope.

Definition slash : ascii := "/"%char.
Definition is_slash (c : ascii) : bool := Ascii.eqb c slash.

(** posixpath.split, first step: [i = p.rfind('/') + 1; p[:i], p[i:]] *)
Fixpoint rcut (s : string) : string * string :=
  match s with
  | EmptyString => ("", "")
  | String c s' => match rcut s' with
                   | (String h hs, t) => (String c (String h hs), t)
                   | ("", t) => if is_slash c then (String c "", t) else ("", String c t)
                   end
  end.
(** [head.rstrip('/')] *)
Fixpoint rstrip (s : string) : string :=
  match s with
  | EmptyString => ""
  | String c s' => match rstrip s' with "" => if is_slash c then "" else String c "" | r => String c r end
  end.
(** posixpath.split: [if head and head != '/'*len(head): head = head.rstrip('/')] *)
Definition path_split (p : string) : string * string :=
  let '(head, tail) := rcut p in
  (match rstrip head with "" => head | r => r end, tail).
(** posixpath.join of two parts *)
Fixpoint ends_slash (s : string) : bool :=
  match s with "" => false | String c "" => is_slash c | String _ s' => ends_slash s' end.
Definition path_join (a b : string) : string :=
  match b with
  | String c _ => if is_slash c then b else if (String.eqb a "") || ends_slash a then a ++ b else a ++ "/" ++ b
  | "" => if (String.eqb a "") || ends_slash a then a ++ b else a ++ "/" ++ b
  end.

(** glob._ishidden *)
Definition hidden (s : string) : bool := match s with String c _ => Ascii.eqb c "."%char | "" => false end.
(** glob.has_magic *)
Fixpoint has_magic (s : string) : bool :=
  match s with
  | "" => false
  | String c s' => Ascii.eqb c "*"%char || Ascii.eqb c "?"%char || Ascii.eqb c "["%char || has_magic s'
  end.

Section Glob.
Variable listdir : string -> list string.
Variable other : string -> list string.

(** glob._glob1(dirname, prefix + "*") and fnmatch.filter *)
Definition glob1 (dirname pre : string) : list string :=
  filter (String.prefix pre) (filter (fun n => hidden pre || negb (hidden n)) (listdir dirname)).
(** glob.glob(p + "*") *)
Definition glob_star (p : string) : list string :=
  if has_magic p then other p
  else let '(dirname, pre) := path_split p in
       if String.eqb dirname "" then glob1 "" pre
       else map (path_join dirname) (glob1 dirname pre).
(** glob.glob as ExtractEq calls it: the pattern is [datapath ++ "*"]. *)
Fixpoint drop_last (s : string) : string :=
  match s with "" => "" | String c "" => "" | String c s' => String c (drop_last s') end.
Definition glob_py (pattern : string) : list string := glob_star (drop_last pattern).
End Glob.
