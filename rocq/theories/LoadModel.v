(** Model of the example loaders of src/rfsed/util.py:34-112, which find files inside the
    installed package, and of everything the package can do to the file system between two
    of their calls.

    [resource_filename('rfsed', 'a/b')] (pkg_resources, for a package installed as ordinary
    files) is the package directory followed by a/b; [read_rf] opens the file and decodes its
    bytes: the decoder (obspyh5/HDF5) is an arbitrary function of the bytes. *)
From Coq Require Import String List Bool ZArith.
From Verif Require Import FsModel.
Import ListNotations.
Local Open Scope list_scope.
Local Open Scope string_scope.

(** util.py:34, 51, 68, 85, 99 *)
Inductive loader :=
| rfMoho_example | rfSed_example | raw_data_example | catalog_example
| read_raw_waveform_data.

(** The argument of [resource_filename], util.py:46 (rfMoho_example), 63 (rfSed_example),
    80 (raw_data_example; the trailing slash of the answer is not modelled),
    96 (catalog_example) and 110 (read_raw_waveform_data), as its components. *)
Definition resource (l : loader) : list string :=
  match l with
  | rfMoho_example => ["data"; "rfstreams_Moho"; "rfstreams.h5"]
  | rfSed_example => ["data"; "rfstreams_Sed"; "rfstreams.h5"]
  | raw_data_example => ["data"; "Raw_Data"]
  | catalog_example => ["data"; "Earthquake_Catalog"; "eq_events.quakeml"]
  | read_raw_waveform_data => ["examples"; "IRIS_Downloaded_Waveform"; "00_eq_data.h5"]
  end.

(** resource_filename: paths are leaf first. *)
Definition resource_filename (pkg : path) (names : list string) : path := (rev names ++ pkg)%list.

(** Opening a file for reading. *)
Inductive bytes_read :=
| Bytes (b : string)
| CannotOpen (e : exn)
| IsADirectory.

Definition open_read (f : fs) (p : path) : bytes_read :=
  match p with
  | [] => IsADirectory
  | _ :: up =>
      match walk_error f up with
      | Some e => CannotOpen e
      | None =>
          match f p with
          | Some (File b _ _) => Bytes b
          | Some Dir => IsADirectory
          | None => CannotOpen FileNotFoundError
          end
      end
  end.

(** What a loader gives the user. *)
Inductive loaded (stream : Type) :=
| APath (p : path)
| AStream (s : stream)
| NoFile (why : bytes_read).
Arguments APath {stream} p.
Arguments AStream {stream} s.
Arguments NoFile {stream} why.

(** rf.rfstream.read_rf(fname) *)
Definition read_rf {stream} (decode : string -> stream) (f : fs) (p : path) : loaded stream :=
  match open_read f p with
  | Bytes b => AStream (decode b)
  | why => NoFile why
  end.

(** util.py:34-112.  raw_data_example and catalog_example only build the path. *)
Definition load {stream} (decode : string -> stream) (pkg : path) (l : loader) (f : fs) : loaded stream :=
  let fname := resource_filename pkg (resource l) in
  match l with
  | raw_data_example | catalog_example => APath fname
  | rfMoho_example | rfSed_example | read_raw_waveform_data => read_rf decode f fname
  end.
