(** Model of the temporary stamp files of a SingleImage: their names
    (single_image.py:60 and 144), their use through tinynpydb (765, 923, 986-1067, 1483) and
    their removal (148-166).

    tinynpydb is not part of /repo. It is modelled after its documented behaviour: a
    database [name] is the pair of files [name.dat] (the pickled arrays one after the
    other) and [name.map] (one line "position identifier" per array); the object keeps the
    lines in memory. Positions in [name.dat] count arrays, not bytes. *)
From Coq Require Import ZArith List Bool String DecimalString.
From Verif.Model Require Import Py.
Import ListNotations.
Local Open Scope string_scope.

(** [str(k)] of an integer. *)
Definition str_Z (k : Z) : string := NilZero.string_of_int (Z.to_int k).

Section Files.
(** What is stored: a stamp. *)
Variable A : Type.

(** Contents of a file. [Alien]: neither of the two formats. *)
Inductive content : Type :=
| Dat (l : list A)
| Map (l : list (nat * string))
| Alien.

(** The files, by full name. *)
Definition fsys : Type := string -> option content.

Definition write (fs : fsys) (name : string) (c : option content) : fsys :=
  fun f => if String.eqb f name then c else fs f.

(** [os.remove(name)]: OSError (an IOError) when there is no such file. *)
Definition os_remove (fs : fsys) (name : string) : res unit * fsys :=
  match fs name with
  | None => (Raise IOError, fs)
  | Some _ => (Ok tt, write fs name None)
  end.

(** single_image.py:144, [str(TEMP_PATH / f"{id(self)}_SingleImage")]. *)
Definition dbname (tmp : string) (ident : Z) : string :=
  tmp ++ "/" ++ str_Z ident ++ "_SingleImage".

(** single_image.py:160-166: both removals in one try block. *)
Definition clean (fs : fsys) (name : string) : fsys :=
  match os_remove fs (name ++ ".dat") with
  | (Raise _, fs1) => fs1
  | (Ok _, fs1) => snd (os_remove fs1 (name ++ ".map"))
  end.

(** The states of the disk while [clean] runs, one per file operation: where a crash can
    stop it. *)
Definition clean_states (fs : fsys) (name : string) : list fsys :=
  match os_remove fs (name ++ ".dat") with
  | (Raise _, fs1) => [fs; fs1]
  | (Ok _, fs1) => [fs; fs1; snd (os_remove fs1 (name ++ ".map"))]
  end.

(** [with SingleImage(...) as im: body] (single_image.py:148-154): [__exit__] cleans and
    returns None, so an exception goes on. *)
Definition with_block {T} (name : string) (body : fsys -> res T * fsys) (fs : fsys) : res T * fsys :=
  let (r, fs1) := body fs in (r, clean fs1 name).

(** ** tinynpydb *)

(** A NumPyDB object: its name and the lines it wrote. *)
Record npdb : Type := mknpdb { db_name : string; db_pos : list (nat * string) }.

(** [npdb.NumPyDB(name, mode="store")]: both files are created or emptied. *)
Definition db_open (fs : fsys) (name : string) : npdb * fsys :=
  (mknpdb name [], write (write fs (name ++ ".dat") (Some (Dat []))) (name ++ ".map") (Some (Map []))).

(** Opening a file to append creates it when it is missing. *)
Definition dat_of (fs : fsys) (f : string) : list A :=
  match fs f with Some (Dat l) => l | _ => [] end.
Definition map_of (fs : fsys) (f : string) : list (nat * string) :=
  match fs f with Some (Map l) => l | _ => [] end.

(** [db.dump(stamp, k)] *)
Definition db_dump (fs : fsys) (d : npdb) (a : A) (k : Z) : npdb * fsys :=
  let dat := dat_of fs (db_name d ++ ".dat") in
  let line := (List.length dat, str_Z k) in
  (mknpdb (db_name d) (db_pos d ++ [line]),
   write (write fs (db_name d ++ ".dat") (Some (Dat (dat ++ [a]))))
         (db_name d ++ ".map") (Some (Map (map_of fs (db_name d ++ ".map") ++ [line])))).

(** [db.load(k)[0]]: the first line with that identifier; [Ok None] when there is none (the
    library then returns [None, "not found"]); OSError when the file is gone; reading past
    the end of the file fails too. *)
Definition db_load (fs : fsys) (d : npdb) (k : Z) : res (option A) :=
  match find (fun e => String.eqb (snd e) (str_Z k)) (db_pos d) with
  | None => Ok None
  | Some (p, _) =>
      match fs (db_name d ++ ".dat") with
      | None => Raise IOError
      | Some (Dat l) => match nth_error l p with Some a => Ok (Some a) | None => Raise IOError end
      | Some _ => Raise IOError
      end
  end.

(** ** Several images *)

(** The files and the [db] attribute of each image, by identity. *)
Record disk : Type := mkdisk { d_files : fsys; d_db : Z -> option npdb }.

(** What an image does with its stamps: start an extraction (single_image.py:765), store
    one stamp (923), read one (986, 992, 995, 1067, 1483), clean (148-166). *)
Inductive act : Type :=
| Open | Dump (a : A) (k : Z) | Load (k : Z) | Clean.

(** One action of the image [i]: what is read (for [Load]) and the state afterwards. An
    image without [db] attribute raises AttributeError. *)
Definition act_step (tmp : string) (s : disk) (i : Z) (a : act) : option (res (option A)) * disk :=
  let put d fs := mkdisk fs (fun j => if Z.eqb j i then d else d_db s j) in
  match a with
  | Open => let (d, fs) := db_open (d_files s) (dbname tmp i) in (None, put (Some d) fs)
  | Dump x k =>
      match d_db s i with
      | None => (None, s)
      | Some d => let (d', fs) := db_dump (d_files s) d x k in (None, put (Some d') fs)
      end
  | Load k =>
      (Some match d_db s i with
            | None => Raise AttributeError
            | Some d => db_load (d_files s) d k
            end, s)
  | Clean => (None, mkdisk (clean (d_files s) (dbname tmp i)) (d_db s))
  end.

(** A history of actions of several images, in time order; the answers of the image [i]. *)
Fixpoint answers (tmp : string) (i : Z) (s : disk) (h : list (Z * act)) : list (res (option A)) :=
  match h with
  | [] => []
  | (j, a) :: h' =>
      let (r, s') := act_step tmp s j a in
      match r with
      | Some x => if Z.eqb j i then x :: answers tmp i s' h' else answers tmp i s' h'
      | None => answers tmp i s' h'
      end
  end.

Fixpoint run_acts (tmp : string) (s : disk) (h : list (Z * act)) : disk :=
  match h with
  | [] => s
  | (j, a) :: h' => run_acts tmp (snd (act_step tmp s j a)) h'
  end.
End Files.
Arguments Dat {A} l.
Arguments Map {A} l.
Arguments Alien {A}.
Arguments Open {A}.
Arguments Dump {A} a k.
Arguments Load {A} k.
Arguments Clean {A}.
Arguments write {A} fs name c.
Arguments os_remove {A} fs name.
Arguments clean {A} fs name.
Arguments clean_states {A} fs name.
Arguments with_block {A T} name body fs.
Arguments db_open {A} fs name.
Arguments dat_of {A} fs f.
Arguments map_of {A} fs f.
Arguments db_dump {A} fs d a k.
Arguments db_load {A} fs d k.
Arguments mkdisk {A} d_files d_db.
Arguments d_files {A} d.
Arguments d_db {A} d.
Arguments act_step {A} tmp s i a.
Arguments answers {A} tmp i s h.
Arguments run_acts {A} tmp s h.
