(** Words used in the statements about the stamp files. *)
From Coq Require Import ZArith List Bool String.
From Verif.Model Require Import Py Store.
Import ListNotations.

(** Two disks with the same files. *)
Definition same_files {A} (f g : fsys A) : Prop := forall name, f name = g name.

(** [g] is [f] without the files named in [l]. *)
Definition removed {A} (l : list string) (f g : fsys A) : Prop :=
  forall name, g name = if in_dec string_dec name l then None else f name.

(** The actions of the image [i] in a history. *)
Definition acts_of {A} (i : Z) (h : list (Z * act A)) : list (act A) :=
  map snd (filter (fun e => Z.eqb (fst e) i) h).

(** The actions of one extraction: the files are started anew and the stamps are stored
    under 0, 1, 2, ... *)
Definition extraction {A} (stamps : list A) : list (act A) :=
  Open :: map (fun p => Dump (snd p) (Z.of_nat (fst p))) (combine (seq 0 (List.length stamps)) stamps).

(** The images are new: none has a database yet. *)
Definition fresh {A} (s : disk A) : Prop := forall i, d_db s i = None.
