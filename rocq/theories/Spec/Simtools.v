(** Specifications for the simulation tools. *)
From Coq Require Import ZArith List Reals String.
From Verif.Model Require Import Plane Simtools.
Import ListNotations.

(** All tuples with the k-th entry from the k-th list, in lexicographic order of the
    positions of the entries. *)
Fixpoint tuples {A} (arrays : list (list A)) : list (list A) :=
  match arrays with
  | [] => [[]]
  | a :: r => flat_map (fun x => map (cons x) (tuples r)) a
  end.

(** The rows of an array. *)
Definition rows_of {A} (p : plane A) : list (list A) :=
  map (fun t => map (px p t) (seq 0 (nc p))) (seq 0 (nr p)).

(** Position [i] of a Python index in an axis of [n] cells denotes cell [a]: negative
    positions count from the end. *)
Definition denotes (n : nat) (i : Z) (a : nat) : Prop :=
  (Z.of_nat a < Z.of_nat n)%Z /\ (i = Z.of_nat a \/ i = Z.of_nat a - Z.of_nat n)%Z.

Definition denotes2 (n : nat) (p : Z * Z) (a b : nat) : Prop :=
  denotes n (fst p) a /\ denotes n (snd p) b.

(** Content stored last under number [i] in a history of (number, content) pairs, oldest
    first. *)
Fixpoint last_stored {content} (i : Z) (h : list (Z * content)) : option content :=
  match h with
  | [] => None
  | (k, c) :: h' => match last_stored i h' with
                    | Some c' => Some c'
                    | None => if Z.eqb k i then Some c else None
                    end
  end.
