(** Words used in the statement about extractions that fail and are asked for again. *)
From Coq Require Import List Arith Reals.
From Verif.Model Require Import Py Plane Sources FindS Stamps Cut.
Import ListNotations.

(** The interpolated image after [n] extractions for the same catalogue, each from what the one
    before left, whether it raised or not. *)
Fixpoint after_tries (stats : plane R -> R * R * R) (label : plane bool -> plane nat * nat) (pk : picks)
  (image : plane (option R)) (rms : R) (sh : nat * nat) (sources : list src) (n : nat) : plane (option R) :=
  match n with
  | O => image
  | S n => fst (cut_stamps stats label pk (after_tries stats label pk image rms sh sources n) rms sh sources)
  end.
