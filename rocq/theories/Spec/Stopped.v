(** Words used in the statements about operations that stopped. *)
From Coq Require Import ZArith List Bool Arith Reals Permutation.
From Verif.Model Require Import Py Transparency SubAgain Stopped.
Import ListNotations.

(** Sorting gives the same rows in the same order, however they were ordered before. numpy's
    [sort(order="sourceid")] (utils.py:198) breaks ties with the other fields, so it is such a
    sort. *)
Definition canonical (sort_cat : list row -> list row) : Prop :=
  forall l l', Permutation l l' -> sort_cat l = sort_cat l'.

(** The operation of an attempt. *)
Definition op_of (a : task * nat * nat) : task := fst (fst a).
