(** Words used in the statements about source detection. *)
From Coq Require Import ZArith List Bool Reals.
From Verif.Model Require Import Py Sources.
Import ListNotations.
Local Open Scope R_scope.

(** The quality cuts: an area within the 20% and 80% percentiles, a flux within the 15% and
    85% percentiles, no flag. *)
Definition passes (srcs : list src) (s : src) : Prop :=
  percentile 20 (map (fun t => INR (s_npix t)) srcs) <= INR (s_npix s) /\
  INR (s_npix s) <= percentile 80 (map (fun t => INR (s_npix t)) srcs) /\
  percentile 15 (map s_flux srcs) <= s_flux s /\
  s_flux s <= percentile 85 (map s_flux srcs) /\
  s_flag s = 0%Z.

(** [l] is a selection of members of [srcs] at different places. *)
Definition drawn_from {A} (l srcs : list A) : Prop :=
  exists places : list nat, NoDup places /\
    Forall2 (fun k a => nth_error srcs k = Some a) places l.

(** What numpy promises of [choice n]: 1800 different numbers below n. *)
Definition fair_choice (choice : nat -> list nat) : Prop :=
  forall n, (1800 <= n)%nat ->
    length (choice n) = 1800%nat /\ NoDup (choice n) /\ Forall (fun k => (k < n)%nat) (choice n).

(** The detection policy: the catalogue of the first threshold that works, 8 sigma or
    else 35 sigma ... *)
Definition first_catalogue (a : attempts) (l : list src) : Prop :=
  at_default a = Ok l \/ ((exists e, at_default a = Raise e) /\ at_high a = Ok l).

(** ... and the one of the 3 sigma threshold, tried with minarea 5, else 9. *)
Definition faint_catalogue (a : attempts) (l : list src) : Prop :=
  at_low5 a = Ok l \/ ((exists e, at_low5 a = Raise e) /\ at_low9 a = Ok l).
