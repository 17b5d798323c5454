(** Words used in the statements about what cutting stamps does to the interpolated image. *)
From Coq Require Import ZArith List Bool Arith Reals.
From Verif.Model Require Import Py Plane Sources FindS Stamps Cut.
From Verif.Spec Require Import Stamps.
Import ListNotations.
Local Open Scope R_scope.

(** The interpolated image before anything was cut: no nan. *)
Definition intact (image : plane R) : plane (option R) := pmap Some image.

(** The cell (r, c) of the frame is in the stamp of [s]: its window of the shape [sh] with three
    more cells on each side. *)
Definition in_stamp (sh : nat * nat) (s : src) (r c : Z) : Prop :=
  (start (s_y s) (fst sh) - 3 <= r < start (s_y s) (fst sh) + Z.of_nat (fst sh) + 3 /\
   start (s_x s) (snd sh) - 3 <= c < start (s_x s) (snd sh) + Z.of_nat (snd sh) + 3)%Z.

(** No cell is in the stamps of two sources of the list. *)
Definition apart (sh : nat * nat) (sources : list src) : Prop :=
  ForallOrdPairs (fun s t => forall r c, in_stamp sh s r c -> in_stamp sh t r c -> False) sources.

(** The stamp of [s] is inside the frame. *)
Definition inner (image : plane R) (sh : nat * nat) (s : src) : Prop := interior image sh [s].

(** The window of [s] with three more cells on each side, and the median of its cells below the
    70th percentile. *)
Definition stamp_window (image : plane R) (rms : R) (sh : nat * nat) (s : src) : plane R :=
  window image rms sh (s_y s, s_x s) 3.
Definition level_of (image : plane R) (rms : R) (sh : nat * nat) (s : src) : R :=
  median (faint (values (stamp_window image rms sh s))).
(** There are such cells. *)
Definition has_level (image : plane R) (rms : R) (sh : nat * nat) (s : src) : Prop :=
  faint (values (stamp_window image rms sh s)) <> [].

(** No stamp holds nan or inf. *)
Definition all_finite (ex : extraction) : Prop :=
  forall p i j, In p (ex_stamps ex) -> (i < nr p)%nat -> (j < nc p)%nat -> px p i j <> None.
