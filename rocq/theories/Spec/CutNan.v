(** Words used in the statement about nan in the interpolated image. *)
From Coq Require Import ZArith List Bool Arith Reals.
From Verif.Model Require Import Py Plane Sources.
From Verif.Spec Require Import Stamps Cut.
Local Open Scope R_scope.

(** The cell (r, c) of the frame is in the window of [s] of the shape [sh]. *)
Definition in_window (sh : nat * nat) (s : src) (r c : Z) : Prop :=
  (start (s_y s) (fst sh) <= r < start (s_y s) (fst sh) + Z.of_nat (fst sh) /\
   start (s_x s) (snd sh) <= c < start (s_x s) (snd sh) + Z.of_nat (snd sh))%Z.

(** A cell of the frame with [P] is nan. *)
Definition nan_in (image : plane (option R)) (P : Z -> Z -> Prop) : Prop :=
  exists i j, (i < nr image)%nat /\ (j < nc image)%nat /\ P (Z.of_nat i) (Z.of_nat j) /\ px image i j = None.

(** The stamp of [s] is inside the frame. *)
Definition inside (image : plane (option R)) (sh : nat * nat) (s : src) : Prop :=
  forall r c, in_stamp sh s r c -> (0 <= r < Z.of_nat (nr image) /\ 0 <= c < Z.of_nat (nc image))%Z.
