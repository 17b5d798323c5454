(** Words used in the statements about simulated images. *)
From Coq Require Import ZArith Reals Bool.
From Verif.Model Require Import Plane Simtools.
Local Open Scope R_scope.

(** The cell (i, j), and zero outside of the array. *)
Definition cell (p : plane R) (i j : Z) : R :=
  if ((0 <=? i) && (i <? Z.of_nat (nr p)) && (0 <=? j) && (j <? Z.of_nat (nc p)))%Z
  then px p (Z.to_nat i) (Z.to_nat j) else 0.

(** The number of the middle cell of [n], the lower one of the two when [n] is even. *)
Definition middle (n : nat) : Z := Z.of_nat ((n - 1) / 2).

(** An image of one star of brightness [w] in the pixel (x, y). *)
Definition one_star (m : plane R) (x y : nat) (w : R) : Prop :=
  (x < nr m)%nat /\ (y < nc m)%nat /\
  forall i j, (i < nr m)%nat -> (j < nc m)%nat -> px m i j = if (Nat.eqb i x && Nat.eqb j y)%bool then w else 0.

(** [b] is the largest value of [p]. *)
Definition brightest (p : plane R) (b : R) : Prop :=
  (exists i j, (i < nr p)%nat /\ (j < nc p)%nat /\ px p i j = b) /\
  forall i j, (i < nr p)%nat -> (j < nc p)%nat -> px p i j <= b.
