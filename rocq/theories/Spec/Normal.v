(** Words used in the statements about the normalisation image. *)
From Coq Require Import ZArith List Bool Arith Reals.
From Verif.Model Require Import Py Plane KL.
From Verif.Spec Require Import KL.
Import ListNotations.
Local Open Scope R_scope.

(** Value of a PSF at [di] rows and [dj] columns from its middle; 0 outside the stamp. *)
Definition spread (p : plane R) (di dj : Z) : R :=
  let u := (di + Z.of_nat (nr p / 2))%Z in
  let v := (dj + Z.of_nat (nc p / 2))%Z in
  if ((0 <=? u) && (u <? Z.of_nat (nr p)) && (0 <=? v) && (v <? Z.of_nat (nc p)))%Z
  then px p (Z.to_nat u) (Z.to_nat v) else 0.

(** What arrives at the cell (i, j) when every cell (x, y) of a frame sends out light of
    brightness 1, spread by the PSF [psf x y] of that cell. *)
Definition image_of_ones (sh : nat * nat) (psf : nat -> nat -> Z -> Z -> R) (i j : nat) : R :=
  sum2 sh (fun x y => psf x y (Z.of_nat i - Z.of_nat x)%Z (Z.of_nat j - Z.of_nat y)%Z).

(** A stamp of shape [s] with its middle at (i, j), turned by half a turn, lies inside a frame
    of shape [sh]. *)
Definition fits_at (sh s : nat * nat) (i j : nat) : Prop :=
  (fst s <= i + fst s / 2 + 1)%nat /\ (i + fst s / 2 < fst sh)%nat /\
  (snd s <= j + snd s / 2 + 1)%nat /\ (j + snd s / 2 < snd sh)%nat.

(** The cell that an observer beyond the end of an axis of n cells sees in a mirror standing
    there. *)
Definition mirror (n : nat) (z : Z) : Z :=
  if (z <? 0)%Z then (- z - 1)%Z else if (z <? Z.of_nat n)%Z then z else (2 * Z.of_nat n - 1 - z)%Z.
