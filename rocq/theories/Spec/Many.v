(** Words used in the statements about the PSF of images with many stars. *)
From Coq Require Import ZArith List Bool Arith Reals.
From Verif.Model Require Import Py Plane KL.
From Verif.Spec Require Import KL.
Import ListNotations.
Local Open Scope R_scope.

(** The sum of the stamps, each times its component of the eigenvector of the (k+1)-th largest
    eigenvalue. *)
Definition blend (sh : nat * nat) (stamps : list (plane R)) (V : nat -> nat -> R) (k : nat) : plane R :=
  mkplane (fst sh) (snd sh) (fun i j =>
    sumn (length stamps) (fun a =>
      px (nth a stamps (pconst (0, 0)%nat 0)) i j * eigen_component (length stamps) V k a)).

Definition total (p : plane R) : R := sum2 (shape p) (px p).

(** [m] is the value of the faintest cell of [p]. *)
Definition faintest (p : plane R) (m : R) : Prop :=
  (exists i j, (i < nr p)%nat /\ (j < nc p)%nat /\ px p i j = m) /\
  forall i j, (i < nr p)%nat -> (j < nc p)%nat -> m <= px p i j.
