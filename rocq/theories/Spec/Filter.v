(** Matched filtering, in pixel space. *)
From Coq Require Import Arith ZArith List Bool Reals.
From Coquelicot Require Import Complex.
From Verif.Model Require Import Plane Subtract.
From Verif.Spec Require Import Fourier.
Import ListNotations.
Local Open Scope R_scope.

(** Sum over the cells of an array of N x M. *)
Definition rsum2 (N M : nat) (f : nat -> nat -> R) : R := rsum N (fun i => rsum M (fun j => f i j)).

(** Pixel (i, j) of a frame that repeats. *)
Definition pix_around (sh : nat * nat) (f : nat -> nat -> R) (i j : Z) : R :=
  f (wrap (fst sh) i) (wrap (snd sh) j).

(** The frame [f] seen through the stamp [b] whose cell (a, c) is put on pixel (x, y): the sum
    of the pixels under the stamp, weighted by it. *)
Definition seen (sh : nat * nat) (f : nat -> nat -> R) (b : plane R) (a c : Z) (x y : nat) : R :=
  rsum2 (nr b) (nc b) (fun p q =>
    pix_around sh f (Z.of_nat x - a + Z.of_nat p) (Z.of_nat y - c + Z.of_nat q) * px b p q).

(** The stamp fits in the frame. *)
Definition fits (sh : nat * nat) (b : plane R) : Prop := (nr b <= fst sh)%nat /\ (nc b <= snd sh)%nat.

(** Sum of a list. *)
Definition total_of (l : list R) : R := fold_right Rplus 0 l.

Definition cells_of (sh : nat * nat) : R := INR (fst sh) * INR (snd sh).

(** The stamp laid on a corner of an empty frame. *)
Definition laid (b : plane R) (i j : nat) : R :=
  if ((i <? nr b) && (j <? nc b))%nat then px b i j else 0.

(** A PSF of one pixel, 1 at cell (p, q) of its stamp. *)
Definition point (p q : nat) (b : plane R) : Prop :=
  (p < nr b)%nat /\ (q < nc b)%nat /\
  forall i j, (i < nr b)%nat -> (j < nc b)%nat -> px b i j = if ((i =? p) && (j =? q))%nat then 1 else 0.
