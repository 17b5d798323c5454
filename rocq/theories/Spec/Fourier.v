(** Cyclic arithmetic on arrays, in terms of which the effect of the Fourier transforms is
    stated. *)
From Coq Require Import Arith ZArith List Bool Reals.
From Coquelicot Require Import Complex.
From Verif.Model Require Import Plane.

(** Index [z] on an axis of [n] cells that repeats. *)
Definition wrap (n : nat) (z : Z) : nat := Z.to_nat (z mod Z.of_nat n).

(** The cell (i, j) of an array that repeats in both directions. *)
Definition around {A} (p : plane A) (i j : Z) : A := px p (wrap (nr p) i) (wrap (nc p) j).

(** Sum over the cells of an array of N x M. *)
Definition sum2 (N M : nat) (f : nat -> nat -> C) : C := csum N (fun u => csum M (fun v => f u v)).

(** [f] correlated with [g] over their common frame: at x, the sum of f(x + p) times the
    conjugate of g(p). *)
Definition correlation (f g : plane C) : plane C :=
  mkplane (nr f) (nc f) (fun x y => sum2 (nr g) (nc g) (fun p q =>
    (around f (Z.of_nat x + Z.of_nat p) (Z.of_nat y + Z.of_nat q) * Cconj (px g p q))%C)).

(** [f] convolved with [g]: at x, the sum of f(x - p) g(p). *)
Definition convolution (f g : plane C) : plane C :=
  mkplane (nr f) (nc f) (fun x y => sum2 (nr g) (nc g) (fun p q =>
    (around f (Z.of_nat x - Z.of_nat p) (Z.of_nat y - Z.of_nat q) * px g p q)%C)).

(** [f] moved by (a, b) cells, cyclically. *)
Definition moved {A} (a b : Z) (f : plane A) : plane A :=
  mkplane (nr f) (nc f) (fun x y => around f (Z.of_nat x - a) (Z.of_nat y - b)).
