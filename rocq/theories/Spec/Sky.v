(** Words used in the statements about what coadds and subtractions show of the sky. *)
From Coq Require Import Arith ZArith List Bool Reals.
From Coquelicot Require Import Complex.
From Verif.Model Require Import Plane.
From Verif.Spec Require Import Fourier Filter Subtract.
Import ListNotations.
Local Open Scope R_scope.

(** The frame that shows [sky] through the PSF [b] whose cell (a, c) is its middle: every cell of
    the sky is replaced by the PSF with its middle there, times the value of the cell. The frame
    wraps around. *)
Definition exposure (sh : nat * nat) (sky : nat -> nat -> R) (b : plane R) (a c : Z) (x y : nat) : R :=
  rsum2 (nr b) (nc b) (fun p q =>
    pix_around sh sky (Z.of_nat x - (Z.of_nat p - a)) (Z.of_nat y - (Z.of_nat q - c)) * px b p q).

(** The same through a complex PSF that fills the frame. *)
Definition exposure_full (sh : nat * nat) (sky : nat -> nat -> R) (P : plane C) (a c : Z) (x y : nat) : C :=
  sum2 (fst sh) (snd sh) (fun p q =>
    (RtoC (pix_around sh sky (Z.of_nat x - (Z.of_nat p - a)) (Z.of_nat y - (Z.of_nat q - c))) * px P p q)%C).

(** The answer of a PSF to the wave number (u, v) of the frame. *)
Definition response (sh : nat * nat) (b : plane R) (u v : nat) : C :=
  sum2 (nr b) (nc b) (fun p q =>
    (RtoC (px b p q) *
     cis (- (2 * PI * (INR u * INR p / INR (fst sh) + INR v * INR q / INR (snd sh)))))%C).

(** At every wave number some image with a zero point that is not 0 has an answer. *)
Definition covered (sh : nat * nat) (bs : nat -> plane R) (weights : list (nat * R)) : Prop :=
  forall u v, (u < fst sh)%nat -> (v < snd sh)%nat ->
    exists i z, In (i, z) weights /\ z <> 0 /\ response sh (bs i) u v <> RtoC 0.

(** Total of a PSF, total of its squares. *)
Definition light (b : plane R) : R := rsum2 (nr b) (nc b) (px b).
Definition energy (b : plane R) : R := rsum2 (nr b) (nc b) (fun i j => px b i j ^ 2).

(** Pixel (x, y) of a frame convolved with a kernel. *)
Definition blurred (sh : nat * nat) (f : nat -> nat -> R) (K : plane C) (x y : nat) : C :=
  sum2 (fst sh) (snd sh) (fun p q =>
    (RtoC (pix_around sh f (Z.of_nat x - Z.of_nat p) (Z.of_nat y - Z.of_nat q)) * px K p q)%C).

(** Covariance of the cells (x, y) and (x', y') of a frame of independent noise of variance 1
    that was convolved with the kernel: the sum over the cells of the frame of the weight they
    have in the one times the conjugate of the weight they have in the other. *)
Definition covariance (sh : nat * nat) (K : plane C) (x y x' y' : nat) : C :=
  sum2 (fst sh) (snd sh) (fun i j =>
    (around K (Z.of_nat x - Z.of_nat i) (Z.of_nat y - Z.of_nat j) *
     Cconj (around K (Z.of_nat x' - Z.of_nat i) (Z.of_nat y' - Z.of_nat j)))%C).

(** One source of flux 1 on cell (x0, y0), and nothing else. *)
Definition spot (x0 y0 x y : nat) : R := if ((x =? x0) && (y =? y0))%nat then 1 else 0.

(** Total of the squares of a complex array. *)
Definition energy_full (P : plane C) : R := rsum2 (nr P) (nc P) (fun i j => fst (px P i j) ^ 2 + snd (px P i j) ^ 2).

(** An axis of n cells has an odd number of them or the distance is a whole number of cells. *)
Definition odd_or_whole (n : nat) (d : R) : Prop := Nat.odd n = true \/ exists k : Z, d = IZR k.
Definition odd_or_whole2 (sh : nat * nat) (d : R * R) : Prop :=
  odd_or_whole (fst sh) (fst d) /\ odd_or_whole (snd sh) (snd d).
