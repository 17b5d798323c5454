(** C115: how wide the simulated point spread functions are. *)
From Coq Require Import ZArith List Bool Reals Lia Lra.
From Flocq Require Import Core.Raux.
From Verif.Model Require Import Py Plane Simtools.
From Verif.Spec Require Import Simtools Widths.
From Verif.Proof Require Import Widths.
Import ListNotations.
Local Open Scope R_scope.

(** C115: without rotation, the profile of a simulated PSF along each axis is a Gaussian
    whose full width at half maximum is [s] times the requested one, [s] being a constant
    between 1.008 and 1.009, cut off at five standard deviations or at the border. *)
Theorem C115_psf : exists s : R, 1008 / 1000 < s < 1009 / 1000 /\
  forall (rotate : plane R -> R -> plane R) (N xf yf : R) (n : nat),
  INR n <= N < INR n + 1 -> (2 <= n)%nat -> 0 < xf -> 0 < yf -> 2335 / 1000 <= 5 * Rmax xf yf ->
  exists (q : plane (option R)) (amp : R) (k t : nat),
    Psf rotate N xf yf 0 = Ok q /\ 0 < amp /\
    (n = 2 * k + 1 \/ n = 2 * k + 2)%nat /\
    (1 <= t <= n / 2)%nat /\ INR t <= 5 * (Rmax xf yf / (2335 / 1000)) /\
    ((t < n / 2)%nat -> 5 * (Rmax xf yf / (2335 / 1000)) < INR t + 1) /\
    forall r c, (r < n)%nat -> (c < n)%nat ->
      ((k <= r + t)%nat -> (r < k + t)%nat -> (k <= c + t)%nat -> (c < k + t)%nat ->
       px q r c = Some (amp * (bell (s * xf) (INR r - (N - 1) / 2) * bell (s * yf) (INR c - (N - 1) / 2)))) /\
      ((t <= k)%nat -> (r + t < k \/ k + t <= r \/ c + t < k \/ k + t <= c)%nat -> px q r c = Some 0).
Proof. exact C115_psf_lm. Qed.
Print Assumptions C115_psf.

(** C115: a Y_FWHM of zero means the width of the other axis. *)
Theorem C115_default_width : forall (rotate : plane R -> R -> plane R) (N xf theta : R),
  0 < xf -> Psf rotate N xf 0 theta = Psf rotate N xf xf theta.
Proof. exact C115_default_width_lm. Qed.
Print Assumptions C115_default_width.

(** C115: so the width at half maximum is not the requested one. *)
Theorem C115_psf_width_refuted : ~ (forall (rotate : plane R -> R -> plane R) (N f : R) (n : nat),
  INR n <= N < INR n + 1 -> (2 <= n)%nat -> 2335 / 1000 <= 5 * f ->
  exists (q : plane (option R)) (amp : R), Psf rotate N f f 0 = Ok q /\
    forall r c v, (r < n)%nat -> (c < n)%nat -> px q r c = Some v -> v <> 0 ->
      v = amp * (bell f (INR r - (N - 1) / 2) * bell f (INR c - (N - 1) / 2))).
Proof. exact C115_psf_width_refuted_lm. Qed.
Print Assumptions C115_psf_width_refuted.

(** C115: the same holds for [astropy_Psf], which cuts off at seven standard deviations. *)
Theorem C115_astropy_psf : exists s : R, 1008 / 1000 < s < 1009 / 1000 /\
  forall (N : nat) (fwhm : R),
  (1 <= N)%nat -> 2335 / 7000 <= fwhm ->
  (Z.of_nat ((N - 1) / 2) + Ztrunc (7 * (fwhm / (2335 / 1000))) <= Z.of_nat N)%Z ->
  exists (q : plane (option R)) (amp : R) (t : nat),
    astropy_Psf N fwhm = Ok q /\ 0 < amp /\
    INR t <= 7 * (fwhm / (2335 / 1000)) < INR t + 1 /\
    let k := ((N - 1) / 2)%nat in
    forall r c, (r < N)%nat -> (c < N)%nat -> (t <= k)%nat ->
      ((k <= r + t)%nat -> (r < k + t)%nat -> (k <= c + t)%nat -> (c < k + t)%nat ->
       px q r c = Some (amp * (bell (s * fwhm) (INR r - (INR N - 1) / 2) * bell (s * fwhm) (INR c - (INR N - 1) / 2)))) /\
      ((r + t < k \/ k + t <= r \/ c + t < k \/ k + t <= c)%nat -> px q r c = Some 0).
Proof. exact C115_astropy_psf_lm. Qed.
Print Assumptions C115_astropy_psf.

(** C115: up to twice the given width from the centre, an Airy pattern falls off like the
    square of 1 - r^2 / 8, with r the distance over the width. *)
Theorem C115_airy : forall (j1 : R -> R) (N : nat) (w : R) (i j : nat),
  bessel1 j1 -> 0 < w -> (i < N)%nat -> (j < N)%nat ->
  let d := sqrt ((INR i - (INR N - 1) / 2) ^ 2 + (INR j - (INR N - 1) / 2) ^ 2) in
  0 < d <= 2 * w ->
  exists v, px (airy_patron j1 N w) i j = Some v /\ (1 - (d / w) ^ 2 / 8) ^ 2 <= v <= (1 - (d / w) ^ 2 / 8 + (d / w) ^ 4 / 192) ^ 2.
Proof. exact C115_airy_lm. Qed.
Print Assumptions C115_airy.

(** C115: the pattern has no minimum at the distance given as its width, although the
    documentation says so. *)
Theorem C115_airy_width_refuted : ~ (forall (j1 : R -> R) (N : nat) (w : R) (i j : nat),
  bessel1 j1 -> 0 < w -> (i < N)%nat -> (j < N)%nat ->
  sqrt ((INR i - (INR N - 1) / 2) ^ 2 + (INR j - (INR N - 1) / 2) ^ 2) = w ->
  px (airy_patron j1 N w) i j = Some 0).
Proof. exact C115_airy_width_refuted_lm. Qed.
Print Assumptions C115_airy_width_refuted.

Example C115_case :
  INR 21 <= 21 < INR 21 + 1 /\ (2 <= 21)%nat /\ 2335 / 1000 <= 5 * Rmax 3 4 /\
  2335 / 7000 <= 3 /\
  (Z.of_nat ((25 - 1) / 2) + Ztrunc (7 * (3 / (2335 / 1000))) <= Z.of_nat 25)%Z /\
  (exists j1, bessel1 j1) /\
  0 < sqrt ((INR 1 - (INR 4 - 1) / 2) ^ 2 + (INR 2 - (INR 4 - 1) / 2) ^ 2) <= 2 * 1.
Proof. exact C115_case_lm. Qed.
