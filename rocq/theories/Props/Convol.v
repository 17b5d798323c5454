(** C124: what the simulated images show. *)
From Coq Require Import ZArith List Bool Arith Reals String Lia Lra.
From Coquelicot Require Import Complex.
From Verif.Model Require Import Py Plane Simtools Convol.
From Verif.Spec Require Import Simtools Widths Stars Convol.
From Verif.Proof Require Import Convol.
Import ListNotations.
Local Open Scope R_scope.

(** Each pixel of a convolved image is the sum over the pixels of the image, each seen through
    the PSF whose middle is put on it. *)
Theorem C124_convolution : forall (fast : nat -> nat) (gal a : plane R) (i j : nat),
  (forall n, n <= fast n)%nat -> (0 < nr a)%nat -> (0 < nc a)%nat -> (i < nr gal)%nat -> (j < nc gal)%nat ->
  px (fftconvolve_same fast gal a) i j =
  rsum (nr gal) (fun k => rsum (nc gal) (fun l =>
    px gal k l * cell a (Z.of_nat i - Z.of_nat k + middle (nr a)) (Z.of_nat j - Z.of_nat l + middle (nc a)))).
Proof. exact C124_convolution_lm. Qed.
Print Assumptions C124_convolution.

(** A star is drawn as the PSF with its middle on the star. *)
Theorem C124_star : forall (fast : nat -> nat) (gal a : plane R) (x y : nat) (w : R) (i j : nat),
  (forall n, n <= fast n)%nat -> (0 < nr a)%nat -> (0 < nc a)%nat -> one_star gal x y w -> (i < nr gal)%nat -> (j < nc gal)%nat ->
  px (fftconvolve_same fast gal a) i j =
  w * cell a (Z.of_nat i - Z.of_nat x + middle (nr a)) (Z.of_nat j - Z.of_nat y + middle (nc a)).
Proof. exact C124_star_lm. Qed.
Print Assumptions C124_star.

(** No light is lost if everything is half a PSF away from the border. *)
Theorem C124_light : forall (fast : nat -> nat) (gal a : plane R),
  (forall n, n <= fast n)%nat -> (0 < nr a)%nat -> (0 < nc a)%nat ->
  (forall k l, (k < nr gal)%nat -> (l < nc gal)%nat -> px gal k l <> 0 ->
     ((nr a - 1) / 2 <= k /\ k + nr a / 2 < nr gal /\ (nc a - 1) / 2 <= l /\ l + nc a / 2 < nc gal)%nat) ->
  total (fftconvolve_same fast gal a) = total gal * total a.
Proof. exact C124_light_lm. Qed.
Print Assumptions C124_light.

(** How a star is drawn by [image]. The Gaussian is centred [off] pixels away from the star,
    to larger row and column numbers. *)
Theorem C124_place : exists s : R, 1008 / 1000 < s < 1009 / 1000 /\
  forall (fast : nat -> nat) (rotate : plane R -> R -> plane R) (m : plane R) (x y : nat) (w xf yf : R),
  (forall n, n <= fast n)%nat -> one_star m x y w -> 0 < xf -> 0 < yf -> 1 <= Rmax xf yf ->
  let size := 5 * Rmax xf yf in
  let sky := blur_psf fast rotate m size xf yf 0 in
  exists (amp off : R) (n t : nat), 0 < amp /\ INR n <= size < INR n + 1 /\ off = (size - 1) / 2 - IZR (middle n) /\ 0 <= off < 1 /\
    (1 <= t)%nat /\ INR t <= 5 * (Rmax xf yf / (2335 / 1000)) < INR t + 1 /\
    forall i j, (i < nr m)%nat -> (j < nc m)%nat ->
      ((x <= i + t)%nat /\ (i < x + t)%nat /\ (y <= j + t)%nat /\ (j < y + t)%nat /\
       px sky i j = w * (amp * (bell (s * xf) (INR i - INR x - off) * bell (s * yf) (INR j - INR y - off)))) \/
      ((i + t < x \/ x + t <= i \/ j + t < y \/ y + t <= j)%nat /\ px sky i j = 0).
Proof. exact C124_place_lm. Qed.
Print Assumptions C124_place.

(** When five times the larger width is an odd whole number, the star's own pixel is the
    brightest. *)
Theorem C124_centred : forall (fast : nat -> nat) (rotate : plane R -> R -> plane R) (m : plane R) (x y : nat) (w xf yf : R) (k : nat),
  (forall n, n <= fast n)%nat -> one_star m x y w -> 0 < w -> 0 < xf -> 0 < yf -> 1 <= Rmax xf yf -> 5 * Rmax xf yf = 2 * INR k + 1 ->
  brightest (blur_psf fast rotate m (5 * Rmax xf yf) xf yf 0) (px (blur_psf fast rotate m (5 * Rmax xf yf) xf yf 0) x y).
Proof. exact C124_centred_lm. Qed.
Print Assumptions C124_centred.

(** In general it is not: with a width of two pixels the next pixel on the diagonal is as bright. *)
Theorem C124_centre_refuted : ~ (forall (fast : nat -> nat) (rotate : plane R -> R -> plane R) (m : plane R) (x y : nat) (w f : R),
  (forall n, n <= fast n)%nat -> one_star m x y w -> 0 < w -> 1 <= f -> (x + 1 < nr m)%nat -> (y + 1 < nc m)%nat ->
  let sky := blur_psf fast rotate m (5 * Rmax f f) f f 0 in
  px sky (x + 1) (y + 1) < px sky x y).
Proof. exact C124_centre_refuted_lm. Qed.
Print Assumptions C124_centre_refuted.

(** No light of stars is lost that are half a PSF away from the border. *)
Theorem C124_light_kept : forall (fast : nat -> nat) (rotate : plane R -> R -> plane R) (m : plane R) (xf yf : R) (n : nat),
  (forall n, n <= fast n)%nat -> 0 < xf -> 0 <= yf -> 1 <= Rmax xf yf -> INR n <= 5 * Rmax xf yf < INR n + 1 ->
  (forall k l, (k < nr m)%nat -> (l < nc m)%nat -> px m k l <> 0 ->
     ((n - 1) / 2 <= k /\ k + n / 2 < nr m /\ (n - 1) / 2 <= l /\ l + n / 2 < nc m)%nat) ->
  total (blur_psf fast rotate m (5 * Rmax xf yf) xf yf 0) = total m.
Proof. exact C124_light_kept_lm. Qed.
Print Assumptions C124_light_kept.

Example C124_star_case : exists m, one_star m 10 10 1 /\ nr m = 20%nat /\ nc m = 20%nat /\ 1 <= Rmax 3 2 /\ 5 * Rmax 3 2 = 2 * INR 7 + 1 /\
  INR 15 <= 5 * Rmax 3 2 < INR 15 + 1 /\
  (forall k l, (k < nr m)%nat -> (l < nc m)%nat -> px m k l <> 0 ->
     ((15 - 1) / 2 <= k /\ k + 15 / 2 < nr m /\ (15 - 1) / 2 <= l /\ l + 15 / 2 < nc m)%nat).
Proof. exact C124_star_case_lm. Qed.

(** What [image] returns: the noise has the brightest pixel over SN as deviation or mean. *)
Theorem C124_noise : forall (G : Type) (default_rng : Z -> G)
  (rng_normal : G -> R -> R -> nat -> plane R * G) (rng_poisson : G -> R -> nat -> plane R * G)
  (blur : plane R -> R -> R -> R -> R -> plane R) (g : G) (MF : plane R) (N : nat) (xf sn yf theta : R) (std : option R) (seed : option Z) (bias : R),
  (forall g m s n, shape (fst (rng_normal g m s n)) = (n, n)) -> (forall g m n, shape (fst (rng_poisson g m n)) = (n, n)) ->
  (forall m s xf yf theta, shape (blur m s xf yf theta) = shape m) -> shape MF = (N, N) -> (1 <= N)%nat ->
  let sky := blur MF (5 * Rmax xf yf) xf yf theta in
  let gen := match seed with Some s => default_rng s | None => g end in
  exists b, brightest sky b /\
    (exists im, fst (image default_rng rng_normal rng_poisson blur g MF N xf sn yf theta "gaussian" std seed bias) = Ok im /\
       shape im = (N, N) /\ forall i j, (i < N)%nat -> (j < N)%nat ->
         px im i j = px (fst (rng_normal gen 0 (b / sn) N)) i j + px sky i j + bias) /\
    (exists im, fst (image default_rng rng_normal rng_poisson blur g MF N xf sn yf theta "poisson" std seed bias) = Ok im /\
       shape im = (N, N) /\ forall i j, (i < N)%nat -> (j < N)%nat ->
         px im i j = px (fst (rng_poisson gen (b / sn) N)) i j + px sky i j + bias).
Proof. exact C124_noise_lm. Qed.
Print Assumptions C124_noise.

(** The documented standard deviation of the background is not used. *)
Theorem C124_std : forall (G : Type) (default_rng : Z -> G)
  (rng_normal : G -> R -> R -> nat -> plane R * G) (rng_poisson : G -> R -> nat -> plane R * G)
  (blur : plane R -> R -> R -> R -> R -> plane R) (g : G) (MF : plane R) (N : nat) (xf sn yf theta : R) (bkg : string) (std std' : option R) (seed : option Z) (bias : R),
  image default_rng rng_normal rng_poisson blur g MF N xf sn yf theta bkg std seed bias =
  image default_rng rng_normal rng_poisson blur g MF N xf sn yf theta bkg std' seed bias.
Proof. exact C124_std_lm. Qed.
Print Assumptions C124_std.

(** The quadrants of [sim_varpsf] with the angle zero show all the light of their stars. *)
Theorem C124_field : forall (G : Type) (default_rng : Z -> G)
  (rng_normal : G -> R -> R -> nat -> plane R * G) (rng_poisson : G -> R -> nat -> plane R * G)
  (rng_integers : G -> R -> R -> nat -> res (list Z) * G) (fast : nat -> nat) (rotate : plane R -> R -> plane R)
  (g : G) (nstars : nat) (sn : R) (thetas : list R) (N : nat) (seed : option Z) (frame : plane R) (g' : G),
  (forall n, n <= fast n)%nat ->
  (forall g m s n, shape (fst (rng_normal g m s n)) = (n, n)) ->
  (forall g lo hi k l g2, rng_integers g lo hi k = (Ok l, g2) ->
     List.length l = k /\ forall z, In z l -> lo - 1 < IZR z < hi) ->
  sim_varpsf default_rng rng_normal rng_poisson rng_integers (blur_psf fast rotate) g nstars sn thetas N seed = (Ok frame, g') ->
  forall i j, (i < 2)%nat -> (j < 2)%nat -> nth_error thetas (i + 2 * j) = Some 0 ->
  exists (stars : list (nat * nat)) (m sky noise : plane R) (gen : G) (b : R),
    List.length stars = (nstars / 4)%nat /\ star_map N stars m /\ shape sky = (N, N) /\ total sky = total m /\
    ((1 <= N)%nat -> brightest sky b) /\ noise = fst (rng_normal gen 0 (b / sn) N) /\
    forall u v, (u < N)%nat -> (v < N)%nat -> px frame (i * N + u) (j * N + v) = px noise u v + px sky u v + 200.
Proof. exact C124_field_lm. Qed.
Print Assumptions C124_field.

Example C124_field_case : forall (rotate : plane R -> R -> plane R),
  exists (ints : Z -> R -> R -> nat -> res (list Z) * Z) (frame : plane R) (g' : Z),
  (forall g lo hi k l g2, ints g lo hi k = (Ok l, g2) ->
     List.length l = k /\ forall z, In z l -> lo - 1 < IZR z < hi) /\
  sim_varpsf (fun s => s) (fun g _ _ n => (pconst (n, n) 0, g)) (fun g _ n => (pconst (n, n) 0, g))
    ints (blur_psf (fun n => n) rotate) 0%Z 8 30 [0; 0; 0; 0] 64 (Some 1%Z) = (Ok frame, g').
Proof. exact C124_field_case_lm. Qed.
