(** C54-C58, C65, C76-C79: the simulation tools. *)
From Coq Require Import ZArith List Bool Reals String Lia Lra.
From Flocq Require Import Core.Raux.
From Verif.Model Require Import Py Plane Simtools.
From Verif.Spec Require Import Simtools.
From Verif.Proof Require Import Simtools SimtoolsPsf SimtoolsMain.
Import ListNotations.
Set Bullet Behavior "Strict Subproofs".
Local Open Scope R_scope.

(** C54: without rotation, a PSF of size N >= 2 whose width is not too small for the loop
    to touch a pixel is N x N (N truncated), non-negative and sums to one. *)
Theorem C54_psf_normalised : forall (rotate : plane R -> R -> plane R) (N xf yf : R) (n : nat),
  INR n <= N < INR n + 1 -> (2 <= n)%nat -> 0 < xf -> 0 <= yf -> 2335 / 1000 <= 5 * Rmax xf yf ->
  exists q p, Psf rotate N xf yf 0 = Ok q /\ plane_eq q (pmap Some p) /\ shape p = (n, n) /\
    (forall i j, (i < n)%nat -> (j < n)%nat -> 0 <= px p i j) /\ total p = 1.
Proof. exact C54_psf_normalised_lm. Qed.
Print Assumptions C54_psf_normalised.

Example C54_case : INR 15 <= 15.5 < INR 15 + 1 /\ (2 <= 15)%nat /\ 0 < 3 /\ 2335 / 1000 <= 5 * Rmax 3 0.
Proof. rewrite Rmax_left by lra. simpl INR. repeat split; try lra; lia. Qed.

(** C54: otherwise nothing is written and every pixel is nan. *)
Theorem C54_psf_nan : forall (rotate : plane R -> R -> plane R) (N xf yf : R) (n : nat),
  INR n <= N < INR n + 1 -> (1 <= n)%nat -> 0 < xf -> 0 <= yf ->
  n = 1%nat \/ 5 * Rmax xf yf < 2335 / 1000 ->
  exists q, Psf rotate N xf yf 0 = Ok q /\ shape q = (n, n) /\
    forall i j, (i < n)%nat -> (j < n)%nat -> px q i j = None.
Proof. exact C54_psf_nan_lm. Qed.
Print Assumptions C54_psf_nan.

Example C54_nan_case : INR 10 <= 10 < INR 10 + 1 /\ 5 * Rmax (4 / 10) 0 < 2335 / 1000.
Proof. rewrite Rmax_left by lra. simpl INR. lra. Qed.

(** C54: the PSF is never symmetric about its centre. *)
Theorem C54_psf_not_symmetric : forall (rotate : plane R -> R -> plane R) (N xf yf : R) (n : nat),
  INR n <= N < INR n + 1 -> (2 <= n)%nat -> 0 < xf -> 0 <= yf -> 2335 / 1000 <= 5 * Rmax xf yf ->
  exists q i j, Psf rotate N xf yf 0 = Ok q /\ (i < n)%nat /\ (j < n)%nat /\
    px q i j <> px q (n - 1 - i) (n - 1 - j).
Proof. exact C54_psf_not_symmetric_lm. Qed.
Print Assumptions C54_psf_not_symmetric.

(** C54: after a rotation the PSF sums to one if what the rotation returned does not sum to
    zero. *)
Theorem C54_psf_rotated : forall (rotate : plane R -> R -> plane R) (N xf yf theta : R) (n : nat),
  INR n <= N < INR n + 1 -> (1 <= n)%nat -> 0 < xf -> 0 <= yf -> theta <> 0 ->
  (forall a, total (rotate a theta) <> 0) ->
  exists q p, Psf rotate N xf yf theta = Ok q /\ plane_eq q (pmap Some p) /\ total p = 1.
Proof. exact C54_psf_rotated_lm. Qed.
Print Assumptions C54_psf_rotated.

Example C54_rotated_case : exists rotate : plane R -> R -> plane R,
  (1 : R) <> 0 /\ forall a, total (rotate a 1) <> 0.
Proof.
  exists (fun _ _ => pconst (1, 1)%nat 2). split; [lra|]. intros a. unfold total. simpl. lra.
Qed.

(** C55: each position gets the weight that stands as far from the end of the weights as
    the position stands from the beginning; later positions overwrite earlier ones; the
    rest is zero. Negative coordinates count from the end of the axis. *)
Theorem C55_delta_weights : forall (N : nat) (xy : positions) (w : list R),
  (forall p, In p (pos_items xy) -> exists a b, denotes2 N p a b) ->
  (List.length (pos_items xy) <= List.length w)%nat ->
  exists m, delta_point N false xy (Some w) = Ok m /\ shape m = (N, N) /\
    forall a b,
      ((forall k p, nth_error (pos_items xy) k = Some p -> ~ denotes2 N p a b) /\ px m a b = 0) \/
      (exists k p, nth_error (pos_items xy) k = Some p /\ denotes2 N p a b /\
         (forall k' p', (k < k')%nat -> nth_error (pos_items xy) k' = Some p' -> ~ denotes2 N p' a b) /\
         nth_error w (List.length w - 1 - k) = Some (px m a b)).
Proof. exact C55_delta_weights_lm. Qed.
Print Assumptions C55_delta_weights.

Example C55_case : exists m,
  delta_point 4 false (Listed [(1, 2); (3, 0); (-1, -1); (1, 2)]%Z) (Some [10; 20; 30; 40; 50]) = Ok m /\
  px m 1 2 = 20 /\ px m 3 0 = 40 /\ px m 3 3 = 30 /\ px m 0 0 = 0.
Proof. eexists. split; [reflexivity|]. repeat split. Qed.

(** C55: fewer weights than positions, or a position outside the array, raise IndexError. *)
Theorem C55_delta_errors : forall (N : nat) (xy : positions) (w : list R),
  (exists p, In p (pos_items xy) /\ forall a b, ~ denotes2 N p a b) \/
  (List.length w < List.length (pos_items xy))%nat ->
  delta_point N false xy (Some w) = Raise IndexError.
Proof. exact C55_delta_errors_lm. Qed.
Print Assumptions C55_delta_errors.

Example C55_errors_case :
  delta_point 4 false (Listed [(1, 2); (3, 0)]%Z) (Some [10]) = Raise IndexError /\
  delta_point 4 false (Listed [(1, 4)]%Z) (Some [10]) = Raise IndexError.
Proof. split; reflexivity. Qed.

(** C55: without weights, a list of positions gives ones; an iterator such as the zip of
    the docstring's example raises TypeError. *)
Theorem C55_delta_no_weights : forall (N : nat) (l : list (Z * Z)),
  delta_point N false (Iterator l) None = Raise TypeError /\
  ((forall p, In p l -> exists a b, denotes2 N p a b) ->
   exists m, delta_point N false (Listed l) None = Ok m /\ shape m = (N, N) /\
    forall a b, ((exists p, In p l /\ denotes2 N p a b) -> px m a b = 1) /\
                ((forall p, In p l -> ~ denotes2 N p a b) -> px m a b = 0)).
Proof. exact C55_delta_no_weights_lm. Qed.
Print Assumptions C55_delta_no_weights.

Example C55_no_weights_case : forall p, In p [(1, 2); (-1, 0)]%Z -> exists a b, denotes2 4 p a b.
Proof.
  intros p [<-|[<-|[]]].
  - exists 1%nat, 2%nat. split; cbn; unfold denotes; lia.
  - exists 3%nat, 0%nat. split; cbn; unfold denotes; lia.
Qed.

(** C55: a centred source is a single one at (N//2, N//2). *)
Theorem C55_delta_center : forall (N : nat) (xy : positions) (w : option (list R)),
  (1 <= N)%nat ->
  exists m, delta_point N true xy w = Ok m /\ shape m = (N, N) /\
    forall a b, (a < N)%nat -> (b < N)%nat ->
      ((a = N / 2 /\ b = N / 2)%nat -> px m a b = 1) /\
      (~ (a = N / 2 /\ b = N / 2)%nat -> px m a b = 0).
Proof. exact C55_delta_center_lm. Qed.
Print Assumptions C55_delta_center.

Example C55_center_case : exists m, delta_point 5 true (Listed []) None = Ok m /\ px m 2 2 = 1 /\ px m 2 1 = 0.
Proof. eexists. split; [reflexivity|]. split; reflexivity. Qed.

(** C56: the rows are all tuples, in lexicographic order, each value converted to the type
    of the first array. *)
Theorem C56_cartesian_product : forall (A : Type) (cast : A -> A) (d : A) (arrays : list (list A)),
  arrays <> [] ->
  exists m, cartesian_product cast d arrays = Ok m /\
    nc m = List.length arrays /\ rows_of m = map (map cast) (tuples arrays).
Proof. exact C56_cartesian_product_lm. Qed.
Print Assumptions C56_cartesian_product.

Example C56_case : exists m,
  cartesian_product (fun x => x) 0%Z [[1; 2]; [3; 4; 5]]%Z = Ok m /\
  rows_of m = [[1; 3]; [1; 4]; [1; 5]; [2; 3]; [2; 4]; [2; 5]]%Z.
Proof. eexists. split; reflexivity. Qed.

(** C56: no array at all raises IndexError. *)
Theorem C56_no_arrays : forall (A : Type) (cast : A -> A) (d : A),
  cartesian_product cast d [] = Raise IndexError.
Proof. exact C56_no_arrays_lm. Qed.
Print Assumptions C56_no_arrays.

(** C57: tiling four N x N frames. *)
Theorem C57_tile : forall (N : nat) (q0 q1 q2 q3 : plane R) (more : list (plane R)),
  shape q0 = (N, N) -> shape q1 = (N, N) -> shape q2 = (N, N) -> shape q3 = (N, N) ->
  exists f, tile N (q0 :: q1 :: q2 :: q3 :: more) = Ok f /\ shape f = (2 * N, 2 * N)%nat /\
    forall a b, (a < N)%nat -> (b < N)%nat ->
      px f a b = px q0 a b /\ px f (N + a) b = px q1 a b /\
      px f a (N + b) = px q2 a b /\ px f (N + a) (N + b) = px q3 a b.
Proof. exact C57_tile_lm. Qed.
Print Assumptions C57_tile.

Example C57_tile_case : exists f,
  tile 1 [pconst (1, 1)%nat 1; pconst (1, 1)%nat 2; pconst (1, 1)%nat 3; pconst (1, 1)%nat 4] = Ok f /\
  px f 0 0 = 1 /\ px f 1 0 = 2 /\ px f 0 1 = 3 /\ px f 1 1 = 4.
Proof. eexists. split; [reflexivity|]. repeat split. Qed.

(** C57: whenever sim_varpsf returns a frame, at least four angles were given, the frame is
    2N x 2N, and quadrant (i,j) shows, for angle number i+2j, the blurred stars plus sky
    noise plus twice the bias of 100. *)
Theorem C57_sim_varpsf : forall (G : Type) (default_rng : Z -> G)
  (rng_normal : G -> R -> R -> nat -> plane R * G) (rng_poisson : G -> R -> nat -> plane R * G)
  (rng_integers : G -> R -> R -> nat -> res (list Z) * G)
  (blur : plane R -> R -> R -> R -> R -> plane R)
  (g : G) (nstars : nat) (sn : R) (thetas : list R) (N : nat) (seed : option Z) (frame : plane R) (g' : G),
  (forall g m s n, shape (fst (rng_normal g m s n)) = (n, n)) ->
  (forall m s xf yf theta, shape (blur m s xf yf theta) = shape m) ->
  sim_varpsf default_rng rng_normal rng_poisson rng_integers blur g nstars sn thetas N seed = (Ok frame, g') ->
  (4 <= List.length thetas)%nat /\ shape frame = (2 * N, 2 * N)%nat /\
  forall i j theta, (i < 2)%nat -> (j < 2)%nat -> nth_error thetas (i + 2 * j) = Some theta ->
  exists stars noise, (exists m s xf, stars = blur m s xf 5 theta) /\
    (exists gen, noise = fst (rng_normal gen 0 (pmax stars / sn) N)) /\
    forall a b, (a < N)%nat -> (b < N)%nat ->
      px frame (i * N + a) (j * N + b) = px noise a b + px stars a b + 200.
Proof. exact C57_sim_varpsf_lm. Qed.
Print Assumptions C57_sim_varpsf.

Example C57_sim_case : exists frame,
  sim_varpsf (fun _ => tt) (fun g _ _ n => (pconst (n, n) 7, g)) (fun g _ n => (pconst (n, n) 7, g))
    (fun g _ _ k => (Ok (repeat 1%Z k), g)) (fun m _ _ _ _ => m) tt 4 30 [0; 45; 105; 150] 2 None
  = (Ok frame, tt).
Proof. eexists. reflexivity. Qed.

(** C57: fewer than four angles never give a frame; when the frames themselves can be
    made, the error is IndexError. *)
Theorem C57_too_few_angles : forall (G : Type) (default_rng : Z -> G)
  (rng_normal : G -> R -> R -> nat -> plane R * G) (rng_poisson : G -> R -> nat -> plane R * G)
  (rng_integers : G -> R -> R -> nat -> res (list Z) * G)
  (blur : plane R -> R -> R -> R -> R -> plane R)
  (g : G) (nstars : nat) (sn : R) (thetas : list R) (N : nat) (seed : option Z),
  (forall g m s n, shape (fst (rng_normal g m s n)) = (n, n)) ->
  (forall m s xf yf theta, shape (blur m s xf yf theta) = shape m) ->
  (forall g lo hi k, exists l g2, rng_integers g lo hi k = (Ok l, g2) /\ List.length l = k /\
     forall z, In z l -> (0 <= z < Z.of_nat N)%Z) ->
  (1 <= N)%nat -> (List.length thetas < 4)%nat ->
  fst (sim_varpsf default_rng rng_normal rng_poisson rng_integers blur g nstars sn thetas N seed)
  = Raise IndexError.
Proof. exact C57_too_few_angles_lm. Qed.
Print Assumptions C57_too_few_angles.

Example C57_few_case :
  fst (sim_varpsf (fun _ => tt) (fun g _ _ n => (pconst (n, n) 7, g)) (fun g _ n => (pconst (n, n) 7, g))
    (fun g _ _ k => (Ok (repeat 1%Z k), g)) (fun m _ _ _ _ => m) tt 4 30 [0; 45; 105] 2 None)
  = Raise IndexError.
Proof. reflexivity. Qed.

(** C58: distinct numbers get distinct names, whatever the directory... *)
Theorem C58_distinct_names : forall (content : Type) (fs fs' : files content) (path : string)
  (i j : Z) (c c' : content),
  i <> j -> fst (store_fits fs path i c) <> fst (store_fits fs' path j c').
Proof. exact C58_distinct_names_lm. Qed.
Print Assumptions C58_distinct_names.

(** ... so that after any history of stores in one directory, the file returned for number
    [i] holds what was stored last under [i]. *)
Theorem C58_last_stored : forall (content : Type) (fs : files content) (path : string)
  (h : list (Z * content)) (i : Z) (c : content),
  last_stored i h = Some c ->
  fold_left (fun fs e => snd (store_fits fs path (fst e) (snd e))) h fs
    (fst (store_fits fs path i c)) = Some c.
Proof. exact C58_last_stored_lm. Qed.
Print Assumptions C58_last_stored.

Example C58_case :
  store_fits_name "out"%string 12 = "out/image0012.fits"%string /\
  store_fits_name "out/"%string (-3) = "out/image00-3.fits"%string /\
  last_stored 2 [(1, 10); (2, 20); (1, 30); (2, 40)]%Z = Some 40%Z.
Proof. repeat split. Qed.

(** C65: zero in the last row and column and beyond 2/3 (N-1) from the centre. *)
Theorem C65_zero_border : forall (N : nat) (n : R) (i j : nat),
  i = (N - 1)%nat \/ j = (N - 1)%nat \/ 2 / 3 * (INR N - 1) < radius N i j ->
  shape (gal_sersic N n) = (N, N) /\ px (gal_sersic N n) i j = 0.
Proof. exact C65_zero_border_lm. Qed.
Print Assumptions C65_zero_border.

Example C65_border_case : 4%nat = (5 - 1)%nat /\ px (gal_sersic 5 2) 4 1 = 0.
Proof. split; reflexivity. Qed.

(** C65: for an index of at least 327/1999 the values lie between 0 and 1 and do not
    increase with the distance from the centre. *)
Theorem C65_values : forall (N : nat) (n : R),
  (2 <= N)%nat -> 327 / 1999 <= n ->
  (forall i j, 0 <= px (gal_sersic N n) i j <= 1) /\
  (forall i j i' j', (i < N - 1)%nat -> (j < N - 1)%nat -> radius N i j <= radius N i' j' ->
     px (gal_sersic N n) i' j' <= px (gal_sersic N n) i j).
Proof. exact C65_values_lm. Qed.
Print Assumptions C65_values.

Example C65_case : (2 <= 33)%nat /\ 327 / 1999 <= 4.
Proof. split; [lia|lra]. Qed.

(** C65: for smaller positive indices the profile grows outwards: every pixel inside the
    radius, except the centre, is above 1. *)
Theorem C65_small_index : forall (N : nat) (n : R) (i j : nat),
  0 < n < 327 / 1999 -> (i < N - 1)%nat -> (j < N - 1)%nat ->
  0 < radius N i j <= 2 / 3 * (INR N - 1) -> 1 < px (gal_sersic N n) i j.
Proof. exact C65_small_index_lm. Qed.
Print Assumptions C65_small_index.

Example C65_small_case : 0 < / 10 < 327 / 1999 /\ (1 < 9 - 1)%nat /\ (4 < 9 - 1)%nat /\
  0 < radius 9 1 4 <= 2 / 3 * (INR 9 - 1).
Proof.
  split; [lra|]. split; [lia|]. split; [lia|].
  replace (radius 9 1 4) with 3; [simpl; lra|].
  unfold radius. simpl INR. rewrite <- (sqrt_square 3) by lra. f_equal. field.
Qed.

(** C76: with a seed the noise of the four quadrants is one and the same pattern up to
    scale: a generator draws normal noise as mean + std * pattern, and every frame starts
    again from the seed. *)
Theorem C76_seeded_noise_repeats : forall (G : Type) (default_rng : Z -> G)
  (rng_normal : G -> R -> R -> nat -> plane R * G) (rng_poisson : G -> R -> nat -> plane R * G)
  (rng_integers : G -> R -> R -> nat -> res (list Z) * G)
  (blur : plane R -> R -> R -> R -> R -> plane R) (pattern : G -> nat -> plane R)
  (g : G) (nstars : nat) (sn : R) (thetas : list R) (N : nat) (seed : Z) (frame : plane R) (g' : G),
  (forall g m s n, shape (fst (rng_normal g m s n)) = (n, n)) ->
  (forall g m s n a b, px (fst (rng_normal g m s n)) a b = m + s * px (pattern g n) a b) ->
  (forall m s xf yf theta, shape (blur m s xf yf theta) = shape m) ->
  sim_varpsf default_rng rng_normal rng_poisson rng_integers blur g nstars sn thetas N (Some seed) = (Ok frame, g') ->
  exists z : plane R, forall i j, (i < 2)%nat -> (j < 2)%nat ->
    exists stars, (exists m s xf theta, stars = blur m s xf 5 theta) /\
      forall a b, (a < N)%nat -> (b < N)%nat ->
      px frame (i * N + a) (j * N + b) = pmax stars / sn * px z a b + px stars a b + 200.
Proof. exact C76_seeded_noise_repeats_lm. Qed.
Print Assumptions C76_seeded_noise_repeats.

Example C76_case : exists frame,
  sim_varpsf (fun _ => tt) (fun g m s n => (mkplane n n (fun a b => m + s * INR (a + b)), g))
    (fun g _ n => (pconst (n, n) 7, g))
    (fun g _ _ k => (Ok (repeat 1%Z k), g)) (fun m _ _ _ _ => m) tt 4 30 [0; 45; 105; 150] 2 (Some 1%Z)
  = (Ok frame, tt).
Proof. eexists. reflexivity. Qed.

(** C77: an Airy pattern has a nan exactly at the centre of an odd-sized array. *)
Theorem C77_airy_nan : forall (j1 : R -> R) (N : nat) (w : R) (i j : nat),
  w <> 0 -> (i < N)%nat -> (j < N)%nat ->
  shape (airy_patron j1 N w) = (N, N) /\
  (px (airy_patron j1 N w) i j = None <-> N = (2 * i + 1)%nat /\ j = i).
Proof. exact C77_airy_nan_lm. Qed.
Print Assumptions C77_airy_nan.

Example C77_case : 5%nat = (2 * 2 + 1)%nat /\ px (airy_patron (fun r => r) 5 3) 2 2 = None.
Proof. split; [reflexivity|]. apply C77_airy_nan; [lra|lia|lia|split; reflexivity]. Qed.

(** C78: an unknown background name is not rejected with a message: the image has been
    convolved already when UnboundLocalError is raised; the module's generator is not
    used when a seed is given. *)
Theorem C78_image_background : forall (G : Type) (default_rng : Z -> G)
  (rng_normal : G -> R -> R -> nat -> plane R * G) (rng_poisson : G -> R -> nat -> plane R * G)
  (blur : plane R -> R -> R -> R -> R -> plane R)
  (g : G) (MF : plane R) (N : nat) (xf sn yf theta : R) (bkg : string) (std : option R)
  (seed : option Z) (bias : R),
  (1 <= nr MF)%nat -> (1 <= nc MF)%nat ->
  (forall m s xf yf theta, shape (blur m s xf yf theta) = shape m) ->
  (bkg <> "poisson"%string -> bkg <> "gaussian"%string ->
   image default_rng rng_normal rng_poisson blur g MF N xf sn yf theta bkg std seed bias
   = (Raise UnboundLocalError, g)) /\
  (forall s, seed = Some s ->
   snd (image default_rng rng_normal rng_poisson blur g MF N xf sn yf theta bkg std seed bias) = g /\
   forall g2, fst (image default_rng rng_normal rng_poisson blur g2 MF N xf sn yf theta bkg std seed bias)
   = fst (image default_rng rng_normal rng_poisson blur g MF N xf sn yf theta bkg std seed bias)).
Proof. exact C78_image_background_lm. Qed.
Print Assumptions C78_image_background.

Example C78_case :
  fst (image (fun _ => tt) (fun g _ _ n => (pconst (n, n) 7, g)) (fun g _ n => (pconst (n, n) 7, g))
    (fun m _ _ _ _ => m) tt (pconst (2, 2)%nat 1) 2 3 30 0 0 "uniform" None None 100)
  = Raise UnboundLocalError.
Proof. reflexivity. Qed.

(** C79: [astropy_Psf] does not clip its tail: it raises IndexError as soon as the tail
    reaches beyond the array... *)
Theorem C79_astropy_psf_index_error : forall (N : nat) (fwhm : R),
  (1 <= N)%nat -> 0 < fwhm ->
  (Z.of_nat N < Z.of_nat ((N - 1) / 2) + Ztrunc (7 * (fwhm / (2335 / 1000))))%Z ->
  astropy_Psf N fwhm = Raise IndexError.
Proof. exact C79_astropy_psf_index_error_lm. Qed.
Print Assumptions C79_astropy_psf_index_error.

Example C79_error_case : (Z.of_nat 5 < Z.of_nat ((5 - 1) / 2) + Ztrunc (7 * (2335 / 1000 / (2335 / 1000))))%Z.
Proof.
  replace (7 * (2335 / 1000 / (2335 / 1000))) with 7 by field.
  rewrite Ztrunc_IZR. reflexivity.
Qed.

(** ... and otherwise returns a non-negative array summing to one (nan if the tail is
    empty). *)
Theorem C79_astropy_psf_normalised : forall (N : nat) (fwhm : R),
  (1 <= N)%nat -> 2335 / 7000 <= fwhm ->
  (Z.of_nat ((N - 1) / 2) + Ztrunc (7 * (fwhm / (2335 / 1000))) <= Z.of_nat N)%Z ->
  exists q p, astropy_Psf N fwhm = Ok q /\ plane_eq q (pmap Some p) /\ shape p = (N, N) /\
    (forall i j, (i < N)%nat -> (j < N)%nat -> 0 <= px p i j) /\ total p = 1.
Proof. exact C79_astropy_psf_normalised_lm. Qed.
Print Assumptions C79_astropy_psf_normalised.

Example C79_case : (Z.of_nat ((30 - 1) / 2) + Ztrunc (7 * (2335 / 1000 / (2335 / 1000))) <= Z.of_nat 30)%Z.
Proof.
  replace (7 * (2335 / 1000 / (2335 / 1000))) with 7 by field. rewrite Ztrunc_IZR. discriminate.
Qed.
