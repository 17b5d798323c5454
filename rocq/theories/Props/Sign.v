(** C109: the sign of the PSF in a subtraction. *)
From Coq Require Import ZArith List Bool Arith Reals Lia Lra.
From Coquelicot Require Import Complex.
From Verif.Model Require Import Py Plane Ma Subtract Sources KL Session.
From Verif.Spec Require Import Coadd Fourier Subtract Sign KL Session Order.
From Verif.Proof Require Import Sign KL KLMain Session SessionFrame SessionMain SessionLm SessionExample Order OrderMain OrderSign OrderEx SignEx SignBoth.
Import ListNotations.
Local Open Scope R_scope.

(** At most 250 stars and no smoothing: another choice of the signs of the eigenvectors
    changes the signs of the elements, and of their coefficients. *)
Theorem C109_element : forall NI FT IM (L : lib NI FT IM) s sh s0 cs stamps positions l fs b,
  lib_ok L -> new_image L sh s0 -> Forall plain cs -> 0 <= l ->
  stamps_of NI FT IM L sh = Ok (stamps, positions) -> (length stamps <= 250)%nat -> smooth L = None ->
  fair_fit (fit L) positions -> (forall k, s k = 1 \/ s k = -1) ->
  fst (get_variable_psf L (Some l) None (exec_all L cs s0)) = Ok (Fields fs, b) ->
  let L' := with_eigh L (signed s (eigh L)) in
  (forall n c, eigh_ok n c (eigh L n c) -> eigh_ok n c (eigh L' n c)) /\
  exists fs' b', fst (get_variable_psf L' (Some l) None (exec_all L' cs s0)) = Ok (Fields fs', b') /\
    length fs' = length fs /\ length b' = length b /\
    (forall k x y, (k < length fs)%nat -> nth k fs' (fun _ _ => 0) x y = s k * nth k fs (fun _ _ => 0) x y) /\
    (forall k d, (k < length b)%nat -> nth k b' d = pmap (option_map (Rmult (s k))) (nth k b d)).
Proof. exact C109_element_lm. Qed.
Print Assumptions C109_element.

Example C109_element_case :
  lib_ok found /\ new_image found (1, 1)%nat (fresh _ _ _ (1, 1)%nat None) /\
  stamps_of _ _ _ found (1, 1)%nat = Ok ([row; col], [(0, 0); (1, 0)]) /\
  smooth found = None /\ fair_fit (fit found) [(0, 0); (1, 0)] /\
  exists fs b, fst (get_variable_psf found (Some 0) None (exec_all found [] (fresh _ _ _ (1, 1)%nat None))) = Ok (Fields fs, b) /\
    length b = 2%nat.
Proof. exact C109_element_case_lm. Qed.

(** The PSF of the new image with the other sign: the reference is added instead of being
    subtracted. The half of the sum of the two results is the subtraction of a reference
    without light. *)
Theorem C109_sum : forall e x y beta shift it b dx dy D P S m D' P' S' m' D0 P0 S0 m0,
  no_vanishing_part y -> 0 < d_var y ->
  ratio_and_shift e (Is x) (Is y) false beta shift it false = Ok (b, dx, dy) ->
  ratio_and_shift e (Is x) (Is (with_negative_psf y)) false beta shift it false = Ok (b, dx, dy) ->
  ratio_and_shift e (Is (without_light x)) (Is y) false beta shift it false = Ok (b, dx, dy) ->
  subtract e (Is x) (Is y) false beta shift it false = Ok (D, P, S, m) ->
  subtract e (Is x) (Is (with_negative_psf y)) false beta shift it false = Ok (D', P', S', m') ->
  subtract e (Is (without_light x)) (Is y) false beta shift it false = Ok (D0, P0, S0, m0) ->
  (forall i j, (px D i j + px D' i j)%C = (RtoC 2 * px D0 i j)%C) /\
  (forall i j, px P' i j = - px P i j) /\ m' = m.
Proof. exact C109_sum_lm. Qed.
Print Assumptions C109_sum.

Example C109_sum_case :
  let x := lit 1 in let y := lit 1 in let e := plain_env in
  no_vanishing_part y /\ 0 < d_var y /\
  ratio_and_shift e (Is x) (Is y) false false false false false = Ok (1, 0, 0) /\
  ratio_and_shift e (Is x) (Is (with_negative_psf y)) false false false false false = Ok (1, 0, 0) /\
  ratio_and_shift e (Is (without_light x)) (Is y) false false false false false = Ok (1, 0, 0) /\
  (exists r, subtract e (Is x) (Is y) false false false false false = Ok r) /\
  (exists r, subtract e (Is x) (Is (with_negative_psf y)) false false false false false = Ok r) /\
  (exists r, subtract e (Is (without_light x)) (Is y) false false false false false = Ok r).
Proof. exact C109_sum_case_lm. Qed.

(** The PSFs of both images with the other sign, and the same flux ratio and shift: the
    difference image has the other sign although its PSF has not, and so has the significance
    when the zero points are the same. *)
Theorem C109_both : forall e x y beta shift it b dx dy D P S m D' P' S' m',
  no_vanishing_part x -> no_vanishing_part y ->
  ratio_and_shift e (Is x) (Is y) false beta shift it false = Ok (b, dx, dy) ->
  ratio_and_shift e (Is (with_negative_psf x)) (Is (with_negative_psf y)) false beta shift it false = Ok (b, dx, dy) ->
  subtract e (Is x) (Is y) false beta shift it false = Ok (D, P, S, m) ->
  subtract e (Is (with_negative_psf x)) (Is (with_negative_psf y)) false beta shift it false = Ok (D', P', S', m') ->
  plane_eq D' (pmap Copp D) /\ plane_eq P' P /\ m' = m /\
  (e_transp e (with_negative_psf x) (with_negative_psf y) = e_transp e x y -> plane_eq S' (pmap (option_map Ropp) S)).
Proof. exact C109_both_lm. Qed.
Print Assumptions C109_both.

Example C109_both_case :
  let x := lit 1 in let y := lit 1 in let e := plain_env in
  no_vanishing_part x /\ no_vanishing_part y /\
  ratio_and_shift e (Is x) (Is y) false false false false false = Ok (1, 0, 0) /\
  ratio_and_shift e (Is (with_negative_psf x)) (Is (with_negative_psf y)) false false false false false = Ok (1, 0, 0) /\
  (exists r, subtract e (Is x) (Is y) false false false false false = Ok r) /\
  (exists r, subtract e (Is (with_negative_psf x)) (Is (with_negative_psf y)) false false false false false = Ok r) /\
  e_transp e (with_negative_psf x) (with_negative_psf y) = e_transp e x y.
Proof. exact C109_both_case_lm. Qed.

(** Two images with the same pixels, noise and mask, whose PSFs have opposite signs: the
    difference is not zero; it is twice the image, divided by the noise. *)
Theorem C109_equal_images_refuted : exists e x y D P S m,
  d_interped y = d_interped x /\ d_data y = d_data x /\ d_var y = d_var x /\ d_mask y = d_mask x /\
  d_stamp y = pmap Ropp (d_stamp x) /\
  ratio_and_shift e (Is x) (Is y) false false false false false = Ok (1, 0, 0) /\
  subtract e (Is x) (Is y) false false false false false = Ok (D, P, S, m) /\ px D 0 0 = RtoC (6 / sqrt 2).
Proof. exact C109_equal_images_refuted_lm. Qed.
Print Assumptions C109_equal_images_refuted.
