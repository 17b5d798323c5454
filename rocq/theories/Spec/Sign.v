(** Words for the statements on the sign of the PSF in a subtraction. *)
From Coq Require Import Arith List Bool Reals.
From Coquelicot Require Import Complex.
From Verif.Model Require Import Py Plane Ma Subtract.
Local Open Scope R_scope.

(** The same image with the negative of its PSF stamp; with no light in its pixels. *)
Definition with_negative_psf (x : dimg) : dimg :=
  mkdimg (d_shape x) (d_data x) (d_mask x) (d_interped x) (d_var x) (pmap Ropp (d_stamp x)) (d_render x).
Definition without_light (x : dimg) : dimg :=
  mkdimg (d_shape x) (d_data x) (d_mask x) (fun _ _ => 0) (d_var x) (d_stamp x) (d_render x).

(** No frequency of the PSF of [x] in its frame has a vanishing real part (subtract replaces
    such values by a small positive number). *)
Definition no_vanishing_part (x : dimg) : Prop :=
  forall u v, (u < fst (d_shape x))%nat -> (v < snd (d_shape x))%nat ->
    fst (px (fft2_ortho (pad_to (d_shape x) (pmap RtoC (d_stamp x)))) u v) <> 0.
