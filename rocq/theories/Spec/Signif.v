(** What the significance image of a subtraction is. *)
From Coq Require Import Arith ZArith List Bool Reals.
From Coquelicot Require Import Complex.
From Verif.Model Require Import Py Plane Ma Subtract.
From Verif.Spec Require Import Fourier Subtract.
Local Open Scope R_scope.

(** The transform of the PSF used for an image: the value at a frequency, 2^-52 where its real
    part is 0. *)
Definition Hpsf (fitted : bool) (x : dimg) (u v : nat) : C :=
  let z := px (fft2_ortho (pad_to (d_shape x) (pmap RtoC (used_psf fitted x)))) u v in
  if Req_EM_T (fst z) 0 then RtoC (/ 2 ^ 52) else z.

Definition sqmod (z : C) : C := (z * Cconj z)%C.

(** sigma_n^2 |Hr|^2 + b^2 sigma_r^2 |Hn|^2 *)
Definition denom (fitted : bool) (ref new : dimg) (b : R) (u v : nat) : C :=
  (RtoC (d_var new ^ 2) * sqmod (Hpsf fitted ref u v) +
   RtoC (b ^ 2 * d_var ref ^ 2) * sqmod (Hpsf fitted new u v))%C.

(** Where a PSF image is centred: at its centre of mass; at its brightest cell (the first one,
    row by row) when they are more than 30 cells apart on an axis. *)
Definition center_of (P : plane R) (cx cy : R) : Prop :=
  exists kx ky, (kx < nr P)%nat /\ (ky < nc P)%nat /\
    (forall i j, (i < nr P)%nat -> (j < nc P)%nat -> px P i j <= px P kx ky) /\
    (forall i j, (i < nr P)%nat -> (j < nc P)%nat -> (i < kx \/ (i = kx /\ j < ky))%nat -> px P i j < px P kx ky) /\
    let '(mx, my) := center_of_mass P in
    let apart := 30 < Rabs (mx - INR kx) \/ 30 < Rabs (my - INR ky) in
    (apart -> cx = INR kx /\ cy = INR ky) /\ (~ apart -> cx = mx /\ cy = my).

(** The pixels of an image plus 1. *)
Definition plus_one (x : dimg) : plane C :=
  mkplane (fst (d_shape x)) (snd (d_shape x)) (fun i j => RtoC (d_data x i j + 1)).

Definition squared (k : plane C) : plane C := mkplane (nr k) (nc k) (fun i j => (px k i j * px k i j)%C).

(** The transform of an image, an array given by a function, and a product with one. *)
Definition image_hat (x : dimg) : plane C :=
  fft2_ortho (mkplane (fst (d_shape x)) (snd (d_shape x)) (fun i j => RtoC (d_interped x i j))).
Definition arr2 (sh : nat * nat) (f : nat -> nat -> C) : plane C := mkplane (fst sh) (snd sh) f.
Definition times (sh : nat * nat) (f : nat -> nat -> C) (F : plane C) : plane C :=
  mkplane (fst sh) (snd sh) (fun u v => (f u v * px F u v)%C).
