(** Model of [convol_gal_psf_fft] (simtools.py 122-135) and of the stars that [image] draws with
    it (simtools.py 223-271). Exact complex numbers take the place of floats. *)
From Coq Require Import ZArith List Bool Arith Reals.
From Coquelicot Require Import Complex.
From Verif.Model Require Import Py Plane Simtools.
Import ListNotations.
Local Open Scope R_scope.

Section Convol.
(** scipy's [next_fast_len]. *)
Variable fast : nat -> nat.

(** simtools.py:122-135, [sg.fftconvolve(gal, a, mode="same")] for arrays with at least one
    cell each: both are padded with zeros, the product of the transforms is transformed back,
    cut to the size of the full convolution, and the middle of it that has the size of [gal]
    is kept. *)
Definition fftconvolve_same (gal a : plane R) : plane R :=
  let full := (nr gal + nr a - 1, nc gal + nc a - 1)%nat in
  let size := (fast (fst full), fast (snd full)) in
  let hat p := dft_raw (pad_to size (pmap RtoC p)) in
  let r := ifft2 (pmap2 Cmult (hat gal) (hat a)) in
  mkplane (nr gal) (nc gal) (fun i j =>
    fst (px r (i + (fst full - nr gal) / 2)%nat (j + (snd full - nc gal) / 2)%nat)).

(** scipy.ndimage.rotate *)
Variable rotate : plane R -> R -> plane R.

(** simtools.py:253-255: the PSF of size [s] and the convolution. A PSF with nan, which makes
    every pixel nan, is not modelled: zero stands for it. *)
Definition blur_psf (m : plane R) (s xf yf theta : R) : plane R :=
  match Psf rotate s xf yf theta with
  | Ok a => fftconvolve_same m (pmap (fun x => match x with Some v => v | None => 0 end) a)
  | Raise _ => m
  end.
End Convol.
