(** Words used in the statements about subtractions with Gaussian PSFs. *)
From Coq Require Import ZArith List Bool Arith Reals.
From Verif.Model Require Import Py Plane Ma Interp Subtract Sources KL Session Transparency Chain Gauss.
From Verif.Spec Require Import Session Uses.
Import ListNotations.
Local Open Scope R_scope.

(** The widths along x and y and the angle of the Gaussian of an image with these stamps: each
    stamp is fitted, and the means are those of sigma_clipped_stats. *)
Definition params_of (fitter : Gauss.start -> plane R -> gaussian) (stats : list R -> R * R * R)
  (stamps : list (plane R)) (g : R * R * R) : Prop :=
  exists gs, Forall2 (fun stamp f => fit_gaussian2d fitter stamp = Ok f) stamps gs /\
    let mean f := fst (fst (stats (map f gs))) in g = (mean xw, mean yw, mean th).

(** The square of the distance from the centre in units of the widths, the axes being turned by
    the angle [th]. *)
Definition rotated (xw yw th x y : R) : R :=
  ((x * cos th + y * sin th) / xw) ^ 2 + ((y * cos th - x * sin th) / yw) ^ 2.

(** The cells of a PSF in a frame of shape [sh] are those of a Gaussian of height 1 with its
    centre at row [y0] and column [x0]. *)
Definition gaussian_at (psf : nat -> nat -> R) (sh : nat * nat) (xw yw th y0 x0 : R) : Prop :=
  forall i j, (i < fst sh)%nat -> (j < snd sh)%nat ->
    psf i j = exp (- rotated xw yw th (INR j - x0) (INR i - y0) / 2).

(** What a subtraction with Gaussian PSFs reads of an image that was built and has the history
    [cs], [left] being the sources that the matching left in it: the stamps are those of these
    sources if no stamps were asked for before, and otherwise those of the sources found in the
    image. *)
Definition g_reads (fitter : Gauss.start -> plane R -> gaussian) (stats : list R -> R * R * R) (x : built)
  (cs : list call) (left : list src) (g : R * R * R) (u : dimg) : Prop :=
  let L := bu_lib x in let sh := Session.stamp_shape _ _ _ (bu_attr x) in let d := bu_data x in
  (exists stamps p,
     stamps_of _ _ _ (if stamps_read (looked_at (bu_attr x)) cs then L else given L left) sh = Ok (stamps, p) /\
     params_of fitter stats stamps g) /\
  d_shape u = shape (m_dat d) /\ d_mask u = Full (m_msk d) /\ d_var u = var (bu_back x) /\
  (forall i j, d_interped u i j = px (bu_clean x) i j) /\
  (forall i j, px (m_msk d) i j = true -> d_data u i j = 0) /\
  (forall i j v, px (m_msk d) i j = false -> px (m_dat d) i j = Some v -> d_data u i j = v).
