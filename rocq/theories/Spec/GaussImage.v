(** Words used in the statements about images with a Gaussian PSF. *)
From Coq Require Import ZArith List Bool Arith Reals.
From Verif.Model Require Import Py Plane Sources KL Session Gauss.
From Verif.Spec Require Import Session.
Import ListNotations.
Local Open Scope R_scope.

(** Plain calls; get_variable_psf may be given any loss and shape. *)
Definition g_plain (c : call) : Prop := match c with CGetPSF _ _ => True | c => plain c end.

(** The same history, with get_variable_psf replaced by a call that sets nothing. *)
Definition forget (c : call) : call := match c with CGetPSF _ _ => CNSources | c => c end.
Definition g_history (cs : list call) : memory := history (map forget cs).
Definition g_last_loss (cs : list call) : R := last_loss (map forget cs).

(** The Gaussian fitted to the stamps: each stamp is fitted, and the means of the widths and of
    the angle, as sigma_clipped_stats gives them, are rendered with amplitude 1. *)
Definition gaussian_of (fitter : start -> plane R -> gaussian) (stats : list R -> R * R * R)
  (render : R -> R -> R -> R -> plane (option R)) (stamps : list (plane R)) (G : plane (option R)) : Prop :=
  exists gs, Forall2 (fun stamp g => fit_gaussian2d fitter stamp = Ok g) stamps gs /\
    let mean f := fst (fst (stats (map f gs))) in G = render (mean xw) (mean yw) (mean th) 1.

(** The same value at points opposite with respect to the centre (a, c). *)
Definition symmetric (p : plane R) (a c : nat) : Prop :=
  nr p = (2 * a + 1)%nat /\ nc p = (2 * c + 1)%nat /\
  forall i j, (i < nr p)%nat -> (j < nc p)%nat -> px p i j = px p (2 * a - i) (2 * c - j).
