(** Words used in the statements about what a coadd reads of its images. *)
From Coq Require Import ZArith List Bool Arith Reals.
From Coquelicot Require Import Complex.
From Verif.Model Require Import Py Plane Ma Interp Filter Sources KL Session Chain.
From Verif.Spec Require Import Session Uses.
Import ListNotations.
Local Open Scope R_scope.

(** The fields of a PSF, as functions of the pixel. *)
Definition fields_at (a : fieldset) (fs : option (list (nat -> nat -> R))) : Prop :=
  match a, fs with
  | NoField, None => True
  | Fields l, Some l' => Forall2 (fun f g => forall i j, g i j = f (INR i) (INR j)) l l'
  | _, _ => False
  end.

(** The elements of a PSF, as numbers. *)
Definition elements_are (b : list (plane (option R))) (es : list (plane R)) : Prop :=
  Forall2 (fun p e => shape e = shape p /\ forall i j v, px p i j = Some v -> px e i j = v) b es.

(** What the attributes of an image are computed from, once it has been given the stars [left]:
    its own detection if stamps were asked for before. *)
Definition stars_for (x : built) (cs : list call) (left : list src) : lib (plane R) (res (plane C)) (res (plane R)) :=
  if stamps_read (looked_at (bu_attr x)) cs then bu_lib x else given (bu_lib x) left.

(** The matched filter [h] of an image: the interpolated pixels, the zero point [z], the PSF for
    the loss [l] and the normalisation image of the PSF for the loss [ln]. *)
Definition filtered (W : libs) (x : built) (L : lib (plane R) (res (plane C)) (res (plane R)))
  (l z ln : R) (h : plane C) : Prop :=
  let sh := Session.stamp_shape _ _ _ (bu_attr x) in
  exists a b a' b' fs es,
    psf_for _ _ _ L sh l = Ok (a, b) /\ psf_for _ _ _ L sh ln = Ok (a', b') /\
    fields_at a fs /\ elements_are b es /\
    Filter.s_hat (mkfimg (shape (m_dat (bu_data x))) (px (bu_clean x)) (var (bu_back x)) z)
      (px (l_normal W (shape (m_dat (bu_data x))) a' b')) fs es = Ok h.

(** The squared norm [q] of the transform of the PSF for the loss [l]. *)
Definition squared (x : built) (L : lib (plane R) (res (plane C)) (res (plane R))) (l : R) (q : plane C) : Prop :=
  exists a b fs es, psf_for _ _ _ L (Session.stamp_shape _ _ _ (bu_attr x)) l = Ok (a, b) /\
    fields_at a fs /\ elements_are b es /\ q = psf_hat_sqnorm (shape (m_dat (bu_data x))) fs es.

(** What an image with the history [cs], the stars [left] and the zero point [z] adds to a coadd
    for the loss [l]: a filtered image and the squared norm of its PSF. *)
Definition adds (W : libs) (l : R) (x : built) (cs : list call) (left : list src) (z : R) (h q : plane C) : Prop :=
  let L := stars_for x cs left in
  let m := need_filt (history (cs ++ [CCoadd l z])) in
  filtered W x L l (snd (made_of m)) (norm_loss m) h /\ squared x L l q.

(** What an image adds, with its weight in the squared norm. *)
Record part : Type := mkpart { pt_weight : R; pt_filtered : plane C; pt_squared : plane C }.

(** An image that was made from pixels, has stars, and answered questions. *)
Definition in_use (W : libs) (fuel : nat) (sh : nat * nat) (u : built * list call) : Prop :=
  let x := fst u in
  (exists o d, build W fuel o d = Some (Ok x)) /\
  shape (m_dat (bu_data x)) = sh /\ shape (m_msk (bu_data x)) = sh /\
  (exists sp, stamps_of _ _ _ (bu_lib x) (Session.stamp_shape _ _ _ (bu_attr x)) = Ok sp) /\
  Forall plain (snd u).

(** A PSF element without nan, and its numbers. *)
Definition is_stamp (p : plane (option R)) (e : plane R) : Prop :=
  shape e = shape p /\ forall i j, (i < nr e)%nat -> (j < nc e)%nat -> px p i j = Some (px e i j).
