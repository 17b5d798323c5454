(** Words used in the statements about the stars a PSF is made of. *)
From Coq Require Import ZArith List Bool Arith Reals.
From Verif.Model Require Import Py Plane Ma Interp Sources KL Session Transparency Subtract Chain.
From Verif.Spec Require Import Session.
Import ListNotations.
Local Open Scope R_scope.

(** The same image with the detection replaced by a given list of stars. *)
Definition given {NI FT IM} (L : lib NI FT IM) (stars : list src) : lib NI FT IM :=
  mklib NI FT IM (Ok stars) (Session.extract _ _ _ L) (Session.eigh _ _ _ L) (Session.smooth _ _ _ L) (Session.fit _ _ _ L)
    (normal_of _ _ _ L) (shat_of _ _ _ L) (ifft_real _ _ _ L).

(** Have stamps been asked for in a history? Looking at the sources and setting the zero point
    does not ask for stamps; resetting the sources does, once they have been looked at. *)
Fixpoint stamps_read (looked : bool) (cs : list call) : bool :=
  match cs with
  | [] => false
  | CSetZp _ :: t => stamps_read looked t
  | CBestSources :: t => stamps_read true t
  | CUpdateSources _ :: t => if looked then true else stamps_read false t
  | _ :: _ => true
  end.

(** Without a stamp_shape the constructor looks at the sources. *)
Definition looked_at {NI FT IM} (s : si NI FT IM) : bool :=
  match best _ _ _ s with Some _ => true | None => false end.

Definition no_new_sources (c : call) : Prop := match c with CUpdateSources _ => False | _ => True end.

(** Where a star is, and how bright. *)
Definition spot (s : src) : R * R * R := (s_x s, s_y s, s_flux s).

(** What a subtraction reads of an image that was built and has the history [cs], [left] being
    the sources that the matching left in it: the PSF is the first element of the PSF for the
    loss [l], made of these sources if no stamps were asked for before, and otherwise of the
    sources found in the image. *)
Definition reads (l : R) (x : built) (cs : list call) (left : list src) (u : dimg) : Prop :=
  let L := bu_lib x in let sh := Session.stamp_shape _ _ _ (bu_attr x) in let d := bu_data x in
  (exists f p t,
     (if stamps_read (looked_at (bu_attr x)) cs then psf_for _ _ _ L sh l else psf_for _ _ _ (given L left) sh l)
       = Ok (f, p :: t) /\
     shape (d_stamp u) = shape p /\ forall i j v, px p i j = Some v -> px (d_stamp u) i j = v) /\
  d_shape u = shape (m_dat d) /\ d_mask u = Full (m_msk d) /\ d_var u = var (bu_back x) /\
  (forall i j, d_interped u i j = px (bu_clean x) i j) /\
  (forall i j, px (m_msk d) i j = true -> d_data u i j = 0) /\
  (forall i j v, px (m_msk d) i j = false -> px (m_dat d) i j = Some v -> d_data u i j = v).
