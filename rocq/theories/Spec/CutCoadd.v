(** Words used in the statements about coadds of new images. *)
From Coq Require Import ZArith List Bool Arith Reals.
From Coquelicot Require Import Complex.
From Verif.Model Require Import Py Plane Ma Image Interp Sources Stamps Cut KL Session Chain.
From Verif.Spec Require Import Session Cut.
Import ListNotations.
Local Open Scope R_scope.

(** Images with the choices of their users, as coadd gets them. *)
Definition new_images (l : list (choices * image)) : list (choices * mimg) :=
  map (fun a => (fst a, mdata (snd a))) l.

(** The extraction of the stamps of the sources [c] from an image of which no stamps were
    extracted before: what is left of the image, and the stamps. *)
Definition first_cut (W : libs) (o : choices) (x : built) (c : list src) : plane (option R) * res extraction :=
  cut_stamps (l_stats W) (l_label W) (mkpicks (o_pick o) None) (intact (bu_clean x)) (var (bu_back x))
    (Session.stamp_shape _ _ _ (bu_attr x)) c.

(** A new image of shape [sh] with sources of which the stamps can be extracted. *)
Definition can_cut (W : libs) (fuel : nat) (sh : nat * nat) (a : choices * built) : Prop :=
  let o := fst a in let x := snd a in
  (exists d, build W fuel o d = Some (Ok x)) /\
  shape (m_dat (bu_data x)) = sh /\ shape (m_msk (bu_data x)) = sh /\
  (exists c last ex, Session.select _ _ _ (bu_lib x) = Ok c /\ first_cut W o x c = (last, Ok ex)).
