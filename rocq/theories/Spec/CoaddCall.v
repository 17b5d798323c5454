(** Vocabulary for the images that a coadd builds itself. *)
From Coq Require Import ZArith List Bool Arith Reals String.
From Coquelicot Require Import Complex.
From Verif.Model Require Import Py Plane Ma Image Interp Sources KL Session Chain Gauss GaussSub Rebuild CoaddCall.
From Verif.Spec Require Import Image Session.
Import ListNotations.

(** An image, or something of which the constructor makes one with its defaults. *)
Definition can_be_made (fs : string -> option (list hdu)) (nsum : list pix -> pix) (e : entry) : Prop :=
  match e with
  | Made _ _ _ => True
  | NotMade s => exists im, construct fs nsum (plain_args s) = Ok im
  end.

(** The sources of the image were looked at after the history [cs]. *)
Definition detected (cs : list call) (x : built) : Prop :=
  best _ _ _ (exec_all _ _ _ (bu_lib x) cs (bu_attr x)) <> None.

(** An image with stars in it, that was made with the options [o] and has the history [cs]. *)
Definition starry (W : libs) (fuel : nat) (o : choices) (im : image) (cs : list call) (x : built) : Prop :=
  build W fuel o (mdata im) = Some (Ok x) /\
  (exists sp, stamps_of _ _ _ (bu_lib x) (Session.stamp_shape _ _ _ (bu_attr x)) = Ok sp) /\ Forall plain cs.
