(** Words used in the statements about coadds of images built from pixels. *)
From Coq Require Import ZArith List Bool Arith Reals.
From Verif.Model Require Import Py Plane Ma Image Interp Sources KL Session Chain.
Import ListNotations.

(** An image, what its user chose when making it, and what was asked of it before the coadd. *)
Definition used_image : Type := choices * image * list call.

(** The same choices and questions, and images that are related by [rel]. *)
Definition used_alike (rel : image -> image -> Prop) (a b : used_image) : Prop :=
  let '(o, im, cs) := a in
  let '(o', im', cs') := b in
  o = o' /\ cs = cs' /\ rel im im'.

(** The images as coadd gets them. *)
Definition loaded (l : list used_image) : list (choices * mimg * list call) :=
  map (fun '(o, im, cs) => (o, mdata im, cs)) l.
