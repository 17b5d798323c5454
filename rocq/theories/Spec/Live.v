(** Words used in the statements about histories of an image whose stamps are cut in place. *)
From Coq Require Import List Reals.
From Verif.Model Require Import Py Plane Sources Session.
Import ListNotations.
Local Open Scope R_scope.

(** No other shape of the stamps and no other catalogue is asked for or set: what a plain
    history (Spec/Session.v) does, and setting inf_loss, negative losses and closing the image
    as well. *)
Definition same_stamps (c : call) : Prop :=
  match c with
  | CGetPSF _ sh => sh = None
  | CUpdateSources new => new = None
  | CSetStampShape _ => False
  | _ => True
  end.
