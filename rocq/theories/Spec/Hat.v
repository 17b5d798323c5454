(** Words used in the statements about the transform of the interpolated image. *)
From Coq Require Import ZArith List Bool Arith Reals.
From Verif.Model Require Import Py Plane Sources Stamps Interp Cut Hat.
Import ListNotations.
Local Open Scope R_scope.

(** The image after the extractions of a history, in their order. *)
Fixpoint left_after stats label (cs : list step) (im : plane (option R)) : plane (option R) :=
  match cs with
  | [] => im
  | AskHat :: t => left_after stats label t im
  | Extract pk rms sh sources :: t =>
      left_after stats label t (fst (cut_stamps stats label pk im rms sh sources))
  end.

(** The part of a history before interped_hat is read for the first time; all of it when it is
    never read. *)
Fixpoint until_asked (cs : list step) : list step :=
  match cs with
  | [] => []
  | AskHat :: _ => []
  | c :: t => c :: until_asked t
  end.

(** No cell is nan. *)
Definition no_nan (im : plane (option R)) : Prop :=
  forall i j, (i < nr im)%nat -> (j < nc im)%nat -> px im i j <> None.
