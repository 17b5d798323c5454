(** Words used in the statements about the interpolated image. *)
From Coq Require Import ZArith List Bool Arith Reals.
From Verif.Model Require Import Py Plane Interp.
Import ListNotations.
Local Open Scope R_scope.

(** Pixel (i, j) of the image can be used: it is a number and it is not masked. *)
Definition good (data : mimg) (i j : nat) : Prop :=
  (i < nr (m_dat data))%nat /\ (j < nc (m_dat data))%nat /\
  px (m_msk data) i j = false /\ px (m_dat data) i j <> None.

(** Cells one step apart, or the same cell. *)
Definition touching (i j i' j' : nat) : Prop :=
  (i <= S i' /\ i' <= S i /\ j <= S j' /\ j' <= S j)%nat.

(** What is expected of the convolution: it keeps the shape and gives a number at every cell
    that touches a number. (The kernel of the code reaches five cells away.) *)
Definition spreads (conv : plane (option R) -> plane (option R)) : Prop :=
  forall a, shape (conv a) = shape a /\
  forall i j i' j', (i < nr a)%nat -> (j < nc a)%nat -> (i' < nr a)%nat -> (j' < nc a)%nat ->
    touching i j i' j' -> px a i' j' <> None -> px (conv a) i j <> None.

(** Nothing can be made of an image of nan. *)
Definition keeps_nothing (conv : plane (option R) -> plane (option R)) : Prop :=
  forall a, (forall i j, (i < nr a)%nat -> (j < nc a)%nat -> px a i j = None) ->
  forall i j, (i < nr a)%nat -> (j < nc a)%nat -> px (conv a) i j = None.
