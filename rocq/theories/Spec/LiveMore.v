(** Words used in the statements about images that are given other sources. *)
From Coq Require Import List Reals.
From Verif.Model Require Import Py Plane Sources Session.
From Verif.Spec Require Import Session.
Import ListNotations.
Local Open Scope R_scope.

(** A plain call, or one that gives the image other sources. *)
Definition later (c : call) : Prop :=
  match c with CUpdateSources _ => True | _ => plain c end.
