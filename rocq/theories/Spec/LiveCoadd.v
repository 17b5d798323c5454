(** Words used in the statements about coadds of images that were used before. *)
From Coq Require Import ZArith List Bool Arith Reals.
From Coquelicot Require Import Complex.
From Verif.Model Require Import Py Plane Ma Interp Sources Stamps Cut KL Session Chain Live LiveSub LiveCoadd.
From Verif.Spec Require Import Session Uses CutCoadd Live LiveFar.
Import ListNotations.
Local Open Scope R_scope.

(** An image with the choices of its user and the calls that were made on it. *)
Definition used : Type := (choices * built) * list call.

(** What it has become. *)
Definition live_of (W : libs) (h : used) : limage :=
  (fst h, lived W (fst (fst h)) (snd h) (snd (fst h))).

(** Its shape is [sh], the stamps of the sources found in it can be extracted, and the calls give
    no shape and no negative loss. *)
Definition fit_for (W : libs) (fuel : nat) (sh : nat * nat) (h : used) : Prop :=
  can_cut W fuel sh (fst h) /\ Forall plain (snd h).

(** The sources whose stamps are cut: those found in the image if stamps were asked for. *)
Definition cut_of (x : built) (cs : list call) (left : list src) : list src :=
  if stamps_read (looked_at (bu_attr x)) cs then own_sources x else left.
