(** What may happen to two images between their subtractions. *)
From Coq Require Import List Reals.
From Verif.Model Require Import Session LiveRounds.
From Verif.Spec Require Import Session LiveMore.
Local Open Scope R_scope.

(** Plain calls and other sources on both, and subtractions with a loss that is not negative. *)
Definition usual (r : round) : Prop :=
  match r with
  | Calls cs cs' => Forall later cs /\ Forall later cs'
  | Sub loss _ _ _ => 0 <= loss
  end.
