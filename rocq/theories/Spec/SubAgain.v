(** Words used in the statements about subtracting and coadding the same two images again. *)
From Coq Require Import ZArith List Bool Arith Reals.
From Verif.Model Require Import Py Plane Coadd Subtract Filter Session Transparency Chain ChainCoadd Again SubAgain.
From Verif.Spec Require Import Transparency Again.
Import ListNotations.
Local Open Scope R_scope.

(** What an operation answers, without what it leaves. *)
Definition result {A B} (r : res (A * B)) : res A :=
  match r with Ok (a, _) => Ok a | Raise e => Raise e end.

(** The information loss that a task is asked for. *)
Definition loss_asked (k : task) : R :=
  match k with Sub l _ _ _ => l | Add _ _ l _ => l end.

Definition is_sub (k : task) : Prop := match k with Sub _ _ _ _ => True | Add _ _ _ _ => False end.

(** The catalogues of the two images, the reference first. *)
Definition catalogues (p : held * held) : res (cat * cat) :=
  bind (catalogue_of (fst p)) (fun a => bind (catalogue_of (snd p)) (fun b => Ok (a, b))).

(** Two images that were made from pixels and asked questions, and were in no operation yet. *)
Definition start_with (u v : built * list call) : held * held :=
  (mkheld (after (snd u) (fst u)) None, mkheld (after (snd v) (fst v)) None).
