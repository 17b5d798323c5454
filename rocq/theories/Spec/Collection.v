(** Words used in the statements about a collection of images. *)
From Coq Require Import ZArith List Bool Arith Reals Permutation.
From Verif.Model Require Import Py Session Transparency Chain ChainCoadd Again SubAgain Stopped Collection.
From Verif.Spec Require Import Transparency Again SubAgain Stopped.
Import ListNotations.
Local Open Scope R_scope.

(** Images that were made from pixels and asked questions, and were in no operation yet. *)
Definition untouched (us : nat -> built * list call) : images := fun k => mkheld (after (snd (us k)) (fst (us k))) None.

(** An attempt at a subtraction of one image, or a coadd of different ones, out of the images 1 to
    [N - 1], with a loss that is not negative. *)
Definition proper (N : nat) (a : attempt) : Prop :=
  NoDup (map fst (at_others a)) /\ Forall (fun k => 0 < k < N)%nat (map fst (at_others a)) /\ 0 <= loss_asked (at_op a) /\
  (is_sub (at_op a) -> exists j, at_others a = [j]).

(** The reference can be matched with each of the images without ties. *)
Definition clear_all (N : nat) (st : images) : Prop :=
  forall k c b, (0 < k < N)%nat -> catalogue_of (st 0%nat) = Ok c -> catalogue_of (st k) = Ok b -> clear_match c b.

(** No star is rejected while the attempts [l] are made: the images have as many stars after each
    of them as they had before. *)
Definition none_lost (W : libs) (N : nat) (l : list attempt) (st : images) : Prop :=
  forall done todo st1 k c c1, l = done ++ todo -> begun_all W done st = Ok st1 -> (k < N)%nat ->
    catalogue_of (st k) = Ok c -> catalogue_of (st1 k) = Ok c1 -> stars c1 = stars c.

(** The attempts between two coadds of the reference and the images [ks] for the loss [l]:
    subtractions, and coadds of the same images for the same loss. *)
Definition between_coadds (ks : list nat) (l : R) (a : attempt) : Prop :=
  is_sub (at_op a) \/ (loss_asked (at_op a) = l /\ map fst (at_others a) = ks).
