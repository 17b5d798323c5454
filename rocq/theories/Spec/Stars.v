(** Specification of the star fields that are simulated. *)
From Coq Require Import List Reals Arith.
From Verif.Model Require Import Plane.
Import ListNotations.
Local Open Scope R_scope.

(** The brightness of star number [k] of [n]: evenly spaced from 10000 down to 100 (a single
    star has 100). *)
Definition brightness (n k : nat) : R :=
  if Nat.eqb n 1 then 100 else 10000 - 9900 * (INR k / INR (n - 1)).

(** [m] is an N x N image of the listed stars, each in a single pixel; of stars in the same
    pixel only the last one is there. *)
Definition star_map (N : nat) (stars : list (nat * nat)) (m : plane R) : Prop :=
  shape m = (N, N) /\
  forall a b, (a < N)%nat -> (b < N)%nat ->
    (~ In (a, b) stars -> px m a b = 0) /\
    (forall k, nth_error stars k = Some (a, b) ->
       (forall k', (k < k')%nat -> nth_error stars k' <> Some (a, b)) ->
       px m a b = brightness (length stars) k).
