(** Python primitives used by the model of ProperImage.

    Nothing here models a function of /repo; these are the pieces of Python's
    and numpy's own semantics the modelled functions rely on. *)
From Coq Require Import ZArith List Bool.
Import ListNotations.

(** Python exceptions are values of the model. *)
Inductive exn : Set :=
| ValueError | TypeError | IndexError | KeyError | AttributeError
| ZeroDivisionError | UnboundLocalError | IOError | NoOverlapError | NoDataToPlot.

Inductive res (A : Type) : Type :=
| Ok (a : A)
| Raise (e : exn).
Arguments Ok {A} a.
Arguments Raise {A} e.

Definition bind {A B : Type} (r : res A) (f : A -> res B) : res B :=
  match r with Ok a => f a | Raise e => Raise e end.

(** Normalisation of one bound of a slice [seq[a:b]] (step 1) of a sequence of
    [n] items: negative bounds count from the end, everything is clipped to
    [0..n]. *)
Definition slice_bound (n i : Z) : Z :=
  if (i <? 0)%Z then Z.max 0 (i + n) else Z.min i n.

(** [seq[a:b]] *)
Definition pyslice {A : Type} (l : list A) (a b : Z) : list A :=
  let n := Z.of_nat (length l) in
  let lo := slice_bound n a in
  let hi := slice_bound n b in
  firstn (Z.to_nat (hi - lo)) (skipn (Z.to_nat lo) l).

(** Index normalisation of [seq[i]]: [None] is IndexError. *)
Definition py_index (n i : Z) : option nat :=
  if (i <? - n)%Z || (n <=? i)%Z then None
  else if (i <? 0)%Z then Some (Z.to_nat (i + n)) else Some (Z.to_nat i).

(** [seq[i]] *)
Definition pyget {A : Type} (l : list A) (i : Z) : res A :=
  match py_index (Z.of_nat (length l)) i with
  | None => Raise IndexError
  | Some k => match nth_error l k with Some a => Ok a | None => Raise IndexError end
  end.
