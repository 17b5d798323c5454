(** Vocabulary for the images that a subtraction builds itself. *)
From Coq Require Import ZArith List Bool Arith Reals SpecFloat.
From Verif.Model Require Import Py Plane Ma Image Interp Subtract Chain Rebuild.
From Verif.Spec Require Import Image Float32.

(** The pixel [p] in single precision. *)
Definition in_single (p p' : pix) : Prop :=
  match p with
  | S754_nan => p' = S754_nan
  | S754_infinity s => p' = S754_infinity s
  | _ => rounded (value p) p'
  end.

(** The mask of [im] is what seven rounds of enlargement make of the flags. *)
Definition mask_from (flag : nat -> nat -> Prop) (im : image) : Prop :=
  exists init : nat -> nat -> bool,
    (forall i j, i < nr (pixels im) -> j < nc (pixels im) -> (init i j = true <-> flag i j)) /\
    (forall i j, i < nr (pixels im) -> j < nc (pixels im) ->
       (is_masked im i j <-> grown (shape (pixels im)) 7 init i j = true)).

(** Every pixel below -50 or above 65000 is masked (as in every image of the package). *)
Definition range_masked (im : image) : Prop :=
  forall i j, i < nr (pixels im) -> j < nc (pixels im) -> out_of_range (px (pixels im) i j) -> is_masked im i j.

(** Made before the call. *)
Definition ready (x : operand) : Prop := match x with Suits _ => True | _ => False end.
