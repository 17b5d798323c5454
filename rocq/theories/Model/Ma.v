(** The part of numpy.ma the modelled functions rely on (not functions of /repo). *)
From Coq Require Import Arith List Bool.
From Verif.Model Require Import Py Plane.
Import ListNotations.

(** The mask of a masked array: [nomask] (the scalar False) or a boolean array. *)
Inductive mask : Type := Nomask | Full (m : plane bool).

(** Is some cell of the array True? ([m.any()]) *)
Definition anyb (m : plane bool) : bool :=
  existsb (fun i => existsb (fun j => px m i j) (seq 0 (nc m))) (seq 0 (nr m)).

(** [make_mask(m, shrink=True)]: an all-False mask becomes [nomask]. *)
Definition shrink (m : plane bool) : mask := if anyb m then Full m else Nomask.

(** [ma.mask_or(m1, m2)] with the default shrink=True. The shortcut "m1 is m2" of numpy
    is never taken: [.mask] returns a new view at each access. *)
Definition mask_or (m1 m2 : mask) : res mask :=
  match m1, m2 with
  | Nomask, Nomask => Ok Nomask
  | Nomask, Full m => Ok (shrink m)
  | Full m, Nomask => Ok (shrink m)
  | Full a, Full b =>
      match ufunc2 orb a b with
      | Ok r => Ok (shrink r)
      | Raise e => Raise e
      end
  end.

(** Is cell (i,j) masked? *)
Definition masked_at (m : mask) (i j : nat) : bool :=
  match m with Nomask => false | Full p => px p i j end.
