(** Model of the tunable values of a SingleImage
    (properimage/single_image.py 111-137 and 1214-1251). [V] stands for the values a user may
    store; [None] is Python's None, and an attribute that was never set is [None] on the
    outside. *)
From Coq Require Import ZArith List.
Import ListNotations.

Section Knobs.
Variable V : Type.
(** The constants 20, 16 and 1.0. *)
Variables twenty sixteen one : V.

Record knobs : Type := mkknobs {
  k_min : option (option V);   (* _min_sources *)
  k_mask : option (option V);  (* _maskthresh *)
  k_zp : option (option V) }.  (* _zp *)

(** single_image.py:1222-1224 *)
Definition set_min (v : option V) (k : knobs) : knobs := mkknobs (Some v) (k_mask k) (k_zp k).
(** single_image.py:1234-1239 *)
Definition set_mask (v : option V) (k : knobs) : knobs :=
  mkknobs (k_min k) (Some (match v with Some x => Some x | None => Some sixteen end)) (k_zp k).
(** single_image.py:1249-1251 *)
Definition set_zp (v : option V) (k : knobs) : knobs := mkknobs (k_min k) (k_mask k) (Some v).

(** single_image.py:1214-1220 *)
Definition min_sources (k : knobs) : option V :=
  match k_min k with None => Some twenty | Some v => v end.
(** single_image.py:1226-1232 *)
Definition maskthresh (k : knobs) : option V :=
  match k_mask k with None => Some sixteen | Some v => v end.
(** single_image.py:1241-1247 *)
Definition zp (k : knobs) : option V :=
  match k_zp k with None => Some one | Some v => v end.

(** single_image.py:130-137: the constructor. *)
Definition build (min mask : option V) : knobs :=
  let k := mkknobs None None None in
  let k := match min with Some _ => set_min min k | None => k end in
  let k := set_zp (Some one) k in
  set_mask mask k.

(** What a user may do afterwards. *)
Inductive knob : Type := KMin (v : option V) | KMask (v : option V) | KZp (v : option V).
Definition turn (k : knobs) (a : knob) : knobs :=
  match a with KMin v => set_min v k | KMask v => set_mask v k | KZp v => set_zp v k end.
Definition turn_all (l : list knob) (k : knobs) : knobs := fold_left turn l k.
End Knobs.
