(** Words used in the statements about histories of a Gaussian image whose stamps are cut in
    place. *)
From Coq Require Import List Reals.
From Verif.Model Require Import Py Plane Sources Session.
From Verif.Spec Require Import Live.

(** Calls that ask for no other stamps; get_variable_psf may be given any shape, which this class
    does not use. *)
Definition g_same_stamps (c : call) : Prop := match c with CGetPSF _ _ => True | c => same_stamps c end.

(** The shapes of the stamps a call of this class asks for: only the setter does. *)
Definition g_asks_shape (c : call) : list (nat * nat) := match c with CSetStampShape q => (q :: nil)%list | _ => nil end.
