(** Masks read from FITS images. *)
From Coq Require Import ZArith List Bool Arith Reals.
From Coq Require Import SpecFloat.
From Verif.Model Require Import Py Plane Ma Image.
From Verif.Spec Require Import Image Float32.
Import ListNotations.

(** The pixels of a mask image are numbers that are 0 or at least 1. *)
Definition counts (m : plane pix) : Prop :=
  forall i j, i < nr m -> j < nc m ->
    valid_binary 53 1024 (px m i j) = true /\ finiteb (px m i j) = true /\
    (value (px m i j) = 0 \/ 1 <= value (px m i j))%R.

(** The number of cells that are 0. *)
Definition zero_cells (m : plane pix) : nat :=
  set_cells (pmap (fun v => match v with S754_zero _ => true | _ => false end) m).

(** The mask [e] is the one of the image [c] is built with: the mask argument is the name of a
    file whose first image is [e], or there is none and [e] is the second image of the HDU
    list, or of the file, whose header says that it has extensions. *)
Definition mask_image (fs : String.string -> option (list hdu)) (c : args) (e : plane pix) : Prop :=
  (exists n h rest, a_mask c = MPath n /\ fs n = Some (h :: rest) /\ e = h_data h) \/
  (a_mask c = MNone /\ a_guess c = true /\
   exists h k rest, (a_img c = HduList (h :: k :: rest) \/
                     exists n, a_img c = Path n /\ fs n = Some (h :: k :: rest)) /\
                    h_extend h = Some true /\ e = h_data k).
