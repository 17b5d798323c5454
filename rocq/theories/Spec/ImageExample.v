(** Small concrete images used by the examples beside the theorems. *)
From Coq Require Import ZArith List Bool Arith String.
From Coq Require Import SpecFloat.
From Verif.Model Require Import Py Plane Ma Image.
Import ListNotations.

Definition zplane (l : list (list Z)) : plane pix :=
  mkplane (List.length l) (List.length (hd [] l)) (fun i j => pix_of_Z (nth j (nth i l []) 0%Z)).

Definition bplane (l : list (list Z)) : plane bool :=
  mkplane (List.length l) (List.length (hd [] l)) (fun i j => negb (Z.eqb (nth j (nth i l []) 0%Z) 0)).

(** No files. *)
Definition nofs : string -> option (list hdu) := fun _ => None.

(** One file, "a.fits". *)
Definition onefile (l : list hdu) : string -> option (list hdu) :=
  fun n => if String.eqb n "a.fits" then Some l else None.

Definition d33 : plane pix := zplane [[1; 2; 3]; [4; 70000; 6]; [7; 8; -60]]%Z.

Definition nocrop : cropt := ((0, 0), (0, 0))%Z.

(** A 6 x 6 image with a zero frame of one pixel. *)
Definition dframe : plane pix :=
  zplane [[0;0;0;0;0;0]; [0;5;6;7;8;0]; [0;9;8;7;6;0]; [0;5;6;7;8;0]; [0;9;8;7;6;0]; [0;0;0;0;0;0]]%Z.

(** An 8 x 7 image with frames of 1 (top), 1 (bottom), 3 (left) and 2 (right). *)
Definition duneven : plane pix :=
  zplane [[0;0;0;0;0;0;0]; [0;0;0;6;5;0;0]; [0;0;0;7;5;0;0]; [0;0;0;4;5;0;0];
          [0;0;0;4;5;0;0]; [0;0;0;4;5;0;0]; [0;0;0;4;5;0;0]; [0;0;0;0;0;0;0]]%Z.

(** Boolean checks on a constructed image, for evaluation. *)
Definition shape_of (r : res image) : option (nat * nat) :=
  match r with Ok im => Some (shape (dat (im_data im))) | Raise _ => None end.
Definition pix_at (r : res image) (i j : nat) : pix :=
  match r with Ok im => px (dat (im_data im)) i j | Raise _ => S754_nan end.
Definition mask_cells (r : res image) : list bool :=
  match r with
  | Ok im => match msk (im_data im) with Full q => cells q | Nomask => [] end
  | Raise _ => []
  end.
