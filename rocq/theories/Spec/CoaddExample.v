(** Concrete images used to show that the hypotheses of the theorems on coadd can be met. *)
From Coq Require Import Arith ZArith List Bool Reals.
From Coquelicot Require Import Complex.
From Verif.Model Require Import Py Plane Ma Coadd.
Import ListNotations.

(** A 2 x 3 frame with a flat PSF transform, fresh (nothing cached). *)
Definition ex_img (m : mask) : simg :=
  mksimg (2, 3) m 1%R 1%R (1 / 5)%R 5 (fun _ i j => RtoC (INR (S (i + j)))) (fun _ _ _ => RtoC 1)
         None None false true.

Definition ex_mask : mask := Full (mkplane 2 3 (fun i j => (i =? 1) && (j =? 2))).

(** Objects 0 (clean) and 1 (one bad pixel); identities from 2 on are free. *)
Definition ex_world : world := mkworld (fun i => ex_img (if i =? 1 then ex_mask else Nomask)) 2.

(** Everything can be made into an image; registering returns the image. *)
Definition ex_mk (r : nat) : res simg := Ok (ex_img Nomask).
Definition ex_reg (x ref : simg) : res simg := Ok x.
Definition ex_transp (h : heap) (ids : list nat) : res (list R) := Ok (map (fun _ => 1%R) ids).
