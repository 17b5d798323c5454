(** Model of [interped] (properimage/single_image.py 1313-1375) and [bkg_sub_img] (545-548).

    Exact real numbers; [None] is nan (an infinite pixel is masked at construction). The
    background of sep is finite everywhere. *)
From Coq Require Import ZArith List Bool Arith Reals.
From Verif.Model Require Import Py Plane.
Import ListNotations.
Local Open Scope R_scope.

(** A masked array whose mask is a full array (the mask setter always leaves one). *)
Record mimg : Type := mkmimg { m_dat : plane (option R); m_msk : plane bool }.

(** single_image.py:545-548 [bkg_sub_img]: a new masked array at every access. *)
Definition bkg_sub_img (data : mimg) (bkg : plane R) : mimg :=
  mkmimg (pmap2 (fun x b => option_map (fun x => x - b) x) (m_dat data) bkg) (m_msk data).

(** [a.mask = m] for the object [a]. *)
Definition assign_mask (a : mimg) (m : plane bool) : mimg := mkmimg (m_dat a) m.

(** [a.filled(np.nan)] *)
Definition filled_nan (a : mimg) : plane (option R) :=
  pmap2 (fun x b => if (b : bool) then None else x) (m_dat a) (m_msk a).

Definition is_nan (x : option R) : bool := match x with None => true | Some _ => false end.

(** [np.any(np.isnan(a))] *)
Definition any_nan (a : plane (option R)) : bool :=
  existsb (fun i => existsb (fun j => is_nan (px a i j)) (seq 0 (nc a))) (seq 0 (nr a)).

(** astropy's [interpolate_replace_nans]: the cells that are nan take the value of the
    convolution (an oracle). *)
Definition replace_nans (conv : plane (option R) -> plane (option R)) (a : plane (option R)) :
  plane (option R) :=
  if any_nan a
  then let c := conv a in
       mkplane (nr a) (nc a) (fun i j => if is_nan (px a i j) then px c i j else px a i j)
  else a.

(** single_image.py:1354-1364: the while loop; [None] when the fuel is not enough. *)
Fixpoint replace_loop (fuel : nat) (conv : plane (option R) -> plane (option R))
  (a : plane (option R)) : option (plane (option R)) :=
  match fuel with
  | O => None
  | S fuel => if any_nan a then replace_loop fuel conv (replace_nans conv a) else Some a
  end.

(** single_image.py:1313-1375 [interped] at its first access. [cosmics] is astroscrappy's
    detect_cosmics. The masks assigned at 1335-1340 go to arrays that nobody keeps: every
    mention of bkg_sub_img is a new array. *)
Definition interped (fuel : nat) (conv : plane (option R) -> plane (option R))
  (cosmics : mimg -> plane bool) (data : mimg) (bkg : plane R) : option (plane (option R)) :=
  let crmask := cosmics (bkg_sub_img data bkg) in
  let _dropped := assign_mask (bkg_sub_img data bkg)
                    (pmap2 orb (m_msk (bkg_sub_img data bkg)) crmask) in
  let _dropped' := assign_mask (bkg_sub_img data bkg)
                    (pmap2 orb (m_msk (bkg_sub_img data bkg)) (pmap is_nan (m_dat (bkg_sub_img data bkg)))) in
  let img := filled_nan (bkg_sub_img data bkg) in
  replace_loop fuel conv (replace_nans conv img).
