(** C20-C27, C73, C74: construction and masking of an image. *)
From Coq Require Import ZArith List Bool Arith String Reals Lia Lra.
From Coq Require Import SpecFloat.
From Flocq Require Import Core.Core IEEE754.BinarySingleNaN.
From Verif.Model Require Import Py Plane Ma Image.
From Verif.Spec Require Import Image ImageExample.
From Verif.Proof Require Import ImageBuild ImageSum ImageMain.
Import ListNotations.
Set Bullet Behavior "Strict Subproofs".

(** C20: the gain is the argument, else the GAIN card, else 1. *)
Theorem C20_gain : forall fs nsum c im, wf_source (a_img c) -> construct fs nsum c = Ok im ->
  im_gain im = match a_gain c with
               | Some g => g
               | None => match header_gain fs (a_img c) with Some g => g | None => fone end
               end.
Proof. exact C20_gain_lm. Qed.
Print Assumptions C20_gain.

(** C20: without border search and crop, the pixels kept are the float32 pixels of the
    source times the gain, except for the sources whose automatic masking starts again
    from the original pixels. *)
Theorem C20_pixels : forall fs nsum c im o, wf_source (a_img c) -> original fs (a_img c) = Some o ->
  a_borders c = false -> a_crop c = ((0, 0), (0, 0))%Z ->
  construct fs nsum c = Ok im ->
  plane_eq (pixels im)
    (if reloads (a_img c) (extend_card im) (a_guess c) (a_mask c) then o
     else scaled (a_img c) (im_gain im) o).
Proof. exact C20_pixels_lm. Qed.
Print Assumptions C20_pixels.

(** A 3 x 3 HDU list with GAIN = 2 and an explicit mask: pixel (0,1) becomes 4. The same
    pixels as a plain array with automatic masking keep their values whatever the gain. *)
Example C20_case :
  let hl := [mkhdu (Some (pix_of_Z 2)) (Some true) d33] in
  let r := construct nofs seq_sum (mkargs (HduList hl) (MArray (bplane [[1;0;0];[0;0;0];[0;0;0]]%Z)) None true false nocrop None) in
  let r' := construct nofs seq_sum (mkargs (Ndarray d33) MNone None true false nocrop (Some (pix_of_Z 2))) in
  feqb (pix_at r 0 1) (pix_of_Z 4) = true /\ feqb (pix_at r' 0 1) (pix_of_Z 2) = true /\
  reloads (HduList hl) (Some true) true (MArray (bplane [])) = false /\
  reloads (Ndarray d33) None true MNone = true.
Proof. vm_compute. repeat split. Qed.

(** C21: four positive margins that fit keep exactly the inner window. *)
Theorem C21_crop_window : forall fs nsum c im o x0 x1 y0 y1, wf_source (a_img c) -> original fs (a_img c) = Some o ->
  reloads (a_img c) (extend_card im) (a_guess c) (a_mask c) = false ->
  a_borders c = false -> a_crop c = ((Z.of_nat x0, Z.of_nat x1), (Z.of_nat y0, Z.of_nat y1)) ->
  0 < x0 -> 0 < x1 -> 0 < y0 -> 0 < y1 -> x0 + x1 <= nr o -> y0 + y1 <= nc o ->
  construct fs nsum c = Ok im ->
  plane_eq (pixels im)
    (window (scaled (a_img c) (im_gain im) o) x0 y0 (nr o - x0 - x1) (nc o - y0 - y1)).
Proof. exact C21_crop_window_lm. Qed.
Print Assumptions C21_crop_window.

(** C21: a trailing margin of 0, when some margin is not 0, empties its axis. *)
Theorem C21_crop_empty : forall fs nsum c im x0 x1 y0 y1, wf_source (a_img c) ->
  reloads (a_img c) (extend_card im) (a_guess c) (a_mask c) = false ->
  a_borders c = false -> a_crop c = ((x0, x1), (y0, y1)) ->
  (0 <= x0)%Z -> (0 <= x1)%Z -> (0 <= y0)%Z -> (0 <= y1)%Z -> (x0 + x1 + y0 + y1 <> 0)%Z ->
  construct fs nsum c = Ok im ->
  (x1 = 0%Z -> nr (pixels im) = 0) /\ (y1 = 0%Z -> nc (pixels im) = 0).
Proof. exact C21_crop_empty_lm. Qed.
Print Assumptions C21_crop_empty.

(** C21, C22: for a plain array, a PrimaryHDU or an HDUList without extensions, automatic
    masking discards crop and border removal. *)
Theorem C21_crop_discarded : forall fs nsum c im o, wf_source (a_img c) -> original fs (a_img c) = Some o ->
  reloads (a_img c) (extend_card im) (a_guess c) (a_mask c) = true ->
  construct fs nsum c = Ok im -> plane_eq (pixels im) o.
Proof. exact C21_crop_discarded_lm. Qed.
Print Assumptions C21_crop_discarded.

Example C21_case :
  let b m g c := construct nofs seq_sum (mkargs (Ndarray dframe) m None g false c None) in
  let m := MArray (bplane [[0]]%Z) in
  shape_of (b m true ((1, 2), (1, 1))%Z) = Some (3, 4) /\
  feqb (pix_at (b m true ((1, 2), (1, 1))%Z) 0 0) (pix_of_Z 5) = true /\
  shape_of (b m true ((1, 0), (1, 1))%Z) = Some (0, 4) /\
  shape_of (b MNone true ((1, 2), (1, 1))%Z) = Some (6, 6).
Proof. vm_compute. repeat split. Qed.

(** C22: zero frame of t, b, l, r cells around positive pixels, the middle row and column
    meeting the pixels: the window returned. *)
Theorem C22_border_window : forall fs nsum c im o t b l r, sum_like nsum ->
  wf_source (a_img c) -> original fs (a_img c) = Some o ->
  reloads (a_img c) (extend_card im) (a_guess c) (a_mask c) = false ->
  a_borders c = true -> a_crop c = ((0, 0), (0, 0))%Z ->
  framed (pmap to_f4 o) t b l r -> t <= nr o / 2 < nr o - b -> l <= nc o / 2 < nc o - r ->
  construct fs nsum c = Ok im ->
  let r0 := if t + 1 <? l then t + 1 else l in
  let c0 := if l + 1 <? t then l + 1 else t in
  plane_eq (pixels im)
    (window (scaled (a_img c) (im_gain im) o) r0 c0 (nr o - Nat.min b r - r0) (nc o - r - c0)).
Proof. exact C22_border_window_lm. Qed.
Print Assumptions C22_border_window.

(** C22: a frame of one common width is removed exactly. *)
Theorem C22_uniform_frame : forall fs nsum c im o k, sum_like nsum ->
  wf_source (a_img c) -> original fs (a_img c) = Some o ->
  reloads (a_img c) (extend_card im) (a_guess c) (a_mask c) = false ->
  a_borders c = true -> a_crop c = ((0, 0), (0, 0))%Z ->
  framed (pmap to_f4 o) k k k k ->
  construct fs nsum c = Ok im ->
  plane_eq (pixels im)
    (window (scaled (a_img c) (im_gain im) o) k k (nr o - 2 * k) (nc o - 2 * k)).
Proof. exact C22_uniform_frame_lm. Qed.
Print Assumptions C22_uniform_frame.

(** C22: the window returned has the size of the data window if and only if the left
    frame is as wide as the upper one and the right one at least as wide as the lower
    one. *)
Theorem C22_uneven_frame : forall fs nsum c im o t b l r, sum_like nsum ->
  wf_source (a_img c) -> original fs (a_img c) = Some o ->
  reloads (a_img c) (extend_card im) (a_guess c) (a_mask c) = false ->
  a_borders c = true -> a_crop c = ((0, 0), (0, 0))%Z ->
  framed (pmap to_f4 o) t b l r -> t <= nr o / 2 < nr o - b -> l <= nc o / 2 < nc o - r ->
  construct fs nsum c = Ok im ->
  (shape (pixels im) = (nr o - t - b, nc o - l - r) <-> t = l /\ b <= r).
Proof. exact C22_uneven_frame_lm. Qed.
Print Assumptions C22_uneven_frame.

(** C22: if no pixel of the middle row is positive, the border search raises
    UnboundLocalError. *)
Theorem C22_unbound : forall fs nsum c o, original fs (a_img c) = Some o -> a_borders c = true ->
  (forall j, j < nc o -> fltb fzero (to_f4 (px o (nr o / 2) j)) = false) ->
  wf_source (a_img c) ->
  construct fs nsum c = Raise UnboundLocalError.
Proof. exact C22_unbound_lm. Qed.
Print Assumptions C22_unbound.

(** The hypotheses hold for summation from left to right and concrete frames. *)
Example C22_case :
  sum_like seq_sum /\ framed (pmap to_f4 dframe) 1 1 1 1 /\
  shape_of (construct nofs seq_sum (mkargs (Ndarray dframe) (MArray (bplane [[0]]%Z)) None true true nocrop None)) = Some (4, 4).
Proof.
  split; [exact seq_sum_like|]. split.
  - split; [cbn; lia|]. split; [cbn; lia|]. intros i j Hi Hj. cbn in Hi, Hj.
    do 6 (destruct i as [|i]; [do 6 (destruct j as [|j]; [vm_compute; reflexivity|]); lia|]). lia.
  - vm_compute. reflexivity.
Qed.

(** Left frame 3, upper 1: the window starts at row 2, losing one row of data, and at
    column 1, keeping two empty columns. *)
Example C22_uneven_case :
  framed (pmap to_f4 duneven) 1 1 3 2 /\
  let r := construct nofs seq_sum (mkargs (Ndarray duneven) (MArray (bplane [[0]]%Z)) None true true nocrop None) in
  shape_of r = Some (5, 4) /\ feqb (pix_at r 0 0) fzero = true.
Proof.
  split.
  - split; [cbn; lia|]. split; [cbn; lia|]. intros i j Hi Hj. cbn in Hi, Hj.
    do 8 (destruct i as [|i]; [do 7 (destruct j as [|j]; [vm_compute; reflexivity|]); lia|]). lia.
  - vm_compute. repeat split.
Qed.

Example C22_unbound_case :
  construct nofs seq_sum (mkargs (Ndarray (zplane [[1;1];[0;-1];[2;2]]%Z)) MNone None true true nocrop None)
  = Raise UnboundLocalError.
Proof. vm_compute. reflexivity. Qed.

(** C23: after construction the mask is a full array of the shape of the pixels, and it is
    the result of seven rounds of enlargement from the flags of the source (see [chosen])
    and the out-of-range pixels. *)
Theorem C23_construct_mask : forall fs nsum c im, wf_source (a_img c) -> construct fs nsum c = Ok im ->
  wf (im_data im) /\
  exists a0 d flag,
    set_data fs nsum (a_img c) (a_borders c) (a_crop c) (im_gain im) = Ok a0 /\
    chosen fs (a_img c) (extend_card im) (a_guess c) (thresh_of (a_thresh c)) a0 (a_mask c) d flag /\
    final_mask d flag (im_data im).
Proof. exact C23_construct_mask_lm. Qed.
Print Assumptions C23_construct_mask.

(** C23: the same after any later assignment to the mask. *)
Theorem C23_assign_mask : forall fs im arg im', wf (im_data im) -> assign fs im arg = Ok im' ->
  wf (im_data im') /\
  exists d flag,
    chosen fs (im_src im) (extend_card im) (im_guess im) (im_thresh im) (im_data im) arg d flag /\
    final_mask d flag (im_data im').
Proof. exact C23_assign_mask_lm. Qed.
Print Assumptions C23_assign_mask.

(** C23: every pixel below -50 or above 65000 is masked. *)
Theorem C23_out_of_range : forall fs nsum c im im' arg i j, wf_source (a_img c) ->
  construct fs nsum c = Ok im ->
  im' = im \/ assign fs im arg = Ok im' ->
  i < nr (pixels im') -> j < nc (pixels im') -> out_of_range (px (pixels im') i j) ->
  is_masked im' i j.
Proof. exact C23_out_of_range_lm. Qed.
Print Assumptions C23_out_of_range.

(** C23: with automatic masking of a plain array, a PrimaryHDU, an HDUList without
    extensions, a masked array (no file of that name existing) or a file that announces
    extensions but has none, every non-finite pixel is masked. *)
Theorem C23_non_finite : forall fs nsum c im i j, wf_source (a_img c) ->
  a_mask c = MNone -> a_guess c = true ->
  match a_img c with
  | Ndarray _ | Primary _ => True
  | HduList _ => extend_card im = Some false
  | MaskedArr _ => fs "MaskedArray"%string = None
  | Path n => exists h, fs n = Some [h] /\ h_extend h = Some true
  | Other => False
  end ->
  construct fs nsum c = Ok im ->
  i < nr (pixels im) -> j < nc (pixels im) -> non_finite (px (pixels im) i j) ->
  is_masked im i j.
Proof. exact C23_non_finite_lm. Qed.
Print Assumptions C23_non_finite.

(** C23: for a file whose header says EXTEND = False or nothing, a NaN is not masked by
    itself: if the other pixels are in range the mask is empty. *)
Theorem C23_nan_unmasked : forall fs nsum c im n h rest, a_img c = Path n -> fs n = Some (h :: rest) ->
  h_extend h <> Some true -> a_mask c = MNone -> construct fs nsum c = Ok im ->
  (forall i j, i < nr (pixels im) -> j < nc (pixels im) -> ~ out_of_range (px (pixels im) i j)) ->
  forall i j, i < nr (pixels im) -> j < nc (pixels im) -> ~ is_masked im i j.
Proof. exact C23_nan_unmasked_lm. Qed.
Print Assumptions C23_nan_unmasked.

(** 70000 and -60 are masked, 65000 and -50 are not. A NaN in an array is masked, in a file with EXTEND = False it is not. *)
Example C23_case :
  mask_cells (construct nofs seq_sum (mkargs (Ndarray (zplane [[1;70000;2;65000;-50;-60]]%Z)) MNone None true false nocrop None))
  = [true; true; true; true; true; true] /\
  mask_cells (construct nofs seq_sum (mkargs (Ndarray (zplane [[70000;65000;1;-50];[1;1;1;1];[2;3;4;5];[6;7;8;-51]]%Z)) MNone None true false nocrop None))
  = [true;false;false;false; false;false;false;false; false;false;false;false; false;false;false;true] /\
  let nan := mkplane 2 2 (fun i j => if (i =? 0) && (j =? 0) then S754_nan else fone) in
  mask_cells (construct nofs seq_sum (mkargs (Ndarray nan) MNone None true false nocrop None))
  = [true; false; false; false] /\
  mask_cells (construct (onefile [mkhdu None (Some false) nan]) seq_sum (mkargs (Path "a.fits") MNone None true false nocrop None))
  = [false; false; false; false].
Proof. vm_compute. repeat split. Qed.

(** C24, C25: assigning a mask array of the shape of the pixels: the flags are the given
    ones and the out-of-range pixels; seven rounds of enlargement follow. *)
Theorem C24_rounds : forall fs im m im', wf (im_data im) -> shape m = shape (pixels im) ->
  assign fs im (MArray m) = Ok im' ->
  plane_eq (pixels im') (pixels im) /\
  exists init,
    (forall i j, i < nr m -> j < nc m -> (init i j = true <-> px m i j = true \/ out_of_range (px (pixels im) i j))) /\
    (forall i j, i < nr m -> j < nc m -> (is_masked im' i j <-> grown (shape m) 7 init i j = true)).
Proof. exact C24_rounds_lm. Qed.
Print Assumptions C24_rounds.

(** C24: the enlargement keeps the given flags and stays within 7 pixels of a flagged or
    out-of-range pixel. *)
Theorem C24_local : forall fs im m im', wf (im_data im) -> shape m = shape (pixels im) ->
  assign fs im (MArray m) = Ok im' ->
  forall i j, i < nr m -> j < nc m ->
    (px m i j = true -> is_masked im' i j) /\
    (is_masked im' i j -> exists i' j', i' < nr m /\ j' < nc m /\
       (px m i' j' = true \/ out_of_range (px (pixels im) i' j')) /\
       i' <= i + 7 /\ i <= i' + 7 /\ j' <= j + 7 /\ j <= j' + 7).
Proof. exact C24_local_lm. Qed.
Print Assumptions C24_local.

(** C24: a larger mask gives a larger result. *)
Theorem C24_monotone : forall fs im m1 m2 im1 im2, wf (im_data im) ->
  shape m1 = shape (pixels im) -> shape m2 = shape (pixels im) ->
  (forall i j, i < nr m1 -> j < nc m1 -> px m1 i j = true -> px m2 i j = true) ->
  assign fs im (MArray m1) = Ok im1 -> assign fs im (MArray m2) = Ok im2 ->
  forall i j, i < nr m1 -> j < nc m1 -> is_masked im1 i j -> is_masked im2 i j.
Proof. exact C24_monotone_lm. Qed.
Print Assumptions C24_monotone.

(** C24: when all pixels are in range and the given flags are at least 3 pixels apart, the
    mask does not grow (at least two rows and two columns). *)
Theorem C24_isolated : forall fs im m im', wf (im_data im) -> shape m = shape (pixels im) ->
  2 <= nr m -> 2 <= nc m -> isolated (shape m) (px m) ->
  (forall i j, i < nr m -> j < nc m -> ~ out_of_range (px (pixels im) i j)) ->
  assign fs im (MArray m) = Ok im' ->
  forall i j, i < nr m -> j < nc m -> (is_masked im' i j <-> px m i j = true).
Proof. exact C24_isolated_lm. Qed.
Print Assumptions C24_isolated.

(** Three cells in a row of a 4 x 5 image spread; isolated ones do not. *)
Example C24_case :
  let b m := construct nofs seq_sum (mkargs (Ndarray (zplane (repeat (repeat 1%Z 5) 4))) (MArray (bplane m)) None true false nocrop None) in
  mask_cells (b [[1;0;0;0;1];[0;0;0;0;0];[0;0;0;0;0];[0;0;1;0;0]]%Z)
  = [true;false;false;false;true; false;false;false;false;false; false;false;false;false;false; false;false;true;false;false] /\
  mask_cells (b [[0;0;0;0;0];[0;1;1;1;0];[0;0;0;0;0];[0;0;0;0;0]]%Z) = repeat true 20 /\
  isolated (4, 5) (px (bplane [[1;0;0;0;1];[0;0;0;0;0];[0;0;0;0;0];[0;0;1;0;0]]%Z)).
Proof.
  cbv zeta. split; [vm_compute; reflexivity|]. split; [vm_compute; reflexivity|].
  assert (K : forall i j, i < 4 -> j < 5 ->
    px (bplane [[1;0;0;0;1];[0;0;0;0;0];[0;0;0;0;0];[0;0;1;0;0]]%Z) i j = true ->
    (i = 0 /\ j = 0) \/ (i = 0 /\ j = 4) \/ (i = 3 /\ j = 2)).
  { intros i j Hi Hj.
    do 4 (destruct i as [|i]; [do 5 (destruct j as [|j]; [cbn; intros E; try discriminate E; lia|]); lia|]). lia. }
  intros i j i' j' Hi Hj Hi' Hj' A B N. apply K in A, B; trivial.
  destruct A as [(-> & ->)|[(-> & ->)|(-> & ->)]], B as [(-> & ->)|[(-> & ->)|(-> & ->)]]; try lia; now elim N.
Qed.

(** C25: a mask array of any shape is accepted, and its cells are used in row-major order,
    cyclically. *)
Theorem C25_flat_cyclic : forall fs im m, wf (im_data im) -> nr m * nc m <> 0 ->
  exists im' init, assign fs im (MArray m) = Ok im' /\
    (forall i j, i < nr (pixels im) -> j < nc (pixels im) ->
       (init i j = true <->
        cyclic m (i * nc (pixels im) + j) = true \/ out_of_range (px (pixels im) i j))) /\
    (forall i j, i < nr (pixels im) -> j < nc (pixels im) ->
       (is_masked im' i j <-> grown (shape (pixels im)) 7 init i j = true)).
Proof. exact C25_flat_cyclic_lm. Qed.
Print Assumptions C25_flat_cyclic.

(** A 4 x 4 mask given together with a crop of one pixel on each side: the flag of the
    inner cell (1,1) is not where it should be. *)
Example C25_crop_misplaces :
  let r := construct nofs seq_sum (mkargs (Ndarray (zplane (repeat (repeat 1%Z 4) 4)))
             (MArray (bplane [[0;0;0;0];[0;1;0;0];[0;0;0;0];[0;0;0;0]]%Z)) None true false ((1,1),(1,1))%Z None) in
  shape_of r = Some (2, 2) /\ mask_cells r = [false; false; false; false].
Proof. vm_compute. split; reflexivity. Qed.

(** C26: a mask stored by store_img and read back (from the HDUList or from a file):
    threshold in (0,1] and fewer than half of the pixels masked: the stored flags. *)
Theorem C26_round_trip : forall fs nsum src d m t g im,
  (src = HduList (store_img d m) \/ exists n, src = Path n /\ fs n = Some (store_img d m)) ->
  shape m = shape d -> 2 * set_cells m < nr m * nc m ->
  finiteb t = true -> (0 < SF2R radix2 t <= 1)%R ->
  construct fs nsum (mkargs src MNone (Some t) true false ((0,0),(0,0))%Z g) = Ok im ->
  shape (pixels im) = shape d /\
  final_mask (pixels im) (fun i j => px m i j = true) (im_data im).
Proof. exact C26_round_trip_lm. Qed.
Print Assumptions C26_round_trip.

(** C26: threshold above 1 (the default is 16), fewer than half masked: no stored flag
    survives. *)
Theorem C26_lost : forall fs nsum src d m t g im,
  (src = HduList (store_img d m) \/ exists n, src = Path n /\ fs n = Some (store_img d m)) ->
  shape m = shape d -> 2 * set_cells m < nr m * nc m ->
  (t = None \/ exists v, t = Some v /\ finiteb v = true /\ (1 < SF2R radix2 v)%R) ->
  construct fs nsum (mkargs src MNone t true false ((0,0),(0,0))%Z g) = Ok im ->
  final_mask (pixels im) (fun i j => False) (im_data im).
Proof. exact C26_lost_lm. Qed.
Print Assumptions C26_lost.

(** C26: half or more of the pixels masked and a threshold of at least 1: everything is
    masked. *)
Theorem C26_all_masked : forall fs nsum src d m t g im,
  (src = HduList (store_img d m) \/ exists n, src = Path n /\ fs n = Some (store_img d m)) ->
  shape m = shape d -> nr m * nc m <= 2 * set_cells m ->
  (t = None \/ exists v, t = Some v /\ finiteb v = true /\ (1 <= SF2R radix2 v)%R) ->
  construct fs nsum (mkargs src MNone t true false ((0,0),(0,0))%Z g) = Ok im ->
  forall i j, i < nr (pixels im) -> j < nc (pixels im) -> is_masked im i j.
Proof. exact C26_all_masked_lm. Qed.
Print Assumptions C26_all_masked.

Example C26_case :
  let m := bplane [[0;1;0];[0;0;0];[0;0;0]]%Z in
  let d := zplane [[1;2;3];[4;5;6];[7;8;9]]%Z in
  let b t m := construct nofs seq_sum (mkargs (HduList (store_img d m)) MNone t true false nocrop None) in
  set_cells m = 1 /\
  mask_cells (b (Some fone) m) = [false;true;false;false;false;false;false;false;false] /\
  mask_cells (b None m) = repeat false 9 /\
  mask_cells (b None (bplane [[1;1;0];[0;0;0];[1;1;1]]%Z)) = repeat true 9.
Proof. vm_compute. repeat split. Qed.

(** C27: the number of unmasked pixels at which the saturation branch gives up (1000 in the
    code) has no influence on the result. *)
Theorem C27_guard_moot : forall fs g s hd guess th arg a, wf a ->
  match set_mask_with fs g s hd guess th arg a, set_mask fs s hd guess th arg a with
  | Ok b, Ok b' => plane_eq (dat b) (dat b') /\
      exists q q', msk b = Full q /\ msk b' = Full q' /\ plane_eq q q'
  | Raise e, Raise e' => e = e'
  | _, _ => False
  end.
Proof. exact C27_guard_moot_lm. Qed.
Print Assumptions C27_guard_moot.

(** Guard 0 and guard 1000 take different branches here and give the same mask. *)
Example C27_case :
  let a := mkmarr (zplane [[1;70000];[3;4]]%Z) Nomask in
  match saturation 0 a, saturation 1000 a with
  | Ok b, Ok b' => masked_at (msk b) 0 1 = true /\ masked_at (msk b') 0 1 = false
  | _, _ => False
  end /\
  match set_mask_with nofs 0 Other None false fone MOther a, set_mask nofs Other None false fone MOther a with
  | Ok b, Ok b' => masked_at (msk b) 0 1 = true /\ masked_at (msk b') 0 1 = true
  | _, _ => False
  end.
Proof. vm_compute. repeat split. Qed.

(** C73: without border search, the exception the constructor raises, or none. *)
Theorem C73_outcome : forall fs nsum c, wf_source (a_img c) -> a_borders c = false ->
  match build_error fs c with
  | None => exists im, construct fs nsum c = Ok im
  | Some e => construct fs nsum c = Raise e
  end.
Proof. exact C73_outcome_lm. Qed.
Print Assumptions C73_outcome.

(** An HDUList of one HDU as astropy builds it (EXTEND = True) cannot be loaded with
    automatic masking, but a file with the same content can. *)
Example C73_case :
  let h := mkhdu None (Some true) d33 in
  let b fs s := construct fs seq_sum (mkargs s MNone None true false nocrop None) in
  b nofs (HduList [h]) = Raise IndexError /\
  shape_of (b (onefile [h]) (Path "a.fits")) = Some (3, 3) /\
  b nofs (HduList [mkhdu None None d33]) = Raise KeyError /\
  b nofs (Path "a.fits") = Raise IOError /\ b nofs Other = Raise AttributeError.
Proof. vm_compute. repeat split. Qed.

(** C73: a readable file named like one of the three classes the mask setter tests for cannot be
    loaded with automatic masking; it can be with a mask array or without guessing, and
    under any other name. *)
Theorem C73_names : forall fs nsum c n h rest, a_img c = Path n -> fs n = Some (h :: rest) -> a_borders c = false ->
  ((exists m, a_mask c = MArray m) \/ (a_mask c = MNone /\ a_guess c = false) \/
   (a_mask c = MNone /\ a_guess c = true /\ ~ class_name n) -> exists im, construct fs nsum c = Ok im) /\
  (a_mask c = MNone /\ a_guess c = true /\ class_name n ->
     exists e, construct fs nsum c = Raise e /\ In e [AttributeError; TypeError; KeyError]).
Proof. exact C73_names_lm. Qed.
Print Assumptions C73_names.

(** The same content under two names. *)
Example C73_names_case :
  let h := mkhdu None (Some false) d33 in
  let fs := fun n => if (n =? "HDUList")%string || (n =? "h.fits")%string then Some [h] else None in
  let b n guess := construct fs seq_sum (mkargs (Path n) MNone None guess false nocrop None) in
  (match b "HDUList"%string true with Raise AttributeError => true | _ => false end) = true /\ shape_of (b "HDUList"%string false) = Some (3, 3) /\
  shape_of (b "h.fits"%string true) = Some (3, 3) /\ class_name "HDUList" /\ ~ class_name "h.fits".
Proof.
  cbv zeta. split; [vm_compute; reflexivity|]. split; [vm_compute; reflexivity|]. split; [vm_compute; reflexivity|].
  split; [right; right; reflexivity|]. intros [H|[H|H]]; discriminate H.
Qed.

(** C74: giving an image its own mask again enlarges it by seven more rounds. *)
Theorem C74_reassign : forall fs im m im1 q im2, wf (im_data im) -> shape m = shape (pixels im) ->
  assign fs im (MArray m) = Ok im1 -> msk (im_data im1) = Full q -> assign fs im1 (MArray q) = Ok im2 ->
  exists init,
    (forall i j, i < nr m -> j < nc m -> (init i j = true <-> px m i j = true \/ out_of_range (px (pixels im) i j))) /\
    (forall i j, i < nr m -> j < nc m -> (is_masked im2 i j <-> grown (shape m) 14 init i j = true)).
Proof. exact C74_reassign_lm. Qed.
Print Assumptions C74_reassign.

(** Two cells of a 1-pixel wide image: on a large enough image the second assignment
    masks more. *)
Example C74_not_idempotent :
  let im := construct nofs seq_sum (mkargs (Ndarray (zplane [repeat 1%Z 20])) (MArray (bplane [1%Z :: repeat 0%Z 19])) None true false nocrop None) in
  match im with
  | Ok im1 => match msk (im_data im1) with
              | Full q => countb q = 8 /\
                  match assign nofs im1 (MArray q) with
                  | Ok im2 => match msk (im_data im2) with Full q2 => countb q2 = 15 | Nomask => False end
                  | Raise _ => False
                  end
              | Nomask => False
              end
  | Raise _ => False
  end.
Proof. vm_compute. repeat split. Qed.
