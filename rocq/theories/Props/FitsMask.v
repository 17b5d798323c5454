(** C114: masks read from FITS images. *)
From Coq Require Import ZArith List Bool Arith String Reals Lia Lra.
From Coq Require Import SpecFloat.
From Verif.Model Require Import Py Plane Ma Image.
From Verif.Spec Require Import Image ImageExample Float32 FitsMask.
From Verif.Proof Require Import ImageSum FitsMask.
Import ListNotations.
Local Open Scope R_scope.

(** C114: without border search and crop, the flags read from a mask image of the shape of the
    pixels, whose values are 0 or at least 1, are the values at or above the threshold (the
    argument, or 16) when more than half of the cells are 0, and the values at or below the
    threshold otherwise. *)
Theorem C114_flags : forall fs nsum c im o e, wf_source (a_img c) -> original fs (a_img c) = Some o ->
  a_borders c = false -> a_crop c = ((0, 0), (0, 0))%Z ->
  construct fs nsum c = Ok im ->
  mask_image fs c e -> shape e = shape o -> counts e ->
  match a_thresh c with Some v => finiteb v = true | None => True end ->
  let t := match a_thresh c with Some v => value v | None => 16 end in
  shape (pixels im) = shape o /\
  final_mask (pixels im)
    (fun i j => if (nr e * nc e <? 2 * zero_cells e)%nat
                then t <= value (px e i j) else value (px e i j) <= t)
    (im_data im).
Proof. exact C114_flags_lm. Qed.
Print Assumptions C114_flags.

(** C114: a mask that marks fewer than half of the cells, with values at or above the
    threshold, is read as it is meant: the flags are the cells that are not 0. *)
Theorem C114_minority : forall fs nsum c im o e, wf_source (a_img c) -> original fs (a_img c) = Some o ->
  a_borders c = false -> a_crop c = ((0, 0), (0, 0))%Z ->
  construct fs nsum c = Ok im ->
  mask_image fs c e -> shape e = shape o -> counts e ->
  match a_thresh c with Some v => finiteb v = true | None => True end ->
  let t := match a_thresh c with Some v => value v | None => 16 end in
  (nr e * nc e < 2 * zero_cells e)%nat -> 0 < t ->
  (forall i j, (i < nr e)%nat -> (j < nc e)%nat -> value (px e i j) <> 0 -> t <= value (px e i j)) ->
  final_mask (pixels im) (fun i j => value (px e i j) <> 0) (im_data im).
Proof. exact C114_minority_lm. Qed.
Print Assumptions C114_minority.

(** C114: a mask that marks half or more of the cells, with values above the threshold, is
    read the other way round: the flags are the cells that are 0. *)
Theorem C114_majority : forall fs nsum c im o e, wf_source (a_img c) -> original fs (a_img c) = Some o ->
  a_borders c = false -> a_crop c = ((0, 0), (0, 0))%Z ->
  construct fs nsum c = Ok im ->
  mask_image fs c e -> shape e = shape o -> counts e ->
  match a_thresh c with Some v => finiteb v = true | None => True end ->
  let t := match a_thresh c with Some v => value v | None => 16 end in
  (2 * zero_cells e <= nr e * nc e)%nat -> 0 <= t ->
  (forall i j, (i < nr e)%nat -> (j < nc e)%nat -> value (px e i j) <> 0 -> t < value (px e i j)) ->
  final_mask (pixels im) (fun i j => value (px e i j) = 0) (im_data im).
Proof. exact C114_majority_lm. Qed.
Print Assumptions C114_majority.

Example C114_case :
  let e1 := zplane [[0; 32; 0]]%Z in
  let e2 := zplane [[32; 32; 0]]%Z in
  let fs e := onefile [mkhdu None None e] in
  let d := zplane [[1; 2; 3]]%Z in
  let c := mkargs (Ndarray d) (MPath "a.fits") None true false nocrop None in
  counts e1 /\ counts e2 /\ mask_image (fs e1) c e1 /\ mask_image (fs e2) c e2 /\
  zero_cells e1 = 2%nat /\ zero_cells e2 = 1%nat /\
  mask_cells (construct (fs e1) seq_sum c) = [true; true; true] /\
  mask_cells (construct (fs e2) seq_sum c) = [true; true; true] /\
  mask_cells (construct (fs (zplane [[32; 32; 32]; [32; 32; 32]; [32; 32; 0]]%Z)) seq_sum
    (mkargs (Ndarray (zplane [[1; 2; 3]; [1; 2; 3]; [1; 2; 3]]%Z)) (MPath "a.fits") None true false nocrop None))
  = [false; false; false; false; false; false; false; false; true].
Proof. exact C114_case_lm. Qed.
