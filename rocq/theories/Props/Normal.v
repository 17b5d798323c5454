(** The normalisation image of a PSF that varies over the frame. *)
From Coq Require Import ZArith List Bool Arith Reals Lia Lra.
From Flocq Require Import Core.Raux Core.Round_NE Core.Generic_fmt.
From Verif.Model Require Import Py Plane KL Normal.
From Verif.Spec Require Import KL Normal.
From Verif.Proof Require Import KL PsfXY Normal.
Import ListNotations.
Local Open Scope R_scope.

(** With one element the normalisation image is the image of a frame of ones through the PSF
    divided by its total. *)
Theorem C97_single : forall sh p rest, zero_tol < Rabs (sum2 (shape p) (px p)) ->
  exists q, normal_image sh None (p :: rest) = Ok q /\ shape q = sh /\
    forall i j, px q i j = image_of_ones sh (fun _ _ => spread p) i j / sum2 (shape p) (px p).
Proof. exact C97_single_lm. Qed.
Print Assumptions C97_single.

(** A flat 3x3 PSF on a frame of 10x12: corner, edge, middle, opposite corner. *)
Example C97_single_case : forall rest, exists q,
  normal_image (10, 12)%nat None (pconst (3, 3)%nat 2 :: rest) = Ok q /\
  px q 0 0 = 4 / 9 /\ px q 0 5 = 6 / 9 /\ px q 4 7 = 1 /\ px q 9 11 = 4 / 9.
Proof. exact flat_corner. Qed.

Theorem C97_not_normalisable : forall sh p rest, Rabs (sum2 (shape p) (px p)) <= zero_tol ->
  normal_image sh None (p :: rest) = Raise ValueError.
Proof. exact C97_not_normalisable_lm. Qed.
Print Assumptions C97_not_normalisable.

Example C97_not_normalisable_case :
  normal_image (4, 4)%nat None [mkplane 1 2 (fun _ j => match j with O => 1 | _ => -1 end)] = Raise ValueError.
Proof.
  apply C97_not_normalisable. unfold sum2. cbn [shape nr nc px fst snd sumn].
  replace (0 + (0 + 1 + -1)) with 0 by ring. rewrite Rabs_R0. unfold zero_tol. lra.
Qed.

(** It is 1 where the stamp fits into the frame. *)
Theorem C97_interior : forall sh p rest q i j, normal_image sh None (p :: rest) = Ok q ->
  fits_at sh (shape p) i j -> px q i j = 1.
Proof. exact C97_interior_lm. Qed.
Print Assumptions C97_interior.

Example C97_interior_case : fits_at (10, 12)%nat (3, 3)%nat 4 7 /\ ~ fits_at (10, 12)%nat (3, 3)%nat 0 7 /\
  fits_at (10, 12)%nat (3, 3)%nat 8 10 /\ fits_at (10, 12)%nat (4, 4)%nat 1 1 /\ ~ fits_at (10, 12)%nat (4, 4)%nat 8 1.
Proof. unfold fits_at. cbn. lia. Qed.

(** For a PSF without negative values it lies between 0 and 1. *)
Theorem C97_bounds : forall sh p rest q i j, normal_image sh None (p :: rest) = Ok q ->
  (forall u v, (u < nr p)%nat -> (v < nc p)%nat -> 0 <= px p u v) -> 0 <= px q i j <= 1.
Proof. exact C97_bounds_lm. Qed.
Print Assumptions C97_bounds.

(** get_afield_domain: two arrays of the shape of the image. A coefficient on them has in row i
    and column j the value a(i, j). *)
Theorem C97_domain : forall sh a,
  let xy := get_afield_domain sh in
  shape (fst xy) = sh /\ shape (snd xy) = sh /\ shape (on_domain a xy) = sh /\
  forall i j, px (on_domain a xy) i j = a (INR i) (INR j) /\ (px (fst xy) i j, px (snd xy) i j) = (INR i, INR j).
Proof. exact C97_domain_lm. Qed.
Print Assumptions C97_domain.

(** With several elements it is, where the stamps fit, the image of a frame of ones through
    the PSF of each cell. *)
Theorem C97_fields : forall sh fs bs s, length fs = length bs -> Forall (fun p => shape p = s) bs ->
  exists q, normal_image sh (Some fs) bs = Ok q /\ shape q = sh /\
    forall i j, fits_at sh s i j ->
      px q i j = image_of_ones sh (fun x y di dj => sumn (length bs) (fun k =>
        nth k fs (fun _ _ => 0) (INR x) (INR y) * spread (nth k bs (pconst (0, 0)%nat 0)) di dj)) i j.
Proof. exact C97_fields_lm. Qed.
Print Assumptions C97_fields.

(** Coefficients x and 2 + y: in the middle of a 10x12 frame. *)
Example C97_fields_case : exists q, normal_image (10, 12)%nat (Some [fun x _ => x; fun _ y => 2 + y])
    [pconst (3, 3)%nat 2; pconst (3, 3)%nat 1] = Ok q /\ px q 4 7 = 2 * 9 * 4 + 9 * (2 + 7).
Proof. exact fields_case. Qed.

(** Up to the edges: there the light of the mirror image of the frame is added. *)
Theorem C97_mirrored : forall sh fs bs s, length fs = length bs -> Forall (fun p => shape p = s) bs ->
  (fst s <= fst sh)%nat -> (snd s <= snd sh)%nat ->
  exists q, normal_image sh (Some fs) bs = Ok q /\ shape q = sh /\
    forall i j, (i < fst sh)%nat -> (j < snd sh)%nat ->
      px q i j = sumn (length bs) (fun k => sum2 s (fun u v =>
        px (nth k bs (pconst (0, 0)%nat 0)) u v *
        nth k fs (fun _ _ => 0) (IZR (mirror (fst sh) (Z.of_nat i + Z.of_nat (fst s / 2) - Z.of_nat u)))
                                (IZR (mirror (snd sh) (Z.of_nat j + Z.of_nat (snd s / 2) - Z.of_nat v))))).
Proof. exact C97_mirrored_lm. Qed.
Print Assumptions C97_mirrored.

(** A stamp of 3 x 3 in a frame of 10 x 12. *)
Example C97_mirrored_case : mirror 10 (-1) = 0%Z /\ mirror 10 10 = 9%Z /\ mirror 10 4 = 4%Z /\ (3 <= 10 /\ 3 <= 12)%nat.
Proof. repeat split; auto with arith. Qed.

(** Constant coefficients give the total of the PSF everywhere, up to the edges. *)
Theorem C97_constant : forall sh (cs : list R) bs, length cs = length bs ->
  exists q, normal_image sh (Some (map (fun c _ _ => c) cs)) bs = Ok q /\ shape q = sh /\
    forall i j, px q i j = sumn (length bs) (fun k =>
      nth k cs 0 * sum2 (shape (nth k bs (pconst (0, 0)%nat 0))) (px (nth k bs (pconst (0, 0)%nat 0)))).
Proof. exact C97_constant_lm. Qed.
Print Assumptions C97_constant.

(** Constant coefficients: the PSF asked for at a position does not depend on the position. *)
Theorem C97_same_psf : forall sh (cs : list R) bs q x y h a b,
  let s := (2 * h + 1)%nat in
  let mix i j := sumn (length bs) (fun k => nth k cs 0 * px (nth k bs (pconst (0, 0)%nat 0)) i j) in
  bs <> [] -> length cs = length bs -> Forall (fun p => shape p = (s, s)) bs ->
  normal_image sh (Some (map (fun c _ _ => c) cs)) bs = Ok q ->
  ZnearestE x = Z.of_nat (a + h) -> ZnearestE y = Z.of_nat (b + h) ->
  (a + s <= fst sh)%nat -> (b + s <= snd sh)%nat -> sum2 (s, s) mix <> 0 ->
  exists psf, get_psf_xy bs (Some (map (fun c _ _ => c) cs)) q x y = Ok psf /\ shape psf = (s, s) /\
    forall i j, (i < s)%nat -> (j < s)%nat -> px psf i j = Some (mix i j / sum2 (s, s) mix).
Proof. exact C97_same_psf_lm. Qed.
Print Assumptions C97_same_psf.

(** Two elements with the coefficients 1 and 3. *)
Example C97_same_psf_case : let bs := [pconst (3, 3)%nat 2; pconst (3, 3)%nat 1] in
  Forall (fun p => shape p = (3, 3)%nat) bs /\ ZnearestE 4 = Z.of_nat (3 + 1) /\
  sum2 (3, 3)%nat (fun i j => sumn 2 (fun k => nth k [1; 3] 0 * px (nth k bs (pconst (0, 0)%nat 0)) i j)) <> 0.
Proof.
  split; [repeat constructor|]. split; [exact (Zrnd_IZR ZnearestE 4)|].
  unfold sum2. cbn [sumn nth px pconst fst snd]. lra.
Qed.

(** The two branches treat the edges differently: a PSF with the constant coefficient 1 has the
    same normalisation in the corner as in the middle, the same PSF without coefficients not. *)
Theorem C97_edges_refuted : exists p q q', normal_image (10, 12)%nat None [p] = Ok q /\
  normal_image (10, 12)%nat (Some [fun _ _ => 1]) [p] = Ok q' /\ sum2 (shape p) (px p) = 1 /\
  px q 4 7 = px q' 4 7 /\ px q 0 0 < px q' 0 0.
Proof. exact C97_edges_refuted_lm. Qed.
Print Assumptions C97_edges_refuted.
