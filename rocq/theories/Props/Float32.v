(** C113: the pixels of an image as numbers. *)
From Coq Require Import ZArith List Bool Arith String Reals Lia Lra.
From Coq Require Import SpecFloat.
From Verif.Model Require Import Py Plane Ma Image.
From Verif.Spec Require Import Image ImageExample Float32.
From Verif.Proof Require Import ImageSum Float32Main.
Import ListNotations.
Local Open Scope R_scope.

(** C113: without border search and crop, and unless the automatic masking starts again from
    the source, a pixel is the float32 nearest to the product of the float32 nearest to the
    source value and the float32 nearest to the gain; where the user masked the source it is
    the float32 nearest to the source value. *)
Theorem C113_pixels : forall fs nsum c im o i j, wf_source (a_img c) -> original fs (a_img c) = Some o ->
  a_borders c = false -> a_crop c = ((0, 0), (0, 0))%Z ->
  construct fs nsum c = Ok im ->
  reloads (a_img c) (extend_card im) (a_guess c) (a_mask c) = false ->
  (i < nr o)%nat -> (j < nc o)%nat -> finiteb (px o i j) = true ->
  (user_masked (a_img c) i j = true -> rounded (value (px o i j)) (px (pixels im) i j)) /\
  (user_masked (a_img c) i j = false -> finiteb (im_gain im) = true ->
   exists a g, rounded (value (px o i j)) a /\ rounded (value (im_gain im)) g /\
     (finiteb a = true -> finiteb g = true -> rounded (value a * value g) (px (pixels im) i j))).
Proof. exact C113_pixels_lm. Qed.
Print Assumptions C113_pixels.

(** C113: source value, gain and product all being float32 numbers, the pixel is the product,
    exactly. *)
Theorem C113_exact : forall fs nsum c im o i j, wf_source (a_img c) -> original fs (a_img c) = Some o ->
  a_borders c = false -> a_crop c = ((0, 0), (0, 0))%Z ->
  construct fs nsum c = Ok im ->
  reloads (a_img c) (extend_card im) (a_guess c) (a_mask c) = false ->
  (i < nr o)%nat -> (j < nc o)%nat -> user_masked (a_img c) i j = false ->
  finiteb (px o i j) = true -> finiteb (im_gain im) = true ->
  f32 (value (px o i j)) -> f32 (value (im_gain im)) -> f32 (value (px o i j) * value (im_gain im)) ->
  finiteb (px (pixels im) i j) = true /\
  value (px (pixels im) i j) = value (px o i j) * value (im_gain im).
Proof. exact C113_exact_lm. Qed.
Print Assumptions C113_exact.

(** C113: away from underflow and overflow, the pixel is the product of source value and gain
    up to a relative error of 2^-22. *)
Theorem C113_error : forall fs nsum c im o i j, wf_source (a_img c) -> original fs (a_img c) = Some o ->
  a_borders c = false -> a_crop c = ((0, 0), (0, 0))%Z ->
  construct fs nsum c = Ok im ->
  reloads (a_img c) (extend_card im) (a_guess c) (a_mask c) = false ->
  (i < nr o)%nat -> (j < nc o)%nat -> user_masked (a_img c) i j = false ->
  finiteb (px o i j) = true -> finiteb (im_gain im) = true ->
  let v := value (px o i j) in
  let g := value (im_gain im) in
  powerRZ 2 (-125) <= Rabs v <= powerRZ 2 127 -> powerRZ 2 (-125) <= Rabs g <= powerRZ 2 127 ->
  powerRZ 2 (-125) <= Rabs (v * g) <= powerRZ 2 127 ->
  finiteb (px (pixels im) i j) = true /\
  Rabs (value (px (pixels im) i j) - v * g) <= powerRZ 2 (-22) * Rabs (v * g).
Proof. exact C113_error_lm. Qed.
Print Assumptions C113_error.

Example C113_case :
  let o := mkplane 1 1 (fun _ _ : nat => S754_finite false 5 0) in
  let r := construct nofs seq_sum (mkargs (HduList [mkhdu (Some (S754_finite false 3 (-1))) (Some true) o])
             (MArray (bplane [[0%Z]])) None true false nocrop None) in
  match r with
  | Ok im => value (px (pixels im) 0 0) = 15 / 2 /\ value (im_gain im) = 3 / 2 /\
      f32 (value (px o 0 0)%nat) /\ f32 (value (im_gain im)) /\ f32 (value (px o 0 0)%nat * value (im_gain im)) /\
      reloads (HduList [mkhdu (Some (S754_finite false 3 (-1))) (Some true) o]) (extend_card im) true (MArray (bplane [[0%Z]])) = false
  | Raise _ => False
  end.
Proof. exact C113_case_lm. Qed.

(** C113: a count of 16777217 in a file does not survive being read with gain 1. *)
Theorem C113_counts_refuted : exists fs nsum c im o,
  wf_source (a_img c) /\ original fs (a_img c) = Some o /\ a_borders c = false /\
  a_crop c = ((0, 0), (0, 0))%Z /\ construct fs nsum c = Ok im /\
  value (im_gain im) = 1 /\ value (px o 0 0) = 16777217 /\ value (px (pixels im) 0 0) = 16777216.
Proof. exact C113_counts_refuted_lm. Qed.
Print Assumptions C113_counts_refuted.
