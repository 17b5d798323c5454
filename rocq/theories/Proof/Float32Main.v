(** C113: the pixels of an image as numbers. *)
From Coq Require Import ZArith List Bool Arith String Reals Lia Lra.
From Coq Require Import SpecFloat.
From Flocq Require Import Core.Core IEEE754.BinarySingleNaN.
From Verif.Model Require Import Py Plane Ma Image.
From Verif.Spec Require Import Image ImageExample Float32.
From Verif.Proof Require Import Image ImageMask ImageGrow ImageBorder ImageBuild ImageStore ImageSum ImageMain Float32.
Import ListNotations.
Set Bullet Behavior "Strict Subproofs".
Local Open Scope R_scope.

(** C113: without border search and crop, and unless the automatic masking starts again from
    the source, a pixel is the float32 nearest to the product of the float32 nearest to the
    source value and the float32 nearest to the gain; where the user masked the source it is
    the float32 nearest to the source value. *)
Lemma C113_pixels_lm : forall fs nsum c im o i j, wf_source (a_img c) -> original fs (a_img c) = Some o ->
  a_borders c = false -> a_crop c = ((0, 0), (0, 0))%Z ->
  construct fs nsum c = Ok im ->
  reloads (a_img c) (extend_card im) (a_guess c) (a_mask c) = false ->
  (i < nr o)%nat -> (j < nc o)%nat -> finiteb (px o i j) = true ->
  (user_masked (a_img c) i j = true -> rounded (value (px o i j)) (px (pixels im) i j)) /\
  (user_masked (a_img c) i j = false -> finiteb (im_gain im) = true ->
   exists a g, rounded (value (px o i j)) a /\ rounded (value (im_gain im)) g /\
     (finiteb a = true -> finiteb g = true -> rounded (value a * value g) (px (pixels im) i j))).
Proof.
  intros fs nsum c im o i j W O B C K R Hi Hj F.
  destruct (C20_pixels_lm fs nsum c im o W O B C K) as [Sh V]. rewrite R in Sh, V.
  assert (E : px (pixels im) i j = px (scaled (a_img c) (im_gain im) o) i j).
  { injection Sh as Sr Sc. cbn [scaled nr nc] in Sr, Sc. apply V; lia. }
  rewrite E. cbn [scaled px]. split; intros U; rewrite U.
  - now apply to_f4_rounded.
  - intros G. exists (to_f4 (px o i j)), (to_f4 (im_gain im)). split; [now apply to_f4_rounded|].
    split; [now apply to_f4_rounded|]. intros Fa Fg. apply f4_mul_rounded; trivial; apply to_f4_valid.
Qed.

(** C113: source value, gain and product all being float32 numbers, the pixel is the product,
    exactly. *)
Lemma C113_exact_lm : forall fs nsum c im o i j, wf_source (a_img c) -> original fs (a_img c) = Some o ->
  a_borders c = false -> a_crop c = ((0, 0), (0, 0))%Z ->
  construct fs nsum c = Ok im ->
  reloads (a_img c) (extend_card im) (a_guess c) (a_mask c) = false ->
  (i < nr o)%nat -> (j < nc o)%nat -> user_masked (a_img c) i j = false ->
  finiteb (px o i j) = true -> finiteb (im_gain im) = true ->
  f32 (value (px o i j)) -> f32 (value (im_gain im)) -> f32 (value (px o i j) * value (im_gain im)) ->
  finiteb (px (pixels im) i j) = true /\
  value (px (pixels im) i j) = value (px o i j) * value (im_gain im).
Proof.
  intros fs nsum c im o i j W O B C K R Hi Hj U F G Fv Fg Fp.
  destruct (C113_pixels_lm fs nsum c im o i j W O B C K R Hi Hj F) as [_ H].
  destruct (H U G) as (a & g & Ra & Rg & Rp).
  destruct (rounded_exact _ _ Fv Ra) as [Fa Va]. destruct (rounded_exact _ _ Fg Rg) as [Fg' Vg].
  specialize (Rp Fa Fg'). rewrite Va, Vg in Rp. now apply rounded_exact.
Qed.

Lemma three e1 e2 e3 u : 0 <= u <= / 1000 -> Rabs e1 <= u -> Rabs e2 <= u -> Rabs e3 <= u ->
  Rabs ((1 + e1) * (1 + e2) * (1 + e3) - 1) <= 4 * u.
Proof.
  intros U A B C. apply Rabs_le_inv in A, B, C.
  assert (P : Rabs (e1 * e2) <= u * u).
  { rewrite Rabs_mult. apply Rmult_le_compat; try apply Rabs_pos; now apply Rabs_le. }
  assert (Q : Rabs ((e1 + e2 + e1 * e2) * e3) <= 3 * u * u).
  { rewrite Rabs_mult. apply Rabs_le_inv in P. apply Rmult_le_compat; try apply Rabs_pos.
    - apply Rabs_le. nra.
    - now apply Rabs_le. }
  replace ((1 + e1) * (1 + e2) * (1 + e3) - 1) with (e1 + e2 + e3 + e1 * e2 + (e1 + e2 + e1 * e2) * e3) by ring.
  apply Rabs_le_inv in P, Q. apply Rabs_le. nra.
Qed.

(** C113: away from underflow and overflow, the pixel is the product of source value and gain
    up to a relative error of 2^-22. *)
Lemma C113_error_lm : forall fs nsum c im o i j, wf_source (a_img c) -> original fs (a_img c) = Some o ->
  a_borders c = false -> a_crop c = ((0, 0), (0, 0))%Z ->
  construct fs nsum c = Ok im ->
  reloads (a_img c) (extend_card im) (a_guess c) (a_mask c) = false ->
  (i < nr o)%nat -> (j < nc o)%nat -> user_masked (a_img c) i j = false ->
  finiteb (px o i j) = true -> finiteb (im_gain im) = true ->
  let v := value (px o i j) in
  let g := value (im_gain im) in
  powerRZ 2 (-125) <= Rabs v <= powerRZ 2 127 -> powerRZ 2 (-125) <= Rabs g <= powerRZ 2 127 ->
  powerRZ 2 (-125) <= Rabs (v * g) <= powerRZ 2 127 ->
  finiteb (px (pixels im) i j) = true /\
  Rabs (value (px (pixels im) i j) - v * g) <= powerRZ 2 (-22) * Rabs (v * g).
Proof.
  intros fs nsum c im o i j W O B C K R Hi Hj U F G v g Bv Bg Bp.
  destruct (C113_pixels_lm fs nsum c im o i j W O B C K R Hi Hj F) as [_ H].
  destruct (H U G) as (a & b & Ra & Rb & Rp). fold v in Ra. fold g in Rb.
  assert (L : 2 * powerRZ 2 127 - powerRZ 2 103 = f32_limit).
  { unfold f32_limit. rewrite !pw. replace 128%Z with (1 + 127)%Z by lia. rewrite bpow_plus. reflexivity. }
  assert (L' : powerRZ 2 103 <= / 4 * powerRZ 2 127).
  { rewrite !pw. replace 127%Z with (2 + 125)%Z by lia. rewrite bpow_plus. change (bpow radix2 2) with 4.
    assert (bpow radix2 103 <= bpow radix2 125) by (apply bpow_le; lia). lra. }
  assert (L2 : powerRZ 2 (-126) = / 2 * powerRZ 2 (-125)).
  { rewrite !pw. replace (-125)%Z with (1 + -126)%Z by lia. rewrite bpow_plus. change (bpow radix2 1) with 2. lra. }
  assert (P0 : 0 < powerRZ 2 127) by (rewrite pw; apply bpow_gt_0).
  assert (P1 : 0 < powerRZ 2 (-125)) by (rewrite pw; apply bpow_gt_0).
  assert (Uu : 0 <= powerRZ 2 (-24) <= / 1000).
  { rewrite pw. split; [apply bpow_ge_0|]. change (bpow radix2 (-24)) with (/ 16777216). lra. }
  assert (U22 : powerRZ 2 (-22) = 4 * powerRZ 2 (-24)).
  { rewrite !pw. replace (-22)%Z with (2 + -24)%Z by lia. rewrite bpow_plus. reflexivity. }
  assert (lv : Rabs v < f32_limit) by lra. assert (lg : Rabs g < f32_limit) by lra.
  destruct (proj1 Ra lv) as [Fa Na]. destruct (proj1 Rb lg) as [Fb Nb].
  destruct (nearest_rel v (value a) lv) as (e1 & E1 & Va); trivial; [lra|].
  destruct (nearest_rel g (value b) lg) as (e2 & E2 & Vb); trivial; [lra|].
  specialize (Rp Fa Fb). set (u := powerRZ 2 (-24)) in *.
  assert (Pv : value a * value b = v * g * ((1 + e1) * (1 + e2))) by (rewrite Va, Vb; ring).
  assert (Q : / 2 <= (1 + e1) * (1 + e2) <= 5 / 4).
  { apply Rabs_le_inv in E1, E2. nra. }
  assert (Ap : Rabs (value a * value b) = Rabs (v * g) * ((1 + e1) * (1 + e2))).
  { rewrite Pv, Rabs_mult. f_equal. apply Rabs_pos_eq. lra. }
  assert (lp : Rabs (value a * value b) < f32_limit) by (rewrite Ap; nra).
  destruct (proj1 Rp lp) as [Fp Np]. split; trivial.
  assert (lq : powerRZ 2 (-126) <= Rabs (value a * value b)) by (rewrite Ap; nra).
  destruct (nearest_rel _ _ lp lq Np) as (e3 & E3 & Vp).
  rewrite Vp, Pv.
  replace (v * g * ((1 + e1) * (1 + e2)) * (1 + e3) - v * g) with (((1 + e1) * (1 + e2) * (1 + e3) - 1) * (v * g)) by ring.
  rewrite Rabs_mult, U22. apply Rmult_le_compat_r; [apply Rabs_pos|]. now apply three.
Qed.

(** C113: a count of 16777217 in a file does not survive being read with gain 1. *)
Lemma C113_counts_refuted_lm : exists fs nsum c im o,
  wf_source (a_img c) /\ original fs (a_img c) = Some o /\ a_borders c = false /\
  a_crop c = ((0, 0), (0, 0))%Z /\ construct fs nsum c = Ok im /\
  value (im_gain im) = 1 /\ value (px o 0 0) = 16777217 /\ value (px (pixels im) 0 0) = 16777216.
Proof.
  set (c := mkargs (Path "a.fits") MNone None true false nocrop None).
  set (fs := onefile [mkhdu None None (mkplane 1 1 (fun _ _ => S754_finite false 16777217 0))]).
  destruct (construct fs seq_sum c) as [im|e] eqn:E; [|vm_compute in E; discriminate].
  exists fs, seq_sum, c, im, (mkplane 1 1 (fun _ _ => S754_finite false 16777217 0)).
  split; [exact I|]. split; [reflexivity|]. split; [reflexivity|]. split; [reflexivity|]. split; [exact E|].
  vm_compute in E. injection E as <-. split; [|split].
  - simpl. lra.
  - simpl. lra.
  - simpl. lra.
Qed.

(** A pixel of 5 and a gain of 3/2 in the header: the pixel becomes 15/2. *)
Lemma C113_case_lm :
  let o := mkplane 1 1 (fun _ _ : nat => S754_finite false 5 0) in
  let r := construct nofs seq_sum (mkargs (HduList [mkhdu (Some (S754_finite false 3 (-1))) (Some true) o])
             (MArray (bplane [[0%Z]])) None true false nocrop None) in
  match r with
  | Ok im => value (px (pixels im) 0 0) = 15 / 2 /\ value (im_gain im) = 3 / 2 /\
      f32 (value (px o 0 0)%nat) /\ f32 (value (im_gain im)) /\ f32 (value (px o 0 0)%nat * value (im_gain im)) /\
      reloads (HduList [mkhdu (Some (S754_finite false 3 (-1))) (Some true) o]) (extend_card im) true (MArray (bplane [[0%Z]])) = false
  | Raise _ => False
  end.
Proof.
  cbv zeta. set (r := construct _ _ _). assert (E : exists im, r = Ok im /\ px (pixels im) 0 0 = S754_finite false 15728640 (-21) /\ im_gain im = S754_finite false 3 (-1)).
  { vm_compute. eexists. split; [reflexivity|]. split; reflexivity. }
  destruct E as (im & -> & Ep & Eg). rewrite Ep, Eg. cbn [value px].
  split; [rewrite ?pw; cbn -[IZR]; lra|]. split; [rewrite ?pw; cbn -[IZR]; lra|]. split; [|split; [|split]].
  - exists 5%Z, 0%Z. repeat split; try lia. rewrite ?pw. cbn -[IZR]. lra.
  - exists 3%Z, (-1)%Z. repeat split; try lia. rewrite ?pw. cbn -[IZR]. lra.
  - exists 15%Z, (-1)%Z. repeat split; try lia. rewrite ?pw. cbn -[IZR]. lra.
  - reflexivity.
Qed.
