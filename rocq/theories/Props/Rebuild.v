(** C125: the images that a subtraction builds itself. *)
From Coq Require Import ZArith List Bool Arith String Reals SpecFloat.
From Coquelicot Require Import Complex.
From Verif.Model Require Import Py Plane Ma Image Interp Subtract Chain Gauss GaussSub Rebuild.
From Verif.Spec Require Import Image ImageExample Float32 Coadd Rebuild.
From Verif.Proof Require Import ImageSum UsesEx RebuildMain RebuildEx.
Import ListNotations.
Local Open Scope R_scope.

(** An image of the other class: same pixels, in single precision; the mask, with the pixels that
    are not numbers, is enlarged once more. *)
Theorem C125_class : forall fs nsum im, wf (im_data im) -> range_masked im -> fs "MaskedArray"%string = None ->
  exists im', converted fs nsum (Differs im) = Ok im' /\ shape (pixels im') = shape (pixels im) /\
    (forall i j, (i < nr (pixels im))%nat -> (j < nc (pixels im))%nat -> in_single (px (pixels im) i j) (px (pixels im') i j)) /\
    mask_from (fun i j => is_masked im i j \/ non_finite (px (pixels im) i j)) im'.
Proof. exact C125_class_lm. Qed.
Print Assumptions C125_class.

Example C125_class_case : exists im, construct nofs seq_sum (plain_args (Ndarray hot)) = Ok im /\
  wf (im_data im) /\ range_masked im /\ is_masked im 2 2 /\ ~ is_masked im 0 0.
Proof. exact C125_class_case_lm. Qed.

(** A pixel of an image of the other class that was not masked is masked in the image that is
    subtracted. *)
Theorem C125_grown_refuted : exists im im',
  construct nofs seq_sum (mkargs (Ndarray (zplane [repeat 1%Z 20])) (MArray (bplane [1%Z :: repeat 0%Z 19])) None true false nocrop None) = Ok im /\
  converted nofs seq_sum (Differs im) = Ok im' /\ ~ is_masked im 0 8 /\ is_masked im' 0 8.
Proof. exact C125_grown_refuted_lm. Qed.
Print Assumptions C125_grown_refuted.

(** A CCDData: its values as they are; its mask is not used. *)
Theorem C125_ccd : forall fs nsum d m, exists im, converted fs nsum (Ccd d m) = Ok im /\
  plane_eq (pixels im) d /\
  mask_from (fun i j => non_finite (px d i j) \/ out_of_range (px d i j)) im.
Proof. exact C125_ccd_lm. Qed.
Print Assumptions C125_ccd.

Theorem C125_ccd_mask_refuted : forall fs nsum d m im,
  (forall i j, (i < nr d)%nat -> (j < nc d)%nat -> ~ non_finite (px d i j) /\ ~ out_of_range (px d i j)) ->
  converted fs nsum (Ccd d m) = Ok im ->
  forall i j, (i < nr d)%nat -> (j < nc d)%nat -> ~ is_masked im i j.
Proof. exact C125_ccd_mask_refuted_lm. Qed.
Print Assumptions C125_ccd_mask_refuted.

(** Anything else: what the constructor makes of it with its defaults, and AttributeError,
    whatever was wrong, if it makes nothing. *)
Theorem C125_source : forall fs nsum s, wf_source s ->
  match build_error fs (plain_args s) with
  | None => exists im, construct fs nsum (plain_args s) = Ok im /\ converted fs nsum (Raw s) = Ok im
  | Some _ => converted fs nsum (Raw s) = Raise AttributeError
  end.
Proof. exact C125_source_lm. Qed.
Print Assumptions C125_source.

(** The registered image: the registered values, in single precision, cut to the size of the
    reference; its mask comes from the footprint and from the values out of range. *)
Theorem C125_aligned : forall fs nsum register ref new d m,
  register (im_data new) (im_data ref) = Ok (d, m) -> shape m = shape d ->
  exists im, aligned fs nsum register ref new = Ok im /\
    shape (pixels im) = (Nat.min (nr d) (nr (pixels ref)), Nat.min (nc d) (nc (pixels ref))) /\
    (forall i j, (i < nr (pixels im))%nat -> (j < nc (pixels im))%nat -> in_single (px d i j) (px (pixels im) i j)) /\
    mask_from (fun i j => px m i j = true \/ out_of_range (px (pixels im) i j)) im.
Proof. exact C125_aligned_lm. Qed.
Print Assumptions C125_aligned.

(** The mask of the caller's new image is not used: if the registration changes nothing and its
    footprint has no flag, no pixel of the registered image is masked, whatever the mask of the new
    image was. *)
Theorem C125_mask_forgotten_refuted : forall fs nsum register ref new m im,
  register (im_data new) (im_data ref) = Ok (pixels new, m) -> shape m = shape (pixels new) ->
  (forall i j, (i < nr m)%nat -> (j < nc m)%nat -> px m i j = false) ->
  (forall i j, (i < nr m)%nat -> (j < nc m)%nat ->
     ~ non_finite (px (pixels new) i j) /\ ~ out_of_range (px (pixels new) i j)) ->
  aligned fs nsum register ref new = Ok im ->
  forall i j, (i < nr (pixels im))%nat -> (j < nc (pixels im))%nat -> ~ is_masked im i j.
Proof. exact C125_mask_forgotten_refuted_lm. Qed.
Print Assumptions C125_mask_forgotten_refuted.

Example C125_forgotten_case : let new := streaked 0 0 in
  in_place (im_data new) (im_data (streaked 19 19)) = Ok (pixels new, pconst (20, 20)%nat false) /\
  is_masked new 0 0 /\
  (forall i j, ~ non_finite (px (pixels new) i j) /\ ~ out_of_range (px (pixels new) i j)) /\
  exists im, aligned nofs seq_sum in_place (streaked 19 19) new = Ok im /\ shape (pixels im) = (20, 20)%nat.
Proof. exact C125_forgotten_case_lm. Qed.

(** The mask of the result is the union of the masks of the images that were subtracted. *)
Theorem C125_mask : forall fs nsum register W fuel o o' md beta shift iterative ref new align D P S m,
  subtract_call fs nsum register W fuel o o' md beta shift iterative ref new align = Some (Ok (D, P, S, m)) ->
  exists r n, operands fs nsum register ref new align = Ok (r, n) /\ shape (pixels n) = shape (pixels r) /\
    is_union (fun im => msk (im_data im)) [r; n] (shape (pixels r)) m.
Proof. exact C125_mask_lm. Qed.
Print Assumptions C125_mask.

Example C125_mask_case : exists D P S m,
  subtract_call nofs seq_sum (fun _ _ => Raise ValueError) mended 1 schosen schosen (Rebuild.Stamps (2 / 10)) false false false
    (Suits (streaked 0 0)) (Suits (streaked 19 19)) false = Some (Ok (D, P, S, m)) /\
  masked_at m 0%nat 0%nat = true /\ masked_at m 19%nat 19%nat = true /\ masked_at m 0%nat 19%nat = false.
Proof. exact C125_mask_case_lm. Qed.

(** Images of different sizes, also after the registration. *)
Theorem C125_sizes : forall fs nsum register W fuel o o' md beta shift iterative ref new align r n x y,
  operands fs nsum register ref new align = Ok (r, n) -> shape (pixels n) <> shape (pixels r) ->
  build W fuel (choices_for ref o) (mdata r) = Some (Ok x) ->
  build W fuel (if align then plain_choices o' else choices_for new o') (mdata n) = Some (Ok y) ->
  subtract_call fs nsum register W fuel o o' md beta shift iterative ref new align = Some (Raise ValueError).
Proof. exact C125_sizes_lm. Qed.
Print Assumptions C125_sizes.

(** An image of 20 times 20 pixels and one of 3 times 3. *)
Example C125_sizes_case : let small := mkimage (Ndarray (pconst (3, 3)%nat (pix_of_Z 1))) (Some (None, None)) fone true (pix_of_Z 16)
    (mkmarr (pconst (3, 3)%nat (pix_of_Z 1)) (Full (pconst (3, 3)%nat false))) in
  operands nofs seq_sum in_place (Suits (streaked 0 0)) (Suits small) false = Ok (streaked 0 0, small) /\
  shape (pixels small) <> shape (pixels (streaked 0 0)) /\
  build mended 1 schosen (mdata (streaked 0 0)) = Some (Ok (streaked_built 0 0)) /\
  exists y, build mended 1 schosen (mdata small) = Some (Ok y).
Proof.
  cbv zeta. split; [reflexivity|]. split; [discriminate|]. split; [apply streaked_build|]. eexists. reflexivity.
Qed.

(** Options that the caller chose have no effect on images that are made anew. *)
Theorem C125_options : forall fs nsum register W fuel o o' p p' md beta shift iterative ref new align,
  (ready ref -> p = o) -> (ready new -> align = false -> p' = o') -> o_stack p = o_stack o -> o_stack p' = o_stack o' ->
  subtract_call fs nsum register W fuel p p' md beta shift iterative ref new align =
  subtract_call fs nsum register W fuel o o' md beta shift iterative ref new align.
Proof. exact C125_options_lm. Qed.
Print Assumptions C125_options.

(** Another stamp shape and strict picking, for a reference that is an array and a new image that
    is aligned. *)
Example C125_options_case : let ref := Raw (Ndarray hot) in let new := Suits (streaked 0 0) in
  let o := mkchoices (Some (5, 5)%nat) 3 true (Some 1) 300000 in
  (ready ref -> o = schosen) /\ (ready new -> true = false -> o = schosen) /\ o_stack o = o_stack schosen /\ o <> schosen.
Proof. cbv zeta. split; [intros []|]. split; [discriminate|]. split; [reflexivity|discriminate]. Qed.

(** Of the image that is aligned only the pixels and the mask matter, for the registration. *)
Theorem C125_only_pixels : forall fs nsum register W fuel o o' md beta shift iterative ref im im',
  im_data im' = im_data im ->
  subtract_call fs nsum register W fuel o o' md beta shift iterative ref (Suits im') true =
  subtract_call fs nsum register W fuel o o' md beta shift iterative ref (Suits im) true.
Proof. exact C125_only_pixels_lm. Qed.
Print Assumptions C125_only_pixels.

(** The result is the one for images that the caller builds with the defaults (no stamp shape, at
    least 20 sources, no strict picking, no mask threshold). *)
Theorem C125_same : forall fs nsum register W fuel o o' md beta shift iterative ref new r n,
  converted fs nsum ref = Ok r -> converted fs nsum new = Ok n ->
  let chosen x o := match x with Suits _ => o | _ => mkchoices None 20 false None (o_stack o) end in
  subtract_call fs nsum register W fuel o o' md beta shift iterative ref new false =
  subtract_call fs nsum register W fuel (chosen ref o) (chosen new o') md beta shift iterative (Suits r) (Suits n) false.
Proof. exact C125_same_lm. Qed.
Print Assumptions C125_same.

(** An array that converts, and a registration that works. *)
Example C125_same_case : exists r n', converted nofs seq_sum (Raw (Ndarray hot)) = Ok r /\
  converted nofs seq_sum (Suits (streaked 0 0)) = Ok (streaked 0 0) /\
  aligned nofs seq_sum in_place (streaked 19 19) (streaked 0 0) = Ok n'.
Proof.
  destruct C125_class_case_lm as (r & E & _). destruct C125_forgotten_case_lm as (_ & _ & _ & n' & A & _).
  exists r, n'. split; [|split; [reflexivity|exact A]]. unfold converted. now rewrite E.
Qed.

(** The same with align=True, for the registered image. *)
Theorem C125_same_aligned : forall fs nsum register W fuel o o' md beta shift iterative ref new r n n',
  converted fs nsum ref = Ok r -> converted fs nsum new = Ok n -> aligned fs nsum register r n = Ok n' ->
  subtract_call fs nsum register W fuel o o' md beta shift iterative ref new true =
  subtract_call fs nsum register W fuel (match ref with Suits _ => o | _ => mkchoices None 20 false None (o_stack o) end)
    (mkchoices None 20 false None (o_stack o')) md beta shift iterative (Suits r) (Suits n') false.
Proof. exact C125_same_aligned_lm. Qed.
Print Assumptions C125_same_aligned.
