(** C126: the images that a coadd works on. *)
From Coq Require Import ZArith List Bool Arith Reals Permutation SpecFloat.
From Coquelicot Require Import Complex.
From Verif.Model Require Import Py Plane Ma Coadd.
From Verif.Spec Require Import Coadd.
From Verif.Model Require Import Image Interp Subtract Filter Sources Stamps Transparency KL Session Chain ChainCoadd Gauss GaussSub Rebuild CoaddCall.
From Verif.Spec Require Import Image ImageExample Float32 Rebuild Transparency Session Uses UsesCoadd CoaddCall.
From Verif.Proof Require Import ImageSum Session SessionLm Chain ChainUnits UsesEx RebuildEx CoaddCallMain CoaddCallEx.
Import ListNotations.
Local Open Scope R_scope.

(** Something that is not an image is replaced by the image that the constructor makes of it with
    its defaults. *)
Theorem C126_built : forall fs nsum register W stack fuel fuel' sched loss n es s im es' align,
  construct fs nsum (plain_args s) = Ok im ->
  coadd_call fs nsum register W stack fuel fuel' sched loss n (es ++ NotMade s :: es') align =
  coadd_call fs nsum register W stack fuel fuel' sched loss n (es ++ Made (mkchoices None 20 false None stack) im [] :: es') align.
Proof. exact C126_built_lm. Qed.
Print Assumptions C126_built.

(** If the constructor makes nothing of it, its exception is raised; its attribute data is not
    tried. *)
Theorem C126_not_built : forall fs nsum register W stack fuel fuel' sched loss n es s e es' align,
  Forall (can_be_made fs nsum) es -> construct fs nsum (plain_args s) = Raise e ->
  coadd_call fs nsum register W stack fuel fuel' sched loss n (es ++ NotMade s :: es') align = Some (Raise e).
Proof. exact C126_not_built_lm. Qed.
Print Assumptions C126_not_built.

(** A CCDData can be subtracted but not coadded. *)
Theorem C126_ccd_refuted : forall fs nsum register W stack fuel fuel' sched loss n es es' align d m,
  Forall (can_be_made fs nsum) es ->
  coadd_call fs nsum register W stack fuel fuel' sched loss n (es ++ NotMade Image.Other :: es') align = Some (Raise AttributeError) /\
  exists im, converted fs nsum (Ccd d m) = Ok im.
Proof. exact C126_ccd_refuted_lm. Qed.
Print Assumptions C126_ccd_refuted.

Example C126_built_case :
  (exists im, construct nofs seq_sum (plain_args (Ndarray streaks)) = Ok im) /\
  construct nofs seq_sum (plain_args Image.Other) = Raise AttributeError /\
  Forall (can_be_made nofs seq_sum) [Made schosen (streaked 0 0) []; NotMade (Ndarray streaks)].
Proof. exact C126_built_case_lm. Qed.

(** A registered image: the registered values, in single precision, not cut to the size of the
    reference; its mask comes from the footprint and from the values out of range. *)
Theorem C126_frame : forall fs nsum register ref new d m,
  register (im_data new) (im_data ref) = Ok (d, m) -> shape m = shape d ->
  exists im, registered fs nsum register ref new = Ok im /\ shape (pixels im) = shape d /\
    (forall i j, (i < nr d)%nat -> (j < nc d)%nat -> in_single (px d i j) (px (pixels im) i j)) /\
    mask_from (fun i j => px m i j = true \/ out_of_range (px (pixels im) i j)) im.
Proof. exact C126_frame_lm. Qed.
Print Assumptions C126_frame.

(** The mask that the caller's image had is not used. *)
Theorem C126_mask_forgotten_refuted : forall fs nsum register ref new m im,
  register (im_data new) (im_data ref) = Ok (pixels new, m) -> shape m = shape (pixels new) ->
  (forall i j, (i < nr m)%nat -> (j < nc m)%nat -> px m i j = false) ->
  (forall i j, (i < nr m)%nat -> (j < nc m)%nat ->
     ~ non_finite (px (pixels new) i j) /\ ~ out_of_range (px (pixels new) i j)) ->
  registered fs nsum register ref new = Ok im ->
  forall i j, (i < nr (pixels im))%nat -> (j < nc (pixels im))%nat -> ~ is_masked im i j.
Proof. exact C126_mask_forgotten_refuted_lm. Qed.
Print Assumptions C126_mask_forgotten_refuted.

Example C126_forgotten_case : let new := streaked 0 0 in
  in_place (im_data new) (im_data (streaked 19 19)) = Ok (pixels new, pconst (20, 20)%nat false) /\
  shape (pconst (20, 20)%nat false) = shape (pixels new) /\ is_masked new 0 0 /\
  (forall i j, ~ non_finite (px (pixels new) i j) /\ ~ out_of_range (px (pixels new) i j)) /\
  exists im, registered nofs seq_sum in_place (streaked 19 19) new = Ok im.
Proof. exact C126_forgotten_case_lm. Qed.

(** Of the images that are registered, options and history do not matter. *)
Theorem C126_only_pixels : forall fs nsum register W stack fuel fuel' sched loss n o r cs us us',
  Forall2 (fun u u' : choices * image * list call => im_data (snd (fst u')) = im_data (snd (fst u))) us us' ->
  let entries us := Made o r cs :: map (fun u => Made (fst (fst u)) (snd (fst u)) (snd u)) us in
  coadd_call fs nsum register W stack fuel fuel' sched loss n (entries us') true =
  coadd_call fs nsum register W stack fuel fuel' sched loss n (entries us) true.
Proof. exact C126_only_pixels_lm. Qed.
Print Assumptions C126_only_pixels.

(** With align, the other images are replaced by their registered versions, and the sources are
    detected again in all of them. *)
Theorem C126_aligned : forall fs nsum register W stack fuel fuel' sched loss n o r cs x news frames xs,
  let default := mkchoices None 20 false None stack in
  Forall2 (fun u f => registered fs nsum register r (snd (fst u)) = Ok f) news frames ->
  starry W fuel o r cs x -> detected cs x ->
  Forall2 (fun f y => starry W fuel default f [] y) frames xs ->
  coadd_call fs nsum register W stack fuel fuel' sched loss n
    (Made o r cs :: map (fun u => Made (fst (fst u)) (snd (fst u)) (snd u)) news) true =
  coadd_call fs nsum register W stack fuel fuel' sched loss n
    (Made o r (cs ++ [CUpdateSources None]) :: map (fun f => Made default f [CUpdateSources None]) frames) false.
Proof. exact C126_aligned_lm. Qed.
Print Assumptions C126_aligned.

(** A reference whose sources were never looked at cannot be aligned to. *)
Theorem C126_not_looked_refuted : forall fs nsum register W stack fuel fuel' sched loss n o r cs x news frames xs,
  let default := mkchoices None 20 false None stack in
  Forall2 (fun u f => registered fs nsum register r (snd (fst u)) = Ok f) news frames ->
  build W fuel o (mdata r) = Some (Ok x) -> ~ detected cs x ->
  Forall2 (fun f y => build W fuel default (mdata f) = Some (Ok y)) frames xs ->
  coadd_call fs nsum register W stack fuel fuel' sched loss n
    (Made o r cs :: map (fun u => Made (fst (fst u)) (snd (fst u)) (snd u)) news) true = Some (Raise AttributeError).
Proof. exact C126_not_looked_refuted_lm. Qed.
Print Assumptions C126_not_looked_refuted.

Example C126_not_looked_case : exists f,
  Forall2 (fun u f => registered nofs seq_sum in_place (streaked 19 19) (snd (fst u)) = Ok f) [(schosen, streaked 0 0, @nil call)] [f] /\
  build mended 1 schosen (mdata (streaked 19 19)) = Some (Ok (streaked_built 19 19)) /\
  ~ detected [] (streaked_built 19 19) /\
  Forall2 (fun f y => build mended 1 (mkchoices None 20 false None 300000) (mdata f) = Some (Ok y)) [f] [frame_built].
Proof. exact C126_not_looked_case_lm. Qed.

(** The stars that are matched after the detection: those that have a stamp if no stamps were
    asked for before, and otherwise all those that are found. *)
Theorem C126_stars : forall W fuel o d x cs cat st p k,
  build W fuel o d = Some (Ok x) -> Forall plain cs -> detected cs x ->
  select (bu_lib x) = Ok cat -> extract (bu_lib x) (stamp_shape (bu_attr x)) cat = (st, Ok (p, k)) ->
  fst (best_sources (bu_lib x) (bu_attr (after (cs ++ [CUpdateSources None]) x))) =
  Ok (if stamps_read (looked_at (bu_attr x)) cs then cat else k).
Proof. exact C126_stars_lm. Qed.
Print Assumptions C126_stars.

Example C126_stars_case : exists cat st p k,
  build mended 1 usual (mdata (streaked 99 99)) = Some (Ok frame_built) /\
  select (bu_lib frame_built) = Ok cat /\
  extract (bu_lib frame_built) (stamp_shape (bu_attr frame_built)) cat = (st, Ok (p, k)) /\
  detected [] frame_built /\ stamps_read (looked_at (bu_attr frame_built)) [] = false /\
  detected [CStampsPos] frame_built /\ stamps_read (looked_at (bu_attr frame_built)) [CStampsPos] = true.
Proof. exact C126_stars_case_lm. Qed.

(** What the coadd of registered images is made of. *)
Theorem C126_coadd : forall fs nsum register W stack fuel fuel' sched loss n o r cs x news frames xs Rr P m,
  (forall n c, length (fst (l_eigh W n c)) = n) -> (forall r, Permutation (l_sort W r) r) -> 0 <= loss ->
  Forall2 (fun u f => registered fs nsum register r (snd (fst u)) = Ok f) news frames ->
  starry W fuel o r cs x -> detected cs x ->
  Forall2 (fun f y => starry W fuel (mkchoices None 20 false None stack) f [] y) frames xs ->
  Forall (fun f => shape (pixels f) = shape (pixels r)) frames ->
  run_limits fuel' (seq 0 (S (length frames))) n ->
  coadd_call fs nsum register W stack fuel fuel' sched loss n
    (Made o r cs :: map (fun u => Made (fst (fst u)) (snd (fst u)) (snd u)) news) true = Some (Ok (Rr, P, m)) ->
  is_union (fun im => msk (im_data im)) (r :: frames) (shape (pixels r)) m /\
  exists ks t parts S Q ps raw,
    Forall2 (fun y k => fst (best_sources (bu_lib y) (bu_attr y)) = Ok k)
      (after (cs ++ [CUpdateSources None]) x :: map (after [CUpdateSources None]) xs) ks /\
    transparency (l_query W) (l_sort W) (l_lsqr W) (map (fun k => mkcat false false (map row_of k)) ks) None = Ok t /\
    length parts = length (x :: xs) /\
    (forall k y p, nth_error (x :: xs) k = Some y -> nth_error parts k = Some p ->
       exists z, nth_error (zps t) k = Some z /\ pt_weight p = z / var (bu_back y) /\
         squared y (bu_lib y) loss (pt_squared p) /\
         let mem := need_filt (history (cs ++ [CUpdateSources None; CCoadd loss z])) in
         match k with
         | 0%nat => filtered W y (bu_lib y) loss (snd (made_of mem)) (norm_loss mem) (pt_filtered p)
         | _ => filtered W y (bu_lib y) loss z loss (pt_filtered p)
         end) /\
    shape S = shape (pixels r) /\ shape Q = shape (pixels r) /\
    (forall i j, (i < nr (pixels r))%nat -> (j < nc (pixels r))%nat ->
      px S i j = total (fun p => px (pt_filtered p) i j) parts /\
      px Q i j = total (fun p => (RtoC (pt_weight p ^ 2)%R * px (pt_squared p) i j)%C) parts) /\
    (exists y, In y (x :: xs) /\ ps = (fst (stamp_shape (bu_attr y)) + 6)%nat) /\
    (forall y, In y (x :: xs) -> (fst (stamp_shape (bu_attr y)) + 6 <= ps)%nat) /\
    plane_eq Rr (ifft2 (pmap2 Cdiv S (pmap csqrt Q))) /\
    plane_eq raw (ifft2 (fourier_shift (pmap csqrt Q) (INR ps) (INR ps))) /\
    plane_eq P (pmap (fun z => (z / psum raw)%C) raw).
Proof. exact C126_coadd_lm. Qed.
Print Assumptions C126_coadd.

(** A coadd of registered images of other sizes than the reference fails. *)
Theorem C126_sizes : forall fs nsum register W stack fuel fuel' sched loss n o r cs news frames res,
  (forall r, Permutation (l_sort W r) r) ->
  Forall2 (fun u f => registered fs nsum register r (snd (fst u)) = Ok f) news frames ->
  Forall (fun im => 0 < nr (pixels im) /\ 0 < nc (pixels im))%nat (r :: frames) ->
  (n <= 1)%Z \/ (2 <= n <= Z.of_nat (S (length frames)))%Z /\ (Z.of_nat (S (length frames)) < 2 ^ 52)%Z /\ (5 * Z.to_nat n + 1 <= fuel')%nat ->
  coadd_call fs nsum register W stack fuel fuel' sched loss n
    (Made o r cs :: map (fun u => Made (fst (fst u)) (snd (fst u)) (snd u)) news) true = Some (Ok res) ->
  Forall (fun f => shape (pixels f) = shape (pixels r)) frames.
Proof. exact C126_sizes_lm. Qed.
Print Assumptions C126_sizes.

Example C126_coadd_case : exists f Rr P m,
  let news := [(schosen, streaked 0 0, [CGetPSF None None])] in
  Forall2 (fun u f => registered nofs seq_sum in_place (streaked 19 19) (snd (fst u)) = Ok f) news [f] /\
  starry mended 1 schosen (streaked 19 19) [CBestSources] (streaked_built 19 19) /\
  detected [CBestSources] (streaked_built 19 19) /\
  Forall2 (fun f y => starry mended 1 (mkchoices None 20 false None 300000) f [] y) [f] [frame_built] /\
  Forall (fun f => shape (pixels f) = shape (pixels (streaked 19 19))) [f] /\
  (forall n c, length (fst (l_eigh mended n c)) = n) /\ (forall r, Permutation (l_sort mended r) r) /\
  coadd_call nofs seq_sum in_place mended 300000 1 0 [] (2 / 10) 1
    (Made schosen (streaked 19 19) [CBestSources] :: map (fun u => Made (fst (fst u)) (snd (fst u)) (snd u)) news) true =
    Some (Ok (Rr, P, m)) /\
  masked_at m 19%nat 19%nat = true /\ masked_at m 0%nat 0%nat = false /\ is_masked (streaked 0 0) 0 0.
Proof. exact C126_coadd_case_lm. Qed.

(** The empty list. *)
Theorem C126_nothing : forall fs nsum register W stack fuel fuel' sched loss n,
  coadd_call fs nsum register W stack fuel fuel' sched loss n [] true = Some (Raise IndexError) /\
  coadd_call fs nsum register W stack fuel fuel' sched loss n [] false = Some (Raise ValueError).
Proof. exact C126_nothing_lm. Qed.
Print Assumptions C126_nothing.
