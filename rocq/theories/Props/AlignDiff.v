(** C129: what _align_for_diff writes. *)
From Coq Require Import ZArith List Bool Arith Ascii String Reals Lia Lra Permutation.
From Coq Require Import SpecFloat.
From Flocq Require Import Core.Core IEEE754.BinarySingleNaN.
From Verif.Model Require Import Py Plane Ma Image AlignDiff.
From Verif.Spec Require Import Image ImageExample AlignDiff.
From Verif.Proof Require Import Image ImageMask ImageGrow ImageBorder ImageBuild ImageStore ImageSum AlignDiff AlignDiffMain AlignDiffLoad AlignDiffMask.
Import ListNotations.
Local Open Scope string_scope.

(** Where the aligned image goes, for paths as they are written. *)
Theorem C129_dest : forall d n k, folder d -> name n ->
  dest_file n = "aligned_" ++ n /\
  dest_file (slashes (S k) ++ n) = slashes (S k) ++ "aligned_" ++ n /\
  dest_file (d ++ slashes (S k) ++ n) = d ++ "/aligned_" ++ n.
Proof. exact C129_dest_lm. Qed.
Print Assumptions C129_dest.

(** Two images that are aligned get two files, and neither is the image itself. *)
Theorem C129_distinct : forall p q, usual p -> usual q ->
  (dest_file p = dest_file q <-> p = q) /\ dest_file p <> p.
Proof. exact C129_distinct_lm. Qed.
Print Assumptions C129_distinct.

(** An alignment that returns gives the path of one new file; it keeps the gain of the new image.
    Nothing else changes, and an alignment that fails changes nothing. *)
Theorem C129_files : forall register median fs r n m,
  (forall d l, align_for_diff register median fs r n m = Ok (d, l) ->
     d = dest_file n /\ files_after register median fs r n m d = Some l /\
     (forall f, f <> d -> files_after register median fs r n m f = fs f) /\
     (exists h rest p rest', fs n = Some (h :: rest) /\ l = p :: rest' /\ h_gain p = h_gain h)) /\
  (forall e, align_for_diff register median fs r n m = Raise e -> files_after register median fs r n m = fs).
Proof. exact C129_files_lm. Qed.
Print Assumptions C129_files.

(** Files that no alignment writes stay, and every alignment gives what it gives alone as long as
    no later one writes its file. *)
Theorem C129_history : forall register median fs js, apart js ->
  (forall f, (forall j, In j js -> f <> writes j) -> align_all register median fs js f = fs f) /\
  (forall before r n m later d l, js = (before ++ (r, n, m) :: later)%list ->
     align_for_diff register median fs r n m = Ok (d, l) -> (forall j, In j later -> writes j <> d) ->
     align_all register median fs js d = Some l).
Proof. exact C129_history_lm. Qed.
Print Assumptions C129_history.

(** The order of alignments of different images does not matter. *)
Theorem C129_order : forall register median fs js js', apart js -> NoDup (map writes js) -> Permutation js js' ->
  forall f, align_all register median fs js' f = align_all register median fs js f.
Proof. exact C129_order_lm. Qed.
Print Assumptions C129_order.

(** A reference called like the file to be written is lost. *)
Theorem C129_overwritten : forall register median fs n m d l r,
  align_for_diff register median fs r n m = Ok (d, l) -> r = dest_file n -> files_after register median fs r n m r = Some l.
Proof. exact C129_overwritten_lm. Qed.
Print Assumptions C129_overwritten.

(** What is written is the reference, moved onto the grid of the new image. *)
Theorem C129_reference : forall T (find : marr -> marr -> res T) resample register median fs r n m d l,
  moves find resample register -> align_for_diff register median fs r n m = Ok (d, l) ->
  exists ref h rest x, masked_file fs r ref /\ fs n = Some (h :: rest) /\ shows l (resample x ref (shape (h_data h))).
Proof. exact C129_reference_lm. Qed.
Print Assumptions C129_reference.

(** What is registered: the finite pixels of the reference, to the pixels of the new image with
    the masked ones replaced by the median, and once more to the masked image itself if that gives
    a ValueError and no other error. What comes out is written, or is the error raised. *)
Theorem C129_registered : forall register median fs r n m hr rr hn rn,
  fs r = Some (hr :: rr) -> fs n = Some (hn :: rn) -> mask_fits_file fs m (h_data hn) ->
  exists ref new f, masked_file fs r ref /\ masked_new fs n m new /\ filled_with (median new) new f /\
    comes_out (align_for_diff register median fs r n m) (dest_file n)
      (match register ref f with Raise ValueError => register ref new | x => x end).
Proof. exact C129_registered_lm. Qed.
Print Assumptions C129_registered.

(** A file that is missing is an IOError, and a mask of another size a ValueError. *)
Theorem C129_missing : forall register median fs r n m,
  (fs r = None \/ fs n = None \/ (exists k, m = Some k /\ fs k = None) -> align_for_diff register median fs r n m = Raise IOError) /\
  (forall k hr rr hn rn hm rm, fs r = Some (hr :: rr) -> fs n = Some (hn :: rn) -> m = Some k -> fs k = Some (hm :: rm) ->
     ~ mask_fits_file fs m (h_data hn) -> align_for_diff register median fs r n m = Raise ValueError).
Proof. exact C129_missing_lm. Qed.
Print Assumptions C129_missing.

(** If the transformation changes nothing the file has the pixels of the reference. *)
Theorem C129_unmoved : forall T (find : marr -> marr -> res T) resample register median fs r n m d l,
  moves find resample register -> (forall x a, resample x a (shape (dat a)) = Bare (dat a)) ->
  align_for_diff register median fs r n m = Ok (d, l) ->
  forall hr rr hn rn, fs r = Some (hr :: rr) -> fs n = Some (hn :: rn) -> shape (h_data hr) = shape (h_data hn) ->
  exists p, l = [p] /\ plane_eq (h_data p) (h_data hr).
Proof. exact C129_unmoved_lm. Qed.
Print Assumptions C129_unmoved.

(** The image that is written is not the new image: here the transformation is the identity, and
    the pixels are those of the reference. *)
Theorem C129_new_refuted : ~ (forall T (find : marr -> marr -> res T) resample register median fs r n m d l,
  moves find resample register -> (forall x a, resample x a (shape (dat a)) = Bare (dat a)) ->
  align_for_diff register median fs r n m = Ok (d, l) ->
  exists h rest p, fs n = Some (h :: rest) /\ l = [p] /\ plane_eq (h_data p) (h_data h)).
Proof. exact C129_new_refuted_lm. Qed.
Print Assumptions C129_new_refuted.

(** The aligned image loaded with a threshold of at most 1, less than half of it masked: the mask
    of the registered image. With the default threshold none of it is left. *)
Theorem C129_loaded : forall register median fs nsum ref new mask dest l d m t g im,
  align_for_diff register median fs ref new mask = Ok (dest, l) -> shows l (Masked d m) -> shape m = shape d ->
  2 * set_cells m < nr m * nc m ->
  construct (files_after register median fs ref new mask) nsum (mkargs (Path dest) MNone t true false ((0,0),(0,0))%Z g) = Ok im ->
  shape (pixels im) = shape d /\
  (forall v, t = Some v -> finiteb v = true -> (0 < SF2R radix2 v <= 1)%R -> final_mask (pixels im) (fun i j => px m i j = true) (im_data im)) /\
  (t = None -> final_mask (pixels im) (fun i j => False) (im_data im)).
Proof. exact C129_loaded_lm. Qed.
Print Assumptions C129_loaded.

Example C129_case :
  let js := [("ref.fits", "night/a.fits", None); ("ref.fits", "night/b.fits", Some "ref.fits")] in
  folder "night" /\ name "a.fits" /\ usual "night/a.fits" /\ usual "night/b.fits" /\ apart js /\ NoDup (map writes js) /\
  moves (fun _ _ => Ok tt) still steady /\
  align_for_diff steady (fun _ => fzero) two_files "ref.fits" "night/a.fits" None =
    Ok ("night/aligned_a.fits", [mkhdu (Some (pix_of_Z 2)) None (zplane [[1; 2]]%Z)]) /\
  align_all steady (fun _ => fzero) two_files js "night/aligned_b.fits" = Some [mkhdu None (Some true) (zplane [[1; 2]]%Z)] /\
  align_for_diff steady (fun _ => fzero) two_files "ref.fits" "night/c.fits" None = Raise IOError /\
  files_after steady (fun _ => fzero) two_files "night/aligned_a.fits" "night/a.fits" None "night/aligned_a.fits" =
    Some [mkhdu (Some (pix_of_Z 2)) None (zplane [[7; 8]]%Z)].
Proof. exact C129_case_lm. Qed.

Example C129_masked_case :
  mask_fits_file three_files (Some "mask.fits") (zplane [[7; 8]]%Z) /\ ~ mask_fits_file three_files (Some "mask.fits") (zplane [[7; 8; 9]]%Z) /\
  mask_fits_file three_files None (zplane [[7; 8]]%Z) /\
  exists l h e, align_for_diff picky (fun _ => fzero) three_files "ref.fits" "new.fits" (Some "mask.fits") = Ok ("aligned_new.fits", l) /\ l = [h; e] /\
    h_data h = zplane [[1; 2]]%Z /\ h_extend h = Some true /\ px (h_data e) 0 0 = fzero /\ px (h_data e) 0 1 = fone.
Proof. exact C129_masked_case_lm. Qed.
