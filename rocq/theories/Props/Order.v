(** C108: the order of the stars and the signs of the eigenvectors. *)
From Coq Require Import ZArith List Bool Arith Reals Lia Lra Permutation.
From Verif.Model Require Import Py Plane Sources KL Session.
From Verif.Spec Require Import KL Session Order.
From Verif.Proof Require Import KL KLMain Session SessionFrame SessionMain SessionLm SessionExample Order OrderMain OrderSign OrderEx.
Import ListNotations.
Local Open Scope R_scope.

(** Two images with the same stars in different order, or two solvers. *)
Theorem C108_order : forall NI FT IM (L L' : lib NI FT IM) sh s0 s0' cs cs' stamps positions stamps' positions' l psf,
  lib_ok L -> lib_ok L' -> new_image L sh s0 -> new_image L' sh s0' -> Forall plain cs -> Forall plain cs' -> 0 <= l ->
  stamps_of NI FT IM L sh = Ok (stamps, positions) -> stamps_of NI FT IM L' sh = Ok (stamps', positions') ->
  Permutation (combine stamps positions) (combine stamps' positions') -> (length stamps <= 250)%nat ->
  smooth L = None -> smooth L' = None -> fit L' = fit L -> fair_fit (fit L) positions ->
  (forall c, KL.cov_matrix (fst sh + 6, snd sh + 6)%nat stamps = Ok c ->
     eigh_ok (length stamps) c (eigh L (length stamps) c) /\
     simple_last (length (snd psf)) (fst (eigh L (length stamps) c))) ->
  (forall c, KL.cov_matrix (fst sh + 6, snd sh + 6)%nat stamps' = Ok c ->
     eigh_ok (length stamps) c (eigh L' (length stamps) c)) ->
  fst (get_variable_psf L (Some l) None (exec_all L cs s0)) = Ok psf ->
  exists psf', fst (get_variable_psf L' (Some l) None (exec_all L' cs' s0')) = Ok psf' /\
    length (snd psf') = length (snd psf) /\
    forall x y i j, psf_at psf' x y i j = psf_at psf x y i j.
Proof. exact C108_order_lm. Qed.
Print Assumptions C108_order.

Example C108_order_case :
  lib_ok found /\ lib_ok swapped /\ new_image found (1, 1)%nat (fresh _ _ _ (1, 1)%nat None) /\
  new_image swapped (1, 1)%nat (fresh _ _ _ (1, 1)%nat None) /\
  stamps_of _ _ _ found (1, 1)%nat = Ok ([row; col], [(0, 0); (1, 0)]) /\
  stamps_of _ _ _ swapped (1, 1)%nat = Ok ([col; row], [(1, 0); (0, 0)]) /\
  Permutation (combine [row; col] [(0, 0); (1, 0)]) (combine [col; row] [(1, 0); (0, 0)]) /\
  smooth found = None /\ smooth swapped = None /\ fit swapped = fit found /\ fair_fit (fit found) [(0, 0); (1, 0)] /\
  exists psf, fst (get_variable_psf found (Some 0) None (exec_all found [] (fresh _ _ _ (1, 1)%nat None))) = Ok psf /\
  (forall c, KL.cov_matrix (1 + 6, 1 + 6)%nat [row; col] = Ok c ->
     eigh_ok 2 c (eigh found 2 c) /\ simple_last (length (snd psf)) (fst (eigh found 2 c))) /\
  (forall c, KL.cov_matrix (1 + 6, 1 + 6)%nat [col; row] = Ok c -> eigh_ok 2 c (eigh swapped 2 c)).
Proof. exact C108_order_case_lm. Qed.

(** Least squares on cubic polynomials is fair at positions that determine one. *)
Theorem C108_least_squares : forall fit ps, least_squares fit ps -> determining ps -> fair_fit fit ps.
Proof. exact C108_least_squares_lm. Qed.
Print Assumptions C108_least_squares.

Example C108_least_squares_case : least_squares interpolate (map at_tri tri) /\ determining (map at_tri tri) /\
  interpolate (map at_tri tri) INR 0 1 = 1 /\ interpolate (rev (map at_tri tri)) INR 0 1 = 8.
Proof. exact C108_least_squares_case_lm. Qed.

(** More than 250 stars, or a smoothed PSF: another choice of the signs of the eigenvectors
    leaves the elements as they are and changes the signs of their coefficients. *)
Theorem C108_signs : forall NI FT IM (L : lib NI FT IM) s sh s0 cs stamps positions l fs b,
  lib_ok L -> new_image L sh s0 -> Forall plain cs -> 0 <= l ->
  stamps_of NI FT IM L sh = Ok (stamps, positions) ->
  (250 < length stamps)%nat \/ (exists g, smooth L = Some g /\ odd_filter g) ->
  fair_fit (fit L) positions -> (forall k, s k = 1 \/ s k = -1) ->
  fst (get_variable_psf L (Some l) None (exec_all L cs s0)) = Ok (Fields fs, b) ->
  let L' := with_eigh L (signed s (eigh L)) in
  (forall n c, eigh_ok n c (eigh L n c) -> eigh_ok n c (eigh L' n c)) /\
  exists fs', fst (get_variable_psf L' (Some l) None (exec_all L' cs s0)) = Ok (Fields fs', b) /\
    length fs' = length fs /\
    forall k x y, (k < length fs)%nat -> nth k fs' (fun _ _ => 0) x y = s k * nth k fs (fun _ _ => 0) x y.
Proof. exact C108_signs_lm. Qed.
Print Assumptions C108_signs.

Example C108_signs_case :
  lib_ok smoothed /\ new_image smoothed (1, 1)%nat (fresh _ _ _ (1, 1)%nat None) /\
  stamps_of _ _ _ smoothed (1, 1)%nat = Ok ([row; col], [(0, 0); (1, 0)]) /\
  (exists g, smooth smoothed = Some g /\ odd_filter g) /\ fair_fit (fit smoothed) [(0, 0); (1, 0)] /\
  exists fs b, fst (get_variable_psf smoothed (Some 0) None (exec_all smoothed [] (fresh _ _ _ (1, 1)%nat None))) = Ok (Fields fs, b) /\
    length fs = 2%nat.
Proof. exact C108_signs_case_lm. Qed.

(** With a smoothed PSF, two solvers that both solve the problem give different PSFs. *)
Theorem C108_signs_refuted : exists NI FT IM (L : lib NI FT IM) e sh s0 stamps positions psf psf',
  let L' := with_eigh L e in
  lib_ok L /\ lib_ok L' /\ new_image L sh s0 /\ stamps_of NI FT IM L sh = Ok (stamps, positions) /\
  (exists g, smooth L = Some g /\ odd_filter g) /\ fair_fit (fit L) positions /\
  (forall c, KL.cov_matrix (fst sh + 6, snd sh + 6)%nat stamps = Ok c ->
     eigh_ok (length stamps) c (eigh L (length stamps) c) /\ eigh_ok (length stamps) c (eigh L' (length stamps) c) /\
     simple_last (length (snd psf)) (fst (eigh L (length stamps) c))) /\
  fst (get_variable_psf L (Some 0) None s0) = Ok psf /\ fst (get_variable_psf L' (Some 0) None s0) = Ok psf' /\
  psf_at psf 0 0 1 0 = Some (1 / 7) /\ psf_at psf' 0 0 1 0 = Some (- (1 / 7)).
Proof. exact C108_signs_refuted_lm. Qed.
Print Assumptions C108_signs_refuted.
