(** C121: what an image with a Gaussian PSF answers. *)
From Coq Require Import ZArith List Bool Arith Reals Lia Lra Permutation.
From Coquelicot Require Import Complex.
From Verif.Model Require Import Py Plane Ma Coadd.
From Verif.Spec Require Import Coadd.
From Verif.Model Require Import Filter.
From Verif.Spec Require Import Filter.
From Verif.Proof Require Import Filter FilterMain.
From Verif.Model Require Import Interp Subtract FindS Sources Stamps Transparency KL Session Chain ChainCoadd Gauss GaussImage.
From Verif.Spec Require Import Stamps KL Session Uses UsesCoadd GaussImage.
From Verif.Proof Require Import Interp Stamps StampsLoop StampsExample KL KLMain Session SessionLm SessionExample Chain ChainUnits Uses UsesEx UsesCoadd UsesCoaddMain UsesCoaddEx Filtered FilteredEx GaussMain GaussImage GaussFiltered GaussImageEx.
Import ListNotations.
Local Open Scope R_scope.







(** get_variable_psf answers the same after any history, whatever loss and shape are asked for,
    and does not set the loss. *)
Theorem C121_psf : forall NI FT IM (L : lib NI FT IM) fitter stats render sh s0 cs stamps p G l sh',
  lib_ok L -> new_image L sh s0 -> stamps_of _ _ _ L sh = Ok (stamps, p) ->
  gaussian_of fitter stats render stamps G -> Forall g_plain cs ->
  let s := g_exec_all L fitter stats render cs s0 in
  fst (gauss_psf L fitter stats render l sh' s) = Ok (NoField, [G]) /\
  inf_loss s = g_last_loss cs /\ inf_loss (snd (gauss_psf L fitter stats render l sh' s)) = g_last_loss cs.
Proof. exact C121_psf_lm. Qed.
Print Assumptions C121_psf.

Example C121_psf_case : exists stamps p,
  lib_ok (bu_lib sbuilt) /\ new_image (bu_lib sbuilt) (1, 1)%nat (bu_attr sbuilt) /\
  stamps_of _ _ _ (bu_lib sbuilt) (1, 1)%nat = Ok (stamps, p) /\ length stamps = 2%nat /\
  gaussian_of ex_fitter ex_stats ex_render stamps (ex_render 1 2 0 1) /\ Forall g_plain some_calls /\
  g_last_loss some_calls = 1 / 2.
Proof. exact C121_psf_case_lm. Qed.

(** The matched filter is that of the Gaussian, for the zero point in force when it was made. *)
Theorem C121_filter : forall NI FT IM (L : lib NI FT IM) fitter stats render sh s0 cs stamps p G,
  lib_ok L -> new_image L sh s0 -> stamps_of _ _ _ L sh = Ok (stamps, p) ->
  gaussian_of fitter stats render stamps G -> Forall g_plain cs ->
  fst (g_s_hat_comp L fitter stats render (g_exec_all L fitter stats render cs s0)) =
  Ok (shat_of L (snd (made_of (need_filt (g_history cs)))) NoField [G] (normal_of L NoField [G])).
Proof. exact C121_filter_lm. Qed.
Print Assumptions C121_filter.

(** Each pixel of s_component. *)
Theorem C121_pixels : forall W fuel o d x cs fitter stats render stamps p G e a c,
  (forall n c, length (fst (l_eigh W n c)) = n) -> build W fuel o d = Some (Ok x) ->
  stamps_of _ _ _ (bu_lib x) (stamp_shape (bu_attr x)) = Ok (stamps, p) ->
  gaussian_of fitter stats render stamps G -> Forall g_plain cs ->
  first_component (2 / 10) (map forget cs) <> Some (g_last_loss cs) ->
  is_stamp G e -> symmetric e a c -> rsum2 (nr e) (nc e) (px e) <> 0 ->
  let sh := shape (m_dat (bu_data x)) in
  fits sh e -> var (bu_back x) <> 0 ->
  exists S, fst (g_s_component (bu_lib x) fitter stats render (bu_attr (g_after fitter stats render cs x))) = Ok (Ok S) /\
    shape S = sh /\
    forall i j, (i < fst sh)%nat -> (j < snd sh)%nat ->
      px S i j = snd (made_of (need_filt (g_history cs))) / var (bu_back x) ^ 2 / sqrt (cells_of sh) *
                 Filter.seen sh (px (bu_clean x)) e (Z.of_nat a) (Z.of_nat c) i j.
Proof. exact C121_pixels_lm. Qed.
Print Assumptions C121_pixels.

Example C121_pixels_case : exists stamps p,
  build striped 1 schosen sdata = Some (Ok sbuilt) /\ (forall n c, length (fst (l_eigh striped n c)) = n) /\
  stamps_of _ _ _ (bu_lib sbuilt) (stamp_shape (bu_attr sbuilt)) = Ok (stamps, p) /\
  gaussian_of ex_fitter ex_stats ex_render stamps (ex_render 1 2 0 1) /\ Forall g_plain some_calls /\
  first_component (2 / 10) (map forget some_calls) <> Some (g_last_loss some_calls) /\
  is_stamp (ex_render 1 2 0 1) (bell 1 2 1) /\ symmetric (bell 1 2 1) 1 1 /\
  rsum2 (nr (bell 1 2 1)) (nc (bell 1 2 1)) (px (bell 1 2 1)) <> 0 /\ fits (shape (m_dat (bu_data sbuilt))) (bell 1 2 1) /\
  var (bu_back sbuilt) <> 0 /\ snd (made_of (need_filt (g_history some_calls))) = 3.
Proof. exact C121_pixels_case_lm. Qed.

(** psf_hat_sqnorm() does not use the Gaussian. *)
Theorem C121_squared : forall W fuel o d x cs fitter stats render stamps p G a b,
  (forall n c, length (fst (l_eigh W n c)) = n) -> build W fuel o d = Some (Ok x) ->
  stamps_of _ _ _ (bu_lib x) (stamp_shape (bu_attr x)) = Ok (stamps, p) ->
  gaussian_of fitter stats render stamps G -> Forall g_plain cs ->
  psf_for (bu_lib x) (stamp_shape (bu_attr x)) (g_last_loss cs) = Ok (a, b) ->
  exists q, sqnorm_of (g_after fitter stats render cs x) = Ok q /\ squared x (bu_lib x) (g_last_loss cs) q.
Proof. exact C121_squared_lm. Qed.
Print Assumptions C121_squared.

(** psf_hat_sqnorm of an image whose KL basis has one element is, at frequency zero, that of a
    PSF of unit sum, while the PSF of the matched filter has a sum greater than one: the two do
    not belong together. *)
Theorem C121_mismatch_refuted : forall W fuel o d x cs fitter stats render stamps p G e k ek u v u' v',
  (forall n c, length (fst (l_eigh W n c)) = n) -> build W fuel o d = Some (Ok x) ->
  stamps_of _ _ _ (bu_lib x) (stamp_shape (bu_attr x)) = Ok (stamps, p) ->
  gaussian_of fitter stats render stamps G -> Forall g_plain cs ->
  psf_for (bu_lib x) (stamp_shape (bu_attr x)) (g_last_loss cs) = Ok (NoField, [k]) ->
  let sh := shape (m_dat (bu_data x)) in
  is_stamp k ek -> fits sh ek -> is_stamp G e -> fits sh e -> (0 < nr ek)%nat -> (0 < nc ek)%nat ->
  (forall i j, (i < nr e)%nat -> (j < nc e)%nat -> 0 <= px e i j) ->
  (u < nr e)%nat -> (v < nc e)%nat -> px e u v = 1 ->
  (u' < nr e)%nat -> (v' < nc e)%nat -> (u', v') <> (u, v) -> 0 < px e u' v' ->
  exists q, sqnorm_of (g_after fitter stats render cs x) = Ok q /\
    px q 0%nat 0%nat = RtoC (1 / cells_of sh) /\
    px (psf_hat_sqnorm sh None [e]) 0%nat 0%nat = RtoC (rsum2 (nr e) (nc e) (px e) ^ 2 / cells_of sh) /\
    1 < rsum2 (nr e) (nc e) (px e) /\ px q 0%nat 0%nat <> px (psf_hat_sqnorm sh None [e]) 0%nat 0%nat.
Proof. exact C121_mismatch_refuted_lm. Qed.
Print Assumptions C121_mismatch_refuted.

Example C121_mismatch_case : exists stamps p k,
  build striped 1 schosen sdata = Some (Ok sbuilt) /\ (forall n c, length (fst (l_eigh striped n c)) = n) /\
  stamps_of _ _ _ (bu_lib sbuilt) (stamp_shape (bu_attr sbuilt)) = Ok (stamps, p) /\
  gaussian_of ex_fitter ex_stats ex_render stamps (ex_render 1 2 0 1) /\ Forall g_plain some_calls /\
  psf_for (bu_lib sbuilt) (stamp_shape (bu_attr sbuilt)) (g_last_loss some_calls) = Ok (NoField, [k]) /\
  is_stamp k comb /\ fits (shape (m_dat (bu_data sbuilt))) comb /\
  is_stamp (ex_render 1 2 0 1) (bell 1 2 1) /\ fits (shape (m_dat (bu_data sbuilt))) (bell 1 2 1) /\
  (0 < nr comb)%nat /\ (0 < nc comb)%nat /\ (forall i j, (i < 3)%nat -> (j < 3)%nat -> 0 <= px (bell 1 2 1) i j) /\
  px (bell 1 2 1) 1 1 = 1 /\ 0 < px (bell 1 2 1) 0 0.
Proof. exact C121_mismatch_case_lm. Qed.
