(** C139: whole histories of an image with a Gaussian PSF whose stamps are cut from its
    interpolated image. *)
From Coq Require Import ZArith List Bool Arith Reals.
From Coquelicot Require Import Complex.
From Verif.Model Require Import Py Plane Ma Coadd.
From Verif.Spec Require Import Coadd.
From Verif.Model Require Import Filter.
From Verif.Spec Require Import Filter.
From Verif.Proof Require Import Filter FilterMain.
From Verif.Model Require Import Interp Subtract FindS Sources Stamps Transparency Cut KL Session Chain ChainCoadd CutChain Gauss GaussImage Live LiveGauss.
From Verif.Spec Require Import Stamps KL Chain Session Uses UsesCoadd GaussImage Cut CutCoadd Live LiveFar LiveGauss.
From Verif.Proof Require Import Interp Stamps StampsLoop StampsExample KL KLMain Session SessionLm SessionExample GaussMain Chain ChainMain ChainUnits Uses UsesEx UsesCoadd UsesCoaddMain UsesCoaddEx Filtered FilteredEx GaussImage GaussFiltered GaussImageEx CutMain CutChain CutChainLeft CutCoaddEx Live LiveMain LiveEx LiveGauss LiveGaussEx LiveFar LiveGaussFar.
Import ListNotations.
Local Open Scope R_scope.

(** The attributes, the answers and the interpolated image after a history of an image of the
    Gaussian class: those of Model/GaussImage.v for the stamps of one extraction, from the image
    of the constructor, and with what it left for the matched filter. *)
Theorem C139_history : forall W fitter stats render fuel o d x c ex,
  build W fuel o d = Some (Ok x) -> fst (Session.best_sources (bu_lib x) (bu_attr x)) = Ok c ->
  snd (first_cut W o x c) = Ok ex ->
  let y := opened W o c x in
  let L := live_lib W o x in
  forall cs, Forall g_same_stamps cs ->
  let s := lg_lived W fitter stats render o cs x in
  let a := bu_attr (g_after fitter stats render cs y) in
  snd s = a /\
  pic_now (fst s) = (if pos a then fst (first_cut W o x c) else intact (bu_clean x)) /\
  (forall l sh, fst (lg_psf L fitter stats render l sh s) = fst (gauss_psf (bu_lib y) fitter stats render l sh a)) /\
  fst (lg_normal_image L fitter stats render s) = fst (g_normal_image (bu_lib y) fitter stats render a) /\
  fst (lg_s_hat_comp L fitter stats render s) = fst (g_s_hat_comp (bu_lib y) fitter stats render a) /\
  fst (lg_s_component L fitter stats render s) = fst (g_s_component (bu_lib y) fitter stats render a).
Proof. exact C139_history_lm. Qed.
Print Assumptions C139_history.

(** get_variable_psf answers the Gaussian of the stamps of the first extraction, after any plain
    history and whatever loss and shape it is given. *)
Theorem C139_psf : forall W fitter stats render fuel o d x c ex G,
  (forall n m, length (fst (l_eigh W n m)) = n) ->
  build W fuel o d = Some (Ok x) -> fst (Session.best_sources (bu_lib x) (bu_attr x)) = Ok c ->
  snd (first_cut W o x c) = Ok ex ->
  gaussian_of fitter stats render (map numbers (ex_stamps ex)) G ->
  forall cs, Forall g_plain cs ->
  let s := lg_lived W fitter stats render o cs x in
  forall l sh, fst (lg_psf (live_lib W o x) fitter stats render l sh s) = Ok (NoField, [G]).
Proof. exact C139_psf_lm. Qed.
Print Assumptions C139_psf.

(** Each pixel of s_component: the image that the extraction leaves, seen through the Gaussian. *)
Theorem C139_pixels : forall W fitter stats render fuel o d x c ex G e u v,
  (forall n m, length (fst (l_eigh W n m)) = n) ->
  build W fuel o d = Some (Ok x) -> fst (Session.best_sources (bu_lib x) (bu_attr x)) = Ok c ->
  snd (first_cut W o x c) = Ok ex ->
  gaussian_of fitter stats render (map numbers (ex_stamps ex)) G ->
  forall cs, Forall g_plain cs -> first_component (2 / 10) (map forget cs) <> Some (g_last_loss cs) ->
  is_stamp G e -> symmetric e u v -> rsum2 (nr e) (nc e) (px e) <> 0 ->
  let sh := shape (m_dat (bu_data x)) in
  fits sh e -> var (bu_back x) <> 0 ->
  exists S, fst (lg_s_component (live_lib W o x) fitter stats render (lg_lived W fitter stats render o cs x)) = Ok (Ok S) /\
    shape S = sh /\
    forall i j, (i < fst sh)%nat -> (j < snd sh)%nat ->
      px S i j = snd (made_of (need_filt (g_history cs))) / var (bu_back x) ^ 2 / sqrt (cells_of sh) *
                 Filter.seen sh (px (numbers (fst (first_cut W o x c)))) e (Z.of_nat u) (Z.of_nat v) i j.
Proof. exact C139_pixels_lm. Qed.
Print Assumptions C139_pixels.

Example C139_case : exists ex,
  build striped 1 schosen sdata = Some (Ok sbuilt) /\ (forall n c, length (fst (l_eigh striped n c)) = n) /\
  fst (best_sources (bu_lib sbuilt) (bu_attr sbuilt)) = Ok [mid'; mid] /\
  snd (first_cut striped schosen sbuilt [mid'; mid]) = Ok ex /\ length (ex_stamps ex) = 2%nat /\
  gaussian_of ex_fitter ex_stats ex_render (map numbers (ex_stamps ex)) (ex_render 1 2 0 1) /\
  Forall g_same_stamps [CSetInfLoss (-1); CGetPSF (Some (-1)) (Some (5, 5)%nat); CClean; CSHat] /\
  Forall g_plain some_calls /\ first_component (2 / 10) (map forget some_calls) <> Some (g_last_loss some_calls) /\
  is_stamp (ex_render 1 2 0 1) (bell 1 2 1) /\ symmetric (bell 1 2 1) 1 1 /\
  rsum2 (nr (bell 1 2 1)) (nc (bell 1 2 1)) (px (bell 1 2 1)) <> 0 /\ fits (shape (m_dat (bu_data sbuilt))) (bell 1 2 1) /\
  var (bu_back sbuilt) <> 0 /\ snd (made_of (need_filt (g_history some_calls))) = 3.
Proof. exact C139_case_lm. Qed.

(** Whatever is called on an image of this class, in whatever order, whatever raises: a pixel that
    is in no stamp of the shapes that were set, around the sources of the image and those given to it, is what the
    constructor made; so it is where the matched filter reads it. *)
Theorem C139_far : forall W fitter stats render fuel o d x cs,
  build W fuel o d = Some (Ok x) ->
  let shapes := stamp_shape (bu_attr x) :: flat_map g_asks_shape cs in
  (forall q, In q shapes -> (0 < fst q)%nat /\ (0 < snd q)%nat) ->
  let p := fst (lg_lived W fitter stats render o cs x) in
  shape (pic_now p) = shape (bu_clean x) /\
  forall i j,
  (forall q s, In q shapes -> In s (own_sources x ++ flat_map brings cs) -> ~ in_stamp q s (Z.of_nat i) (Z.of_nat j)) ->
  px (pic_now p) i j = Some (px (bu_clean x) i j) /\
  forall h, pic_hat p = Some h -> px h i j = Some (px (bu_clean x) i j).
Proof. exact C139_far_lm. Qed.
Print Assumptions C139_far.

Example C139_far_case :
  let cs := [CGetPSF None (Some (21, 21)%nat); CSetStampShape (3, 3)%nat; CUpdateSources (Some [mid]); CStampsPos; CSHat] in
  let shapes := stamp_shape (bu_attr sbuilt) :: flat_map g_asks_shape cs in
  build striped 1 schosen sdata = Some (Ok sbuilt) /\ own_sources sbuilt = [mid'; mid] /\
  (forall q, In q shapes -> (0 < fst q)%nat /\ (0 < snd q)%nat) /\
  (forall q s, In q shapes -> In s (own_sources sbuilt ++ flat_map brings cs) -> ~ in_stamp q s 2 2) /\
  in_stamp (3, 3)%nat mid 10 10 /\ in_stamp (21, 21)%nat mid 2 2.
Proof. exact C139_far_case_lm. Qed.
