(** C120: what the matched-filtered image of an image built from pixels is. *)
From Coq Require Import ZArith List Bool Arith Reals Lia Lra Permutation.
From Coquelicot Require Import Complex.
From Verif.Model Require Import Py Plane Ma Coadd.
From Verif.Spec Require Import Coadd.
From Verif.Model Require Import Filter.
From Verif.Spec Require Import Filter.
From Verif.Proof Require Import Filter FilterMain.
From Verif.Model Require Import Interp Subtract FindS Sources Stamps Transparency KL Session Chain ChainCoadd.
From Verif.Spec Require Import Stamps KL Session Uses UsesCoadd.
From Verif.Proof Require Import Interp Stamps StampsLoop StampsExample KL KLMain Session SessionLm SessionExample Chain ChainUnits Uses UsesEx UsesCoadd UsesCoaddMain UsesCoaddEx Filtered FilteredEx.
Import ListNotations.
Local Open Scope R_scope.

(** What s_component answers, made for the loss in force. *)
Theorem C120_component : forall W fuel o d x cs S,
  (forall n c, length (fst (l_eigh W n c)) = n) -> build W fuel o d = Some (Ok x) ->
  Forall plain cs -> first_component (2 / 10) cs <> Some (last_loss cs) ->
  fst (s_component (bu_lib x) (bu_attr (after cs x))) = Ok (Ok S) ->
  let m := need_filt (history cs) in
  exists h, filtered W x (bu_lib x) (last_loss cs) (snd (made_of m)) (norm_loss m) h /\
    shape S = shape (m_dat (bu_data x)) /\
    forall i j, px S i j = fst (px (ifft2_ortho h) i j).
Proof. exact C120_component_lm. Qed.
Print Assumptions C120_component.

(** Each pixel of s_component, of an image with one PSF. *)
Theorem C120_constant : forall W fuel o d x cs S p t e a c i j,
  (forall n c, length (fst (l_eigh W n c)) = n) -> build W fuel o d = Some (Ok x) ->
  Forall plain cs -> first_component (2 / 10) cs <> Some (last_loss cs) ->
  fst (s_component (bu_lib x) (bu_attr (after cs x))) = Ok (Ok S) ->
  psf_for (bu_lib x) (stamp_shape (bu_attr x)) (last_loss cs) = Ok (NoField, p :: t) ->
  is_stamp p e -> center_of_mass e = (IZR a, IZR c) ->
  let sh := shape (m_dat (bu_data x)) in
  fits sh e -> (i < fst sh)%nat -> (j < snd sh)%nat -> var (bu_back x) <> 0 ->
  px S i j = snd (made_of (need_filt (history cs))) / var (bu_back x) ^ 2 / sqrt (cells_of sh) *
             Filter.seen sh (px (bu_clean x)) e a c i j.
Proof. exact C120_constant_lm. Qed.
Print Assumptions C120_constant.

Example C120_constant_case : exists S p,
  build striped 1 schosen sdata = Some (Ok sbuilt) /\ (forall n c, length (fst (l_eigh striped n c)) = n) /\
  let cs := [CGetPSF (Some (1 / 2)) None; CSetZp 3] in
  Forall plain cs /\ first_component (2 / 10) cs <> Some (last_loss cs) /\
  fst (s_component (bu_lib sbuilt) (bu_attr (after cs sbuilt))) = Ok (Ok S) /\
  psf_for (bu_lib sbuilt) (stamp_shape (bu_attr sbuilt)) (last_loss cs) = Ok (NoField, [p]) /\
  is_stamp p comb /\ center_of_mass comb = (IZR 3, IZR 3) /\ fits (20, 20)%nat comb /\
  snd (made_of (need_filt (history cs))) = 3 /\ shape (m_dat (bu_data sbuilt)) = (20, 20)%nat.
Proof. exact C120_constant_case_lm. Qed.

(** Each pixel, when the PSF varies. *)
Theorem C120_variable : forall W fuel o d x cs S fs b nf nb e es a c i j,
  (forall n c, length (fst (l_eigh W n c)) = n) -> build W fuel o d = Some (Ok x) ->
  Forall plain cs -> first_component (2 / 10) cs <> Some (last_loss cs) ->
  fst (s_component (bu_lib x) (bu_attr (after cs x))) = Ok (Ok S) ->
  let m := need_filt (history cs) in let sh := shape (m_dat (bu_data x)) in
  psf_for (bu_lib x) (stamp_shape (bu_attr x)) (last_loss cs) = Ok (Fields fs, b) ->
  psf_for (bu_lib x) (stamp_shape (bu_attr x)) (norm_loss m) = Ok (nf, nb) ->
  Forall2 is_stamp b (e :: es) -> center_of_mass e = (IZR a, IZR c) -> Forall (fits sh) (e :: es) ->
  (forall i j, (i < fst sh)%nat -> (j < snd sh)%nat -> px (l_normal W sh nf nb) i j <> 0) ->
  (i < fst sh)%nat -> (j < snd sh)%nat -> var (bu_back x) <> 0 ->
  px S i j = snd (made_of m) / var (bu_back x) ^ 2 / sqrt (cells_of sh) *
    total_of (map (fun fe => Filter.seen sh
        (fun u v => px (bu_clean x) u v * fst fe (INR u) (INR v) / px (l_normal W sh nf nb) u v) (snd fe) a c i j)
      (combine fs (e :: es))).
Proof. exact C120_variable_lm. Qed.
Print Assumptions C120_variable.

Example C120_variable_case : exists S fs b nf nb e es,
  build striped 1 schosen sdata = Some (Ok sbuilt) /\ (forall n c, length (fst (l_eigh striped n c)) = n) /\
  fst (s_component (bu_lib sbuilt) (bu_attr (after [] sbuilt))) = Ok (Ok S) /\
  first_component (2 / 10) [] <> Some (last_loss []) /\
  psf_for (bu_lib sbuilt) (stamp_shape (bu_attr sbuilt)) (last_loss []) = Ok (Fields fs, b) /\
  psf_for (bu_lib sbuilt) (stamp_shape (bu_attr sbuilt)) (norm_loss (need_filt (history []))) = Ok (nf, nb) /\
  Forall2 is_stamp b (e :: es) /\ es <> [] /\ center_of_mass e = (IZR 3, IZR 3) /\ Forall (fits (20, 20)%nat) (e :: es) /\
  (forall i j, px (l_normal striped (20, 20)%nat nf nb) i j <> 0) /\ var (bu_back sbuilt) <> 0 /\
  shape (m_dat (bu_data sbuilt)) = (20, 20)%nat.
Proof. exact C120_variable_case_lm. Qed.

(** The pixels that are filtered: the good ones are the pixels less the background. *)
Theorem C120_pixels : forall W fuel o d x i j v,
  build W fuel o d = Some (Ok x) -> (i < nr (m_dat d))%nat -> (j < nc (m_dat d))%nat ->
  px (m_msk d) i j = false -> px (m_dat d) i j = Some v ->
  px (bu_clean x) i j = v - px (background (bu_back x)) i j.
Proof. exact C120_pixels_lm. Qed.
Print Assumptions C120_pixels.

Example C120_pixels_case : build striped 1 schosen sdata = Some (Ok sbuilt) /\
  (10 < nr (m_dat sdata))%nat /\ (10 < nc (m_dat sdata))%nat /\ px (m_msk sdata) 10 10 = false /\ px (m_dat sdata) 10 10 = Some 1.
Proof. split; [exact striped_build|]. split; [cbn; lia|]. split; [cbn; lia|]. split; reflexivity. Qed.

(** What psf_hat_sqnorm() answers: the PSF for the loss in force. *)
Theorem C120_squared : forall W fuel o d x cs a b,
  (forall n c, length (fst (l_eigh W n c)) = n) -> build W fuel o d = Some (Ok x) -> Forall plain cs ->
  psf_for (bu_lib x) (stamp_shape (bu_attr x)) (last_loss cs) = Ok (a, b) ->
  exists q, sqnorm_of (after cs x) = Ok q /\ squared x (bu_lib x) (last_loss cs) q.
Proof. exact C120_squared_lm. Qed.
Print Assumptions C120_squared.

Example C120_squared_case : exists p, let cs := [CGetPSF (Some (1 / 2)) None; CSetZp 3] in
  build striped 1 schosen sdata = Some (Ok sbuilt) /\ (forall n c, length (fst (l_eigh striped n c)) = n) /\ Forall plain cs /\
  psf_for (bu_lib sbuilt) (stamp_shape (bu_attr sbuilt)) (last_loss cs) = Ok (NoField, [p]).
Proof.
  destruct C120_constant_case_lm as (S & p & A & B & C & _ & _ & D & _). exists p. cbv zeta in *. auto.
Qed.
