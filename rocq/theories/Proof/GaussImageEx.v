(** The stripes of Proof/UsesEx.v, as an image with a Gaussian PSF. *)
From Coq Require Import ZArith List Bool Arith Reals Lia Lra Permutation.
From Coquelicot Require Import Complex.
From Verif.Model Require Import Py Plane Ma Coadd.
From Verif.Spec Require Import Coadd.
From Verif.Model Require Import Filter.
From Verif.Spec Require Import Filter.
From Verif.Proof Require Import Filter FilterMain.
From Verif.Model Require Import Interp Subtract FindS Sources Stamps Transparency KL Session Chain ChainCoadd Gauss GaussImage.
From Verif.Spec Require Import Stamps KL Session Uses UsesCoadd GaussImage.
From Verif.Proof Require Import Interp Stamps StampsLoop StampsExample KL KLMain Session SessionLm SessionExample GaussMain Chain ChainUnits Uses UsesEx UsesCoadd UsesCoaddMain UsesCoaddEx Filtered FilteredEx GaussImage GaussFiltered.
Import ListNotations.
Local Open Scope R_scope.
Set Bullet Behavior "Strict Subproofs".

(** A Gaussian of widths [a] and [b] along the axes, on three by three pixels. *)
Definition bell (a b am : R) : plane R :=
  mkplane 3 3 (fun i j => am * exp (- ((INR i - 1) ^ 2 / (2 * b ^ 2) + (INR j - 1) ^ 2 / (2 * a ^ 2)))).
Definition ex_render (a b t am : R) : plane (option R) := pmap Some (bell a b am).
Definition ex_fitter (_ : Gauss.start) (_ : plane R) : gaussian := mkgauss 1 2 0 5.
Definition ex_stats (l : list R) : R * R * R := (total_of l / INR (length l), 0, 0).

Lemma bell_stamp a b t am : is_stamp (ex_render a b t am) (bell a b am).
Proof. split; reflexivity. Qed.

Lemma bell_symmetric a b am : symmetric (bell a b am) 1 1.
Proof.
  split; [reflexivity|]. split; [reflexivity|]. cbn [bell nr nc px]. intros i j Hi Hj. f_equal. f_equal. f_equal.
  f_equal; f_equal.
  - destruct i as [|[|[|i]]]; [| | |lia]; cbn; ring.
  - destruct j as [|[|[|j]]]; [| | |lia]; cbn; ring.
Qed.

Lemma bell_pos a b am i j : 0 < am -> 0 < px (bell a b am) i j.
Proof. intros H. cbn [bell px]. apply Rmult_lt_0_compat; [exact H|apply exp_pos]. Qed.

Lemma bell_top a b : px (bell a b 1) 1 1 = 1.
Proof.
  cbn [bell px]. replace (- _) with 0; [rewrite exp_0; ring|]. replace (INR 1 - 1) with 0 by (cbn; ring). unfold Rdiv. ring.
Qed.

Lemma bell_sum a b : 1 < rsum2 3 3 (px (bell a b 1)).
Proof.
  pose proof (rsum2_both 3 3 (px (bell a b 1)) 1 1 0 0) as H.
  assert (P := bell_pos a b 1 0 0 Rlt_0_1). rewrite bell_top in H.
  assert (1 + px (bell a b 1) 0 0 <= rsum2 3 3 (px (bell a b 1))); [|lra]. apply H; try lia; [|congruence].
  intros i j _ _. left. apply bell_pos. lra.
Qed.

Lemma stripe_gauss stamps p : stamps_of _ _ _ (bu_lib sbuilt) (1, 1)%nat = Ok (stamps, p) ->
  gaussian_of ex_fitter ex_stats ex_render stamps (ex_render 1 2 0 1).
Proof.
  intros E. destruct stripe_stamps as (pa & pb & St & Sa & Sb & _). rewrite St in E. injection E as <- <-.
  exists [mkgauss 1 2 0 5; mkgauss 1 2 0 5]. split.
  - assert (K : forall q : plane _, shape q = (7, 7)%nat -> fit_gaussian2d ex_fitter (numbers q) = Ok (mkgauss 1 2 0 5)).
    { intros q Sq. unfold shape in Sq. injection Sq as Q1 Q2. unfold fit_gaussian2d, cells. cbn [numbers pmap nr nc].
      rewrite Q1, Q2. reflexivity. }
    constructor; [now apply K|]. constructor; [now apply K|constructor].
  - cbv zeta. unfold ex_stats. cbn [map fst total_of fold_right length INR xw yw th].
    f_equal; field.
Qed.

Lemma stripe_ok : lib_ok (bu_lib sbuilt).
Proof. apply lib_of_ok. exact striped_eigh. Qed.

(** A history on this image: a PSF, a filtered image, a coadd for another loss, which sets the zero point 3. *)
Definition some_calls : list call := [CGetPSF (Some (1 / 3)) (Some (5, 5)%nat); CSComponent; CCoadd (1 / 2) 3].

Lemma some_plain : Forall g_plain some_calls.
Proof. repeat constructor; cbn; lra. Qed.

Lemma C121_psf_case_lm : exists stamps p,
  lib_ok (bu_lib sbuilt) /\ new_image (bu_lib sbuilt) (1, 1)%nat (bu_attr sbuilt) /\
  stamps_of _ _ _ (bu_lib sbuilt) (1, 1)%nat = Ok (stamps, p) /\ length stamps = 2%nat /\
  gaussian_of ex_fitter ex_stats ex_render stamps (ex_render 1 2 0 1) /\ Forall g_plain some_calls /\
  g_last_loss some_calls = 1 / 2.
Proof.
  destruct stripe_stamps as (pa & pb & St & _). do 2 eexists. split; [exact stripe_ok|]. split; [left; reflexivity|].
  split; [exact St|]. split; [reflexivity|]. split; [apply (stripe_gauss _ _ St)|]. split; [exact some_plain|reflexivity].
Qed.

Lemma C121_pixels_case_lm : exists stamps p,
  build striped 1 schosen sdata = Some (Ok sbuilt) /\ (forall n c, length (fst (l_eigh striped n c)) = n) /\
  stamps_of _ _ _ (bu_lib sbuilt) (stamp_shape (bu_attr sbuilt)) = Ok (stamps, p) /\
  gaussian_of ex_fitter ex_stats ex_render stamps (ex_render 1 2 0 1) /\ Forall g_plain some_calls /\
  first_component (2 / 10) (map forget some_calls) <> Some (g_last_loss some_calls) /\
  is_stamp (ex_render 1 2 0 1) (bell 1 2 1) /\ symmetric (bell 1 2 1) 1 1 /\
  rsum2 (nr (bell 1 2 1)) (nc (bell 1 2 1)) (px (bell 1 2 1)) <> 0 /\ fits (shape (m_dat (bu_data sbuilt))) (bell 1 2 1) /\
  var (bu_back sbuilt) <> 0 /\ snd (made_of (need_filt (g_history some_calls))) = 3.
Proof.
  destruct stripe_stamps as (pa & pb & St & _). do 2 eexists. split; [exact striped_build|]. split; [exact striped_eigh|].
  split; [exact St|]. split; [apply (stripe_gauss _ _ St)|]. split; [exact some_plain|].
  split; [intros K; injection K as K; change (2 / 10 = 1 / 2) in K; lra|].
  split; [apply bell_stamp|]. split; [apply bell_symmetric|].
  split; [pose proof (bell_sum 1 2); cbn [bell nr nc]; lra|].
  split; [unfold fits; cbn; lia|]. split; [cbn; lra|].
  unfold g_history, some_calls. cbn [map forget]. unfold history. cbn [fold_left].
  cbn. repeat (match goal with |- context [Req_EM_T ?a ?b] => destruct (Req_EM_T a b); cbn end); try lra; reflexivity.
Qed.

Lemma C121_mismatch_case_lm : exists stamps p k,
  build striped 1 schosen sdata = Some (Ok sbuilt) /\ (forall n c, length (fst (l_eigh striped n c)) = n) /\
  stamps_of _ _ _ (bu_lib sbuilt) (stamp_shape (bu_attr sbuilt)) = Ok (stamps, p) /\
  gaussian_of ex_fitter ex_stats ex_render stamps (ex_render 1 2 0 1) /\ Forall g_plain some_calls /\
  psf_for (bu_lib sbuilt) (stamp_shape (bu_attr sbuilt)) (g_last_loss some_calls) = Ok (NoField, [k]) /\
  is_stamp k comb /\ fits (shape (m_dat (bu_data sbuilt))) comb /\
  is_stamp (ex_render 1 2 0 1) (bell 1 2 1) /\ fits (shape (m_dat (bu_data sbuilt))) (bell 1 2 1) /\
  (0 < nr comb)%nat /\ (0 < nc comb)%nat /\ (forall i j, (i < 3)%nat -> (j < 3)%nat -> 0 <= px (bell 1 2 1) i j) /\
  px (bell 1 2 1) 1 1 = 1 /\ 0 < px (bell 1 2 1) 0 0.
Proof.
  destruct stripe_stamps as (pa & pb & St & _). destruct stripe_one as (k & Ek & Hk). do 2 eexists. exists k.
  split; [exact striped_build|]. split; [exact striped_eigh|].
  split; [exact St|]. split; [apply (stripe_gauss _ _ St)|]. split; [exact some_plain|].
  split; [exact Ek|]. split; [exact Hk|]. split; [unfold fits; cbn; lia|]. split; [apply bell_stamp|].
  split; [unfold fits; cbn; lia|]. split; [cbn; lia|]. split; [cbn; lia|].
  split; [intros; left; apply bell_pos; lra|]. split; [apply bell_top|apply bell_pos; lra].
Qed.
