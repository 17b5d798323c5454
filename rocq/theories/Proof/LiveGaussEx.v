(** The stripes of Proof/GaussImageEx.v, with their stamps cut in place. *)
From Coq Require Import ZArith List Bool Arith Reals Lia Lra.
From Flocq Require Import Core.Raux.
From Coquelicot Require Import Complex.
From Verif.Model Require Import Py Plane Ma Coadd.
From Verif.Spec Require Import Coadd.
From Verif.Model Require Import Filter.
From Verif.Spec Require Import Filter.
From Verif.Proof Require Import Filter FilterMain.
From Verif.Model Require Import Interp Subtract FindS Sources Stamps Transparency Cut KL Session Chain ChainCoadd CutChain Gauss GaussImage Live LiveGauss.
From Verif.Spec Require Import Stamps KL Chain Session Uses UsesCoadd GaussImage Cut CutCoadd Live LiveFar LiveGauss.
From Verif.Proof Require Import Interp Stamps StampsLoop StampsExample KL KLMain Session SessionLm SessionExample GaussMain Chain ChainMain ChainUnits Uses UsesEx UsesCoadd UsesCoaddMain UsesCoaddEx Filtered FilteredEx GaussImage GaussFiltered GaussImageEx CutMain CutChain CutChainLeft CutCoaddEx Live LiveMain LiveEx LiveGauss.
Import ListNotations.
Set Bullet Behavior "Strict Subproofs".
Local Open Scope R_scope.

Lemma live_bell : exists ex,
  build striped 1 schosen sdata = Some (Ok sbuilt) /\
  fst (best_sources (bu_lib sbuilt) (bu_attr sbuilt)) = Ok [mid'; mid] /\
  snd (first_cut striped schosen sbuilt [mid'; mid]) = Ok ex /\ length (ex_stamps ex) = 2%nat /\
  gaussian_of ex_fitter ex_stats ex_render (map numbers (ex_stamps ex)) (ex_render 1 2 0 1).
Proof.
  destruct (simg_cut (l_stats striped) (l_label striped) None mid' mid) as (last & ex & E & _ & pa & pb & S & Sa & Sb); [split; cbn; auto|split; cbn; auto|].
  exists ex. split; [exact striped_build|]. split; [exact new_cat|].
  split.
  { change (snd (cut_stamps (l_stats striped) (l_label striped) (mkpicks false None) (intact simg) 1 (1, 1)%nat [mid'; mid]) = Ok ex).
    now rewrite E. }
  split; [now rewrite S|]. rewrite S. cbn [map].
  exists [mkgauss 1 2 0 5; mkgauss 1 2 0 5]. split.
  - assert (K : forall q : plane _, shape q = (7, 7)%nat -> fit_gaussian2d ex_fitter (numbers q) = Ok (mkgauss 1 2 0 5)).
    { intros q Sq. unfold shape in Sq. injection Sq as Q1 Q2. unfold fit_gaussian2d, cells. cbn [numbers pmap nr nc].
      rewrite Q1, Q2. reflexivity. }
    constructor; [now apply K|]. constructor; [now apply K|constructor].
  - cbv zeta. unfold ex_stats. cbn [map fst total_of fold_right length INR xw yw th].
    f_equal; field.
Qed.

Lemma C139_case_lm : exists ex,
  build striped 1 schosen sdata = Some (Ok sbuilt) /\ (forall n c, length (fst (l_eigh striped n c)) = n) /\
  fst (best_sources (bu_lib sbuilt) (bu_attr sbuilt)) = Ok [mid'; mid] /\
  snd (first_cut striped schosen sbuilt [mid'; mid]) = Ok ex /\ length (ex_stamps ex) = 2%nat /\
  gaussian_of ex_fitter ex_stats ex_render (map numbers (ex_stamps ex)) (ex_render 1 2 0 1) /\
  Forall g_same_stamps [CSetInfLoss (-1); CGetPSF (Some (-1)) (Some (5, 5)%nat); CClean; CSHat] /\
  Forall g_plain some_calls /\ first_component (2 / 10) (map forget some_calls) <> Some (g_last_loss some_calls) /\
  is_stamp (ex_render 1 2 0 1) (bell 1 2 1) /\ symmetric (bell 1 2 1) 1 1 /\
  rsum2 (nr (bell 1 2 1)) (nc (bell 1 2 1)) (px (bell 1 2 1)) <> 0 /\ fits (shape (m_dat (bu_data sbuilt))) (bell 1 2 1) /\
  var (bu_back sbuilt) <> 0 /\ snd (made_of (need_filt (g_history some_calls))) = 3.
Proof.
  destruct live_bell as (ex & A & B & C & D & G). exists ex.
  destruct C121_pixels_case_lm as (stamps & p & _ & P2 & _ & _ & P5 & P6 & P7 & P8 & P9 & P10 & P11 & P12).
  split; [exact A|]. split; [exact P2|]. split; [exact B|]. split; [exact C|]. split; [exact D|]. split; [exact G|].
  split; [repeat constructor|]. now repeat (split; [assumption|]).
Qed.

(** get_variable_psf is given a shape whose stamps would hold the pixel (2, 2). *)
Lemma C139_far_case_lm :
  let cs := [CGetPSF None (Some (21, 21)%nat); CSetStampShape (3, 3)%nat; CUpdateSources (Some [mid]); CStampsPos; CSHat] in
  let shapes := stamp_shape (bu_attr sbuilt) :: flat_map g_asks_shape cs in
  build striped 1 schosen sdata = Some (Ok sbuilt) /\ own_sources sbuilt = [mid'; mid] /\
  (forall q, In q shapes -> (0 < fst q)%nat /\ (0 < snd q)%nat) /\
  (forall q s, In q shapes -> In s (own_sources sbuilt ++ flat_map brings cs) -> ~ in_stamp q s 2 2) /\
  in_stamp (3, 3)%nat mid 10 10 /\ in_stamp (21, 21)%nat mid 2 2.
Proof.
  cbv zeta. split; [exact striped_build|]. assert (O : own_sources sbuilt = [mid'; mid]) by (unfold own_sources; now rewrite new_cat).
  split; [exact O|]. rewrite O. split; [intros q [<-|[<-|[]]]; cbn; lia|].
  assert (A : forall p n, 10 <= p -> (n <= 3)%nat -> (8 < Verif.Spec.Stamps.start p n)%Z).
  { intros p n Hp Hn. unfold Verif.Spec.Stamps.start. apply lt_IZR. apply Rlt_le_trans with (p - INR n / 2); [|apply Zceil_ub].
    apply (le_INR n 3) in Hn. cbn in Hn. lra. }
  split; [|split].
  - intros q s Hq Hs. cut ((8 < Verif.Spec.Stamps.start (s_y s) (fst q))%Z); [unfold in_stamp; lia|].
    assert (10 <= s_y s) by (destruct Hs as [<-|[<-|[<-|[]]]]; cbn; lra).
    destruct Hq as [<-|[<-|[]]]; apply A; cbn; auto; lia.
  - assert (S : Verif.Spec.Stamps.start 10 3 = 9%Z) by (apply Zceil_imp; cbn; lra). unfold in_stamp. cbn [mid s_x s_y fst snd]. rewrite S. cbn. lia.
  - assert (S : Verif.Spec.Stamps.start 10 21 = 0%Z) by (apply Zceil_imp; cbn; lra). unfold in_stamp. cbn [mid s_x s_y fst snd]. rewrite S. cbn. lia.
Qed.
