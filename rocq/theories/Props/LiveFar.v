(** C137: what no history changes in the interpolated image. *)
From Coq Require Import ZArith List Bool Arith Reals Lia Lra.
From Flocq Require Import Core.Raux.
From Coquelicot Require Import Complex.
From Verif.Model Require Import Py Plane Ma Interp FindS Sources Stamps Cut KL Session Filter Chain CutChain Live.
From Verif.Spec Require Import Stamps Chain Session Cut Live LiveFar.
From Verif.Proof Require Import Session SessionLm StampsExample ChainUnits UsesEx UsesCoaddEx CutEx CutCoaddEx Live LiveMain LiveKeeps LiveFar.
Import ListNotations.
Local Open Scope R_scope.

(** Whatever is called, in whatever order, whatever raises: a pixel that is in no stamp of the
    shapes asked for, around the sources of the image and those given to it, is what the
    constructor made; so it is where the matched filter reads it. *)
Theorem C137_far : forall W fuel o d x cs,
  build W fuel o d = Some (Ok x) ->
  let shapes := stamp_shape (bu_attr x) :: flat_map asks_shape cs in
  (forall q, In q shapes -> (0 < fst q)%nat /\ (0 < snd q)%nat) ->
  let p := fst (lived W o cs x) in
  shape (pic_now p) = shape (bu_clean x) /\
  forall i j,
  (forall q s, In q shapes -> In s (own_sources x ++ flat_map brings cs) -> ~ in_stamp q s (Z.of_nat i) (Z.of_nat j)) ->
  px (pic_now p) i j = Some (px (bu_clean x) i j) /\
  forall h, pic_hat p = Some h -> px h i j = Some (px (bu_clean x) i j).
Proof. exact C137_far_lm. Qed.
Print Assumptions C137_far.

(** The image with two stars, another shape, another catalogue: the pixel (2, 2) is in no stamp
    and the pixel (10, 10) is in one. *)
Example C137_far_case :
  let cs := [CGetPSF None (Some (3, 3)%nat); CUpdateSources (Some [mid]); CStampsPos; CSHat; CUpdateSources None] in
  let shapes := stamp_shape (bu_attr sbuilt) :: flat_map asks_shape cs in
  build striped 1 schosen sdata = Some (Ok sbuilt) /\ own_sources sbuilt = [mid'; mid] /\
  (forall q, In q shapes -> (0 < fst q)%nat /\ (0 < snd q)%nat) /\
  (forall q s, In q shapes -> In s (own_sources sbuilt ++ flat_map brings cs) -> ~ in_stamp q s 2 2) /\
  in_stamp (3, 3)%nat mid 10 10.
Proof.
  cbv zeta. split; [exact striped_build|]. assert (O : own_sources sbuilt = [mid'; mid]) by (unfold own_sources; now rewrite new_cat).
  split; [exact O|]. rewrite O. split; [intros q [<-|[<-|[]]]; cbn; lia|].
  assert (A : forall p n, 10 <= p -> (n <= 3)%nat -> (8 < start p n)%Z).
  { intros p n Hp Hn. unfold start. apply lt_IZR. apply Rlt_le_trans with (p - INR n / 2); [|apply Zceil_ub].
    apply (le_INR n 3) in Hn. cbn in Hn. lra. }
  split.
  - intros q s Hq Hs. cut ((8 < start (s_y s) (fst q))%Z); [unfold in_stamp; lia|].
    assert (10 <= s_y s) by (destruct Hs as [<-|[<-|[<-|[]]]]; cbn; lra).
    destruct Hq as [<-|[<-|[]]]; apply A; cbn; auto; lia.
  - assert (S : start 10 3 = 9%Z) by (apply Zceil_imp; cbn; lra). unfold in_stamp. cbn [mid s_x s_y fst snd]. rewrite S. cbn. lia.
Qed.

(** Calls that need neither stamps nor PSF do not touch the image. *)
Theorem C137_idle : forall W o x cs,
  Forall idle cs -> pic_now (fst (lived W o cs x)) = intact (bu_clean x).
Proof. exact C137_idle_lm. Qed.
Print Assumptions C137_idle.

Example C137_idle_case :
  Forall idle [CBestSources; CUpdateSources (Some [mid]); CSetStampShape (7, 7)%nat; CSetZp 2; CSetInfLoss (1 / 2); CClean] /\
  ~ idle CSHat.
Proof. split; [repeat constructor|exact (fun f => f)]. Qed.
