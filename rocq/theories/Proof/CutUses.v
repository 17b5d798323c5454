(** What a subtraction of new images uses of each. *)
From Coq Require Import ZArith List Bool Arith Reals Lia Lra Permutation.
From Coquelicot Require Import Complex.
From Verif.Model Require Import Py Plane Ma Image Interp FindS Sources Stamps Cut KL Session Filter Transparency Subtract Chain CutChain.
From Verif.Spec Require Import Image Chain Session Uses Cut.
From Verif.Proof Require Import Session SessionLm Chain ChainMain ChainUnits Uses CutChain.
Import ListNotations.
Set Bullet Behavior "Strict Subproofs".
Local Open Scope R_scope.

Lemma opened_reads W fuel o d x left l p : (forall n c, length (fst (l_eigh W n c)) = n) ->
  build W fuel o d = Some (Ok x) -> 0 <= l ->
  first_element l (opened W o left (with_best left x)) = Ok p ->
  reads l (opened W o left x) [] left (seen (opened W o left (with_best left x)) p).
Proof.
  intros EL Bx Hl E. destruct (build_lib _ _ _ _ _ Bx) as (Dx & Lx & sh & N & Sh).
  set (y := opened W o left x).
  assert (At : bu_attr (opened W o left (with_best left x)) = fresh _ _ _ sh (Some left)).
  { cbn [opened bu_attr with_best]. destruct N as [N|(c & _ & N)]; rewrite N; reflexivity. }
  assert (Lb : bu_lib (opened W o left (with_best left x)) = bu_lib y) by reflexivity.
  assert (LO : lib_ok (given (bu_lib y) left)).
  { apply (opened_ok W o left x). rewrite Lx. exact EL. }
  assert (NG : new_image (given (bu_lib y) left) sh (fresh _ _ _ sh (Some left))).
  { right. exists left. split; reflexivity. }
  destruct (C39_history_lm _ _ _ (given (bu_lib y) left) sh (fresh _ _ _ sh (Some left)) [] LO NG (Forall_nil _)) as (A & _).
  specialize (A l Hl). cbn [exec_all fold_left] in A.
  assert (Q : fst (get_variable_psf (bu_lib y) (Some l) None (fresh _ _ _ sh (Some left))) = psf_for (given (bu_lib y) left) sh l).
  { destruct (same_psf _ _ _ (bu_lib y) left (Some l) None (fresh _ _ _ sh (Some left))) as [S _]; [discriminate|]. now rewrite S. }
  unfold reads. cbn zeta. split.
  - cbn [stamps_read]. unfold first_element in E. rewrite At, Lb, Q in E.
    change (Session.stamp_shape (bu_attr y)) with (Session.stamp_shape (bu_attr x)). rewrite <- Sh.
    destruct (psf_for (given (bu_lib y) left) sh l) as [[f [|q t]]|e]; cbn in E; try discriminate.
    injection E as <-. exists f, q, t. split; [reflexivity|]. split; [reflexivity|].
    intros i j v Hv. cbn. now rewrite Hv.
  - cbn. repeat split; intros i j.
    + intros M. now rewrite M.
    + intros v M V. now rewrite M, V.
Qed.

(** What a subtraction of two new images uses of each: the stars that the matching left, the PSF
    of their stamps, and the image that the extraction of these stamps left. *)
Lemma C133_uses_lm : forall W fuel o o' d d' x y l beta shift iterative D P S m,
  (forall n c, length (fst (l_eigh W n c)) = n) -> (forall r, Permutation (l_sort W r) r) ->
  build W fuel o d = Some (Ok x) -> build W fuel o' d' = Some (Ok y) -> 0 <= l ->
  subtract_cut W o o' l beta shift iterative x y = Ok (D, P, S, m) ->
  exists cr cn left left' t e u v,
    fst (best_sources (bu_lib x) (bu_attr x)) = Ok cr /\
    fst (best_sources (bu_lib y) (bu_attr y)) = Ok cn /\
    transparency (l_query W) (l_sort W) (l_lsqr W)
      [mkcat false false (map row_of cr); mkcat false false (map row_of cn)] None = Ok t /\
    map spot left = map spot cr /\ Permutation (map spot left') (map spot cn) /\
    reads l (opened W o left x) [] left u /\ reads l (opened W o' left' y) [] left' v /\
    e_transp e u v = Ok (nth 0 (zps t) 0, nth 1 (zps t) 0) /\ e_back e = l_back W /\ e_solve e = l_solve W /\
    subtract e (Is u) (Is v) false beta shift iterative false = Ok (D, P, S, m).
Proof.
  intros W fuel o o' d d' x y l beta shift it D P S m EL SP Bx By Hl.
  unfold subtract_cut. destruct (negb _); [discriminate|].
  destruct (fst (best_sources (bu_lib x) (bu_attr x))) as [cr|] eqn:Er; [|discriminate]. cbn [bind].
  destruct (fst (best_sources (bu_lib y) (bu_attr y))) as [cn|] eqn:En; [|discriminate]. cbn [bind].
  destruct (transparency _ _ _ _ _) as [t|] eqn:Et; [|discriminate]. cbn [bind].
  destruct (matched_spots _ _ _ _ _ _ SP Et) as (Sr & c & Ec & Sn). rewrite Ec.
  destruct (first_element l (opened W o _ _)) as [pr|] eqn:Pr; [|discriminate]. cbn [bind].
  destruct (first_element l (opened W o' _ _)) as [pn|] eqn:Pn; [|discriminate]. cbn [bind].
  intros E.
  exists cr, cn, (map src_of (rows (mcat t))), (map src_of (rows c)), t.
  eexists. do 2 eexists.
  split; [reflexivity|]. split; [reflexivity|]. split; [exact Et|].
  assert (Q : forall r, map spot (map src_of r) = map rspot r) by (intros r; rewrite map_map; reflexivity).
  assert (Q' : forall s, map rspot (map row_of s) = map spot s) by (intros s; rewrite map_map; reflexivity).
  split; [now rewrite Q, Sr, Q'|]. split; [now rewrite Q, <- Q'|].
  split; [exact (opened_reads W fuel o d x _ l pr EL Bx Hl Pr)|].
  split; [exact (opened_reads W fuel o' d' y _ l pn EL By Hl Pn)|].
  split; [|split; [|split; [|exact E]]]; reflexivity.
Qed.
