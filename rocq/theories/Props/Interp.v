(** C28: the interpolated image. *)
From Coq Require Import ZArith List Bool Arith Reals Lia Lra.
From Verif.Model Require Import Py Plane Interp.
From Verif.Spec Require Import Interp.
From Verif.Proof Require Import Interp InterpExample.
Import ListNotations.
Local Open Scope R_scope.

(** There is no nan in the result, which has the shape of the image. *)
Theorem C28_no_nan : forall fuel conv cosmics data bkg r,
  interped fuel conv cosmics data bkg = Some r ->
  shape r = shape (m_dat data) /\
  forall i j, (i < nr r)%nat -> (j < nc r)%nat -> px r i j <> None.
Proof. exact C28_no_nan_lm. Qed.
Print Assumptions C28_no_nan.

(** Good pixels keep their value (less the background), whatever the cosmic ray detector
    says; nothing else depends on that detector either. *)
Theorem C28_good_pixels : forall fuel conv cosmics data bkg r i j x,
  interped fuel conv cosmics data bkg = Some r ->
  px (m_msk data) i j = false -> px (m_dat data) i j = Some x ->
  px r i j = Some (x - px bkg i j).
Proof. exact C28_good_pixels_lm. Qed.
Print Assumptions C28_good_pixels.

(** A bad pixel gets the value of the smoothed image, if there is one. *)
Theorem C28_bad_pixels : forall fuel conv cosmics data bkg r i j v,
  interped fuel conv cosmics data bkg = Some r ->
  (i < nr r)%nat -> (j < nc r)%nat -> ~ good data i j ->
  px (conv (mkplane (nr (m_dat data)) (nc (m_dat data)) (fun i j =>
        if px (m_msk data) i j then None
        else option_map (fun x => x - px bkg i j) (px (m_dat data) i j)))) i j = Some v ->
  px r i j = Some v.
Proof. exact C28_bad_pixels_lm. Qed.
Print Assumptions C28_bad_pixels.

(** With one good pixel the loop ends, after at most as many rounds as the longer side. *)
Theorem C28_terminates : forall conv cosmics data bkg gi gj,
  spreads conv -> good data gi gj ->
  exists r, interped (S (Nat.max (nr (m_dat data)) (nc (m_dat data)))) conv cosmics data bkg = Some r.
Proof. exact C28_terminates_lm. Qed.
Print Assumptions C28_terminates.

(** A 1x3 image (10, a masked pixel, nan) with background 1, every pixel reported as a cosmic
    ray, and a convolution that gives 7 next to a number. *)
Example C28_case : exists r, interped 4 sevens cosmic_everywhere strip (pconst (1, 3)%nat 1) = Some r /\
  px r 0%nat 0%nat = Some 9 /\ px r 0%nat 1%nat = Some 7 /\ px r 0%nat 2%nat <> None.
Proof.
  destruct (C28_terminates_lm sevens cosmic_everywhere strip (pconst (1, 3)%nat 1) 0 0
    sevens_spreads strip_good) as (r & E).
  exists r. split; [exact E|].
  destruct (C28_no_nan_lm _ _ _ _ _ _ E) as [S N]. unfold shape in S. injection S as Sr Sc. split.
  - rewrite (C28_good_pixels_lm _ _ _ _ _ _ 0%nat 0%nat 10 E eq_refl eq_refl). f_equal. cbn. ring.
  - split; [|apply N; rewrite ?Sr, ?Sc; cbn; lia].
    apply (C28_bad_pixels_lm _ _ _ _ _ _ 0%nat 1%nat 7 E); [rewrite Sr; cbn; lia|rewrite Sc; cbn; lia| |].
    + intros (_ & _ & M & _). discriminate.
    + reflexivity.
Qed.

(** Without any good pixel it never ends. *)
Theorem C28_never_returns : forall fuel conv cosmics data bkg,
  keeps_nothing conv -> (1 <= nr (m_dat data))%nat -> (1 <= nc (m_dat data))%nat ->
  (forall i j, ~ good data i j) ->
  interped fuel conv cosmics data bkg = None.
Proof. exact C28_never_returns_lm. Qed.
Print Assumptions C28_never_returns.

Example C28_dead_case : forall fuel,
  interped fuel sevens cosmic_everywhere dead (pconst (1, 3)%nat 1) = None.
Proof.
  intros fuel. apply C28_never_returns; [exact sevens_keeps_nothing|cbn; lia|cbn; lia|exact dead_bad].
Qed.

Theorem C28_cosmic_rays_refuted : forall fuel conv cosmics cosmics' data bkg,
  interped fuel conv cosmics data bkg = interped fuel conv cosmics' data bkg.
Proof. exact C28_cosmic_rays_refuted_lm. Qed.
Print Assumptions C28_cosmic_rays_refuted.
