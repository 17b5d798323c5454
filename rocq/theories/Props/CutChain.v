(** C133: images of which the stamps were extracted: what they go on with. *)
From Coq Require Import ZArith List Bool Arith Reals Permutation.
From Coquelicot Require Import Complex.
From Verif.Model Require Import Py Plane Ma Image Interp FindS Sources Stamps Cut KL Session Filter Transparency Subtract Chain CutChain.
From Verif.Spec Require Import Image Stamps Chain Session Uses Cut.
From Verif.Proof Require Import Session SessionLm StampsExample CutEx ChainMain ChainUnits ChainExample UsesEx CutChain CutChainLeft CutUses CutUsesEx.
Import ListNotations.
Local Open Scope R_scope.

(** After the stamps of the sources [c] were extracted, PSF and stamps are those of that
    extraction, and the image that the matched filter and the subtraction read is the one it
    left: without the level of each stamp inside the frame, when no two stamps overlap. *)
Theorem C133_left : forall W o c x last ex,
  let sh := stamp_shape (bu_attr x) in
  let img := bu_clean x in
  let rms := var (bu_back x) in
  (0 < fst sh)%nat -> (0 < snd sh)%nat ->
  cut_stamps (l_stats W) (l_label W) (mkpicks (o_pick o) None) (intact img) rms sh c = (last, Ok ex) ->
  let y := opened W o c x in
  extract (bu_lib y) sh c = (map numbers (ex_stamps ex), Ok (ex_pos ex, ex_sources ex)) /\
  (forall p i j, d_interped (seen y p) i j = px (numbers last) i j) /\
  (apart sh c -> forall p i j, (i < nr img)%nat -> (j < nc img)%nat ->
     (forall s, In s c -> in_stamp sh s (Z.of_nat i) (Z.of_nat j) -> inner img sh s -> has_level img rms sh s ->
        d_interped (seen y p) i j = px img i j - level_of img rms sh s) /\
     ((forall s, In s c -> in_stamp sh s (Z.of_nat i) (Z.of_nat j) -> ~ inner img sh s) ->
        d_interped (seen y p) i j = px img i j)).
Proof. exact C133_left_lm. Qed.
Print Assumptions C133_left.

(** An image with even rows 2 and odd rows 1: the stamp at (10, 10) has the level 1. *)
Example C133_left_case : exists last ex,
  cut_stamps (l_stats small) (l_label small) (mkpicks false None) (intact raised) 1 (1, 1)%nat [mid] = (last, Ok ex) /\
  apart (1, 1)%nat [mid] /\ inner raised (1, 1)%nat mid /\ has_level raised 1 (1, 1)%nat mid /\
  level_of raised 1 (1, 1)%nat mid = 1 /\
  forall p, d_interped (seen (opened small plainly [mid] bright_one) p) 10 10 = px raised 10 10 - 1.
Proof. exact bright_cut. Qed.

(** The subtraction of two pairs of images that differ under the mask is the same, or raises the
    same exception. *)
Theorem C133_mask : forall W fuel o o' l beta shift iterative ref ref' new new',
  sep_skips_masked W -> alike ref ref' -> alike new new' ->
  subtract_cut_pixels W fuel o o' l beta shift iterative (mdata ref') (mdata new') =
  subtract_cut_pixels W fuel o o' l beta shift iterative (mdata ref) (mdata new).
Proof. exact C133_mask_lm. Qed.
Print Assumptions C133_mask.

(** D, P and the mask of a subtraction do not depend on the levels of the two skies. *)
Theorem C133_sky : forall W c c' fuel o o' l beta shift iterative ref ref' new new',
  sep_skips_masked W -> sep_follows_sky W -> raised_by c ref ref' -> raised_by c' new new' ->
  match subtract_cut_pixels W fuel o o' l beta shift iterative (mdata ref) (mdata new),
        subtract_cut_pixels W fuel o o' l beta shift iterative (mdata ref') (mdata new') with
  | Some (Ok (D, P, _, m)), Some (Ok (D', P', _, m')) => D = D' /\ P = P' /\ m = m'
  | Some (Raise e), Some (Raise e') => e = e'
  | None, None => True
  | _, _ => False
  end.
Proof. exact C133_sky_lm. Qed.
Print Assumptions C133_sky.

(** Images that differ under the mask, or by the level of the sky, and libraries as asked for. *)
Example C133_case : sep_skips_masked small /\ sep_follows_sky small /\ alike plainim other /\
  px (pixels plainim) 0 1 <> px (pixels other) 0 1 /\ raised_by 5 plainim higher /\
  exists x, build small 1 asis (mdata plainim) = Some (Ok x) /\ var (bu_back x) <> 0.
Proof.
  split; [exact small_skips|]. split; [exact small_sky|]. split; [exact plain_other|].
  split; [vm_compute; discriminate|]. split; [exact plain_higher|].
  destruct plain_built as (x & E & V & _). exists x. auto.
Qed.

(** [k] times the image: the image left by the extraction is multiplied by [k], the PSF is the
    same and the matched filter is divided by [k], for every history of calls. *)
Theorem C133_units : forall W k fuel o im im' x x' y y', 0 < k -> sep_skips_masked W -> unit_free W ->
  (forall n c, length (fst (l_eigh W n c)) = n) -> multiplied_by k im im' ->
  build W fuel o (mdata im) = Some (Ok x) -> build W fuel o (mdata im') = Some (Ok x') ->
  used W o x = Ok y -> used W o x' = Ok y' ->
  (forall i j, px (bu_clean y') i j = k * px (bu_clean y) i j) /\
  forall cs, Forall plain cs ->
    (forall l, match l with Some l => 0 <= l | None => True end ->
       fst (get_variable_psf (bu_lib y') l None (bu_attr (after cs y'))) =
       fst (get_variable_psf (bu_lib y) l None (bu_attr (after cs y)))) /\
    (var (bu_back x) <> 0 ->
     match fst (s_hat_comp (bu_lib y) (bu_attr (after cs y))),
           fst (s_hat_comp (bu_lib y') (bu_attr (after cs y'))) with
     | Ok (Ok h), Ok (Ok h') => shape h' = shape h /\ forall u v, px h' u v = (px h u v / RtoC k)%C
     | Ok (Raise e), Ok (Raise e') => e = e'
     | Raise e, Raise e' => e = e'
     | _, _ => False
     end).
Proof. exact C133_units_lm. Qed.
Print Assumptions C133_units.

(** An image in two units. *)
Example C133_units_case : sep_skips_masked small /\ unit_free small /\
  (forall n c, length (fst (l_eigh small n c)) = n) /\ multiplied_by 2 plainim doubled /\
  exists x x' y y', build small 1 asis (mdata plainim) = Some (Ok x) /\ var (bu_back x) <> 0 /\
    build small 1 asis (mdata doubled) = Some (Ok x') /\ used small asis x = Ok y /\ used small asis x' = Ok y'.
Proof.
  split; [exact small_skips|]. split; [exact small_units|].
  split; [intros n c; exact (repeat_length _ _)|]. split; [exact plain_doubled|exact plain_used].
Qed.

(** What a subtraction of two new images uses of each: the stars that the matching left, the PSF
    of their stamps, and the image that the extraction of these stamps left. *)
Theorem C133_uses : forall W fuel o o' d d' x y l beta shift iterative D P S m,
  (forall n c, length (fst (l_eigh W n c)) = n) -> (forall r, Permutation (l_sort W r) r) ->
  build W fuel o d = Some (Ok x) -> build W fuel o' d' = Some (Ok y) -> 0 <= l ->
  subtract_cut W o o' l beta shift iterative x y = Ok (D, P, S, m) ->
  exists cr cn left left' t e u v,
    fst (best_sources (bu_lib x) (bu_attr x)) = Ok cr /\
    fst (best_sources (bu_lib y) (bu_attr y)) = Ok cn /\
    transparency (l_query W) (l_sort W) (l_lsqr W)
      [mkcat false false (map row_of cr); mkcat false false (map row_of cn)] None = Ok t /\
    map spot left = map spot cr /\ Permutation (map spot left') (map spot cn) /\
    reads l (opened W o left x) [] left u /\ reads l (opened W o' left' y) [] left' v /\
    e_transp e u v = Ok (nth 0 (zps t) 0, nth 1 (zps t) 0) /\ e_back e = l_back W /\ e_solve e = l_solve W /\
    subtract e (Is u) (Is v) false beta shift iterative false = Ok (D, P, S, m).
Proof. exact C133_uses_lm. Qed.
Print Assumptions C133_uses.

(** Two new images of stripes can be subtracted. *)
Example C133_uses_case : exists D P S m,
  build striped 1 schosen sdata = Some (Ok sbuilt) /\ (forall r, Permutation (l_sort striped r) r) /\
  (forall n c, length (fst (l_eigh striped n c)) = n) /\
  subtract_cut striped schosen schosen (2 / 10) false false false sbuilt sbuilt = Ok (D, P, S, m).
Proof. exact C133_uses_case_lm. Qed.
