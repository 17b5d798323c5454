(** C136: whole histories of an image whose stamps are cut from its interpolated image. *)
From Coq Require Import ZArith List Bool Arith Reals.
From Coquelicot Require Import Complex.
From Verif.Model Require Import Py Plane Ma Interp FindS Sources Stamps Cut KL Session Filter Chain CutChain Live.
From Verif.Spec Require Import Stamps Chain Session Cut CutCoadd Live.
From Verif.Proof Require Import Session SessionLm StampsExample ChainMain ChainUnits ChainExample UsesEx UsesCoaddEx CutEx CutChainLeft CutCoaddEx Live LiveMain LiveEx HatNan LiveNan LiveNanEx.
Import ListNotations.
Local Open Scope R_scope.

(** The attributes, the answers and the interpolated image after a history, when every
    extraction works on the image as it is: those of an image whose stamps are cut once, from
    the image of the constructor, and whose matched filter reads what that extraction left. *)
Theorem C136_history : forall W fuel o d x c ex,
  build W fuel o d = Some (Ok x) -> fst (Session.best_sources (bu_lib x) (bu_attr x)) = Ok c ->
  snd (first_cut W o x c) = Ok ex ->
  let y := opened W o c x in
  let L := live_lib W o x in
  forall cs, Forall same_stamps cs ->
  let s := lived W o cs x in
  let a := bu_attr (after cs y) in
  snd s = a /\
  pic_now (fst s) = (if pos a then fst (first_cut W o x c) else intact (bu_clean x)) /\
  fst (l_best_sources L s) = fst (Session.best_sources (bu_lib y) a) /\
  fst (l_stamps_pos L s) = fst (Session.stamps_pos (bu_lib y) a) /\
  fst (l_stamps_pos L s) = Ok (ex_pos ex) /\
  (forall l, fst (l_get_variable_psf L l None s) = fst (get_variable_psf (bu_lib y) l None a)) /\
  fst (l_normal_image L s) = fst (normal_image (bu_lib y) a) /\
  fst (l_s_hat_comp L s) = fst (s_hat_comp (bu_lib y) a) /\
  fst (l_s_component L s) = fst (Session.s_component (bu_lib y) a).
Proof. exact C136_history_lm. Qed.
Print Assumptions C136_history.

(** The PSF of a plain history: the one of the stamps that the first extraction cuts from the
    image of the constructor. *)
Theorem C136_psf : forall W fuel o d x c ex,
  (forall n m, length (fst (l_eigh W n m)) = n) ->
  build W fuel o d = Some (Ok x) -> fst (Session.best_sources (bu_lib x) (bu_attr x)) = Ok c ->
  snd (first_cut W o x c) = Ok ex ->
  let y := opened W o c x in
  let sh := stamp_shape (bu_attr x) in
  forall cs, Forall plain cs ->
  let s := lived W o cs x in
  stamps_of _ _ _ (bu_lib y) sh = Ok (map numbers (ex_stamps ex), ex_pos ex) /\
  (forall l, 0 <= l -> fst (l_get_variable_psf (live_lib W o x) (Some l) None s) = psf_for (bu_lib y) sh l) /\
  fst (l_get_variable_psf (live_lib W o x) None None s) = psf_for (bu_lib y) sh (last_loss cs).
Proof. exact C136_psf_lm. Qed.
Print Assumptions C136_psf.

(** An image with two stars. *)
Example C136_case : exists ex,
  build striped 1 schosen sdata = Some (Ok sbuilt) /\
  fst (best_sources (bu_lib sbuilt) (bu_attr sbuilt)) = Ok [mid'; mid] /\
  snd (first_cut striped schosen sbuilt [mid'; mid]) = Ok ex /\ length (ex_stamps ex) = 2%nat /\
  (forall n c, length (fst (l_eigh striped n c)) = n) /\
  Forall plain [CGetPSF None None; CSHat; CUpdateSources None; CSComponent] /\
  Forall same_stamps [CSetInfLoss (-1); CStampsPos; CClean; CSHat].
Proof.
  destruct live_stripes as (ex & A & B & C & D). exists ex. split; [exact A|]. split; [exact B|]. split; [exact C|].
  split; [exact D|]. split; [exact striped_eigh|]. split; repeat constructor.
Qed.

(** Every access to the positions after a shape was asked for cuts again, from what the access
    before left: the answers, the file and the image stay the same when no two stamps overlap. *)
Theorem C136_again : forall W o x image h a q cat last ex last' ex',
  (0 < fst q)%nat -> (0 < snd q)%nat -> apart q cat ->
  req_shape a = Some q -> stamp_shape a <> q \/ pos a = None ->
  fst (Session.best_sources (bu_lib x) a) = Ok cat ->
  cut_stamps (l_stats W) (l_label W) (mkpicks (o_pick o) None) (intact image) (var (bu_back x)) q cat = (last, Ok ex) ->
  all_finite ex ->
  cut_stamps (l_stats W) (l_label W) (ex_picks ex) last (var (bu_back x)) q (ex_sources ex) = (last', Ok ex') ->
  exists s1 s2,
  l_stamps_pos (live_lib W o x) (mkpicture (intact image) h, a) = (Ok (ex_pos ex), s1) /\
  l_stamps_pos (live_lib W o x) s1 = (Ok (ex_pos ex), s2) /\
  pic_now (fst s1) = last /\ plane_eq (pic_now (fst s2)) last /\
  db (snd s1) = Some (map numbers (ex_stamps ex)) /\ db (snd s2) = db (snd s1) /\ best (snd s2) = best (snd s1).
Proof. exact C136_again_lm. Qed.
Print Assumptions C136_again.

(** The image [raised], which the first access changes, once a shape was asked for. *)
Example C136_again_case : exists last ex last' ex',
  apart (1, 1)%nat [mid] /\ req_shape asked_shape = Some (1, 1)%nat /\ pos asked_shape = None /\
  fst (best_sources (bu_lib bright_one) asked_shape) = Ok [mid] /\
  cut_stamps (l_stats small) (l_label small) (mkpicks (o_pick plainly) None) (intact raised) (var (bu_back bright_one)) (1, 1)%nat [mid] = (last, Ok ex) /\
  all_finite ex /\
  cut_stamps (l_stats small) (l_label small) (ex_picks ex) last (var (bu_back bright_one)) (1, 1)%nat (ex_sources ex) = (last', Ok ex').
Proof. exact live_again. Qed.

(** The pixels that are nan afterwards are those of the stamps inside the frame without a cell
    below their 70th percentile; in such a history there are none before the extraction. *)
Theorem C136_nan : forall W fuel o d x c ex,
  build W fuel o d = Some (Ok x) -> fst (Session.best_sources (bu_lib x) (bu_attr x)) = Ok c ->
  snd (first_cut W o x c) = Ok ex ->
  let sh := stamp_shape (bu_attr x) in
  let im := bu_clean x in
  (0 < fst sh)%nat -> (0 < snd sh)%nat -> apart sh c ->
  forall cs, Forall same_stamps cs ->
  let s := lived W o cs x in
  forall i j, (i < nr im)%nat -> (j < nc im)%nat ->
  (px (pic_now (fst s)) i j = None <->
   pos (snd s) <> None /\
   exists t, In t c /\ in_stamp sh t (Z.of_nat i) (Z.of_nat j) /\ inner im sh t /\ ~ has_level im (var (bu_back x)) sh t).
Proof. exact C136_nan_lm. Qed.
Print Assumptions C136_nan.

(** Two stars on an image that is 1 everywhere. *)
Example C136_nan_case : exists ex,
  build lone 1 echosen edata = Some (Ok ebuilt) /\
  fst (best_sources (bu_lib ebuilt) (bu_attr ebuilt)) = Ok [mid; side] /\
  snd (first_cut lone echosen ebuilt [mid; side]) = Ok ex /\
  apart (stamp_shape (bu_attr ebuilt)) [mid; side] /\ Forall same_stamps [CStampsPos] /\
  pos (snd (lived lone echosen [CStampsPos] ebuilt)) <> None /\
  in_stamp (1, 1)%nat mid 10 10 /\ inner (bu_clean ebuilt) (1, 1)%nat mid /\
  ~ has_level (bu_clean ebuilt) (var (bu_back ebuilt)) (1, 1)%nat mid.
Proof. exact live_nan. Qed.
