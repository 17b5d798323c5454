(** C127: an image whose computations are interrupted. *)
From Coq Require Import ZArith List Bool Arith Reals.
From Coquelicot Require Import Complex.
From Verif.Model Require Import Py Plane Ma Interp Subtract Sources Stamps Filter Transparency KL Session Chain.
From Verif.Spec Require Import KL Session Uses.
From Verif.Proof Require Import Session SessionLm SessionExample.
From Verif.Model Require Import Interrupt.
From Verif.Spec Require Import Interrupt.
From Verif.Proof Require Import InterruptMain InterruptEx.
Import ListNotations.
Local Open Scope R_scope.

(** A call that is not interrupted ends in the last of the states it passes. *)
Theorem C127_path : forall NI FT IM (L : lib NI FT IM) c s,
  last (passed _ _ _ L c s) s = exec L c s.
Proof. exact C127_path_lm. Qed.
Print Assumptions C127_path.

(** An image that was interrupted, any number of times, answers like one that was not. *)
Theorem C127_interrupted : forall NI FT IM (L : lib NI FT IM) sh s0 es sp,
  lib_ok L -> stable L sh -> new_image L sh s0 -> stamps_of _ _ _ L sh = Ok sp ->
  harmless L sh es s0 ->
  exists cs, outcome es cs /\ Forall plain cs /\
    forall more, Forall plain more ->
      same_answers L (exec_all L more (after_all _ _ _ L es s0)) (exec_all L (cs ++ more) s0).
Proof. exact C127_interrupted_lm. Qed.
Print Assumptions C127_interrupted.

(** For an image built from pixels. *)
Theorem C127_images : forall W fuel o d x es sp,
  (forall n c, length (fst (l_eigh W n c)) = n) ->
  build W fuel o d = Some (Ok x) ->
  stamps_of _ _ _ (bu_lib x) (stamp_shape (bu_attr x)) = Ok sp ->
  harmless (bu_lib x) (stamp_shape (bu_attr x)) es (bu_attr x) ->
  exists cs, outcome es cs /\ Forall plain cs /\
    forall more, Forall plain more ->
      same_answers (bu_lib x) (exec_all (bu_lib x) more (after_all _ _ _ (bu_lib x) es (bu_attr x)))
        (exec_all (bu_lib x) (cs ++ more) (bu_attr x)).
Proof. exact C127_images_lm. Qed.
Print Assumptions C127_images.

Example C127_interrupted_case : lib_ok demo /\ stable demo dshape /\ new_image demo dshape dnew /\
  (exists sp, stamps_of _ _ _ demo dshape = Ok sp) /\ harmless demo dshape cuts dnew.
Proof. exact C127_interrupted_case_lm. Qed.

(** Asking again gives what the interrupted question would have given. *)
Theorem C127_retry : forall NI FT IM (L : lib NI FT IM) sh s0 es c i sp,
  lib_ok L -> stable L sh -> new_image L sh s0 -> stamps_of _ _ _ L sh = Ok sp ->
  harmless L sh (es ++ [Cut c i]) s0 ->
  let s := after_all _ _ _ L es s0 in let s' := after _ _ _ L (Cut c i) s in
  match c with
  | CGetPSF (Some l) None => fst (get_variable_psf L (Some l) None s') = psf_for L sh l
  | CGetPSF None None => fst (get_variable_psf L None None s') = fst (get_variable_psf L None None s)
  | CNormal => fst (normal_image L s') = fst (normal_image L s)
  | CSHat => fst (s_hat_comp L s') = fst (s_hat_comp L s)
  | CSComponent => fst (s_component L s') = fst (s_component L s)
  | _ => True
  end.
Proof. exact C127_retry_lm. Qed.
Print Assumptions C127_retry.

Example C127_retry_case :
  fst (get_variable_psf demo (Some (2 / 10)) None (after_all _ _ _ demo cuts dnew)) = psf_for demo dshape (2 / 10).
Proof. exact C127_retry_case_lm. Qed.

(** Interrupted between the two assignments to stamp_shape and _stamps_pos: the next stamps are
    six pixels larger in each direction. *)
Theorem C127_window : forall NI FT IM (L : lib NI FT IM) sh s0 es c i sp,
  lib_ok L -> stable L sh -> new_image L sh s0 -> stamps_of _ _ _ L sh = Ok sp ->
  harmless L sh es s0 -> plain c -> quiet c (after_all _ _ _ L es s0) ->
  let s' := after _ _ _ L (Cut c i) (after_all _ _ _ L es s0) in
  ~ settled_stamps sh s' -> pos s' = None ->
  exists kept, best s' = Some kept /\ extract L sh kept = (fst sp, Ok (snd sp, kept)) /\
    forall l, 0 <= l ->
      fst (get_variable_psf L (Some l) None s') = psf_for (given L kept) (fst sh + 6, snd sh + 6)%nat l.
Proof. exact C127_window_lm. Qed.
Print Assumptions C127_window.

Example C127_window_case :
  let s' := Interrupt.after _ _ _ demo (Cut (CGetPSF None None) 6) dnew in
  ~ settled_stamps dshape s' /\ pos s' = None.
Proof. exact C127_window_case_lm. Qed.

Theorem C127_stuck : forall NI FT IM (L : lib NI FT IM) sh s0 es c i sp,
  lib_ok L -> stable L sh -> new_image L sh s0 -> stamps_of _ _ _ L sh = Ok sp ->
  harmless L sh es s0 -> plain c -> quiet c (after_all _ _ _ L es s0) ->
  let s' := after _ _ _ L (Cut c i) (after_all _ _ _ L es s0) in
  ~ settled_stamps sh s' -> pos s' <> None ->
  forall cs l, Forall plain cs ->
    fst (get_variable_psf L l None (exec_all L cs s')) = Raise AttributeError.
Proof. exact C127_stuck_lm. Qed.
Print Assumptions C127_stuck.

Example C127_stuck_case :
  let s' := Interrupt.after _ _ _ demo (Cut (CGetPSF None None) 7) dnew in
  ~ settled_stamps dshape s' /\ pos s' <> None.
Proof. exact C127_stuck_case_lm. Qed.

(** The answer of an image that was interrupted there is not the answer it owes. *)
Theorem C127_window_refuted : exists NI FT IM (L : lib NI FT IM) sh s0 c i l,
  lib_ok L /\ stable L sh /\ new_image L sh s0 /\ plain c /\ quiet c s0 /\ 0 <= l /\
  fst (get_variable_psf L (Some l) None (Interrupt.after _ _ _ L (Cut c i) s0)) <> psf_for L sh l.
Proof. exact C127_window_refuted_lm. Qed.
Print Assumptions C127_window_refuted.

(** Another loss, interrupted: the new loss with the PSF of the old one. *)
Theorem C127_old_psf : forall NI FT IM (L : lib NI FT IM) s psf s1 l,
  get_variable_psf L None None s = (Ok psf, s1) -> l <> inf_loss s1 ->
  let s' := after _ _ _ L (Cut (CGetPSF (Some l) None) 1) s1 in
  inf_loss s' = l /\ fst (get_variable_psf L (Some l) None s') = Ok psf /\ fst (get_variable_psf L None None s') = Ok psf.
Proof. exact C127_old_psf_lm. Qed.
Print Assumptions C127_old_psf.

(** A little later: the fields of the old PSF with the basis of the new one. *)
Theorem C127_mixed : forall NI FT IM (L : lib NI FT IM) sh s0 cs fs b l f' b',
  lib_ok L -> new_image L sh s0 -> Forall plain cs ->
  psf_for L sh (last_loss cs) = Ok (Fields fs, b) ->
  0 <= l -> l <> last_loss cs -> psf_for L sh l = Ok (f', b') ->
  let s1 := exec L (CGetPSF None None) (exec_all L cs s0) in
  exists k, let s' := after _ _ _ L (Cut (CGetPSF (Some l) None) k) s1 in
    inf_loss s' = l /\ fst (get_variable_psf L (Some l) None s') = Ok (Fields fs, b').
Proof. exact C127_mixed_lm. Qed.
Print Assumptions C127_mixed.

Example C127_mixed_case : exists fs b f' b', psf_for demo dshape (last_loss []) = Ok (Fields fs, b) /\
  0 <= 5 / 10 /\ 5 / 10 <> last_loss [] /\ psf_for demo dshape (5 / 10) = Ok (f', b') /\ length fs <> length b'.
Proof. exact C127_mixed_case_lm. Qed.

(** An image that was asked for another loss and interrupted answers with the old PSF, or with
    the fields of one and the basis of the other. *)
Theorem C127_loss_refuted : exists NI FT IM (L : lib NI FT IM) sh s0 cs l i,
  lib_ok L /\ stable L sh /\ new_image L sh s0 /\ Forall plain cs /\ 0 <= l /\
  let s' := Interrupt.after _ _ _ L (Cut (CGetPSF (Some l) None) i) (exec_all L cs s0) in
  settled_stamps sh s' /\
  fst (get_variable_psf L (Some l) None s') <> psf_for L sh l.
Proof. exact C127_loss_refuted_lm. Qed.
Print Assumptions C127_loss_refuted.
