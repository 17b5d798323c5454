(** C36, C39, C40, C41, C42, C63, C84: the cached attributes of an image over histories of calls. *)
From Coq Require Import ZArith List Bool Arith Reals Lia Lra.
From Verif.Model Require Import Py Plane Sources KL Session.
From Verif.Spec Require Import KL Session.
From Verif.Proof Require Import KL KLMain Session SessionFrame SessionMain SessionLm SessionLm2 SessionExample.
Import ListNotations.
Local Open Scope R_scope.

(** The answer is the one for the loss asked for. *)
Theorem C39_history : forall NI FT IM (L : lib NI FT IM) sh s0 cs,
  lib_ok L -> new_image L sh s0 -> Forall plain cs ->
  (forall l, 0 <= l -> fst (get_variable_psf L (Some l) None (exec_all L cs s0)) = psf_for L sh l) /\
  fst (get_variable_psf L None None (exec_all L cs s0)) = psf_for L sh (last_loss cs) /\
  inf_loss (exec_all L cs s0) = last_loss cs.
Proof. exact C39_history_lm. Qed.
Print Assumptions C39_history.

(** One field for each element. *)
Theorem C39_fields : forall NI FT IM (L : lib NI FT IM) sh l psf,
  lib_ok L -> psf_for L sh l = Ok psf -> fields_fit psf.
Proof. exact C39_fields_lm. Qed.
Print Assumptions C39_fields.

(** Asking twice gives the same, in any state. *)
Theorem C39_stable : forall NI FT IM (L : lib NI FT IM) s l sh psf s1,
  get_variable_psf L l sh s = (Ok psf, s1) -> get_variable_psf L None None s1 = (Ok psf, s1).
Proof. exact C39_stable_lm. Qed.
Print Assumptions C39_stable.

(** Writing the attribute instead of passing the argument has no effect on a PSF already
    computed, even when the same value is then passed. *)
Theorem C39_assignment : forall NI FT IM (L : lib NI FT IM) s psf s1 l,
  get_variable_psf L None None s = (Ok psf, s1) ->
  fst (get_variable_psf L (Some l) None (exec L (CSetInfLoss l) s1)) = Ok psf /\
  fst (get_variable_psf L None None (exec L (CSetInfLoss l) s1)) = Ok psf.
Proof. exact C39_assignment_lm. Qed.
Print Assumptions C39_assignment.

(** The image [demo]: two elements for the default loss 0.2, one element for 0.5, whatever was
    asked in between. *)
Example C39_case : lib_ok demo /\ new_image demo dshape dnew /\
  (exists f b, fst (get_variable_psf demo None None
      (exec_all demo [CSComponent; CGetPSF (Some (5 / 10)) None; CCoadd (2 / 10) 3] dnew)) = Ok (f, b) /\ length b = 2%nat) /\
  exists f b, fst (get_variable_psf demo (Some (5 / 10)) None (exec_all demo [CSComponent] dnew)) = Ok (f, b) /\ length b = 1%nat.
Proof.
  split; [exact demo_ok|]. split; [exact demo_new|].
  assert (F : Forall plain [CSComponent; CGetPSF (Some (5 / 10)) None; CCoadd (2 / 10) 3]) by (repeat constructor; cbn; lra).
  assert (F1 : Forall plain [CSComponent]) by (repeat constructor).
  split.
  - rewrite (proj1 (proj2 (C39_history _ _ _ demo dshape dnew _ demo_ok demo_new F))).
    destruct (demo_len (2 / 10)) as (f & b & E & Q & _). exists f, b. rewrite dlen_02 in Q. now split.
  - rewrite (proj1 (C39_history _ _ _ demo dshape dnew _ demo_ok demo_new F1) (5 / 10)) by lra.
    destruct (demo_len (5 / 10)) as (f & b & E & Q & _). exists f, b. rewrite dlen_05 in Q. now split.
Qed.

(** Assigning the attribute after the PSF was computed: the answer for 0.5 is the one for 0.2. *)
Theorem C39_assignment_refuted : exists NI FT IM (L : lib NI FT IM) sh s0 cs l,
  lib_ok L /\ new_image L sh s0 /\ Forall plain cs /\ 0 <= l /\
  fst (get_variable_psf L (Some l) None (exec L (CSetInfLoss l) (exec_all L cs s0))) <> psf_for L sh l.
Proof. exact C39_assignment_refuted_lm. Qed.
Print Assumptions C39_assignment_refuted.

(** The filtered image: the loss in force, the zero point of its last making, the
    normalisation of its first use. *)
Theorem C40_history : forall NI FT IM (L : lib NI FT IM) sh s0 cs,
  lib_ok L -> new_image L sh s0 -> Forall plain cs ->
  let m := need_filt (history cs) in
  fst (s_hat_comp L (exec_all L cs s0)) = filt_for L sh (last_loss cs) (snd (made_of m)) (norm_loss m).
Proof. exact C40_history_lm. Qed.
Print Assumptions C40_history.

(** Made anew, it has the zero point in force. *)
Theorem C40_new : forall NI FT IM (L : lib NI FT IM) sh s0 cs,
  lib_ok L -> new_image L sh s0 -> Forall plain cs ->
  (forall l z, m_filt (history cs) = Some (l, z) -> l <> last_loss cs) ->
  fst (s_hat_comp L (exec_all L cs s0)) = filt_for L sh (last_loss cs) (last_zp cs) (norm_loss (history cs)).
Proof. exact C40_new_lm. Qed.
Print Assumptions C40_new.

(** No filtered image was made in a history without reading s_hat_comp or s_component. *)
Theorem C40_untouched : forall cs,
  Forall (fun c => c <> CSHat /\ c <> CSComponent) cs -> m_filt (history cs) = None.
Proof. exact C40_untouched_lm. Qed.
Print Assumptions C40_untouched.

(** Zero points set later, by hand or by another coadd, do not reach it. *)
Theorem C40_stale : forall NI FT IM (L : lib NI FT IM) sh s0 cs cs',
  lib_ok L -> new_image L sh s0 -> Forall plain (cs ++ CSHat :: cs') ->
  Forall (fun c => loss_of c (last_loss cs) = last_loss cs) cs' ->
  fst (s_hat_comp L (exec_all L (cs ++ CSHat :: cs') s0)) = fst (s_hat_comp L (exec_all L cs s0)).
Proof. exact C40_stale_lm. Qed.
Print Assumptions C40_stale.

(** A zero point of 5 set before the filtered image is made is in it; one of 7 set afterwards
    is not. *)
Example C40_case :
  fst (s_hat_comp demo (exec_all demo [CSetZp 5] dnew)) = Ok (5, 2%nat, 2%nat) /\
  fst (s_hat_comp demo (exec_all demo [CSetZp 5; CSHat; CSetZp 7] dnew)) = Ok (5, 2%nat, 2%nat).
Proof.
  assert (F : Forall plain [CSetZp 5]) by (repeat constructor).
  assert (F2 : Forall plain ([CSetZp 5] ++ CSHat :: [CSetZp 7])) by (repeat constructor).
  assert (E : fst (s_hat_comp demo (exec_all demo [CSetZp 5] dnew)) = Ok (5, 2%nat, 2%nat)).
  { rewrite (C40_new _ _ _ demo dshape dnew _ demo_ok demo_new F) by discriminate.
    rewrite demo_filt. change (Ok (5, dlen (2 / 10), dlen (2 / 10)) = Ok (5, 2%nat, 2%nat)). now rewrite dlen_02. }
  split; [exact E|].
  rewrite <- E. apply (C40_stale _ _ _ demo dshape dnew [CSetZp 5] [CSetZp 7] demo_ok demo_new F2).
  repeat constructor.
Qed.

(** A zero point set by a coadd after the filtered image was made. *)
Theorem C40_zero_point_refuted : exists NI FT IM (L : lib NI FT IM) sh s0 cs,
  lib_ok L /\ new_image L sh s0 /\ Forall plain cs /\
  fst (s_hat_comp L (exec_all L cs s0)) <> filt_for L sh (last_loss cs) (last_zp cs) (norm_loss (history cs)).
Proof. exact C40_zero_point_refuted_lm. Qed.
Print Assumptions C40_zero_point_refuted.

(** The image of the loss in force, unless that is the loss of the first access. *)
Theorem C41_current : forall NI FT IM (L : lib NI FT IM) sh s0 cs,
  lib_ok L -> new_image L sh s0 -> Forall plain cs ->
  first_component (2 / 10) cs <> Some (last_loss cs) ->
  fst (s_component L (exec_all L cs s0)) =
  bind (fst (s_hat_comp L (exec_all L cs s0))) (fun h => Ok (ifft_real L h)).
Proof. exact C41_current_lm. Qed.
Print Assumptions C41_current.

(** When s_component was only accessed while the loss in force was the present one, it is the
    image of a matched filter made for that loss. *)
Theorem C41_unchanged : forall NI FT IM (L : lib NI FT IM) sh s0 cs,
  lib_ok L -> new_image L sh s0 -> Forall plain cs ->
  (forall c1 c2, cs = c1 ++ CSComponent :: c2 -> last_loss c1 = last_loss cs) ->
  exists z ln, fst (s_component L (exec_all L cs s0)) =
    bind (filt_for L sh (last_loss cs) z ln) (fun h => Ok (ifft_real L h)).
Proof. exact C41_unchanged_lm. Qed.
Print Assumptions C41_unchanged.

(** Two accesses while the loss is 0.5, which was 0.2 before and 0.7 in between. *)
Example C41_unchanged_case :
  let cs := [CGetPSF (Some (5 / 10)) None; CSComponent; CGetPSF (Some (7 / 10)) None; CSHat; CGetPSF (Some (5 / 10)) None; CSComponent] in
  Forall plain cs /\ (forall c1 c2, cs = c1 ++ CSComponent :: c2 -> last_loss c1 = last_loss cs).
Proof.
  cbv zeta. split; [repeat constructor; cbn; lra|]. intros c1 c2 H.
  do 6 (destruct c1 as [|? c1]; [try discriminate H; reflexivity|]; injection H as <- H).
  destruct c1; discriminate H.
Qed.

(** Otherwise the image of the last access, of whatever loss. *)
Theorem C41_returned : forall NI FT IM (L : lib NI FT IM) sh s0 cs cs',
  lib_ok L -> new_image L sh s0 -> Forall plain (cs ++ CSComponent :: cs') ->
  ~ In CSComponent cs' ->
  first_component (2 / 10) (cs ++ CSComponent :: cs') = Some (last_loss (cs ++ CSComponent :: cs')) ->
  fst (s_component L (exec_all L (cs ++ CSComponent :: cs') s0)) = fst (s_component L (exec_all L cs s0)).
Proof. exact C41_returned_lm. Qed.
Print Assumptions C41_returned.

(** The component for 0.5 after one for 0.2. *)
Example C41_case :
  first_component (2 / 10) [CSComponent; CGetPSF (Some (5 / 10)) None] <>
    Some (last_loss [CSComponent; CGetPSF (Some (5 / 10)) None]) /\
  fst (s_component demo (exec_all demo [CSComponent; CGetPSF (Some (5 / 10)) None] dnew)) = Ok (1, 1%nat, 2%nat).
Proof.
  assert (F : Forall plain [CSComponent; CGetPSF (Some (5 / 10)) None]) by (repeat constructor; cbn; lra).
  assert (N : first_component (2 / 10) [CSComponent; CGetPSF (Some (5 / 10)) None] <>
    Some (last_loss [CSComponent; CGetPSF (Some (5 / 10)) None])) by (cbn; intros X; injection X as X; lra).
  split; [exact N|].
  rewrite (C41_current _ _ _ demo dshape dnew _ demo_ok demo_new F N).
  rewrite (C40_new _ _ _ demo dshape dnew _ demo_ok demo_new F), demo_filt.
  - change (Ok (1, dlen (5 / 10), dlen (2 / 10)) = Ok (1, 1%nat, 2%nat)). now rewrite dlen_02, dlen_05.
  - intros l z. cbn. intros X. injection X as <- _. lra.
Qed.

(** Back to the loss of the first access: the component of the other loss. *)
Theorem C41_return_refuted : exists NI FT IM (L : lib NI FT IM) sh s0 cs,
  lib_ok L /\ new_image L sh s0 /\ Forall plain cs /\
  fst (s_component L (exec_all L cs s0)) <>
  bind (fst (s_hat_comp L (exec_all L cs s0))) (fun h => Ok (ifft_real L h)).
Proof. exact C41_return_refuted_lm. Qed.
Print Assumptions C41_return_refuted.

(** The normalisation image is the one of its first use. *)
Theorem C42_history : forall NI FT IM (L : lib NI FT IM) sh s0 cs,
  lib_ok L -> new_image L sh s0 -> Forall plain cs ->
  fst (normal_image L (exec_all L cs s0)) = norm_for L sh (norm_loss (history cs)).
Proof. exact C42_history_lm. Qed.
Print Assumptions C42_history.

Theorem C42_once : forall NI FT IM (L : lib NI FT IM) s n s1 cs,
  normal_image L s = (Ok n, s1) -> fst (normal_image L (exec_all L cs s1)) = Ok n.
Proof. exact C42_once_lm. Qed.
Print Assumptions C42_once.

(** A normalisation image that is made for the loss 1/2 and read again after another loss was
    asked for. *)
Example C42_case : lib_ok demo /\ new_image demo dshape dnew /\
  Forall plain [CGetPSF (Some (1 / 2)) None; CNormal; CGetPSF (Some (2 / 10)) None] /\
  exists n s1, normal_image demo (exec_all demo [CGetPSF (Some (1 / 2)) None] dnew) = (Ok n, s1).
Proof.
  split; [exact demo_ok|]. split; [exact demo_new|]. split; [repeat constructor; cbn; lra|].
  assert (F : Forall plain [CGetPSF (Some (1 / 2)) None]) by (repeat constructor; cbn; lra).
  pose proof (C42_history _ _ _ demo dshape dnew _ demo_ok demo_new F) as H.
  destruct (demo_len (norm_loss (history [CGetPSF (Some (1 / 2)) None]))) as (f & b & E & _).
  unfold norm_for in H. rewrite E in H. cbn [bind] in H.
  destruct (normal_image demo (exec_all demo [CGetPSF (Some (1 / 2)) None] dnew)) as [r s1]. cbn [fst] in H. subst r.
  do 2 eexists. reflexivity.
Qed.

(** A normalisation made for 0.2 and used with 0.5. *)
Theorem C42_loss_refuted : exists NI FT IM (L : lib NI FT IM) sh s0 cs,
  lib_ok L /\ new_image L sh s0 /\ Forall plain cs /\
  fst (normal_image L (exec_all L cs s0)) <> norm_for L sh (last_loss cs).
Proof. exact C42_loss_refuted_lm. Qed.
Print Assumptions C42_loss_refuted.

(** An image whose sources were not looked at. *)
Theorem C36_not_read : forall NI FT IM (L : lib NI FT IM) s new,
  best s = None -> update_sources L new s = (Raise AttributeError, s).
Proof. exact C36_not_read_lm. Qed.
Print Assumptions C36_not_read.

(** The new list is what best_sources returns; nothing else moves. *)
Theorem C36_sources : forall NI FT IM (L : lib NI FT IM) s c0 new,
  best s = Some c0 ->
  exists s1, update_sources L (Some new) s = (Ok tt, s1) /\
    best_sources L s1 = (Ok new, s1) /\ db s1 = db s /\
    (forall p, pos s = Some p -> reshaped s = false ->
       stamps_pos L s = (Ok p, s) /\ stamps_pos L s1 = (Ok p, s1)) /\
    (forall n, nsrc s = Some n -> n_sources L s = (Ok n, s) /\ n_sources L s1 = (Ok n, s1)).
Proof. exact C36_sources_lm. Qed.
Print Assumptions C36_sources.

(** Before the extraction it decides what is extracted. *)
Theorem C36_before : forall NI FT IM (L : lib NI FT IM) s c0 new st r s1,
  best s = Some c0 -> pos s = None -> reshaped s = false ->
  extract L (stamp_shape s) new = (st, r) ->
  update_sources L (Some new) s = (Ok tt, s1) ->
  fst (stamps_pos L s1) = bind r (fun pk => Ok (fst pk)) /\ db (snd (stamps_pos L s1)) = Some st.
Proof. exact C36_before_lm. Qed.
Print Assumptions C36_before.

Theorem C36_no_effect : forall NI FT IM (L : lib NI FT IM) s c0 p new s1,
  best s = Some c0 -> pos s = Some p -> reshaped s = false ->
  update_sources L (Some new) s = (Ok tt, s1) ->
  (forall l, fst (get_variable_psf L l None s1) = fst (get_variable_psf L l None s)) /\
  fst (normal_image L s1) = fst (normal_image L s) /\
  fst (s_hat_comp L s1) = fst (s_hat_comp L s) /\
  fst (s_component L s1) = fst (s_component L s).
Proof. exact C36_no_effect_lm. Qed.
Print Assumptions C36_no_effect.

(** Without a list the sources are detected again, but after the extraction nothing computed
    from them is. When the detection raises, the image is left without sources. *)
Theorem C36_redetect : forall NI FT IM (L : lib NI FT IM) s c0 p n,
  best s = Some c0 -> pos s = Some p -> nsrc s = Some n -> reshaped s = false ->
  match select L with
  | Ok c => exists s1, update_sources L None s = (Ok tt, s1) /\
      best_sources L s1 = (Ok c, s1) /\ stamps_pos L s1 = (Ok p, s1) /\ n_sources L s1 = (Ok n, s1) /\
      db s1 = db s /\
      (forall l, fst (get_variable_psf L l None s1) = fst (get_variable_psf L l None s)) /\
      fst (normal_image L s1) = fst (normal_image L s) /\
      fst (s_hat_comp L s1) = fst (s_hat_comp L s) /\
      fst (s_component L s1) = fst (s_component L s)
  | Raise e => exists s1, update_sources L None s = (Raise e, s1) /\ best s1 = None /\
      forall new, fst (update_sources L new s1) = Raise AttributeError
  end.
Proof. exact C36_redetect_lm. Qed.
Print Assumptions C36_redetect.

(** An image whose sources were looked at, before and after the extraction. *)
Example C36_case :
  (exists c s, best_sources demo dnew = (Ok c, s) /\ best s = Some c /\ pos s = None /\ reshaped s = false) /\
  (exists c p s, snd (n_sources demo dnew) = s /\ best s = Some c /\ pos s = Some p /\ reshaped s = false /\ nsrc s = Some 2%nat).
Proof.
  split.
  - exists [star 20; star 50], (snd (best_sources demo dnew)). repeat split.
  - exists [star 20; star 50], (two_positions dshape), (snd (n_sources demo dnew)). repeat split.
Qed.

(** A PSF already computed is returned as it is. *)
Theorem C63_cached : forall NI FT IM (L : lib NI FT IM) s l0 sh0 psf s1 sh,
  get_variable_psf L l0 sh0 s = (Ok psf, s1) ->
  get_variable_psf L None (Some sh) s1 = (Ok psf, set_req_shape (Some sh) s1).
Proof. exact C63_cached_lm. Qed.
Print Assumptions C63_cached.

(** Every access extracts again with the shape asked for, from the sources kept the last
    time. *)
Theorem C63_access : forall NI FT IM (L : lib NI FT IM) s sh cat st p kept,
  req_shape s = Some sh -> (stamp_shape s <> sh \/ pos s = None) -> fst (best_sources L s) = Ok cat ->
  extract L sh cat = (st, Ok (p, kept)) ->
  exists s1, stamps_pos L s = (Ok p, s1) /\ db s1 = Some st /\
    stamp_shape s1 = (fst sh + 6, snd sh + 6)%nat /\ best_sources L s1 = (Ok kept, s1) /\
    n_sources L s1 = (Ok (length p), s1) /\
    (forall st2 r2, extract L sh kept = (st2, r2) ->
       fst (stamps_pos L s1) = bind r2 (fun pk => Ok (fst pk)) /\ db (snd (stamps_pos L s1)) = Some st2).
Proof. exact C63_access_lm. Qed.
Print Assumptions C63_access.

(** A failed extraction is forgotten: the next access gives the old positions, and the file
    holds the stamps of the failed one. *)
Theorem C63_failed : forall NI FT IM (L : lib NI FT IM) s sh cat st e p0,
  req_shape s = Some sh -> stamp_shape s <> sh -> pos s = Some p0 -> fst (best_sources L s) = Ok cat ->
  extract L sh cat = (st, Raise e) ->
  exists s1, stamps_pos L s = (Raise e, s1) /\ stamps_pos L s1 = (Ok p0, s1) /\ db s1 = Some st.
Proof. exact C63_failed_lm. Qed.
Print Assumptions C63_failed.

Theorem C63_mixed : forall NI FT IM (L : lib NI FT IM) sh s0 cs l fs b stamps p e sh2 cat st2 p2 k2,
  lib_ok L -> new_image L sh s0 -> Forall plain cs -> 0 <= l -> l <> last_loss cs ->
  stamps_of NI FT IM L sh = Ok (stamps, p) ->
  KL.eigenv (eigh L) (fst sh + 6, snd sh + 6)%nat stamps = Ok e ->
  psf_for L sh l = Ok (Fields fs, b) ->
  let s := exec_all L (cs ++ [CEigenv]) s0 in
  fst (best_sources L s) = Ok cat -> extract L sh2 cat = (st2, Ok (p2, k2)) ->
  sh2 <> (fst sh + 6, snd sh + 6)%nat -> p2 <> [] ->
  fst (get_variable_psf L (Some l) (Some sh2) s) =
  if Nat.eqb (length p2) (length stamps)
  then Ok (Fields (map (fun k => fit L p2 (eigen_component (length stamps) (snd e) k)) (seq 0 (length b))), b)
  else Raise ValueError.
Proof. exact C63_mixed_lm. Qed.
Print Assumptions C63_mixed.

(** Such a state meets the hypotheses of the statements above. *)
Theorem C63_reached : forall NI FT IM (L : lib NI FT IM) sh s0 cs psf stamps p e sh2,
  lib_ok L -> new_image L sh s0 -> Forall plain cs ->
  stamps_of NI FT IM L sh = Ok (stamps, p) ->
  KL.eigenv (eigh L) (fst sh + 6, snd sh + 6)%nat stamps = Ok e ->
  psf_for L sh (last_loss cs) = Ok psf ->
  let s := exec_all L (cs ++ [CGetPSF None None; CEigenv; CGetPSF None (Some sh2)]) s0 in
  req_shape s = Some sh2 /\ stamp_shape s = (fst sh + 6, snd sh + 6)%nat /\ pos s = Some p /\ db s = Some stamps /\
  exists cat, fst (best_sources L s) = Ok cat.
Proof. exact C63_reached_lm. Qed.
Print Assumptions C63_reached.

(** The hypotheses of C63_access hold of [demo] after asking for a shape of (2, 2). *)
Example C63_case : exists cat, let s := exec_all demo [CGetPSF None None; CEigenv; CGetPSF None (Some (2, 2)%nat)] dnew in
  req_shape s = Some (2, 2)%nat /\ stamp_shape s <> (2, 2)%nat /\ fst (best_sources demo s) = Ok cat /\
  extract demo (2, 2)%nat cat = (two_stamps (2, 2)%nat, Ok (two_positions (2, 2)%nat, cat)).
Proof.
  destruct (demo_len (2 / 10)) as (f & b & E & _).
  destruct (C63_reached _ _ _ demo dshape dnew [] (f, b) _ _ _ (2, 2)%nat demo_ok demo_new (Forall_nil _) demo_stamps demo_eig E)
    as (R1 & R2 & _ & _ & cat & R3).
  exists cat. cbn zeta. split; [exact R1|]. split; [|split; [exact R3|reflexivity]].
  cbn [app] in R2. rewrite R2. discriminate.
Qed.

(** Those of C63_failed, with an extraction that fails for that shape. *)
Example C63_failed_case : exists cat p, let s := exec_all picky [CStampsPos] (set_req_shape None dnew) in
  let s := set_req_shape (Some (2, 2)%nat) s in
  req_shape s = Some (2, 2)%nat /\ stamp_shape s <> (2, 2)%nat /\ pos s = Some p /\
  fst (best_sources picky s) = Ok cat /\
  extract picky (2, 2)%nat cat = ([pconst (2, 2)%nat 1], Raise ValueError).
Proof.
  exists [star 20; star 50], (two_positions dshape). cbn zeta. split; [reflexivity|]. split; [discriminate|].
  split; [reflexivity|]. split; reflexivity.
Qed.

(** After a shape was asked for, the answer for a new loss fits neither the old stamps nor the
    new ones. *)
Theorem C63_mixed_refuted : exists NI FT IM (L : lib NI FT IM) sh s0 cs l sh2 psf,
  lib_ok L /\ new_image L sh s0 /\ Forall plain cs /\ 0 <= l /\
  fst (get_variable_psf L (Some l) (Some sh2) (exec_all L cs s0)) = Ok psf /\
  psf_for L sh l <> Ok psf /\ psf_for L sh2 l <> Ok psf.
Proof. exact C63_mixed_refuted_lm. Qed.
Print Assumptions C63_mixed_refuted.

(** [s1]: the PSF was computed. A request with a new loss fails; the second time the request
    does not fail, or fails for want of any element, and the coefficient fields are the old ones. *)
Theorem C84_retry : forall NI FT IM (L : lib NI FT IM) psf s1 l e s2,
  get_variable_psf L None None s1 = (Ok psf, s1) ->
  get_variable_psf L (Some l) None s1 = (Raise e, s2) ->
  (forall psf', fst (get_variable_psf L (Some l) None s2) = Ok psf' -> fst psf' = fst psf) /\
  (forall x, fst (get_variable_psf L (Some l) None s2) = Raise x -> x = IndexError).
Proof. exact C84_retry_lm. Qed.
Print Assumptions C84_retry.

(** A shape asked for, the stamps extracted again, a new loss: an error the first time, the
    answer for the old loss the second time. *)
Theorem C84_shape : forall NI FT IM (L : lib NI FT IM) sh s0 cs psf stamps p e l sh2 cat st2 p2 k2,
  lib_ok L -> new_image L sh s0 -> Forall plain cs -> 0 <= l -> l <> last_loss cs ->
  stamps_of NI FT IM L sh = Ok (stamps, p) -> (length stamps <= 250)%nat ->
  KL.eigenv (eigh L) (fst sh + 6, snd sh + 6)%nat stamps = Ok e ->
  psf_for L sh (last_loss cs) = Ok psf ->
  let s := exec_all L (cs ++ [CGetPSF None None; CEigenv; CGetPSF None (Some sh2)]) s0 in
  fst (best_sources L s) = Ok cat -> extract L sh2 cat = (st2, Ok (p2, k2)) ->
  sh2 <> (fst sh + 6, snd sh + 6)%nat ->
  ((fst sh2 + 6) * (snd sh2 + 6) <> (fst sh + 6) * (snd sh + 6))%nat ->
  let s1 := exec L CStampsPos s in
  get_variable_psf L None None s1 = (Ok psf, s1) /\
  fst (get_variable_psf L (Some l) None s1) = Raise ValueError /\
  fst (get_variable_psf L (Some l) None (exec L (CGetPSF (Some l) None) s1)) = Ok psf.
Proof. exact C84_shape_lm. Qed.
Print Assumptions C84_shape.

(** The hypotheses of both hold of [demo]. *)
Example C84_case : exists s psf s1, get_variable_psf demo None None s = (Ok psf, s) /\
  get_variable_psf demo (Some (2 / 10)) None s = (Raise ValueError, s1).
Proof.
  assert (F : Forall plain [CGetPSF (Some (5 / 10)) None]) by (repeat constructor; cbn; lra).
  destruct (demo_len (5 / 10)) as (f & b & E & Q & _).
  assert (Hb0 : forall s, exists c, fst (best_sources demo s) = Ok c).
  { intros s. unfold best_sources. destruct (best _); eexists; reflexivity. }
  destruct (Hb0 (exec_all demo ([CGetPSF (Some (5 / 10)) None] ++ [CGetPSF None None; CEigenv; CGetPSF None (Some (2, 2)%nat)]) dnew))
    as (c & Hb).
  destruct (C84_shape _ _ _ demo dshape dnew [CGetPSF (Some (5 / 10)) None] (f, b) (two_stamps dshape) (two_positions dshape)
    _ (2 / 10) (2, 2)%nat c (two_stamps (2, 2)%nat) (two_positions (2, 2)%nat) c demo_ok demo_new F ltac:(lra) ltac:(cbn; lra)
    demo_stamps ltac:(cbn; lia) demo_eig E Hb eq_refl ltac:(discriminate) ltac:(discriminate)) as (A & B & _).
  revert A B. generalize (exec demo CStampsPos (exec_all demo ([CGetPSF (Some (5 / 10)) None] ++
    [CGetPSF None None; CEigenv; CGetPSF None (Some (2, 2)%nat)]) dnew)). intros s A B.
  exists s, (f, b), (snd (get_variable_psf demo (Some (2 / 10)) None s)). split; [exact A|].
  rewrite <- B. now destruct (get_variable_psf demo (Some (2 / 10)) None s).
Qed.

(** Asked again after an error, the answer for 0.2 is the one for 0.5. *)
Theorem C84_retry_refuted : exists NI FT IM (L : lib NI FT IM) sh s0 cs l e psf psf',
  lib_ok L /\ new_image L sh s0 /\ 0 <= l /\
  fst (get_variable_psf L (Some l) None (exec_all L cs s0)) = Raise e /\
  fst (get_variable_psf L (Some l) None (exec_all L (cs ++ [CGetPSF (Some l) None]) s0)) = Ok psf /\
  psf_for L sh l = Ok psf' /\ length (snd psf) = 1%nat /\ length (snd psf') = 2%nat.
Proof. exact C84_retry_refuted_lm. Qed.
Print Assumptions C84_retry_refuted.
