(** C107: an image whose temporary files were removed, by the end of a with block or by a
    subtraction with alignment. *)
From Coq Require Import ZArith List Bool Arith Reals Lia Lra.
From Verif.Model Require Import Py Plane Sources KL Session Gauss.
From Verif.Spec Require Import KL Session.
From Verif.Proof Require Import KL KLMain Session SessionFrame SessionMain SessionLm SessionLm2 SessionExample SessionClean GaussMain SessionCleanEx.
Import ListNotations.
Local Open Scope R_scope.

(** Nothing was extracted yet: the removal changes nothing at all. *)
Theorem C107_before : forall NI FT IM (L : lib NI FT IM) sh s0 cs cs',
  new_image L sh s0 -> Forall (fun c => c = CBestSources \/ exists z, c = CSetZp z) cs ->
  exec_all L (cs ++ CClean :: cs') s0 = exec_all L (cs ++ cs') s0.
Proof. exact C107_before_lm. Qed.
Print Assumptions C107_before.

Example C107_before_case : new_image demo dshape dnew /\
  Forall (fun c => c = CBestSources \/ exists z, c = CSetZp z) [CBestSources; CSetZp 3] /\
  db (exec_all demo ([CBestSources; CSetZp 3] ++ [CClean; CNSources]) dnew) = Some (two_stamps dshape).
Proof.
  split; [exact demo_new|]. split; [|reflexivity].
  apply Forall_cons; [now left|]. apply Forall_cons; [right; now exists 3|]. constructor.
Qed.

(** With at most 250 stamps, once their covariances are known, the files are not needed. *)
Theorem C107_memory : forall NI FT IM (L : lib NI FT IM) sh s0 cs cs' stamps p c,
  lib_ok L -> new_image L sh s0 -> Forall plain cs -> Forall plain_or_clean cs' ->
  stamps_of NI FT IM L sh = Ok (stamps, p) -> (length stamps <= 250)%nat ->
  KL.cov_matrix (fst sh + 6, snd sh + 6)%nat stamps = Ok c ->
  let s := exec_all L (cs ++ CCov :: cs') s0 in
  let kept := cs ++ CCov :: without_cleaning cs' in
  (forall l, 0 <= l -> fst (get_variable_psf L (Some l) None s) = psf_for L sh l) /\
  fst (get_variable_psf L None None s) = psf_for L sh (last_loss kept) /\
  fst (@Session.cov_matrix NI FT IM L s) = Ok (length stamps, c) /\
  fst (normal_image L s) = fst (normal_image L (exec_all L kept s0)) /\
  fst (s_hat_comp L s) = fst (s_hat_comp L (exec_all L kept s0)) /\
  fst (s_component L s) = fst (s_component L (exec_all L kept s0)) /\
  fst (stamps_pos L s) = Ok p.
Proof. exact C107_memory_lm. Qed.
Print Assumptions C107_memory.

Example C107_memory_case :
  let cs' := [CClean; CGetPSF (Some (5 / 10)) None; CClean; CSHat] in
  lib_ok demo /\ new_image demo dshape dnew /\ Forall plain_or_clean cs' /\
  stamps_of _ _ _ demo dshape = Ok (two_stamps dshape, two_positions dshape) /\
  exists c, KL.cov_matrix (fst dshape + 6, snd dshape + 6)%nat (two_stamps dshape) = Ok c.
Proof. exact C107_memory_case_lm. Qed.

(** The stamps were extracted, and removed before anything was computed from them. *)
Theorem C107_lost : forall NI FT IM (L : lib NI FT IM) sh s0 cs cs' stamps p,
  lib_ok L -> new_image L sh s0 -> Forall only_stars cs -> Forall plain_or_clean cs' ->
  stamps_of NI FT IM L sh = Ok (stamps, p) -> stamps <> [] ->
  let s := exec_all L (cs ++ [CNSources; CClean] ++ cs') s0 in
  fst (stamps_pos L s) = Ok p /\ fst (n_sources L s) = Ok (length stamps) /\
  fst (@Session.cov_matrix NI FT IM L s) = Raise IOError /\
  (forall l, fst (get_variable_psf L l None s) = Raise IOError) /\
  fst (normal_image L s) = Raise IOError /\
  fst (s_hat_comp L s) = Raise IOError /\
  fst (s_component L s) = Raise IOError.
Proof. exact C107_lost_lm. Qed.
Print Assumptions C107_lost.

Example C107_lost_case : Forall only_stars [CBestSources; CStampsPos; CUpdateSources None] /\
  Forall plain_or_clean [CGetPSF None None; CClean; CNormal] /\
  stamps_of _ _ _ demo dshape = Ok (two_stamps dshape, two_positions dshape) /\ two_stamps dshape <> [].
Proof.
  split; [repeat constructor|]. split; [|split; [reflexivity|discriminate]].
  apply Forall_cons; [right; reflexivity|]. apply Forall_cons; [now left|]. apply Forall_cons; [now right|]. constructor.
Qed.

(** The claim that leaving a with block does no harm is false. *)
Theorem C107_harmless_refuted : exists NI FT IM (L : lib NI FT IM) sh s0 cs psf,
  lib_ok L /\ new_image L sh s0 /\ Forall plain cs /\
  fst (get_variable_psf L None None (exec_all L cs s0)) = Ok psf /\
  fst (get_variable_psf L None None (exec_all L (cs ++ [CClean]) s0)) = Raise IOError.
Proof. exact C107_harmless_refuted_lm. Qed.
Print Assumptions C107_harmless_refuted.

(** More than 250 stamps: the PSF known stays; another one cannot be made, and the second
    request for it gets the old one. *)
Theorem C107_large : forall NI FT IM (L : lib NI FT IM) sh s0 cs psf stamps p e l,
  lib_ok L -> new_image L sh s0 -> Forall plain cs -> 0 <= l -> l <> last_loss cs ->
  stamps_of NI FT IM L sh = Ok (stamps, p) -> (250 < length stamps)%nat ->
  KL.eigenv (eigh L) (fst sh + 6, snd sh + 6)%nat stamps = Ok e ->
  psf_for L sh (last_loss cs) = Ok psf ->
  let s := exec_all L (cs ++ [CGetPSF None None; CEigenv; CClean]) s0 in
  get_variable_psf L None None s = (Ok psf, s) /\
  fst (get_variable_psf L (Some l) None s) = Raise IOError /\
  fst (get_variable_psf L (Some l) None (exec L (CGetPSF (Some l) None) s)) = Ok psf.
Proof. exact C107_large_lm. Qed.
Print Assumptions C107_large.

Example C107_large_case : exists psf e,
  lib_ok many /\ new_image many dshape dnew /\
  stamps_of _ _ _ many dshape = Ok (many_stamps dshape, repeat (0, 0) 251) /\ (250 < length (many_stamps dshape))%nat /\
  KL.eigenv (eigh many) (fst dshape + 6, snd dshape + 6)%nat (many_stamps dshape) = Ok e /\
  psf_for many dshape (last_loss []) = Ok psf.
Proof. exact C107_large_case_lm. Qed.

(** The Gaussian class reads the stamps each time. *)
Theorem C107_gauss : forall NI FT IM (L : lib NI FT IM) fitter stats render s n s1 l sh,
  n_sources L s = (Ok n, s1) -> n <> 0%nat ->
  gauss_psf L fitter stats render l sh (exec L CClean s1) = (Raise IOError, exec L CClean s1).
Proof. exact C107_gauss_lm. Qed.
Print Assumptions C107_gauss.

Example C107_gauss_case : exists s1, n_sources three (fresh _ _ _ (1, 1)%nat None) = (Ok 3%nat, s1) /\
  exists r, fst (gauss_psf three (fun _ p => mkgauss (px p 0%nat 0%nat) 1 1 1) (fun l => (mean_of l, 0, 0))
    (fun a _ _ _ => pconst (1, 1)%nat (Some a)) None None s1) = Ok r.
Proof. exact C107_gauss_case_lm. Qed.
