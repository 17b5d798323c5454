(** C112: what an image with more than 250 stars answers. *)
From Coq Require Import ZArith List Bool Arith Reals Lia Lra.
From Verif.Model Require Import Py Plane Sources KL Session.
From Verif.Spec Require Import KL Many Session.
From Verif.Proof Require Import Many Session SessionLm ManySession.
Import ListNotations.
Local Open Scope R_scope.

(** The same of what [get_variable_psf] answers, whatever the image was used for before. *)
Theorem C112_answers : forall NI FT IM (L : lib NI FT IM) sh s0 cs l stamps positions c fields basis k,
  lib_ok L -> new_image L sh s0 -> Forall plain cs -> smooth L = None -> 0 <= l ->
  stamps_of _ _ _ L sh = Ok (stamps, positions) -> (250 < length stamps)%nat ->
  let size := (fst sh + 6, snd sh + 6)%nat in
  KL.cov_matrix size stamps = Ok c ->
  fst (get_variable_psf L (Some l) None (exec_all L cs s0)) = Ok (fields, basis) -> (k < length basis)%nat ->
  let t := blend size stamps (snd (eigh L (length stamps) c)) k in
  let e := nth k basis (pconst (0, 0)%nat None) in
  shape e = size /\
  (total t = 0 -> no_number e) /\
  (total t <> 0 -> forall m, faintest (pmap (fun x => x / total t) t) m ->
     let w := 1 - INR (fst size * snd size) * Rabs m in
     (w = 0 -> no_number e) /\
     (w <> 0 -> forall i j, (i < fst size)%nat -> (j < snd size)%nat ->
        px e i j = Some ((px t i j / total t - Rabs m) / w))).
Proof. exact C112_answers_lm. Qed.
Print Assumptions C112_answers.

Example C112_session : exists c f basis,
  lib_ok crowded /\ new_image crowded (1, 1)%nat (fresh _ _ _ (1, 1)%nat None) /\ smooth crowded = None /\
  stamps_of _ _ _ crowded (1, 1)%nat = Ok (repeat corner 251, repeat (0, 0) 251) /\
  KL.cov_matrix (7, 7)%nat (repeat corner 251) = Ok c /\
  fst (get_variable_psf crowded (Some 1) None (exec_all crowded [CSComponent] (fresh _ _ _ (1, 1)%nat None))) = Ok (f, basis) /\
  length basis = 1%nat /\
  let t := blend (7, 7)%nat (repeat corner 251) (snd (eigh crowded 251 c)) 0 in
  total t <> 0 /\ faintest (pmap (fun x => x / total t) t) 0.
Proof. exact C112_session_lm. Qed.
