(** C134: the transform of the interpolated image is that of its first reading. *)
From Coq Require Import ZArith List Bool Arith Reals.
From Coquelicot Require Import Complex.
From Verif.Model Require Import Py Plane Sources FindS Stamps Interp Cut Hat.
From Verif.Spec Require Import Stamps Cut Hat.
From Verif.Proof Require Import StampsExample CutEx HatMain HatNan.
Import ListNotations.
Local Open Scope R_scope.

(** The interpolated image is what all extractions left; its transform is that of the image at
    the time interped_hat was first read. *)
Theorem C134_first_read : forall stats label image cs,
  let s := steps_exec stats label cs (mkspectrum (intact image) None) in
  sp_interped s = left_after stats label cs (intact image) /\
  fst (interped_hat s) = transform (left_after stats label (until_asked cs) (intact image)).
Proof. exact C134_first_read_lm. Qed.
Print Assumptions C134_first_read.

(** Once read, interped_hat is the transform of interped exactly as long as the extractions
    that followed changed no pixel (for images without nan). *)
Theorem C134_stale : forall stats label image before after,
  (0 < nr image)%nat -> (0 < nc image)%nat ->
  (forall c, In c before -> c <> AskHat) ->
  (forall pk rms sh sources, In (Extract pk rms sh sources) (before ++ after) -> (0 < fst sh)%nat /\ (0 < snd sh)%nat) ->
  let s := steps_exec stats label (before ++ AskHat :: after) (mkspectrum (intact image) None) in
  let old := left_after stats label before (intact image) in
  no_nan old -> no_nan (sp_interped s) ->
  (plane_eq (fst (interped_hat s)) (transform (sp_interped s)) <-> plane_eq (sp_interped s) old).
Proof. exact C134_stale_lm. Qed.
Print Assumptions C134_stale.

(** One nan at the time of the first reading and every cell of interped_hat is nan from then
    on; without one no cell ever is. *)
Theorem C134_nan : forall stats label image cs,
  let s := steps_exec stats label cs (mkspectrum (intact image) None) in
  let seen := left_after stats label (until_asked cs) (intact image) in
  shape (fst (interped_hat s)) = shape seen /\
  (no_nan seen -> forall u v, px (fst (interped_hat s)) u v <> None) /\
  (forall i j, (i < nr seen)%nat -> (j < nc seen)%nat -> px seen i j = None ->
     forall u v, px (fst (interped_hat s)) u v = None).
Proof. exact C134_nan_lm. Qed.
Print Assumptions C134_nan.

(** After an extraction from an image that is the same everywhere; before it. *)
Example C134_nan_case : forall stats label,
  let cut := Extract (mkpicks false None) 1 (1, 1)%nat [mid] in
  let seen := left_after stats label (until_asked [cut; AskHat]) (intact even_sky) in
  (10 < nr seen)%nat /\ (10 < nc seen)%nat /\ px seen 10 10 = None /\
  no_nan (left_after stats label (until_asked [AskHat; cut]) (intact even_sky)).
Proof. exact hat_even. Qed.

(** Reading interped_hat before the stamps are extracted changes what it is afterwards. *)
Theorem C134_no_matter_when_refuted : ~ (forall stats label image pk rms sh sources,
  let cut := Extract pk rms sh sources in
  plane_eq (fst (interped_hat (steps_exec stats label [AskHat; cut] (mkspectrum (intact image) None))))
           (fst (interped_hat (steps_exec stats label [cut] (mkspectrum (intact image) None))))).
Proof. exact C134_no_matter_when_refuted_lm. Qed.
Print Assumptions C134_no_matter_when_refuted.

(** One extraction, after interped_hat was read, from an image with even rows 2 and odd rows 1:
    no cell is nan and some changed. *)
Example C134_case : forall stats label,
  let cut := Extract (mkpicks false None) 1 (1, 1)%nat [mid] in
  let s := steps_exec stats label ([] ++ [AskHat; cut]) (mkspectrum (intact raised) None) in
  no_nan (left_after stats label [] (intact raised)) /\ no_nan (sp_interped s) /\
  px (sp_interped s) 10 10 = Some 1 /\ px (intact raised) 10 10 = Some 2.
Proof. exact hat_raised. Qed.
