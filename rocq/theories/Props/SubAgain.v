(** C123: subtracting and coadding the same two images again. *)
From Coq Require Import ZArith List Bool Arith Reals Lia Lra Permutation.
From Coquelicot Require Import Complex.
From Verif.Model Require Import Py Plane Ma Coadd.
From Verif.Spec Require Import Coadd.
From Verif.Model Require Import Interp Subtract FindS Sources Stamps Filter Transparency KL Session Chain ChainCoadd Again SubAgain.
From Verif.Spec Require Import Stamps KL Session Transparency Uses UsesCoadd Again SubAgain.
From Verif.Proof Require Import Transparency TransparencyMain Nearest TransparencyAgain.
From Verif.Proof Require Import Stamps StampsLoop StampsExample KL Session SessionLm SessionExample Chain ChainStack ChainUnits Uses UsesEx UsesCoadd UsesCoaddMain UsesCoaddEx Again AgainMain AgainEx SubAgain SubAgainMain SubAgainPair SubAgainEx.
Import ListNotations.
Local Open Scope R_scope.

(** A task between two subtractions. *)
Theorem C123_subtract : forall W fuel shp u v ks p k p1 a b a1 b1 l beta shift iterative,
  (forall n c, length (fst (l_eigh W n c)) = n) -> nearest (l_query W) -> (forall r, Permutation (l_sort W r) r) ->
  in_use W fuel shp u -> in_use W fuel shp v -> Forall (fun k => 0 <= loss_asked k) ks -> 0 <= loss_asked k -> 0 <= l ->
  tasks W ks (start_with u v) = Some (Ok p) -> do_task W k p = Some (Ok p1) ->
  catalogues p = Ok (a, b) -> catalogues p1 = Ok (a1, b1) ->
  clear_match a b -> stars a1 = stars a -> stars b1 = stars b ->
  result (subtract_run W l beta shift iterative (fst p1) (snd p1)) = result (subtract_run W l beta shift iterative (fst p) (snd p)).
Proof. exact C123_subtract_lm. Qed.
Print Assumptions C123_subtract.

(** Stars are rejected by the first task only, and not when there are less than 15. *)
Theorem C123_rejected : forall W fuel shp u v ks p k p1 a b a1 b1,
  (forall n c, length (fst (l_eigh W n c)) = n) -> (forall r, Permutation (l_sort W r) r) ->
  in_use W fuel shp u -> in_use W fuel shp v -> Forall (fun k => 0 <= loss_asked k) ks -> 0 <= loss_asked k ->
  tasks W ks (start_with u v) = Some (Ok p) -> do_task W k p = Some (Ok p1) ->
  catalogues p = Ok (a, b) -> catalogues p1 = Ok (a1, b1) ->
  ks <> [] \/ (stars a < 15 /\ stars b < 15)%nat ->
  map place (rows a1) = map place (rows a) /\ same_sources b b1.
Proof. exact C123_rejected_lm. Qed.
Print Assumptions C123_rejected.

(** Any tasks between two subtractions. *)
Theorem C123_subtracts : forall W fuel shp u v ks p a b again p1 l beta shift iterative,
  (forall n c, length (fst (l_eigh W n c)) = n) -> nearest (l_query W) -> (forall r, Permutation (l_sort W r) r) ->
  in_use W fuel shp u -> in_use W fuel shp v -> Forall (fun k => 0 <= loss_asked k) (ks ++ again) -> 0 <= l ->
  tasks W ks (start_with u v) = Some (Ok p) -> catalogues p = Ok (a, b) -> clear_match a b ->
  ks <> [] \/ (stars a < 15 /\ stars b < 15)%nat ->
  tasks W again p = Some (Ok p1) ->
  result (subtract_run W l beta shift iterative (fst p1) (snd p1)) = result (subtract_run W l beta shift iterative (fst p) (snd p)).
Proof. exact C123_subtracts_lm. Qed.
Print Assumptions C123_subtracts.

(** Images that were in no operation yet. *)
Theorem C123_first : forall W l beta shift iterative x y, (forall r, Permutation (l_sort W r) r) ->
  result (subtract_run W l beta shift iterative (mkheld x None) (mkheld y None)) = subtract_built W l beta shift iterative x y.
Proof. exact C123_first_lm. Qed.
Print Assumptions C123_first.

(** A task between two coadds. *)
Theorem C123_coadd : forall W fuel shp u v ks p k p1 a b a1 b1 f s l n p2 f' s' n',
  (forall n c, length (fst (l_eigh W n c)) = n) -> nearest (l_query W) -> (forall r, Permutation (l_sort W r) r) ->
  in_use W fuel shp u -> in_use W fuel shp v -> Forall (fun k => 0 <= loss_asked k) ks -> 0 <= loss_asked k -> 0 <= l ->
  tasks W ks (start_with u v) = Some (Ok p) -> do_task W (Add f s l n) p = Some (Ok p2) ->
  do_task W k p = Some (Ok p1) -> is_sub k \/ loss_asked k = l ->
  catalogues p = Ok (a, b) -> catalogues p1 = Ok (a1, b1) ->
  clear_match a b -> stars a1 = stars a -> stars b1 = stars b ->
  answer (coadd_run W f' s' l n' [fst p1; snd p1]) = answer (coadd_run W f' s' l n' [fst p; snd p]).
Proof. exact C123_coadd_lm. Qed.
Print Assumptions C123_coadd.

(** Any subtractions, and coadds for the same loss, between two coadds. *)
Theorem C123_coadds : forall W fuel shp u v ks p a b again p1 f s l n p2 f' s' n',
  (forall n c, length (fst (l_eigh W n c)) = n) -> nearest (l_query W) -> (forall r, Permutation (l_sort W r) r) ->
  in_use W fuel shp u -> in_use W fuel shp v -> Forall (fun k => 0 <= loss_asked k) (ks ++ again) -> 0 <= l ->
  tasks W ks (start_with u v) = Some (Ok p) -> catalogues p = Ok (a, b) -> clear_match a b ->
  ks <> [] \/ (stars a < 15 /\ stars b < 15)%nat ->
  do_task W (Add f s l n) p = Some (Ok p2) ->
  tasks W again p = Some (Ok p1) -> Forall (fun k => is_sub k \/ loss_asked k = l) again ->
  answer (coadd_run W f' s' l n' [fst p1; snd p1]) = answer (coadd_run W f' s' l n' [fst p; snd p]).
Proof. exact C123_coadds_lm. Qed.
Print Assumptions C123_coadds.

(** What a subtraction leaves in the two images. *)
Theorem C123_left : forall W fuel shp u v ks p l beta shift iterative r p1 a b t,
  (forall n c, length (fst (l_eigh W n c)) = n) -> (forall r, Permutation (l_sort W r) r) ->
  in_use W fuel shp u -> in_use W fuel shp v -> Forall (fun k => 0 <= loss_asked k) ks -> 0 <= l ->
  tasks W ks (start_with u v) = Some (Ok p) -> catalogues p = Ok (a, b) ->
  transparency (l_query W) (l_sort W) (l_lsqr W) [a; b] None = Ok t ->
  subtract_run W l beta shift iterative (fst p) (snd p) = Ok (r, p1) ->
  let x := h_img (fst p1) in let y := h_img (snd p1) in
  (zp (bu_attr x) = Some (nth 0 (zps t) 0) /\ zp (bu_attr y) = Some (nth 1 (zps t) 0)) /\
  (inf_loss (bu_attr x) = l /\ inf_loss (bu_attr y) = l) /\
  (bu_data x = bu_data (fst u) /\ bu_back x = bu_back (fst u) /\ bu_clean x = bu_clean (fst u)) /\
  (bu_data y = bu_data (fst v) /\ bu_back y = bu_back (fst v) /\ bu_clean y = bu_clean (fst v)).
Proof. exact C123_left_lm. Qed.
Print Assumptions C123_left.

Example C123_tasks_case : exists a b r p1 p2,
  in_use seeing 1 (20, 20)%nat looked_only /\ in_use seeing 1 (20, 20)%nat asked_psf /\
  nearest (l_query seeing) /\ (forall r, Permutation (l_sort seeing r) r) /\ (forall n c, length (fst (l_eigh seeing n c)) = n) /\
  catalogues stripes_pair = Ok (a, b) /\ clear_match a b /\ (stars a < 15 /\ stars b < 15)%nat /\
  subtract_run seeing (2 / 10) false false false (fst stripes_pair) (snd stripes_pair) = Ok (r, p1) /\
  tasks seeing [Sub (2 / 10) false false false; Add 0 [] (2 / 10) 1] stripes_pair = Some (Ok p2) /\
  result (subtract_run seeing (2 / 10) false false false (fst p2) (snd p2)) = Ok r.
Proof. exact C123_tasks_case_lm. Qed.
