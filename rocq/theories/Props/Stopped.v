(** C128: operations on two images that stopped before their end. *)
From Coq Require Import ZArith List Bool Arith Reals Lia Lra Permutation.
From Coquelicot Require Import Complex.
From Verif.Model Require Import Py Plane Ma Coadd.
From Verif.Spec Require Import Coadd.
From Verif.Model Require Import Interp Subtract FindS Sources Stamps Filter Transparency KL Session Chain ChainCoadd Again SubAgain Stopped.
From Verif.Spec Require Import Stamps KL Session Transparency Uses UsesCoadd Again SubAgain Stopped.
From Verif.Proof Require Import Transparency TransparencyMain Nearest TransparencyAgain.
From Verif.Proof Require Import Stamps StampsLoop StampsExample KL Session SessionLm SessionExample Chain ChainStack ChainUnits Uses UsesEx UsesCoadd UsesCoaddMain UsesCoaddEx Again AgainMain AgainEx SubAgain SubAgainMain SubAgainPair SubAgainEx RowSort StoppedMatch StoppedMain StoppedEx.
Import ListNotations.
Local Open Scope R_scope.

(** Some of the images keep what an earlier run left, some what they had: the zero points and the
    catalogues are the same again. *)
Theorem C128_matching : forall query sort_cat lsqr a bs t a' bs',
  nearest query -> (forall l, Permutation (sort_cat l) l) -> canonical sort_cat ->
  good_ids a -> Forall (clear_match a) bs ->
  transparency query sort_cat lsqr (a :: bs) None = Ok t ->
  a' = a \/ a' = mcat t ->
  length bs' = length bs -> (forall k b c b', nth_error bs k = Some b -> nth_error (cats t) k = Some c -> nth_error bs' k = Some b' -> b' = b \/ b' = c) ->
  exists t', transparency query sort_cat lsqr (a' :: bs') None = Ok t' /\ zps t' = zps t /\ meanmags t' = meanmags t /\
    cats t' = cats t /\ map place (rows (mcat t')) = map place (rows a).
Proof. exact C128_matching_lm. Qed.
Print Assumptions C128_matching.

(** A subtraction of images that were in operations which finished or stopped, after one more
    that stopped. *)
Theorem C128_subtract : forall W fuel shp u v ks p k i j p1 a b a1 b1 l beta shift iterative,
  (forall n c, length (fst (l_eigh W n c)) = n) -> nearest (l_query W) -> (forall r, Permutation (l_sort W r) r) -> canonical (l_sort W) ->
  in_use W fuel shp u -> in_use W fuel shp v -> Forall (fun a => 0 <= loss_asked (op_of a)) ks -> 0 <= loss_asked k -> 0 <= l ->
  attempts W ks (start_with u v) = Ok p -> stopped W k i j p = Ok p1 ->
  catalogues p = Ok (a, b) -> catalogues p1 = Ok (a1, b1) ->
  clear_match a b -> stars a1 = stars a -> stars b1 = stars b ->
  result (subtract_run W l beta shift iterative (fst p1) (snd p1)) = result (subtract_run W l beta shift iterative (fst p) (snd p)).
Proof. exact C128_subtract_lm. Qed.
Print Assumptions C128_subtract.

(** Any operations that finished or stopped, between two subtractions. *)
Theorem C128_attempts : forall W fuel shp u v ks p a b again p1 l beta shift iterative,
  (forall n c, length (fst (l_eigh W n c)) = n) -> nearest (l_query W) -> (forall r, Permutation (l_sort W r) r) -> canonical (l_sort W) ->
  in_use W fuel shp u -> in_use W fuel shp v -> Forall (fun a => 0 <= loss_asked (op_of a)) (ks ++ again) -> 0 <= l ->
  attempts W ks (start_with u v) = Ok p -> catalogues p = Ok (a, b) -> clear_match a b -> (stars a < 15 /\ stars b < 15)%nat ->
  attempts W again p = Ok p1 ->
  result (subtract_run W l beta shift iterative (fst p1) (snd p1)) = result (subtract_run W l beta shift iterative (fst p) (snd p)).
Proof. exact C128_attempts_lm. Qed.
Print Assumptions C128_attempts.

(** A coadd of images that were in operations which finished or stopped, after one more that
    stopped: a subtraction, or a coadd for the same loss. *)
Theorem C128_coadd : forall W fuel shp u v ks p k i j p1 a b a1 b1 f s l n r f' s' n',
  (forall n c, length (fst (l_eigh W n c)) = n) -> nearest (l_query W) -> (forall r, Permutation (l_sort W r) r) -> canonical (l_sort W) ->
  in_use W fuel shp u -> in_use W fuel shp v -> Forall (fun a => 0 <= loss_asked (op_of a)) ks -> 0 <= loss_asked k -> 0 <= l ->
  attempts W ks (start_with u v) = Ok p -> stopped W k i j p = Ok p1 -> is_sub k \/ loss_asked k = l ->
  answer (coadd_run W f s l n [fst p; snd p]) = Some (Ok r) ->
  catalogues p = Ok (a, b) -> catalogues p1 = Ok (a1, b1) ->
  clear_match a b -> stars a1 = stars a -> stars b1 = stars b ->
  answer (coadd_run W f' s' l n' [fst p1; snd p1]) = answer (coadd_run W f' s' l n' [fst p; snd p]).
Proof. exact C128_coadd_lm. Qed.
Print Assumptions C128_coadd.

(** Any subtractions, and coadds for the same loss, that finished or stopped, between two
    coadds. *)
Theorem C128_coadds : forall W fuel shp u v ks p a b again p1 f s l n r f' s' n',
  (forall n c, length (fst (l_eigh W n c)) = n) -> nearest (l_query W) -> (forall r, Permutation (l_sort W r) r) -> canonical (l_sort W) ->
  in_use W fuel shp u -> in_use W fuel shp v -> Forall (fun a => 0 <= loss_asked (op_of a)) (ks ++ again) -> 0 <= l ->
  attempts W ks (start_with u v) = Ok p -> catalogues p = Ok (a, b) -> clear_match a b -> (stars a < 15 /\ stars b < 15)%nat ->
  answer (coadd_run W f s l n [fst p; snd p]) = Some (Ok r) ->
  attempts W again p = Ok p1 -> Forall (fun a => is_sub (op_of a) \/ loss_asked (op_of a) = l) again ->
  answer (coadd_run W f' s' l n' [fst p1; snd p1]) = answer (coadd_run W f' s' l n' [fst p; snd p]).
Proof. exact C128_coadds_lm. Qed.
Print Assumptions C128_coadds.

(** An operation that finished is one that came to its last step. *)
Theorem C128_finished : forall W k p p1, do_task W k p = Some (Ok p1) -> stopped W k 7 7 p = Ok p1.
Proof. exact C128_finished_lm. Qed.
Print Assumptions C128_finished.

(** An operation that finishes can stop at any step. *)
Theorem C128_anywhere : forall W k p p1 i j, do_task W k p = Some (Ok p1) -> exists p2, stopped W k i j p = Ok p2.
Proof. exact C128_anywhere_lm. Qed.
Print Assumptions C128_anywhere.

Example C128_stopped_case : exists a b r p1 p2,
  in_use sorting 1 (20, 20)%nat looked_only /\ in_use sorting 1 (20, 20)%nat asked_psf /\
  nearest (l_query sorting) /\ (forall r, Permutation (l_sort sorting r) r) /\ canonical (l_sort sorting) /\
  (forall n c, length (fst (l_eigh sorting n c)) = n) /\
  catalogues stripes_pair = Ok (a, b) /\ clear_match a b /\ (stars a < 15 /\ stars b < 15)%nat /\
  subtract_run sorting (2 / 10) false false false (fst stripes_pair) (snd stripes_pair) = Ok (r, p1) /\
  attempts sorting [(Sub (2 / 10) false false false, 4%nat, 3%nat)] stripes_pair = Ok p2 /\
  result (subtract_run sorting (2 / 10) false false false (fst p2) (snd p2)) = Ok r.
Proof. exact C128_stopped_case_lm. Qed.

Example C128_coadd_case : exists a b r p2,
  in_use sorting 1 (20, 20)%nat (sbuilt, []) /\ in_use sorting 1 (20, 20)%nat looked_only /\
  nearest (l_query sorting) /\ (forall r, Permutation (l_sort sorting r) r) /\ canonical (l_sort sorting) /\
  (forall n c, length (fst (l_eigh sorting n c)) = n) /\
  catalogues fresh_pair = Ok (a, b) /\ clear_match a b /\ (stars a < 15 /\ stars b < 15)%nat /\
  answer (coadd_run sorting 0 [] (2 / 10) 1 [fst fresh_pair; snd fresh_pair]) = Some (Ok r) /\
  attempts sorting [(Add 0 [] (2 / 10) 1, 6%nat, 2%nat)] fresh_pair = Ok p2 /\
  answer (coadd_run sorting 0 [] (2 / 10) 1 [fst p2; snd p2]) = Some (Ok r).
Proof. exact C128_coadd_case_lm. Qed.
