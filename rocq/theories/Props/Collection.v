(** C130: one reference and any number of images, in operations that finished or stopped. *)
From Coq Require Import ZArith List Bool Arith Reals Lia Lra Permutation.
From Coquelicot Require Import Complex.
From Verif.Model Require Import Py Plane Ma Coadd.
From Verif.Spec Require Import Coadd.
From Verif.Model Require Import Interp Subtract FindS Sources Stamps Filter Transparency KL Session Chain ChainCoadd Again SubAgain Stopped Collection.
From Verif.Spec Require Import Stamps KL Session Transparency Uses UsesCoadd Again SubAgain Stopped Collection.
From Verif.Proof Require Import Transparency TransparencyMain Nearest TransparencyAgain.
From Verif.Proof Require Import Stamps StampsLoop StampsExample KL Session SessionLm SessionExample Chain ChainStack ChainUnits Uses UsesEx UsesCoadd UsesCoaddMain UsesCoaddEx Again AgainMain AgainEx SubAgain SubAgainMain SubAgainPair SubAgainEx RowSort StoppedMatch StoppedMain StoppedEx Collection CollectionMain CollectionEx.
Import ListNotations.
Local Open Scope R_scope.
Local Open Scope R_scope.

(** Any subtractions and coadds out of the collection, finished or stopped, between two
    subtractions of the same image. *)
Theorem C130_subtract : forall W fuel shp us N before st later st1 k l beta shift iterative,
  (forall n c, length (fst (l_eigh W n c)) = n) -> nearest (l_query W) -> (forall r, Permutation (l_sort W r) r) -> canonical (l_sort W) ->
  (forall k, (k < N)%nat -> in_use W fuel shp (us k)) -> Forall (proper N) (before ++ later) -> 0 <= l -> (0 < k < N)%nat ->
  begun_all W before (untouched us) = Ok st -> begun_all W later st = Ok st1 ->
  clear_all N st -> none_lost W N later st ->
  result (subtract_run W l beta shift iterative (st1 0%nat) (st1 k)) = result (subtract_run W l beta shift iterative (st 0%nat) (st k)).
Proof. exact C130_subtract_lm. Qed.
Print Assumptions C130_subtract.

(** Any subtractions, and coadds of the same images for the same loss, finished or stopped,
    between two coadds. *)
Theorem C130_coadd : forall W fuel shp us N before st later st1 ks f s l n r f' s' n',
  (forall n c, length (fst (l_eigh W n c)) = n) -> nearest (l_query W) -> (forall r, Permutation (l_sort W r) r) -> canonical (l_sort W) ->
  (forall k, (k < N)%nat -> in_use W fuel shp (us k)) -> Forall (proper N) (before ++ later) -> 0 <= l ->
  NoDup ks -> Forall (fun k => 0 < k < N)%nat ks -> (0 < N)%nat ->
  begun_all W before (untouched us) = Ok st -> begun_all W later st = Ok st1 -> Forall (between_coadds ks l) later ->
  clear_all N st -> none_lost W N later st ->
  answer (coadd_run W f s l n (map st (0%nat :: ks))) = Some (Ok r) ->
  answer (coadd_run W f' s' l n' (map st1 (0%nat :: ks))) = answer (coadd_run W f' s' l n' (map st (0%nat :: ks))).
Proof. exact C130_coadd_lm. Qed.
Print Assumptions C130_coadd.

Theorem C130_few : forall W fuel shp us N before st later,
  (forall n c, length (fst (l_eigh W n c)) = n) -> (forall r, Permutation (l_sort W r) r) ->
  (forall k, (k < N)%nat -> in_use W fuel shp (us k)) -> Forall (proper N) (before ++ later) ->
  begun_all W before (untouched us) = Ok st ->
  (forall k c, (k < N)%nat -> catalogue_of (st k) = Ok c -> (stars c < 15)%nat) ->
  none_lost W N later st.
Proof. exact C130_few_lm. Qed.
Print Assumptions C130_few.

(** A subtraction that finishes is one whose last step came for both images. *)
Theorem C130_subtract_done : forall W l beta shift iterative st k r p1,
  k <> 0%nat -> subtract_run W l beta shift iterative (st 0%nat) (st k) = Ok (r, p1) ->
  exists st1, begun W (mkattempt (Sub l beta shift iterative) 7 [(k, 7%nat)]) st = Ok st1 /\
    st1 0%nat = fst p1 /\ st1 k = snd p1 /\ forall i, i <> 0%nat -> i <> k -> st1 i = st i.
Proof. exact C130_subtract_done_lm. Qed.
Print Assumptions C130_subtract_done.

(** A coadd that finishes is one whose last step came for all its images: what it leaves. *)
Theorem C130_coadd_done : forall W f s l n st ks r hs1,
  NoDup ks -> ~ In 0%nat ks -> coadd_run W f s l n (map st (0%nat :: ks)) = Some (Ok (r, hs1)) ->
  exists st1, begun W (mkattempt (Add f s l n) 7 (map (fun k => (k, 7%nat)) ks)) st = Ok st1 /\
    map st1 (0%nat :: ks) = hs1 /\ forall i, ~ In i (0%nat :: ks) -> st1 i = st i.
Proof. exact C130_coadd_done_lm. Qed.
Print Assumptions C130_coadd_done.

(** An operation that can finish can stop after any of its steps, in each image. *)
Theorem C130_anywhere : forall W op ks st st1 i js,
  NoDup ks -> ~ In 0%nat ks -> begun W (mkattempt op 7 (map (fun k => (k, 7%nat)) ks)) st = Ok st1 -> map fst js = ks ->
  exists st2, begun W (mkattempt op i js) st = Ok st2.
Proof. exact C130_anywhere_lm. Qed.
Print Assumptions C130_anywhere.

Example C130_case : exists r st1,
  (forall k, (k < 3)%nat -> in_use sorting 1 (20, 20)%nat (three k)) /\ Forall (proper 3) [sub_stopped; add_stopped] /\
  nearest (l_query sorting) /\ (forall r, Permutation (l_sort sorting r) r) /\ canonical (l_sort sorting) /\
  (forall n c, length (fst (l_eigh sorting n c)) = n) /\
  begun_all sorting [sub_stopped; add_stopped] (untouched three) = Ok st1 /\
  clear_all 3 (untouched three) /\ none_lost sorting 3 [sub_stopped; add_stopped] (untouched three) /\
  result (subtract_run sorting (2 / 10) false false false (untouched three 0%nat) (untouched three 1%nat)) = Ok r /\
  result (subtract_run sorting (2 / 10) false false false (st1 0%nat) (st1 1%nat)) = Ok r.
Proof. exact C130_case_lm. Qed.

Example C130_coadd_case : exists r st1,
  (forall k, (k < 3)%nat -> in_use sorting 1 (20, 20)%nat (three' k)) /\ Forall (proper 3) [pair_stopped; third_stopped] /\
  Forall (between_coadds [1%nat] (2 / 10)) [pair_stopped; third_stopped] /\
  begun_all sorting [pair_stopped; third_stopped] (untouched three') = Ok st1 /\
  clear_all 3 (untouched three') /\ none_lost sorting 3 [pair_stopped; third_stopped] (untouched three') /\
  answer (coadd_run sorting 0 [] (2 / 10) 1 (map (untouched three') [0; 1]%nat)) = Some (Ok r) /\
  answer (coadd_run sorting 0 [] (2 / 10) 1 (map st1 [0; 1]%nat)) = Some (Ok r).
Proof. exact C130_coadd_case_lm. Qed.
