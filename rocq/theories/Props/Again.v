(** C119: repeating an operation on the same images gives the same result. *)
From Coq Require Import ZArith List Bool Arith Reals Lia Lra Permutation.
From Coquelicot Require Import Complex.
From Verif.Model Require Import Py Plane Ma Coadd.
From Verif.Spec Require Import Coadd.
From Verif.Model Require Import Interp Subtract Sources Stamps Filter Transparency KL Session Chain ChainCoadd Again.
From Verif.Spec Require Import Session Transparency Uses UsesCoadd Again.
From Verif.Proof Require Import Session SessionLm Nearest TransparencyAgain UsesEx UsesCoaddMain UsesCoaddEx AgainMain AgainKept AgainEx.
Import ListNotations.
Local Open Scope R_scope.

(** Zero points depend on where the sources are and how bright they are, not on the order of the
    other catalogues, on the identifiers and flags that earlier calls left, or on how the search
    visits the points. *)
Theorem C119_zero_points : forall query query' sort_cat sort_cat' lsqr a a' bs bs' t t',
  nearest query -> nearest query' -> (forall l, Permutation (sort_cat l) l) -> (forall l, Permutation (sort_cat' l) l) ->
  good_ids a -> good_ids a' -> map place (rows a') = map place (rows a) ->
  Forall2 same_sources bs bs' -> Forall (clear_match a) bs ->
  transparency query sort_cat lsqr (a :: bs) None = Ok t -> transparency query' sort_cat' lsqr (a' :: bs') None = Ok t' ->
  zps t' = zps t /\ meanmags t' = meanmags t.
Proof. exact C119_zero_points_lm. Qed.
Print Assumptions C119_zero_points.

(** Calling transparency again on the same images, once or many times, gives the same zero
    points. *)
Theorem C119_again : forall query sort_cat lsqr a bs t k images,
  nearest query -> (forall l, Permutation (sort_cat l) l) ->
  good_ids a -> Forall (clear_match a) bs ->
  transparency query sort_cat lsqr (a :: bs) None = Ok t ->
  after_runs (fun l => transparency query sort_cat lsqr l None) k (a :: bs) = Ok images ->
  exists t', transparency query sort_cat lsqr images None = Ok t' /\ zps t' = zps t /\ meanmags t' = meanmags t.
Proof. exact C119_again_lm. Qed.
Print Assumptions C119_again.

Example C119_zero_points_case : exists a b t,
  nearest nn_query /\ good_ids a /\ clear_match a b /\ same_sources b (mkcat false false (rev (rows b))) /\
  transparency nn_query (fun l => l) (fun _ n _ _ => repeat 1 n) [a; b] None = Ok t.
Proof. exact C119_zero_points_case_lm. Qed.

(** Images that were in no coadd yet. *)
Theorem C119_first : forall W f s l n xs,
  answer (coadd_run W f s l n (map (fun x => mkheld x None) xs)) = coadd_built W f s l n xs.
Proof. exact C119_first_lm. Qed.
Print Assumptions C119_first.

(** Coadding the images again, when no star was rejected. *)
Theorem C119_coadd : forall W fuel shp us jobs hs f s l n r hs1 cs cs1 f' s' n',
  (forall n c, length (fst (l_eigh W n c)) = n) -> nearest (l_query W) -> (forall r, Permutation (l_sort W r) r) ->
  Forall (in_use W fuel shp) us -> Forall (fun j => 0 <= snd (fst j)) jobs -> 0 <= l ->
  coadds W jobs (map (fun u => mkheld (after (snd u) (fst u)) None) us) = Some (Ok hs) ->
  coadd_run W f s l n hs = Some (Ok (r, hs1)) ->
  mapM catalogue_of hs = Ok cs -> mapM catalogue_of hs1 = Ok cs1 ->
  clear_first cs -> map stars cs1 = map stars cs ->
  answer (coadd_run W f' s' l n' hs1) = answer (coadd_run W f' s' l n' hs).
Proof. exact C119_coadd_lm. Qed.
Print Assumptions C119_coadd.

(** After a coadd the catalogue that transparency reads holds the stars of best_sources, which
    are stars that it held before. *)
Theorem C119_catalogue : forall W fuel shp us jobs hs f s l n r hs1 cs,
  (forall n c, length (fst (l_eigh W n c)) = n) -> (forall r, Permutation (l_sort W r) r) ->
  Forall (in_use W fuel shp) us -> Forall (fun j => 0 <= snd (fst j)) jobs -> 0 <= l ->
  coadds W jobs (map (fun u => mkheld (after (snd u) (fst u)) None) us) = Some (Ok hs) ->
  coadd_run W f s l n hs = Some (Ok (r, hs1)) ->
  mapM catalogue_of hs = Ok cs ->
  Forall2 (fun c h => exists c1 b, catalogue_of h = Ok c1 /\ fst (best_sources (bu_lib (h_img h)) (bu_attr (h_img h))) = Ok b /\
    map place (rows c1) = map (fun s => (s_x s, s_y s, s_flux s)) b /\ incl (map place (rows c1)) (map place (rows c))) cs hs1.
Proof. exact C119_catalogue_lm. Qed.
Print Assumptions C119_catalogue.

(** Stars are rejected by the first coadd only, and not when there are less than 15. *)
Theorem C119_rejected : forall W fuel shp us jobs hs f s l n r hs1 cs cs1,
  (forall n c, length (fst (l_eigh W n c)) = n) -> (forall r, Permutation (l_sort W r) r) ->
  Forall (in_use W fuel shp) us -> Forall (fun j => 0 <= snd (fst j)) jobs -> 0 <= l ->
  coadds W jobs (map (fun u => mkheld (after (snd u) (fst u)) None) us) = Some (Ok hs) ->
  coadd_run W f s l n hs = Some (Ok (r, hs1)) ->
  mapM catalogue_of hs = Ok cs -> mapM catalogue_of hs1 = Ok cs1 ->
  jobs <> [] \/ Forall (fun c => (stars c < 15)%nat) cs ->
  Forall2 same_sources cs cs1.
Proof. exact C119_rejected_lm. Qed.
Print Assumptions C119_rejected.

(** Coadding again and again. *)
Theorem C119_coadds : forall W fuel shp us jobs hs cs l again hs1 f s n,
  (forall n c, length (fst (l_eigh W n c)) = n) -> nearest (l_query W) -> (forall r, Permutation (l_sort W r) r) ->
  Forall (in_use W fuel shp) us -> Forall (fun j => 0 <= snd (fst j)) jobs -> 0 <= l ->
  coadds W jobs (map (fun u => mkheld (after (snd u) (fst u)) None) us) = Some (Ok hs) ->
  mapM catalogue_of hs = Ok cs -> clear_first cs ->
  jobs <> [] \/ Forall (fun c => (stars c < 15)%nat) cs ->
  Forall (fun j => snd (fst j) = l) again ->
  coadds W again hs = Some (Ok hs1) ->
  answer (coadd_run W f s l n hs1) = answer (coadd_run W f s l n hs).
Proof. exact C119_coadds_lm. Qed.
Print Assumptions C119_coadds.

Example C119_coadds_case : exists r hs1 cs r' hs2,
  Forall (in_use seeing 1 (20, 20)%nat) both /\ nearest (l_query seeing) /\ (forall r, Permutation (l_sort seeing r) r) /\
  (forall n c, length (fst (l_eigh seeing n c)) = n) /\
  mapM catalogue_of (first_of both) = Ok cs /\ clear_first cs /\ Forall (fun c => (stars c < 15)%nat) cs /\
  coadd_run seeing 0 [] (2 / 10) 1 (first_of both) = Some (Ok (r, hs1)) /\
  coadd_run seeing 0 [] (2 / 10) 1 hs1 = Some (Ok (r', hs2)) /\ r' = r.
Proof. exact C119_coadds_case_lm. Qed.
