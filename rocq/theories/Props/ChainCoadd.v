(** C117: what a coadd does not depend on. C118: what it is made of. *)
From Coq Require Import ZArith List Bool Arith Reals Lia Lra Permutation.
From Coquelicot Require Import Complex.
From Verif.Model Require Import Py Plane Ma Coadd.
From Verif.Spec Require Import Coadd.
From Verif.Model Require Import Image Interp Subtract Sources Stamps Filter Transparency KL Session Chain ChainCoadd.
From Verif.Spec Require Import Image Session Chain Transparency Uses UsesCoadd ChainCoadd.
From Verif.Proof Require Import Session SessionLm ChainExample ChainCoadd ChainCoaddEx UsesEx UsesCoaddMain UsesCoaddEx.
Import ListNotations.
Local Open Scope R_scope.

(** The coadd of images that differ under their masks is the same, or raises the same
    exception, or does not end: for any choices and histories of the images, any number of
    processes and any order in which they run. *)
Theorem C117_masked : forall W fuel fuel' sched loss n_procs l l',
  sep_skips_masked W -> Forall2 (used_alike alike) l l' ->
  coadd_pixels W fuel fuel' sched loss n_procs (loaded l') = coadd_pixels W fuel fuel' sched loss n_procs (loaded l).
Proof. exact C117_masked_lm. Qed.
Print Assumptions C117_masked.

(** Nor does it depend on the levels of the skies. *)
Theorem C117_sky : forall W fuel fuel' sched loss n_procs l l',
  sep_skips_masked W -> sep_follows_sky W -> Forall2 (used_alike (fun im im' => exists c, raised_by c im im')) l l' ->
  coadd_pixels W fuel fuel' sched loss n_procs (loaded l') = coadd_pixels W fuel fuel' sched loss n_procs (loaded l).
Proof. exact C117_sky_lm. Qed.
Print Assumptions C117_sky.

Example C117_case : sep_skips_masked small /\ sep_follows_sky small /\
  Forall2 (used_alike alike) (pair_of plainim plainim) (pair_of other plainim) /\
  Forall2 (used_alike (fun im im' => exists c, raised_by c im im')) (pair_of plainim plainim) (pair_of higher higher) /\
  px (pixels plainim) 0 1 <> px (pixels other) 0 1 /\
  exists x y, build_all small 1 (loaded (pair_of plainim plainim)) = Some (Ok [x; y]) /\
    exists s s', fst (best_sources (bu_lib x) (bu_attr x)) = Ok [s; s'].
Proof. exact C117_case_lm. Qed.

(** What a coadd uses. *)
Theorem C118_coadd : forall W fuel fuel' sched loss n sh us Rr P m,
  (forall n c, length (fst (l_eigh W n c)) = n) -> (forall r, Permutation (l_sort W r) r) -> 0 <= loss ->
  Forall (in_use W fuel sh) us -> run_limits fuel' (seq 0 (length us)) n ->
  coadd_built W fuel' sched loss n (map (fun u => after (snd u) (fst u)) us) = Some (Ok (Rr, P, m)) ->
  exists cs t parts S Q ps raw,
    Forall2 (fun u c => fst (best_sources (bu_lib (fst u)) (bu_attr (after (snd u) (fst u)))) = Ok c) us cs /\
    transparency (l_query W) (l_sort W) (l_lsqr W) (map (fun c => mkcat false false (map row_of c)) cs) None = Ok t /\
    length parts = length us /\
    (forall k u c p, nth_error us k = Some u -> nth_error cs k = Some c -> nth_error parts k = Some p ->
       exists left z, Permutation (map spot left) (map spot c) /\ (k = 0%nat -> map spot left = map spot c) /\
         nth_error (zps t) k = Some z /\ pt_weight p = (z / var (bu_back (fst u)))%R /\
         adds W loss (fst u) (snd u) left z (pt_filtered p) (pt_squared p)) /\
    shape S = sh /\ shape Q = sh /\
    (forall i j, (i < fst sh)%nat -> (j < snd sh)%nat ->
      px S i j = total (fun p => px (pt_filtered p) i j) parts /\
      px Q i j = total (fun p => (RtoC (pt_weight p ^ 2)%R * px (pt_squared p) i j)%C) parts) /\
    (exists u, In u us /\ ps = (fst (stamp_shape (bu_attr (fst u))) + 6)%nat) /\
    (forall u, In u us -> (fst (stamp_shape (bu_attr (fst u))) + 6 <= ps)%nat) /\
    plane_eq Rr (ifft2 (pmap2 Cdiv S (pmap csqrt Q))) /\
    plane_eq raw (ifft2 (fourier_shift (pmap csqrt Q) (INR ps) (INR ps))) /\
    plane_eq P (pmap (fun z => (z / psum raw)%C) raw) /\
    is_union (fun u => Full (m_msk (bu_data (fst u)))) us sh m.
Proof. exact C118_coadd_lm. Qed.
Print Assumptions C118_coadd.

(** One after the other, images whose stars give a PSF can be coadded. *)
Theorem C118_works : forall W fuel fuel' sched loss n sh us cs t,
  (forall n c, length (fst (l_eigh W n c)) = n) -> (forall r, Permutation (l_sort W r) r) -> 0 <= loss -> (n <= 1)%Z ->
  us <> [] -> Forall (in_use W fuel sh) us ->
  Forall2 (fun u c => fst (best_sources (bu_lib (fst u)) (bu_attr (after (snd u) (fst u)))) = Ok c) us cs ->
  transparency (l_query W) (l_sort W) (l_lsqr W) (map (fun c => mkcat false false (map row_of c)) cs) None = Ok t ->
  length (zps t) = length us ->
  Forall2 (fun u c => forall left, Permutation (map spot left) (map spot c) ->
    exists q, psf_for (stars_for (fst u) (snd u) left) (stamp_shape (bu_attr (fst u))) loss = Ok q /\ snd q <> []) us cs ->
  exists r, coadd_built W fuel' sched loss n (map (fun u => after (snd u) (fst u)) us) = Some (Ok r).
Proof. exact C118_works_lm. Qed.
Print Assumptions C118_works.

Example C118_coadd_case : exists cs t r,
  Forall (in_use striped 1 (20, 20)%nat) [looked_only; asked_psf] /\
  (forall r, Permutation (l_sort striped r) r) /\ (forall n c, length (fst (l_eigh striped n c)) = n) /\
  Forall2 (fun u c => fst (best_sources (bu_lib (fst u)) (bu_attr (after (snd u) (fst u)))) = Ok c) [looked_only; asked_psf] cs /\
  transparency (l_query striped) (l_sort striped) (l_lsqr striped) (map (fun c => mkcat false false (map row_of c)) cs) None = Ok t /\
  length (zps t) = 2%nat /\
  Forall2 (fun u c => forall left, Permutation (map spot left) (map spot c) ->
    exists q, psf_for (stars_for (fst u) (snd u) left) (stamp_shape (bu_attr (fst u))) (2 / 10) = Ok q /\ snd q <> [])
    [looked_only; asked_psf] cs /\
  coadd_built striped 0 [] (2 / 10) 1 (map (fun u => after (snd u) (fst u)) [looked_only; asked_psf]) = Some (Ok r).
Proof. exact C118_coadd_case_lm. Qed.
