(** C141: coadd on images that were used before, with what cutting their stamps leaves of
    them. *)
From Coq Require Import ZArith List Bool Arith Reals Permutation.
From Coquelicot Require Import Complex.
From Verif.Model Require Import Py Plane Ma Coadd.
From Verif.Spec Require Import Coadd.
From Verif.Model Require Import Image Interp Subtract Filter FindS Sources Stamps Cut KL Session Transparency Chain ChainCoadd CutChain CutCoadd Live LiveSub LiveCoadd.
From Verif.Spec Require Import Image Stamps Chain Session Uses UsesCoadd Cut CutCoadd Live LiveFar LiveCoadd.
From Verif.Proof Require Import Stamps StampsExample Session SessionLm Chain ChainMain ChainUnits ChainExample UsesEx UsesCoadd UsesCoaddMain UsesCoaddEx CutIntact CutEx CutChain CutChainLeft CutCoadd CutCoaddMain CutCoaddEx Live LiveMain LiveSub LiveSubEx LiveCoadd LiveCoaddWorks LiveCoaddEx.
Import ListNotations.
Local Open Scope R_scope.

(** What a coadd uses of each image, after any history of plain calls on it: the stamps are those
    of the sources found in the image if the history has asked for stamps, and otherwise those of
    the sources that the matching left; the filter reads the image that their extraction left. *)
Theorem C141_coadd : forall W fuel fuel' sched loss n sh hs Rr P m,
  (forall n c, length (fst (l_eigh W n c)) = n) -> (forall r, Permutation (l_sort W r) r) -> 0 <= loss ->
  Forall (fit_for W fuel sh) hs -> run_limits fuel' (seq 0 (length hs)) n ->
  coadd_live W fuel' sched loss n (map (live_of W) hs) = Some (Ok (Rr, P, m)) ->
  exists cs t parts S Q ps raw,
    Forall2 (fun h c => l_looked W (live_of W h) = Ok c) hs cs /\
    transparency (l_query W) (l_sort W) (l_lsqr W) (map (fun c => mkcat false false (map row_of c)) cs) None = Ok t /\
    length parts = length hs /\
    (forall k o x calls c p, nth_error hs k = Some (o, x, calls) -> nth_error cs k = Some c -> nth_error parts k = Some p ->
       exists left z, Permutation (map spot left) (map spot c) /\ (k = 0%nat -> map spot left = map spot c) /\
         nth_error (zps t) k = Some z /\ pt_weight p = (z / var (bu_back x))%R /\
         adds W loss (opened W o (cut_of x calls left) x) calls left z (pt_filtered p) (pt_squared p)) /\
    shape S = sh /\ shape Q = sh /\
    (forall i j, (i < fst sh)%nat -> (j < snd sh)%nat ->
      px S i j = total (fun p => px (pt_filtered p) i j) parts /\
      px Q i j = total (fun p => (RtoC (pt_weight p ^ 2)%R * px (pt_squared p) i j)%C) parts) /\
    (exists h, In h hs /\ ps = (fst (stamp_shape (bu_attr (snd (fst h)))) + 6)%nat) /\
    (forall h, In h hs -> (fst (stamp_shape (bu_attr (snd (fst h)))) + 6 <= ps)%nat) /\
    plane_eq Rr (ifft2 (pmap2 Cdiv S (pmap csqrt Q))) /\
    plane_eq raw (ifft2 (fourier_shift (pmap csqrt Q) (INR ps) (INR ps))) /\
    plane_eq P (pmap (fun z => (z / psum raw)%C) raw) /\
    is_union (fun h => Full (m_msk (bu_data (snd (fst h))))) hs sh m.
Proof. exact C141_coadd_lm. Qed.
Print Assumptions C141_coadd.

(** One after the other, images that were used before and whose stars give a PSF can be coadded. *)
Theorem C141_works : forall W fuel fuel' sched loss n sh hs cs t,
  (forall n c, length (fst (l_eigh W n c)) = n) -> (forall r, Permutation (l_sort W r) r) -> 0 <= loss -> (n <= 1)%Z ->
  hs <> [] -> Forall (fit_for W fuel sh) hs ->
  Forall2 (fun h c => l_looked W (live_of W h) = Ok c) hs cs ->
  transparency (l_query W) (l_sort W) (l_lsqr W) (map (fun c => mkcat false false (map row_of c)) cs) None = Ok t ->
  length (zps t) = length hs ->
  Forall2 (fun h c => let '(o, x, calls) := h in forall left, Permutation (map spot left) (map spot c) ->
    exists q, psf_for (stars_for (opened W o (cut_of x calls left) x) calls left) (stamp_shape (bu_attr x)) loss = Ok q /\
      snd q <> []) hs cs ->
  exists r, coadd_live W fuel' sched loss n (map (live_of W) hs) = Some (Ok r).
Proof. exact C141_works_lm. Qed.
Print Assumptions C141_works.

Example C141_case : exists cs t r,
  Forall (fit_for striped 1 (20, 20)%nat) [seen_once; psf_asked] /\
  (forall r, Permutation (l_sort striped r) r) /\ (forall n c, length (fst (l_eigh striped n c)) = n) /\
  stamps_read (looked_at (bu_attr (snd (fst seen_once)))) (snd seen_once) = false /\
  stamps_read (looked_at (bu_attr (snd (fst psf_asked)))) (snd psf_asked) = true /\
  Forall2 (fun h c => l_looked striped (live_of striped h) = Ok c) [seen_once; psf_asked] cs /\
  transparency (l_query striped) (l_sort striped) (l_lsqr striped) (map (fun c => mkcat false false (map row_of c)) cs) None = Ok t /\
  length (zps t) = 2%nat /\
  Forall2 (fun h c => let '(o, x, calls) := h in forall left, Permutation (map spot left) (map spot c) ->
    exists q, psf_for (stars_for (opened striped o (cut_of x calls left) x) calls left) (stamp_shape (bu_attr x)) (2 / 10) = Ok q /\
      snd q <> []) [seen_once; psf_asked] cs /\
  run_limits 0 (seq 0 2) 1 /\
  coadd_live striped 0 [] (2 / 10) 1 (map (live_of striped) [seen_once; psf_asked]) = Some (Ok r).
Proof. exact C141_case_lm. Qed.
