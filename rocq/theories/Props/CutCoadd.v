(** C135: coadds of images of which the stamps were not extracted before. *)
From Coq Require Import ZArith List Bool Arith Reals Permutation.
From Coquelicot Require Import Complex.
From Verif.Model Require Import Py Plane Ma Coadd.
From Verif.Spec Require Import Coadd.
From Verif.Model Require Import Image Interp Subtract Filter FindS Sources Stamps Cut KL Session Transparency Chain ChainCoadd CutChain CutCoadd.
From Verif.Spec Require Import Image Stamps Chain Session Uses UsesCoadd Cut CutCoadd.
From Verif.Proof Require Import Session SessionLm StampsExample ChainMain ChainUnits ChainExample ChainCoadd UsesEx UsesCoadd CutCoadd CutCoaddMain CutCoaddEx.
Import ListNotations.
Local Open Scope R_scope.

(** The coadd of new images that differ under their masks is the same, or raises the same
    exception. *)
Theorem C135_mask : forall W fuel fuel' sched loss n_procs l l',
  sep_skips_masked W -> Forall2 (fun a b => fst b = fst a /\ alike (snd a) (snd b)) l l' ->
  coadd_cut_pixels W fuel fuel' sched loss n_procs (new_images l') =
  coadd_cut_pixels W fuel fuel' sched loss n_procs (new_images l).
Proof. exact C135_mask_lm. Qed.
Print Assumptions C135_mask.

(** Nor does it depend on the levels of the skies. *)
Theorem C135_sky : forall W fuel fuel' sched loss n_procs l l',
  sep_skips_masked W -> sep_follows_sky W ->
  Forall2 (fun a b => fst b = fst a /\ exists c, raised_by c (snd a) (snd b)) l l' ->
  coadd_cut_pixels W fuel fuel' sched loss n_procs (new_images l') =
  coadd_cut_pixels W fuel fuel' sched loss n_procs (new_images l).
Proof. exact C135_sky_lm. Qed.
Print Assumptions C135_sky.

(** Two images; the first differs under the mask, or both by the level of the sky. *)
Example C135_same_case : sep_skips_masked small /\ sep_follows_sky small /\
  Forall2 (fun a b => fst b = fst a /\ alike (snd a) (snd b)) [(asis, plainim); (asis, plainim)] [(asis, other); (asis, plainim)] /\
  Forall2 (fun a b => fst b = fst a /\ exists c, raised_by c (snd a) (snd b)) [(asis, plainim); (asis, plainim)]
    [(asis, higher); (asis, higher)] /\
  px (pixels plainim) 0 1 <> px (pixels other) 0 1 /\
  exists x, build_each small 1 (new_images [(asis, plainim); (asis, plainim)]) = Some (Ok [(asis, x); (asis, x)]).
Proof.
  split; [exact small_skips|]. split; [exact small_sky|]. split; [|split; [|split; [vm_compute; discriminate|]]].
  - constructor; [split; [reflexivity|exact plain_other]|]. constructor; [|constructor].
    repeat split; auto.
  - constructor; [|constructor; [|constructor]]; (split; [reflexivity|exists 5; exact plain_higher]).
  - destruct plain_built as (x & E & _). exists x. cbn [new_images map fst snd build_each]. now rewrite E.
Qed.

(** What a coadd of new images uses of each: the stars that the matching left, their stamps, and
    the image that the extraction of these stamps left. *)
Theorem C135_coadd : forall W fuel fuel' sched loss n sh ous Rr P m,
  (forall n c, length (fst (l_eigh W n c)) = n) -> (forall r, Permutation (l_sort W r) r) -> 0 <= loss ->
  Forall (can_cut W fuel sh) ous -> run_limits fuel' (seq 0 (length ous)) n ->
  coadd_cut W fuel' sched loss n ous = Some (Ok (Rr, P, m)) ->
  exists cs t parts S Q ps raw,
    Forall2 (fun u c => fst (best_sources (bu_lib (snd u)) (bu_attr (snd u))) = Ok c) ous cs /\
    transparency (l_query W) (l_sort W) (l_lsqr W) (map (fun c => mkcat false false (map row_of c)) cs) None = Ok t /\
    length parts = length ous /\
    (forall k o x c p, nth_error ous k = Some (o, x) -> nth_error cs k = Some c -> nth_error parts k = Some p ->
       exists left z last ex, Permutation (map spot left) (map spot c) /\ (k = 0%nat -> map spot left = map spot c) /\
         nth_error (zps t) k = Some z /\ pt_weight p = (z / var (bu_back x))%R /\
         first_cut W o x left = (last, Ok ex) /\
         exists y, bu_clean y = numbers last /\ bu_data y = bu_data x /\ bu_back y = bu_back x /\ bu_attr y = bu_attr x /\
           extract (bu_lib y) (stamp_shape (bu_attr x)) left = (map numbers (ex_stamps ex), Ok (ex_pos ex, ex_sources ex)) /\
           filtered W y (given (bu_lib y) left) loss z loss (pt_filtered p) /\
           squared y (given (bu_lib y) left) loss (pt_squared p)) /\
    shape S = sh /\ shape Q = sh /\
    (forall i j, (i < fst sh)%nat -> (j < snd sh)%nat ->
      px S i j = total (fun p => px (pt_filtered p) i j) parts /\
      px Q i j = total (fun p => (RtoC (pt_weight p ^ 2)%R * px (pt_squared p) i j)%C) parts) /\
    (exists u, In u ous /\ ps = (fst (stamp_shape (bu_attr (snd u))) + 6)%nat) /\
    (forall u, In u ous -> (fst (stamp_shape (bu_attr (snd u))) + 6 <= ps)%nat) /\
    plane_eq Rr (ifft2 (pmap2 Cdiv S (pmap csqrt Q))) /\
    plane_eq raw (ifft2 (fourier_shift (pmap csqrt Q) (INR ps) (INR ps))) /\
    plane_eq P (pmap (fun z => (z / psum raw)%C) raw) /\
    is_union (fun u => Full (m_msk (bu_data (snd u)))) ous sh m.
Proof. exact C135_coadd_lm. Qed.
Print Assumptions C135_coadd.

(** One after the other, new images whose stars give a PSF can be coadded. *)
Theorem C135_works : forall W fuel fuel' sched loss n sh ous cs t,
  (forall n c, length (fst (l_eigh W n c)) = n) -> (forall r, Permutation (l_sort W r) r) -> 0 <= loss -> (n <= 1)%Z ->
  ous <> [] -> Forall (can_cut W fuel sh) ous ->
  Forall2 (fun u c => fst (best_sources (bu_lib (snd u)) (bu_attr (snd u))) = Ok c) ous cs ->
  transparency (l_query W) (l_sort W) (l_lsqr W) (map (fun c => mkcat false false (map row_of c)) cs) None = Ok t ->
  length (zps t) = length ous ->
  Forall2 (fun u c => forall left, Permutation (map spot left) (map spot c) ->
    exists q, psf_for (given (bu_lib (opened W (fst u) left (snd u))) left) (stamp_shape (bu_attr (snd u))) loss = Ok q /\
      snd q <> []) ous cs ->
  exists r, coadd_cut W fuel' sched loss n ous = Some (Ok r).
Proof. exact C135_works_lm. Qed.
Print Assumptions C135_works.

Example C135_case : exists cs t r,
  Forall (can_cut striped 1 (20, 20)%nat) two_new /\
  (forall r, Permutation (l_sort striped r) r) /\ (forall n c, length (fst (l_eigh striped n c)) = n) /\
  Forall2 (fun u c => fst (best_sources (bu_lib (snd u)) (bu_attr (snd u))) = Ok c) two_new cs /\
  transparency (l_query striped) (l_sort striped) (l_lsqr striped) (map (fun c => mkcat false false (map row_of c)) cs) None = Ok t /\
  length (zps t) = 2%nat /\
  Forall2 (fun u c => forall left, Permutation (map spot left) (map spot c) ->
    exists q, psf_for (given (bu_lib (opened striped (fst u) left (snd u))) left) (stamp_shape (bu_attr (snd u))) (2 / 10) = Ok q /\
      snd q <> []) two_new cs /\
  coadd_cut striped 0 [] (2 / 10) 1 two_new = Some (Ok r).
Proof. exact C135_case_lm. Qed.
