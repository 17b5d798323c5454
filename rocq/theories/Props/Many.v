(** C112: the PSF of images with more than 250 stars. *)
From Coq Require Import ZArith List Bool Arith Reals Lia Lra.
From Verif.Model Require Import Py Plane KL.
From Verif.Spec Require Import KL Many.
From Verif.Proof Require Import Many ManyEx.
Import ListNotations.
Local Open Scope R_scope.

(** With more than 250 stamps: each element is the blend of the stamps divided by its sum, minus
    the absolute value of its faintest cell, divided by what is then its sum. *)
Theorem C112_elements : forall eigh sh stamps L c basis k,
  cov_matrix sh stamps = Ok c -> (250 < length stamps)%nat -> (0 < fst sh)%nat -> (0 < snd sh)%nat ->
  kl_basis eigh None sh stamps L = Ok basis -> (k < length basis)%nat ->
  let t := blend sh stamps (snd (eigh (length stamps) c)) k in
  let e := nth k basis (pconst (0, 0)%nat None) in
  shape e = sh /\
  (total t = 0 -> no_number e) /\
  (total t <> 0 -> forall m, faintest (pmap (fun x => x / total t) t) m ->
     let w := 1 - INR (fst sh * snd sh) * Rabs m in
     (w = 0 -> no_number e) /\
     (w <> 0 -> forall i j, (i < fst sh)%nat -> (j < snd sh)%nat ->
        px e i j = Some ((px t i j / total t - Rabs m) / w))).
Proof. exact C112_elements_lm. Qed.
Print Assumptions C112_elements.

(** Where the blend has a negative cell after the first division, the faintest cell is doubled
    before the second; if the frame has more cells than one over its absolute value, the second
    division turns bright into faint. *)
Theorem C112_negative : forall eigh sh stamps L c basis k,
  cov_matrix sh stamps = Ok c -> (250 < length stamps)%nat -> (0 < fst sh)%nat -> (0 < snd sh)%nat ->
  kl_basis eigh None sh stamps L = Ok basis -> (k < length basis)%nat ->
  let t := blend sh stamps (snd (eigh (length stamps) c)) k in
  let e := nth k basis (pconst (0, 0)%nat None) in
  let P := INR (fst sh * snd sh) in
  total t <> 0 -> forall m, faintest (pmap (fun x => x / total t) t) m ->
  (0 <= m -> P * m < 1 -> exists q, plane_eq e (pmap Some q) /\ faintest q 0 /\ total q = 1) /\
  (m < 0 -> P * - m < 1 -> exists q, plane_eq e (pmap Some q) /\ faintest q (2 * m / (1 - P * - m)) /\ total q = 1) /\
  (m < 0 -> 1 < P * - m -> exists q, plane_eq e (pmap Some q) /\ total q = 1 /\
     forall i j i' j', (i < fst sh)%nat -> (j < snd sh)%nat -> (i' < fst sh)%nat -> (j' < snd sh)%nat ->
       px t i j / total t < px t i' j' / total t -> px q i' j' < px q i j).
Proof. exact C112_negative_lm. Qed.
Print Assumptions C112_negative.

Example C112_case : exists c basis, cov_matrix (2, 251)%nat (pairs 251) = Ok c /\ length (pairs 251) = 251%nat /\
  kl_basis pair_eigh None (2, 251)%nat (pairs 251) (1 / 5) = Ok basis /\ (0 < length basis)%nat /\
  let t := blend (2, 251)%nat (pairs 251) (snd (pair_eigh 251 c)) 0 in
  total t = 1 /\ faintest (pmap (fun x => x / total t) t) (- (1 / 2)).
Proof. exact C112_case_lm. Qed.

(** It can happen that the only bright cell of a star is the faintest cell of the element, and
    negative: for any number of stamps above 250 there are stamps of sum one like that. *)
Theorem C112_bright_cell_refuted : forall n, (250 < n)%nat -> exists eigh sh stamps c basis star q i j,
  length stamps = n /\ cov_matrix sh stamps = Ok c /\ eigh_ok n c (eigh n c) /\
  (forall p, In p stamps -> total p = 1) /\
  kl_basis eigh None sh stamps (1 / 5) = Ok basis /\ plane_eq (hd (pconst (0, 0)%nat None) basis) (pmap Some q) /\
  In star stamps /\ plane_eq (blend sh stamps (snd (eigh n c)) 0) star /\
  (i < fst sh)%nat /\ (j < snd sh)%nat /\ px q i j < 0 < px star i j /\
  forall i' j', (i' < fst sh)%nat -> (j' < snd sh)%nat -> (i', j') <> (i, j) ->
    px star i' j' < px star i j /\ px q i j < px q i' j'.
Proof. exact C112_bright_cell_refuted_lm. Qed.
Print Assumptions C112_bright_cell_refuted.
