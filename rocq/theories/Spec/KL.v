(** Words used in the statements about the Karhunen-Loeve PSF. *)
From Coq Require Import ZArith List Bool Arith Reals.
From Verif.Model Require Import Py Plane KL.
Import ListNotations.
Local Open Scope R_scope.

(** Sum over the cells of an array of the given shape. *)
Definition sum2 (sh : nat * nat) (f : nat -> nat -> R) : R :=
  sumn (fst sh) (fun i => sumn (snd sh) (fun j => f i j)).

Definition mean2 (p : plane R) : R := sum2 (shape p) (px p) / INR (nr p * nc p).

(** Inner product of two arrays of one shape, and inner product after the mean of each has
    been removed. *)
Definition inner (p q : plane R) : R := sum2 (shape p) (fun i j => px p i j * px q i j).
Definition cross (p q : plane R) : R :=
  sum2 (shape p) (fun i j => (px p i j - mean2 p) * (px q i j - mean2 q)).

Definition delta (k l : nat) : R := if Nat.eqb k l then 1 else 0.

(** What numpy promises of the answer [r] of [eigh] for the symmetric n x n matrix [A]:
    ascending eigenvalues and an orthogonal matrix whose columns are eigenvectors. *)
Definition eigh_ok (n : nat) (A : nat -> nat -> R) (r : list R * (nat -> nat -> R)) : Prop :=
  let vals := fst r in
  let V := snd r in
  length vals = n /\
  (forall i j, (i <= j < n)%nat -> nth i vals 0 <= nth j vals 0) /\
  (forall k l, (k < n)%nat -> (l < n)%nat -> sumn n (fun j => V j k * V j l) = delta k l) /\
  (forall i j, (i < n)%nat -> (j < n)%nat -> sumn n (fun k => V i k * V j k) = delta i j) /\
  (forall i k, (i < n)%nat -> (k < n)%nat -> sumn n (fun j => A i j * V j k) = nth k vals 0 * V i k).

(** Sum of the absolute values of the last [k] items. *)
Definition power_of_last (k : nat) (l : list R) : R := sum_abs (skipn (length l - k) l).

(** Linear combination of the first [k] of a family of arrays. *)
Definition combine_planes (k : nat) (c : nat -> R) (B : nat -> plane R) (i j : nat) : R :=
  sumn k (fun q => c q * px (B q) i j).

(** The cells of [p] are numbers, and they add up to [t]. *)
Definition sums_to (p : plane (option R)) (t : R) : Prop :=
  exists q : plane R, plane_eq p (pmap Some q) /\ sum2 (shape q) (px q) = t.

(** No cell of [p] is a number. *)
Definition no_number (p : plane (option R)) : Prop :=
  forall i j, (i < nr p)%nat -> (j < nc p)%nat -> px p i j = None.

(** The window cannot be cut out of the image: with [n] the length of an axis and [m] the
    first index of the window along it. *)
Definition cut_off (n s : nat) (m : Z) : Prop :=
  (m < 0 <= m + Z.of_nat s)%Z \/ (Z.of_nat n < m + Z.of_nat s)%Z /\ m <> (Z.of_nat n - 1)%Z.

(** Component j of the eigenvector of the (k+1)-th largest of [n] eigenvalues; numpy's eigh
    gives the eigenvalues in ascending order and the eigenvectors in columns. *)
Definition eigen_component (n : nat) (V : nat -> nat -> R) (k j : nat) : R := V j (n - 1 - k)%nat.
