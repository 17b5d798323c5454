(** Words for the statements on the order of the stars and the signs of the eigenvectors. *)
From Coq Require Import List Bool Arith Reals FinFun Permutation.
From Verif.Model Require Import Py Plane KL Session.
From Verif.Spec Require Import KL.
Import ListNotations.
Local Open Scope R_scope.

(** Cell (i, j) of the PSF at the position (x, y): the element, or the sum over the elements
    of the coefficient there times the cell. [None]: not a number. *)
Definition osum (a b : option R) : option R :=
  match a, b with Some x, Some y => Some (x + y) | _, _ => None end.
Definition psf_at (psf : fieldset * list (plane (option R))) (x y : R) (i j : nat) : option R :=
  match fst psf with
  | NoField => match snd psf with [] => None | b :: _ => px b i j end
  | Fields fs =>
      fold_right osum (Some 0)
        (map (fun t => option_map (fun v => fst t x y * v) (px (snd t) i j)) (combine fs (snd psf)))
  end.

(** A fit to values at the positions [ps] that does not care about the order of the points
    and whose answer changes sign with the values; it looks at one value for each point. *)
Definition fair_fit (fit : list (R * R) -> (nat -> R) -> R -> R -> R) (ps : list (R * R)) : Prop :=
  forall ps' v v' f s x y,
    length ps' = length ps -> bFun (length ps) f -> bInjective (length ps) f ->
    (forall j, (j < length ps)%nat -> nth j ps' (0, 0) = nth (f j) ps (0, 0)) ->
    (forall j, (j < length ps)%nat -> v' j = s * v (f j)) -> s = 1 \/ s = -1 ->
    fit ps' v' x y = s * fit ps v x y.

(** The polynomial of degree 3 in two variables with the coefficients [c a b] of x^a y^b. *)
Definition cubic (c : nat -> nat -> R) (x y : R) : R :=
  sumn 4 (fun a => sumn (4 - a) (fun b => c a b * x ^ a * y ^ b)).

(** Sum of the squares of the residuals. *)
Definition misfit (ps : list (R * R)) (v : nat -> R) (c : nat -> nat -> R) : R :=
  sumn (length ps) (fun j => (v j - cubic c (fst (nth j ps (0, 0))) (snd (nth j ps (0, 0)))) ^ 2).

(** The fit to values at the positions [ps], in any order, gives a cubic polynomial with the
    smallest sum of squares. *)
Definition least_squares (fit : list (R * R) -> (nat -> R) -> R -> R -> R) (ps : list (R * R)) : Prop :=
  forall ps' v, Permutation ps ps' ->
    exists c, (forall x y, fit ps' v x y = cubic c x y) /\ forall c', misfit ps' v c <= misfit ps' v c'.

(** The positions lie on no curve of degree 3: they determine a cubic polynomial. *)
Definition determining (ps : list (R * R)) : Prop :=
  forall c, (forall p, In p ps -> cubic c (fst p) (snd p) = 0) -> forall x y, cubic c x y = 0.

(** The last [k] of the eigenvalues are different from one another and from all others. *)
Definition simple_last (k : nat) (vals : list R) : Prop :=
  forall i j, (length vals - k <= i < length vals)%nat -> (j < length vals)%nat -> j <> i ->
    nth j vals 0 <> nth i vals 0.

(** The same library with another solver; a solver with other signs of the eigenvectors. *)
Definition with_eigh {NI FT IM} (L : lib NI FT IM) (e : nat -> (nat -> nat -> R) -> list R * (nat -> nat -> R)) : lib NI FT IM :=
  mklib _ _ _ (select _ _ _ L) (extract _ _ _ L) e (smooth _ _ _ L) (fit _ _ _ L) (normal_of _ _ _ L) (shat_of _ _ _ L)
    (ifft_real _ _ _ L).
Definition signed (s : nat -> R) (e : nat -> (nat -> nat -> R) -> list R * (nat -> nat -> R)) (n : nat) (c : nat -> nat -> R)
  : list R * (nat -> nat -> R) :=
  (fst (e n c), fun j k => s (n - 1 - k)%nat * snd (e n c) j k).

(** The filter of the negative is the negative of the filtered array. *)
Definition odd_filter (g : plane (option R) -> plane (option R)) : Prop :=
  forall p, g (pmap (option_map (Rmult (-1))) p) = pmap (option_map (Rmult (-1))) (g p).
