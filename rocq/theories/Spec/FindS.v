(** Words used in the statements about find_S_local_maxima. *)
From Coq Require Import ZArith List Bool Arith Reals.
From Flocq Require Import Core.Raux.
From Verif.Model Require Import Py Plane FindS.
Import ListNotations.

(** A pixel of the array. *)
Definition inside {A} (p : plane A) (c : nat * nat) : Prop := fst c < nr p /\ snd c < nc p.

(** Two pixels that share a side. *)
Definition adjacent (c d : nat * nat) : Prop :=
  (fst c = fst d /\ (snd d = S (snd c) \/ snd c = S (snd d))) \/
  (snd c = snd d /\ (fst d = S (fst c) \/ fst c = S (fst d))).

(** True pixels connected by a chain of adjacent true pixels. *)
Inductive joined (m : plane bool) : nat * nat -> nat * nat -> Prop :=
| J_self c : inside m c -> px m (fst c) (snd c) = true -> joined m c c
| J_step c d e : joined m c d -> adjacent d e -> inside m e -> px m (fst e) (snd e) = true ->
    joined m c e.

(** Row-major order of pixels. *)
Definition before (c d : nat * nat) : Prop := fst c < fst d \/ (fst c = fst d /\ snd c < snd d).

(** [c] is the first pixel of its region in row-major order. *)
Definition first_of (m : plane bool) (c : nat * nat) : Prop :=
  joined m c c /\ forall d, joined m c d -> c = d \/ before c d.

(** What scipy promises of [label]: label 0 outside, the same label exactly for joined
    pixels, labels 1, 2, ... given in the row-major order of the first pixels. *)
Definition labels (m : plane bool) (lab : plane nat) (num : nat) : Prop :=
  shape lab = shape m /\
  (forall c, inside m c -> px lab (fst c) (snd c) <= num) /\
  (forall c, inside m c -> (px lab (fst c) (snd c) = 0 <-> px m (fst c) (snd c) = false)) /\
  (forall k, 1 <= k <= num -> exists c, first_of m c /\ px lab (fst c) (snd c) = k) /\
  (forall c d, inside m c -> inside m d -> px m (fst c) (snd c) = true ->
     (px lab (fst c) (snd c) = px lab (fst d) (snd d) <-> joined m c d)) /\
  (forall c d, first_of m c -> first_of m d ->
     px lab (fst c) (snd c) < px lab (fst d) (snd d) -> before c d).

(** Significance of a pixel value: its distance from the mean in units of the standard
    deviation; without a value when the standard deviation is 0. *)
Definition snr (mean std x : R) : option R :=
  if Req_EM_T std 0 then None else Some ((x - mean) / std)%R.

(** Is the pixel above the threshold? With standard deviation 0: is it above the mean? *)
Definition detected (mean std threshold x : R) : bool :=
  if Req_EM_T std 0 then (if Rlt_dec mean x then true else false)
  else if Rlt_dec threshold ((x - mean) / std)%R then true else false.

(** Sum of [f] over the pixels selected by [sel]. *)
Definition sum_over (n m : nat) (sel : nat * nat -> bool) (f : nat -> nat -> R) : R :=
  fold_right Rplus 0%R (map (fun c => f (fst c) (snd c)) (filter sel (list_prod (seq 0 n) (seq 0 m)))).

(** [(y, x, s)] is the catalogue entry for the region of pixel [f] in the mask [m] of image
    [I]: [x] and [y] are the mean row and column weighted by the pixel values, and [s] is the
    significance of the pixel found by cutting off the decimals of [x] and [y] (negative
    indices count from the end, as in Python). *)
Definition entry_of (m : plane bool) (I : plane R) (signif : R -> option R)
  (f : nat * nat) (e : R * R * option R) : Prop :=
  let '(y, x, s) := e in
  (forall sel, (forall c, inside m c -> (sel c = true <-> joined m f c)) ->
     let sum := sum_over (nr I) (nc I) sel in
     sum (px I) <> 0%R /\
     (x * sum (px I) = sum (fun i j => px I i j * INR i) /\
      y * sum (px I) = sum (fun i j => px I i j * INR j))%R) /\
  exists i j, inside I (i, j) /\ s = signif (px I i j) /\
    (Raux.Ztrunc x = Z.of_nat i \/ Raux.Ztrunc x = Z.of_nat i - Z.of_nat (nr I))%Z /\
    (Raux.Ztrunc y = Z.of_nat j \/ Raux.Ztrunc y = Z.of_nat j - Z.of_nat (nc I))%Z.
