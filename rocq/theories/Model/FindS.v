(** Model of [find_S_local_maxima] (properimage/utils.py 333-362). Exact real numbers. *)
From Coq Require Import ZArith List Bool Arith Reals.
From Flocq Require Import Core.Raux.
From Verif.Model Require Import Py Plane.
Import ListNotations.
Local Open Scope R_scope.

(** Cells of an array in row-major order. *)
Definition all_cells {A} (p : plane A) : list (nat * nat) :=
  list_prod (seq 0 (nr p)) (seq 0 (nc p)).

(** Is [(x - mean) / std > threshold]? With std = 0 numpy gives inf, nan or -inf. *)
Definition above (mean std threshold x : R) : bool :=
  if Req_EM_T std 0 then (if Rlt_dec mean x then true else false)
  else if Rlt_dec threshold ((x - mean) / std) then true else false.

(** The significance; [None] when numpy divides by zero. *)
Definition significance (mean std x : R) : option R :=
  if Req_EM_T std 0 then None else Some ((x - mean) / std).

(** Sum of [f] over the cells with label [k]. *)
Definition region_sum (lab : plane nat) (k : nat) (f : nat -> nat -> R) : R :=
  fold_right (fun ij s =>
    (if Nat.eqb (px lab (fst ij) (snd ij)) k then f (fst ij) (snd ij) else 0) + s) 0 (all_cells lab).

(** [ndimage.center_of_mass(S, labeled, k)]; [None] is nan (or inf), when the sum is 0. *)
Definition region_com (S : plane R) (lab : plane nat) (k : nat) : option (R * R) :=
  let t := region_sum lab k (px S) in
  if Req_EM_T t 0 then None
  else Some (region_sum lab k (fun i j => px S i j * INR i) / t,
             region_sum lab k (fun i j => px S i j * INR j) / t).

(** [S[i, j]] *)
Definition pixel_at {A} (S : plane A) (i j : Z) : res A :=
  match py_index (Z.of_nat (nr S)) i, py_index (Z.of_nat (nc S)) j with
  | Some r, Some c => Ok (px S r c)
  | _, _ => Raise IndexError
  end.

Fixpoint mapM {A B} (f : A -> res B) (l : list A) : res (list B) :=
  match l with
  | [] => Ok []
  | a :: t => bind (f a) (fun b => bind (mapM f t) (fun r => Ok (b :: r)))
  end.

(** utils.py:333-362. [stats] is sigma_clipped_stats(S, maxiters=3), giving mean, median
    and standard deviation; [label] is ndimage.label, giving the labels and their number.
    int(nan) is a ValueError. *)
Definition find_S (stats : plane R -> R * R * R) (label : plane bool -> plane nat * nat)
  (S : plane R) (threshold : R) (neighborhood_size : R) : res (list (R * R * option R)) :=
  let '(mean, _, std) := stats S in
  let '(lab, num) := label (pmap (above mean std threshold) S) in
  mapM (fun k =>
    match region_com S lab k with
    | None => Raise ValueError
    | Some (x, y) =>
        bind (pixel_at S (Ztrunc x) (Ztrunc y)) (fun v => Ok (y, x, significance mean std v))
    end) (seq 1 num).
