(** Specification of matching and relative transparencies. *)
From Coq Require Import ZArith List Bool Arith Reals Permutation.
From Verif.Model Require Import Py Transparency.
Import ListNotations.
Local Open Scope R_scope.

(** Euclidean distance. *)
Definition dist (a b : pt) : R := sqrt ((fst a - fst b) ^ 2 + (snd a - snd b) ^ 2).

(** What a nearest-neighbour search with an upper bound guarantees, ties broken at will:
    a nearest point if one is closer than the bound, nothing otherwise. *)
Definition nearest (query : list pt -> list pt -> R -> list (option nat)) : Prop :=
  forall X1 X2 r,
    length (query X1 X2 r) = length X1 /\
    forall i a, nth_error X1 i = Some a ->
      match nth i (query X1 X2 r) None with
      | Some j => exists b, nth_error X2 j = Some b /\ dist a b < r /\
                    forall j' b', nth_error X2 j' = Some b' -> dist a b <= dist a b'
      | None => forall j b, nth_error X2 j = Some b -> r <= dist a b
      end.

(** Source i of the first catalogue and source j of the second report each other. *)
Definition mutual query (A B : list pt) (r : R) (i j : nat) : Prop :=
  nth_error (query A B r) i = Some (Some j) /\ nth_error (query B A r) j = Some (Some i).

(** Sum of [f] over a list. *)
Definition sumR {A} (f : A -> R) (l : list A) : R := fold_right (fun a s => f a + s) 0 l.

(** Least squares: squared norm of [H x - m], for n equations and c unknowns, and the
    solution of minimum norm. *)
Definition dot (c : nat) (h : nat -> R) (x : list R) : R := sumR (fun b => h b * nth b x 0) (seq 0 c).
Definition residual (n c : nat) (H : nat -> nat -> R) (m x : list R) : R :=
  sumR (fun a => (dot c (H a) x - nth a m 0) ^ 2) (seq 0 n).
Definition norm2 (x : list R) : R := sumR (fun v => v ^ 2) x.

Definition min_norm_solution (n c : nat) (H : nat -> nat -> R) (m x : list R) : Prop :=
  length x = c /\
  (forall y, length y = c -> residual n c H m x <= residual n c H m y) /\
  (forall y, length y = c -> residual n c H m y <= residual n c H m x -> norm2 x <= norm2 y).

(** The system "zero point of image k plus magnitude of source r" with the equation of
    image k and source r at row k*q+r: unknowns 0..p-1 are the zero points, p.. the
    magnitudes. *)
Definition system (p q : nat) (a b : nat) : R :=
  if (b <? p)%nat then (if (b =? a / q)%nat then 1 else 0)
  else (if (b - p =? a mod q)%nat then 1 else 0).

(** lsqr computes the solution of minimum norm of such systems. *)
Definition solves (lsqr : nat -> nat -> (nat -> nat -> R) -> list R -> list R) : Prop :=
  forall p q m, (0 < p)%nat -> (0 < q)%nat -> length m = (p * q)%nat ->
    min_norm_solution (p * q) (p + q) (system p q) m (lsqr (p * q)%nat (p + q)%nat (system p q) m).

(** Mean of the k-th block of q values. *)
Definition block_mean (m : list R) (q k : nat) : R :=
  sumR (fun r => nth (k * q + r) m 0) (seq 0 q) / INR q.

(** Magnitude of source i of a catalogue. *)
Definition mag_of (c : cat) (i : nat) : R :=
  (20 - 5 / 2 * (ln (r_flux (nth i (rows c) (mkrow 0 0 0 0 false))) / ln 10))%R.

(** Source i of the master and source j of another image are each other's match. *)
Definition matched query (mc c : cat) (i j : nat) : Prop :=
  mutual query (map xy (rows mc)) (map xy (rows c)) 2 i j.

(** The master sources with a match in every other image, in catalogue order. *)
Definition common query (mc : cat) (imgs : list cat) (L : list nat) : Prop :=
  NoDup L /\ (forall a b i i', (a < b)%nat -> nth_error L a = Some i -> nth_error L b = Some i' -> (i < i')%nat) /\
  forall i, In i L <->
    (i < length (rows mc))%nat /\ forall c, In c imgs -> exists j, matched query mc c i j.

(** The master and the other images of a call [transparency(images, master)]. *)
Definition roles (images : list cat) (master : option cat) (mc : cat) (imgs : list cat) : Prop :=
  (images = mc :: imgs /\ master = None) \/ (images = imgs /\ master = Some mc).

Definition positive (c : cat) : Prop := Forall (fun r => 0 < r_flux r) (rows c).

(** A solution contains the zero points and then the mean magnitudes. *)
Definition answer (o : outcome) (x : list R) : Prop :=
  exists mm, meanmags o = Some mm /\ x = zps o ++ mm.
