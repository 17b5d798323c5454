(** Words used in the statements about the star stamps. *)
From Coq Require Import ZArith List Bool Arith Reals.
From Flocq Require Import Core.Raux.
From Verif.Model Require Import Py Plane Sources FindS Stamps.
Import ListNotations.
Local Open Scope R_scope.

(** The image continued by a constant outside its frame. *)
Definition frame (image : plane R) (fill : R) (r c : Z) : R :=
  if ((0 <=? r) && (r <? Z.of_nat (nr image)) && ((0 <=? c) && (c <? Z.of_nat (nc image))))%Z%bool
  then px image (Z.to_nat r) (Z.to_nat c) else fill.

(** Where a window of [side] cells around [pos] starts. *)
Definition start (pos : R) (side : nat) : Z := Zceil (pos - INR side / 2).

(** The window around [pos] of the given shape, enlarged by [k] cells on each side. *)
Definition window (image : plane R) (fill : R) (sh : nat * nat) (pos : R * R) (k : nat) : plane R :=
  mkplane (fst sh + 2 * k) (snd sh + 2 * k) (fun i j =>
    frame image fill (start (fst pos) (fst sh) - Z.of_nat k + Z.of_nat i)
                     (start (snd pos) (snd sh) - Z.of_nat k + Z.of_nat j)).

(** The window meets the image. *)
Definition overlaps (image : plane R) (sh : nat * nat) (pos : R * R) : Prop :=
  (0 < start (fst pos) (fst sh) + Z.of_nat (fst sh) /\ start (fst pos) (fst sh) < Z.of_nat (nr image) /\
   0 < start (snd pos) (snd sh) + Z.of_nat (snd sh) /\ start (snd pos) (snd sh) < Z.of_nat (nc image))%Z.

(** All the cells on the border of [p] have the value [v]. *)
Definition flat_border (p : plane R) (v : R) : Prop :=
  forall i j, (i < nr p)%nat -> (j < nc p)%nat ->
    (i = 0 \/ i = nr p - 1 \/ j = 0 \/ j = nc p - 1)%nat -> px p i j = v.

(** The values below the 70th percentile. *)
Definition faint (l : list R) : list R :=
  filter (fun x => if Rlt_dec x (percentile 70 l) then true else false) l.

(** The window minus the median of its faint cells, divided by its sum; [None] (nan or inf)
    everywhere when there are no faint cells or the sum is zero. *)
Definition normalised (w : plane R) : plane (option R) :=
  let level := median (faint (values w)) in
  let total := sumR (values (pmap (fun x => x - level) w)) in
  pmap (fun x => match faint (values w) with
                 | [] => None
                 | _ => if Req_EM_T total 0 then None else Some ((x - level) / total)
                 end) w.

(** [near sh x y]: not further from the centre of a stamp of that shape than a fifth of its
    height. *)
Definition near (sh : nat * nat) (x y : R) : Prop :=
  sqrt ((x - INR (fst sh) / 2)² + (y - INR (snd sh) / 2)²) <= INR (fst sh) / 5.

(** The strict criteria for a stamp: the (first) brightest cell is near the centre, the
    standard deviation is at most 0.15, no cell exceeds 0.5, and find_S_local_maxima at
    threshold 3.5 sees at most one detection, near the centre. *)
Definition star_like (stats : plane R -> R * R * R) (label : plane bool -> plane nat * nat)
  (q : plane R) : Prop :=
  (exists i j, (i < nr q)%nat /\ (j < nc q)%nat /\
     (forall i' j', (i' < nr q)%nat -> (j' < nc q)%nat ->
        px q i' j' <= px q i j /\
        (px q i' j' = px q i j -> (i < i' \/ i = i' /\ j <= j')%nat)) /\
     near (shape q) (INR i) (INR j)) /\
  stdR (values q) <= 15 / 100 /\
  (forall i j, (i < nr q)%nat -> (j < nc q)%nat -> px q i j <= 1 / 2) /\
  exists cat, find_S stats label q (35 / 10) 5 = Ok cat /\
    (cat = [] \/ exists y x s, cat = [(y, x, s)] /\ near (shape q) x y).

(** The windows of all the sources, enlarged by three cells, lie inside the image. *)
Definition interior (image : plane R) (sh : nat * nat) (sources : list src) : Prop :=
  forall s, In s sources ->
    (3 <= start (s_y s) (fst sh) /\ start (s_y s) (fst sh) + Z.of_nat (fst sh) + 3 <= Z.of_nat (nr image) /\
     3 <= start (s_x s) (snd sh) /\ start (s_x s) (snd sh) + Z.of_nat (snd sh) + 3 <= Z.of_nat (nc image))%Z.
