(** Words for the statements on what the fits of subtract look for. *)
From Coq Require Import Arith ZArith List Bool Reals.
From Flocq Require Import Core.
From Coquelicot Require Import Complex.
From Verif.Model Require Import Py Plane Ma Subtract.
From Verif.Spec Require Import Subtract.
Import ListNotations.
Local Open Scope R_scope.

(** A solver whose successes are minima of the objective within the bounds. The objectives
    of subtract are never negative; [None] is an objective without value. *)
Definition reports_minima (s : solvers) : Prop :=
  (forall f x0 lo hi x, (forall z v, f z = Some v -> 0 <= v) -> lsq s f x0 lo hi = Ok (true, x) ->
     within lo x hi /\ forall z v w, within lo z hi -> f x = Some v -> f z = Some w -> v <= w) /\
  (forall f lo hi x, (forall z v, f z = Some v -> 0 <= v) -> bounded s f lo hi = (true, x) ->
     lo <= x <= hi /\ forall z v w, lo <= z <= hi -> f x = Some v -> f z = Some w -> v <= w).

(** A solver that reported a failure. *)
Definition gave_up (s : solvers) : Prop :=
  (exists f x0 lo hi v, lsq s f x0 lo hi = Ok (false, v)) \/ (exists f lo hi v, bounded s f lo hi = (false, v)).

(** The surroundings with a solver that answers these values, whatever the objective. *)
Definition answering (e : env) (b dx dy : R) : env :=
  mkenv (e_mk e) (e_mkdata e) (e_reg e) (e_transp e) (e_back e)
    (mksolvers (fun _ x0 _ _ => Ok (true, match length x0 with
                                          | 3%nat => [b; dx; dy] | 2%nat => [dx; dy] | _ => [b] end))
               (fun _ _ _ => (true, b))).

(** The flux ratios and shifts among which the fit looks; [r] is the ratio of the zero points. *)
Definition allowed (beta shift : bool) (r b dx dy : R) : Prop :=
  (if beta then 1 / 10 <= b <= 10 else b = r) /\
  (if shift then Rabs dx <= 9 / 10 /\ Rabs dy <= 9 / 10 else dx = 0 /\ dy = 0).

(** The pixels of an image, and the background estimated from them: the difference of the
    backgrounds of the two images, in units of the noise, [s] cells further along the
    flattened frame. *)
Definition pixels (x : dimg) : plane R := mkplane (fst (d_shape x)) (snd (d_shape x)) (d_interped x).
Definition sky_term (e : env) (x y : dimg) (b : R) (s : Z) (i j : nat) : R :=
  let h := fst (d_shape x) in let w := snd (d_shape x) in
  let k := Z.to_nat ((Z.of_nat (i * w + j) - s) mod Z.of_nat (h * w)) in
  (px (e_back e (pixels y)) (k / w) (k mod w) - px (e_back e (pixels x)) (k / w) (k mod w))
  / sqrt (d_var y ^ 2 + b ^ 2 * d_var x ^ 2).

(** Sums of absolute values over the unmasked pixels: of the frame; at least 100 cells from
    its borders. *)
Definition misfit_all (sh : nat * nat) (m : mask) (r : nat -> nat -> R) : R :=
  rsum (fst sh) (fun i => rsum (snd sh) (fun j => if masked_at m i j then 0 else Rabs (r i j))).
Definition misfit_inner (sh : nat * nat) (m : mask) (r : nat -> nat -> R) : R :=
  rsum (fst sh - 200) (fun i => rsum (snd sh - 200) (fun j =>
    if masked_at m (100 + i) (100 + j) then 0 else Rabs (r (100 + i)%nat (100 + j)%nat))).

(** How much is left in a difference image [D] once the difference of the backgrounds is
    taken away. *)
Definition left_over (e : env) (x y : dimg) (shift : bool) (m : mask) (b dx dy : R) (D : plane C) : R :=
  (if shift then misfit_inner else misfit_all) (d_shape x) m
    (fun i j => fst (px D i j) - sky_term e x y b (ZnearestE dx + ZnearestE dy) i j).
