(** C116: the stars that [sim_varpsf] places. *)
From Coq Require Import ZArith List Bool Reals String Lia Lra.
From Verif.Model Require Import Py Plane Simtools.
From Verif.Spec Require Import Simtools Stars.
From Verif.Proof Require Import Stars.
Import ListNotations.
Local Open Scope R_scope.

(** C116: whenever sim_varpsf returns a frame, every quadrant is a field of nstars//4 stars,
    at least about three widths away from the border of the quadrant, of evenly spaced
    brightness from 10000 down to 100, blurred with the PSF of the angle, on a bias of
    200, with noise. *)
Theorem C116_stars : forall (G : Type) (default_rng : Z -> G)
  (rng_normal : G -> R -> R -> nat -> plane R * G) (rng_poisson : G -> R -> nat -> plane R * G)
  (rng_integers : G -> R -> R -> nat -> res (list Z) * G)
  (blur : plane R -> R -> R -> R -> R -> plane R)
  (g : G) (nstars : nat) (sn : R) (thetas : list R) (N : nat) (seed : option Z) (frame : plane R) (g' : G),
  (forall g m s n, shape (fst (rng_normal g m s n)) = (n, n)) ->
  (forall m s xf yf theta, shape (blur m s xf yf theta) = shape m) ->
  (forall g lo hi k l g2, rng_integers g lo hi k = (Ok l, g2) ->
     List.length l = k /\ forall z, In z l -> lo - 1 < IZR z < hi) ->
  sim_varpsf default_rng rng_normal rng_poisson rng_integers blur g nstars sn thetas N seed = (Ok frame, g') ->
  forall i j theta, (i < 2)%nat -> (j < 2)%nat -> nth_error thetas (i + 2 * j) = Some theta ->
  exists (stars : list (nat * nat)) (m noise : plane R) (gen : G),
    let xf := 5 + 5 * theta / 180 in
    let border := 3 * Rmax xf 5 in
    List.length stars = (nstars / 4)%nat /\
    (forall x y, In (x, y) stars ->
       border - 1 < INR x < INR N - border /\ border - 1 < INR y < INR N - border) /\
    star_map N stars m /\
    let sky := blur m (5 * Rmax xf 5) xf 5 theta in
    noise = fst (rng_normal gen 0 (pmax sky / sn) N) /\
    forall a b, (a < N)%nat -> (b < N)%nat ->
      px frame (i * N + a) (j * N + b) = px noise a b + px sky a b + 200.
Proof. exact C116_stars_lm. Qed.
Print Assumptions C116_stars.

(** C116: when the border leaves no room the frame cannot be made. *)
Theorem C116_no_room : forall (G : Type) (default_rng : Z -> G)
  (rng_normal : G -> R -> R -> nat -> plane R * G) (rng_poisson : G -> R -> nat -> plane R * G)
  (rng_integers : G -> R -> R -> nat -> res (list Z) * G)
  (blur : plane R -> R -> R -> R -> R -> plane R)
  (g : G) (nstars : nat) (sn : R) (thetas : list R) (N : nat) (seed : option Z) (theta : R),
  (forall g lo hi k, (1 <= k)%nat -> hi <= lo -> fst (rng_integers g lo hi k) = Raise ValueError) ->
  (4 <= nstars)%nat -> In theta (firstn 1 thetas) -> INR N <= 6 * Rmax (5 + 5 * theta / 180) 5 ->
  fst (sim_varpsf default_rng rng_normal rng_poisson rng_integers blur g nstars sn thetas N seed)
  = Raise ValueError.
Proof. exact C116_no_room_lm. Qed.
Print Assumptions C116_no_room.

Example C116_case :
  exists (ints : Z -> R -> R -> nat -> res (list Z) * Z) (frame : plane R) (g' : Z),
  (forall g lo hi k l g2, ints g lo hi k = (Ok l, g2) ->
     List.length l = k /\ forall z, In z l -> lo - 1 < IZR z < hi) /\
  (forall g lo hi k, (1 <= k)%nat -> hi <= lo -> fst (ints g lo hi k) = Raise ValueError) /\
  sim_varpsf (fun s => s) (fun g _ _ n => (pconst (n, n) 0, g)) (fun g _ n => (pconst (n, n) 0, g))
    ints (fun m _ _ _ _ => m) 0%Z 8 30 [0; 0; 0; 0] 64 (Some 1%Z) = (Ok frame, g') /\
  (8 / 4 = 2)%nat.
Proof. exact C116_case_lm. Qed.
