(** C92: the zero points of two images, and the flux ratio that subtract takes from them. *)
From Coq Require Import ZArith List Bool Arith Reals Lra Permutation.
From Verif.Model Require Import Py Plane Ma Transparency Subtract.
From Verif.Spec Require Import Transparency Subtract Ratio.
From Verif.Proof Require Import Ratio.
Import ListNotations.
Local Open Scope R_scope.

(** C92: the zero points of two images. *)
Theorem C92_zero_points : forall query sort_cat lsqr images master a b l partner o,
  nearest query -> (forall l, Permutation (sort_cat l) l) -> solves lsqr ->
  roles images master a [b] -> has_id a = false -> positive a -> positive b ->
  common query a [b] l -> l <> [] -> (forall i, In i l -> matched query a b i (partner i)) ->
  transparency query sort_cat lsqr images master = Ok o ->
  let q := INR (length l) in
  let A := mean_mag a (fun i => i) l in
  let B := mean_mag b partner l in
  zps o = [A - (A + B) / (q + 2); B - (A + B) / (q + 2)].
Proof. exact C92_zero_points_lm. Qed.
Print Assumptions C92_zero_points.

(** C92: the flux ratio of a subtraction that does not fit it. *)
Theorem C92_ratio : forall e x y a b l partner shift it fitted k dx dy,
  measured e x y a b l partner ->
  ratio_and_shift e (Is x) (Is y) false false shift it fitted = Ok (k, dx, dy) ->
  let q := INR (length l) in
  let A := mean_mag a (fun i => i) l in
  let B := mean_mag b partner l in
  A * (q + 1) <> B ->
  k = (B * (q + 1) - A) / (A * (q + 1) - B).
Proof. exact C92_ratio_lm. Qed.
Print Assumptions C92_ratio.

(** The reference has one source of flux 1, the new image the same with flux 10; the ratio
    is 2/3. *)
Example C92_case : let e := star_env 0 1 in let x := ex_dimg 1 Nomask in let y := ex_dimg 2 Nomask in
  measured e x y (one_star 0) (one_star 1) [0%nat] (fun i => i) /\
  flux_of (one_star 1) 0 = 10 * flux_of (one_star 0) 0 /\
  mean_mag (one_star 1) (fun i => i) [0%nat] < mean_mag (one_star 0) (fun i => i) [0%nat] * (INR (length [0%nat]) + 1) /\
  ratio_and_shift e (Is x) (Is y) false false false false true = Ok (2 / 3, 0, 0).
Proof. exact C92_case_lm. Qed.

(** C92: the zero points order the images the wrong way round. *)
Theorem C92_fainter_heavier : forall e x y a b l partner zr zn,
  measured e x y a b l partner -> e_transp e x y = Ok (zr, zn) ->
  (forall i, In i l -> flux_of a i < flux_of b (partner i)) -> zn < zr.
Proof. exact C92_fainter_heavier_lm. Qed.
Print Assumptions C92_fainter_heavier.

(** C92: so a brighter new image gets a ratio below 1 (as long as the zero point of the
    reference is positive). *)
Theorem C92_opposite : forall e x y a b l partner shift it fitted k dx dy,
  measured e x y a b l partner ->
  ratio_and_shift e (Is x) (Is y) false false shift it fitted = Ok (k, dx, dy) ->
  (forall i, In i l -> flux_of a i < flux_of b (partner i)) ->
  mean_mag b partner l < mean_mag a (fun i => i) l * (INR (length l) + 1) ->
  k < 1.
Proof. exact C92_opposite_lm. Qed.
Print Assumptions C92_opposite.

Example C92_opposite_case : let e := star_env 0 1 in let x := ex_dimg 1 Nomask in let y := ex_dimg 2 Nomask in
  measured e x y (one_star 0) (one_star 1) [0%nat] (fun i => i) /\
  (forall i, In i [0%nat] -> flux_of (one_star 0) i < flux_of (one_star 1) i) /\
  mean_mag (one_star 1) (fun i => i) [0%nat] < mean_mag (one_star 0) (fun i => i) [0%nat] * (INR (length [0%nat]) + 1) /\
  ratio_and_shift e (Is x) (Is y) false false false false true = Ok (2 / 3, 0, 0).
Proof.
  destruct C92_case as (M & F & L & R). split; [exact M|]. split; [|now split].
  intros i [<-|[]]. assert (P : 0 < flux_of (one_star 0) 0) by (cbn; lra). lra.
Qed.

(** C92: it is not the ratio of the fluxes, even when every source is exactly [f] times as
    bright in the new image. *)
Theorem C92_true_ratio_refuted : ~ (forall e x y a b l partner shift it fitted k dx dy f,
  measured e x y a b l partner ->
  ratio_and_shift e (Is x) (Is y) false false shift it fitted = Ok (k, dx, dy) ->
  0 < f -> (forall i, In i l -> flux_of b (partner i) = f * flux_of a i) -> k = f).
Proof. exact C92_true_ratio_refuted_lm. Qed.
Print Assumptions C92_true_ratio_refuted.

(** C92: it changes when both images are expressed in another unit of flux. *)
Theorem C92_units_refuted : ~ (forall e e' x y a a' b b' l partner shift it fitted k k' dx dy dx' dy' u,
  measured e x y a b l partner -> measured e' x y a' b' l partner ->
  0 < u -> (forall i, flux_of a' i = u * flux_of a i /\ flux_of b' i = u * flux_of b i) ->
  ratio_and_shift e (Is x) (Is y) false false shift it fitted = Ok (k, dx, dy) ->
  ratio_and_shift e' (Is x) (Is y) false false shift it fitted = Ok (k', dx', dy') ->
  k' = k).
Proof. exact C92_units_refuted_lm. Qed.
Print Assumptions C92_units_refuted.

(** C92: it need not be positive. *)
Theorem C92_positive_refuted : ~ (forall e x y a b l partner shift it fitted k dx dy,
  measured e x y a b l partner ->
  ratio_and_shift e (Is x) (Is y) false false shift it fitted = Ok (k, dx, dy) -> 0 <= k).
Proof. exact C92_positive_refuted_lm. Qed.
Print Assumptions C92_positive_refuted.
