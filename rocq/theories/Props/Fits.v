(** C110: what the fits of the flux ratio and of the shift look for. *)
From Coq Require Import Arith ZArith List Bool Reals Lia Lra.
From Coquelicot Require Import Complex.
From Verif.Model Require Import Py Plane Ma Subtract.
From Verif.Spec Require Import Coadd Subtract Fits.
From Verif.Proof Require Import Fits FitsEx.
Import ListNotations.
Local Open Scope R_scope.

(** The fit with beta or shift: when the solver succeeds, no flux ratio and no shift within
    the bounds gives a difference image with less left over. *)
Theorem C110_best : forall e x y zr zn beta shift it fitted b dx dy D P S m b' dx' dy',
  reports_minima (e_solve e) -> (forall p, shape (e_back e p) = shape p) -> 0 < d_var y ->
  e_transp e x y = Ok (zr, zn) -> beta = true \/ shift = true ->
  ratio_and_shift e (Is x) (Is y) false beta shift it fitted = Ok (b, dx, dy) ->
  subtract e (Is x) (Is y) false beta shift it fitted = Ok (D, P, S, m) ->
  allowed beta shift (zn / zr) b' dx' dy' ->
  (gave_up (e_solve e) /\ b = zn / zr /\ dx = 0 /\ dy = 0) \/
  exists D' P' S',
    ratio_and_shift (answering e b' dx' dy') (Is x) (Is y) false beta shift it fitted = Ok (b', dx', dy') /\
    subtract (answering e b' dx' dy') (Is x) (Is y) false beta shift it fitted = Ok (D', P', S', m) /\
    left_over e x y shift m b dx dy D <= left_over e x y shift m b' dx' dy' D'.
Proof. exact C110_best_lm. Qed.
Print Assumptions C110_best.

Example C110_best_case :
  let e := ex_env 1 1 (tries 2) in let x := ex_dimg 1 Nomask in let y := ex_dimg 2 Nomask in
  reports_minima (e_solve e) /\ (forall p, shape (e_back e p) = shape p) /\ 0 < d_var y /\ e_transp e x y = Ok (1, 1) /\
  ratio_and_shift e (Is x) (Is y) false true false false true = Ok (2, 0, 0) /\
  (exists r, subtract e (Is x) (Is y) false true false false true = Ok r) /\ allowed true false (1 / 1) 3 0 0.
Proof. exact C110_best_case_lm. Qed.

(** A multiple of the reference: with beta, whatever the zero points say, nothing is left. *)
Theorem C110_recovers : forall e x y k zr zn shift it fitted b dx dy D P S m,
  reports_minima (e_solve e) -> (forall p, shape (e_back e p) = shape p) -> 0 < d_var y ->
  (forall i j, px (e_back e (pixels y)) i j = px (e_back e (pixels x)) i j) ->
  (forall i j, (i < fst (d_shape x))%nat -> (j < snd (d_shape x))%nat -> d_interped y i j = k * d_interped x i j) ->
  plane_eq (used_psf fitted y) (used_psf fitted x) -> 1 / 10 <= k <= 10 ->
  e_transp e x y = Ok (zr, zn) ->
  ratio_and_shift e (Is x) (Is y) false true shift it fitted = Ok (b, dx, dy) ->
  subtract e (Is x) (Is y) false true shift it fitted = Ok (D, P, S, m) ->
  (gave_up (e_solve e) /\ b = zn / zr /\ dx = 0 /\ dy = 0) \/
  forall i j, (i < fst (d_shape x))%nat -> (j < snd (d_shape x))%nat -> masked_at m i j = false ->
    (shift = true -> (100 <= i < fst (d_shape x) - 100)%nat /\ (100 <= j < snd (d_shape x) - 100)%nat) ->
    fst (px D i j) = 0.
Proof. exact C110_recovers_lm. Qed.
Print Assumptions C110_recovers.

Example C110_recovers_case :
  let e := ex_env 1 1 (tries 2) in let x := ex_dimg 1 Nomask in let y := ex_dimg 2 Nomask in
  reports_minima (e_solve e) /\ (forall p, shape (e_back e p) = shape p) /\ 0 < d_var y /\
  (forall i j, px (e_back e (pixels y)) i j = px (e_back e (pixels x)) i j) /\
  (forall i j, d_interped y i j = 2 * d_interped x i j) /\ plane_eq (used_psf true y) (used_psf true x) /\
  e_transp e x y = Ok (1, 1) /\
  ratio_and_shift e (Is x) (Is y) false true false false true = Ok (2, 0, 0) /\
  exists D P S m, subtract e (Is x) (Is y) false true false false true = Ok (D, P, S, m) /\ m = Nomask.
Proof. exact C110_recovers_case_lm. Qed.

(** The new image is twice the reference and the zero points say so, but the background
    estimate takes the light for background: the best flux ratio is then 1, and the
    difference image shows the light. *)
Theorem C110_background_refuted : exists e x y D P S m,
  reports_minima (e_solve e) /\ (forall p, shape (e_back e p) = shape p) /\
  (forall i j, d_interped y i j = 2 * d_interped x i j) /\ d_stamp y = d_stamp x /\ d_var y = d_var x /\
  e_transp e x y = Ok (1, 2) /\
  ratio_and_shift e (Is x) (Is y) false true false false false = Ok (1, 0, 0) /\
  subtract e (Is x) (Is y) false true false false false = Ok (D, P, S, m) /\ m = Nomask /\
  px D 0%nat 0%nat = RtoC (3 / sqrt 2).
Proof. exact C110_background_refuted_lm. Qed.
Print Assumptions C110_background_refuted.
