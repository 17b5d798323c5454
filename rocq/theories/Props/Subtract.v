(** C14-C19, C69-C72: [subtract]. *)
From Coq Require Import Arith ZArith List Bool Reals Lra.
From Flocq Require Import Core.
From Coquelicot Require Import Complex.
From Verif.Model Require Import Py Plane Ma Subtract.
From Verif.Spec Require Import Coadd Subtract.
From Verif.Proof Require Import Subtract SubtractMain SubtractSum SubtractFit.
Import ListNotations.
Set Bullet Behavior "Strict Subproofs".
Local Open Scope R_scope.

(** C14 (with k = 1: the same pixels): when the new image is k times the reference, with the
    same PSF, and the flux ratio settled on is k with no shift, the difference vanishes, and
    so does S_corr wherever its noise map does not. *)
Theorem C14_self_subtraction : forall e x y k beta shift it fitted D P S m,
  (forall i j, (i < fst (d_shape x))%nat -> (j < snd (d_shape x))%nat -> d_interped y i j = k * d_interped x i j) ->
  plane_eq (used_psf fitted y) (used_psf fitted x) -> 0 < d_var y ->
  ratio_and_shift e (Is x) (Is y) false beta shift it fitted = Ok (k, 0, 0) ->
  subtract e (Is x) (Is y) false beta shift it fitted = Ok (D, P, S, m) ->
  (forall i j, px D i j = RtoC 0) /\ (forall i j v, px S i j = Some v -> v = 0).
Proof. exact scaled_zero. Qed.
Print Assumptions C14_self_subtraction.

Example C14_case : exists D P S m,
  let e := ex_env 1 1 ex_lost in let x := ex_dimg 5 Nomask in
  ratio_and_shift e (Is x) (Is x) false false false false true = Ok (1, 0, 0) /\
  subtract e (Is x) (Is x) false false false false true = Ok (D, P, S, m).
Proof.
  do 4 eexists. cbn zeta. split; [|reflexivity].
  cbn. unfold Rdiv. now rewrite Rinv_1, Rmult_1_r.
Qed.

(** C15, C71: exchanging the images. *)
Theorem C15_antisymmetry : forall e x y beta shift it fitted beta' shift' it' b D P S m D' P' S' m',
  mask_fits x -> mask_fits y -> 0 < d_var x -> 0 < d_var y -> 0 < b ->
  ratio_and_shift e (Is x) (Is y) false beta shift it fitted = Ok (b, 0, 0) ->
  ratio_and_shift e (Is y) (Is x) false beta' shift' it' fitted = Ok (/ b, 0, 0) ->
  subtract e (Is x) (Is y) false beta shift it fitted = Ok (D, P, S, m) ->
  subtract e (Is y) (Is x) false beta' shift' it' fitted = Ok (D', P', S', m') ->
  plane_eq D' (pmap Copp D) /\ plane_eq P' P /\ mask_eq m' m.
Proof.
  exact (fun e x y beta shift it fitted beta' shift' it' b D P S m D' P' S' m' H1 H2 H3 H4 H5 H6 H7 H8 H9 =>
    match exchange e x y beta shift it fitted beta' shift' it' b D P S m D' P' S' m' H1 H2 H3 H4 H5 H6 H7 H8 H9 with
    | conj A (conj B (conj C _)) => conj A (conj B C) end).
Qed.
Print Assumptions C15_antisymmetry.

(** C71: the significance is not antisymmetric: it is also divided by the flux ratio, when
    that is the ratio of the zero points. ([None] cells: division by zero.) *)
Theorem C71_significance_scaled : forall e x y beta shift it fitted beta' shift' it' b D P S m D' P' S' m' zr zn,
  mask_fits x -> mask_fits y -> 0 < d_var x -> 0 < d_var y -> 0 < b ->
  ratio_and_shift e (Is x) (Is y) false beta shift it fitted = Ok (b, 0, 0) ->
  ratio_and_shift e (Is y) (Is x) false beta' shift' it' fitted = Ok (/ b, 0, 0) ->
  subtract e (Is x) (Is y) false beta shift it fitted = Ok (D, P, S, m) ->
  subtract e (Is y) (Is x) false beta' shift' it' fitted = Ok (D', P', S', m') ->
  e_transp e x y = Ok (zr, zn) -> e_transp e y x = Ok (zn, zr) -> zn = b * zr ->
  plane_eq S' (pmap (option_map (fun v => - v / b)) S).
Proof.
  exact (fun e x y beta shift it fitted beta' shift' it' b D P S m D' P' S' m' zr zn H1 H2 H3 H4 H5 H6 H7 H8 H9 A B C =>
    match exchange e x y beta shift it fitted beta' shift' it' b D P S m D' P' S' m' H1 H2 H3 H4 H5 H6 H7 H8 H9 with
    | conj _ (conj _ (conj _ H)) => H (ex_intro _ zr (ex_intro _ zn (conj A (conj B C)))) end).
Qed.
Print Assumptions C71_significance_scaled.

(** Images of different fluxes: b = 3/1 one way and 1/3 the other way. *)
Example C15_case : exists D P S m D' P' S' m',
  let e := mkenv (fun _ => Raise IOError) (fun _ => Raise IOError) (fun x _ => Ok x)
             (fun x y => Ok (d_interped x 0%nat 0%nat, d_interped y 0%nat 0%nat)) (fun p => p) ex_lost in
  let x := ex_dimg 1 ex_bad in let y := ex_dimg 3 Nomask in
  mask_fits x /\ mask_fits y /\ 0 < d_var x /\ 0 < d_var y /\
  ratio_and_shift e (Is x) (Is y) false false false false true = Ok (3, 0, 0) /\
  ratio_and_shift e (Is y) (Is x) false false false false true = Ok (/ 3, 0, 0) /\
  subtract e (Is x) (Is y) false false false false true = Ok (D, P, S, m) /\
  subtract e (Is y) (Is x) false false false false true = Ok (D', P', S', m') /\
  e_transp e x y = Ok (1, 3) /\ e_transp e y x = Ok (3, 1).
Proof.
  do 8 eexists. cbn zeta. split; [reflexivity|]. split; [exact Logic.I|]. split; [cbn; lra|]. split; [cbn; lra|].
  split; [|split; [|split; [reflexivity|split; [reflexivity|split]]]]; cbn; repeat f_equal; field.
Qed.

(** C16: at every frequency, whatever the PSFs (zeros included) and the flux ratio. *)
Theorem C16_norm_positive : forall e ref new align fitted c b i j,
  setup e ref new align fitted = Ok c -> 0 < c_nvar c ->
  exists r, 0 < r /\ px (norm2 c b) i j = RtoC r /\ csqrt (px (norm2 c b) i j) <> RtoC 0.
Proof. exact norm_positive. Qed.
Print Assumptions C16_norm_positive.

(** A PSF that is zero everywhere, so that its transform vanishes. *)
Example C16_case : exists c,
  let x := mkdimg (2%nat, 2%nat) (fun _ _ => 1) Nomask (fun _ _ => 7) 1 (mkplane 1 1 (fun _ _ => 0)) (fun _ _ => 0) in
  setup (ex_env 1 1 ex_lost) (Is x) (Is x) false true = Ok c /\ 0 < c_nvar c.
Proof. eexists. cbn zeta. split; [reflexivity|]. cbn. lra. Qed.

(** C17: the four documented sources (the fallback first). *)
Theorem C17_sources : forall e x y zr zn beta shift it fitted b dx dy, e_transp e x y = Ok (zr, zn) ->
  ratio_and_shift e (Is x) (Is y) false beta shift it fitted = Ok (b, dx, dy) ->
  let s := e_solve e in
  (b = zn / zr /\ dx = 0 /\ dy = 0) \/
  (beta = true /\ shift = true /\ exists f, lsq s f [zn / zr; 0; 0] [1 / 10; - (9 / 10); - (9 / 10)] [10; 9 / 10; 9 / 10] = Ok (true, [b; dx; dy])) \/
  (beta = true /\ shift = false /\ it = true /\ dx = 0 /\ dy = 0 /\ exists f, bounded s f (1 / 10) 10 = (true, b)) \/
  (beta = true /\ shift = false /\ it = false /\ dx = 0 /\ dy = 0 /\ exists f, lsq s f [zn / zr] [1 / 10] [10] = Ok (true, [b])) \/
  (beta = false /\ shift = true /\ b = zn / zr /\ exists f, lsq s f [0; 0] [- (9 / 10); - (9 / 10)] [9 / 10; 9 / 10] = Ok (true, [dx; dy])).
Proof. exact sources. Qed.
Print Assumptions C17_sources.

Theorem C17_fallback : forall e x y zr zn beta shift it fitted c, e_transp e x y = Ok (zr, zn) ->
  setup e (Is x) (Is y) false fitted = Ok c -> 1 / 10 <= zn / zr <= 10 ->
  (forall f x0 lo hi, exists v, lsq (e_solve e) f x0 lo hi = Ok (false, v)) ->
  (forall f lo hi, exists v, bounded (e_solve e) f lo hi = (false, v)) ->
  ratio_and_shift e (Is x) (Is y) false beta shift it fitted = Ok (zn / zr, 0, 0).
Proof. exact fit_fallback. Qed.
Print Assumptions C17_fallback.

Theorem C17_bounds : forall e x y zr zn beta shift it fitted b dx dy, e_transp e x y = Ok (zr, zn) ->
  (forall f x0 lo hi v, lsq (e_solve e) f x0 lo hi = Ok (true, v) -> within lo v hi) ->
  (forall f lo hi v, bounded (e_solve e) f lo hi = (true, v) -> lo <= v <= hi) ->
  ratio_and_shift e (Is x) (Is y) false beta shift it fitted = Ok (b, dx, dy) ->
  (b = zn / zr \/ (beta = true /\ 1 / 10 <= b <= 10)) /\
  ((dx = 0 /\ dy = 0) \/ (shift = true /\ Rabs dx <= 9 / 10 /\ Rabs dy <= 9 / 10)).
Proof. exact fit_bounds. Qed.
Print Assumptions C17_bounds.

Theorem C17_ratio_out_of_bounds : forall e x y zr zn shift it fitted c, e_transp e x y = Ok (zr, zn) ->
  setup e (Is x) (Is y) false fitted = Ok c -> ~ (1 / 10 <= zn / zr <= 10) -> shift = true \/ it = false ->
  subtract e (Is x) (Is y) false true shift it fitted = Raise ValueError.
Proof. exact infeasible. Qed.
Print Assumptions C17_ratio_out_of_bounds.

Example C17_case_found :
  ratio_and_shift (ex_env 1 2 ex_found) (Is (ex_dimg 1 Nomask)) (Is (ex_dimg 2 Nomask)) false true true false true
    = Ok (2 / 1, 0, 0).
Proof.
  unfold ratio_and_shift. cbn -[in_bounds Rdiv].
  assert (in_bounds [2 / 1; 0; 0] [1 / 10; - (9 / 10); - (9 / 10)] [10; 9 / 10; 9 / 10] = true) as E by (apply within3; lra).
  unfold least_squares. rewrite E. reflexivity.
Qed.
Example C17_case_lost : exists c, setup (ex_env 1 2 ex_lost) (Is (ex_dimg 1 Nomask)) (Is (ex_dimg 2 Nomask)) false true = Ok c /\
  1 / 10 <= 2 / 1 <= 10.
Proof. eexists. split; [reflexivity|]. lra. Qed.
Example C17_case_out : exists c, setup (ex_env 1 20 ex_lost) (Is (ex_dimg 1 Nomask)) (Is (ex_dimg 20 Nomask)) false true = Ok c /\
  ~ (1 / 10 <= 20 / 1 <= 10).
Proof. eexists. split; [reflexivity|]. lra. Qed.

(** C18 *)
Theorem C18_mask_union : forall e x y beta shift it fitted D P S m, mask_fits x -> mask_fits y ->
  subtract e (Is x) (Is y) false beta shift it fitted = Ok (D, P, S, m) ->
  is_union d_mask [x; y] (d_shape x) m.
Proof. exact mask_union. Qed.
Print Assumptions C18_mask_union.

Theorem C18_different_shapes_fail : forall e x y beta shift it fitted, d_shape x <> d_shape y ->
  subtract e (Is x) (Is y) false beta shift it fitted = Raise ValueError.
Proof. exact shapes_differ. Qed.
Print Assumptions C18_different_shapes_fail.

Example C18_case : exists D P S m,
  subtract (ex_env 1 1 ex_lost) (Is (ex_dimg 1 ex_bad)) (Is (ex_dimg 1 Nomask)) false false false false true = Ok (D, P, S, m) /\
  masked_at m 0%nat 1%nat = true /\ masked_at m 0%nat 0%nat = false.
Proof. do 4 eexists. split; [reflexivity|]. split; reflexivity. Qed.

(** C19: [None] is numpy.ma.masked, the sum over no unmasked pixel. *)
Theorem C19_small_objective_constant : forall e x y fitted c b dx dy, small x ->
  setup e (Is x) (Is y) false fitted = Ok c ->
  window_cost (c_mask c) (residual_shift c b dx dy) = None.
Proof.
  exact (fun e x y fitted c b dx dy H E =>
    small_objective c b dx dy (eq_ind_r (fun sh => (fst sh <= 200 \/ snd sh <= 200)%nat) H (setup_shape e x y fitted c E))).
Qed.
Print Assumptions C19_small_objective_constant.

(** ... so the answer does not depend on the images beyond the ratio of the zero points, *)
Theorem C19_small_same_answer : forall e x y x' y' beta it fitted c c', small x -> small x' ->
  setup e (Is x) (Is y) false fitted = Ok c -> setup e (Is x') (Is y') false fitted = Ok c' ->
  (exists zr zn zr' zn', e_transp e x y = Ok (zr, zn) /\ e_transp e x' y' = Ok (zr', zn') /\ zn / zr = zn' / zr') ->
  ratio_and_shift e (Is x) (Is y) false beta true it fitted =
  ratio_and_shift e (Is x') (Is y') false beta true it fitted.
Proof. exact small_same_answer. Qed.
Print Assumptions C19_small_same_answer.

(** ... and a solver that refuses an objective without a value makes subtract fail. *)
Theorem C19_small_may_fail : forall e x y beta it fitted c, small x ->
  setup e (Is x) (Is y) false fitted = Ok c ->
  (forall f x0 lo hi, (forall v, f v = None) -> lsq (e_solve e) f x0 lo hi = Raise ValueError) ->
  subtract e (Is x) (Is y) false beta true it fitted = Raise ValueError.
Proof. exact small_fails. Qed.
Print Assumptions C19_small_may_fail.

(** With both sides above 200, the window is the pixels at least 100 from each border. *)
Theorem C19_large_window : forall m p, (200 < nr p)%nat -> (200 < nc p)%nat ->
  (window_cost m p = None <->
   forall i j, (100 <= i < nr p - 100)%nat -> (100 <= j < nc p - 100)%nat -> masked_at m i j = true) /\
  (forall v, window_cost m p = Some v ->
   v = rsum (nr p - 200) (fun i => rsum (nc p - 200) (fun j =>
         if masked_at m (100 + i) (100 + j) then 0 else Rabs (px p (100 + i)%nat (100 + j)%nat)))
       / (INR (nr p - 200) * INR (nc p - 200))).
Proof. exact large_window. Qed.
Print Assumptions C19_large_window.

Example C19_case_small : small (ex_dimg 1 Nomask) /\
  exists c, setup (ex_env 1 1 ex_lost) (Is (ex_dimg 1 Nomask)) (Is (ex_dimg 1 Nomask)) false true = Ok c.
Proof. split; [left; cbn; repeat constructor|]. eexists. reflexivity. Qed.
Example C19_case_large : window_cost Nomask (mkplane 201 202 (fun i j => INR j)) <> None.
Proof.
  intros H. apply (proj1 (C19_large_window _ (mkplane 201 202 (fun i j => INR j)) ltac:(cbn; repeat constructor) ltac:(cbn; repeat constructor))) with (i := 100%nat) (j := 100%nat) in H.
  - discriminate.
  - cbn. split; repeat constructor.
  - cbn. split; repeat constructor.
Qed.

(** C69: the PSFs are any with a common sum s > 0 (s = 1 for normalised ones). *)
Theorem C69_difference_psf_sum : forall e x y beta shift it fitted s b dx dy D P S m,
  psumR (used_psf fitted x) = s -> psumR (used_psf fitted y) = s -> 0 < s ->
  psf_inside fitted x -> psf_inside fitted y -> (0 < fst (d_shape x))%nat -> (0 < snd (d_shape x))%nat ->
  0 < d_var y -> b <> 0 ->
  ratio_and_shift e (Is x) (Is y) false beta shift it fitted = Ok (b, dx, dy) ->
  subtract e (Is x) (Is y) false beta shift it fitted = Ok (D, P, S, m) -> psumR P = s.
Proof.
  exact (fun e x y beta shift it fitted s b dx dy D P S m H1 H2 H3 H4 H5 H6 H7 H8 Hb H9 H10 =>
    proj1 (psf_sum e x y beta shift it fitted s b dx dy D P S m H1 H2 H3 H4 H5 H6 H7 H8 H9 H10) Hb).
Qed.
Print Assumptions C69_difference_psf_sum.

(** C70: total of the difference image, whatever the shift. *)
Theorem C70_difference_flux : forall e x y beta shift it fitted s b dx dy D P S m,
  psumR (used_psf fitted x) = s -> psumR (used_psf fitted y) = s -> 0 < s ->
  psf_inside fitted x -> psf_inside fitted y -> (0 < fst (d_shape x))%nat -> (0 < snd (d_shape x))%nat ->
  0 < d_var y ->
  ratio_and_shift e (Is x) (Is y) false beta shift it fitted = Ok (b, dx, dy) ->
  subtract e (Is x) (Is y) false beta shift it fitted = Ok (D, P, S, m) ->
  psum D = RtoC ((flux y - b * flux x) / sqrt (d_var y ^ 2 + b ^ 2 * d_var x ^ 2)).
Proof.
  exact (fun e x y beta shift it fitted s b dx dy D P S m H1 H2 H3 H4 H5 H6 H7 H8 H9 H10 =>
    proj2 (psf_sum e x y beta shift it fitted s b dx dy D P S m H1 H2 H3 H4 H5 H6 H7 H8 H9 H10)).
Qed.
Print Assumptions C70_difference_flux.

Example C69_C70_case : exists D P S m,
  let e := ex_env 1 2 ex_lost in let x := ex_dimg 1 Nomask in let y := ex_dimg 3 Nomask in
  psumR (used_psf true x) = 1 /\ psumR (used_psf true y) = 1 /\ psf_inside true x /\ psf_inside true y /\
  0 < d_var y /\ flux y - 2 / 1 * flux x = 8 /\
  ratio_and_shift e (Is x) (Is y) false false false false true = Ok (2 / 1, 0, 0) /\
  subtract e (Is x) (Is y) false false false false true = Ok (D, P, S, m).
Proof.
  do 4 eexists. cbn zeta. split; [cbn; lra|]. split; [cbn; lra|]. split; [split; cbn; repeat constructor|].
  split; [split; cbn; repeat constructor|]. split; [cbn; lra|]. split; [cbn; lra|]. split; reflexivity.
Qed.

(** C72: in the fits with a shift, the background difference is displaced along the
    flattened frame by round(dx)+round(dy) cells. *)
Theorem C72_background_rolled_flat : forall e x y fitted c b dx dy i j,
  setup e (Is x) (Is y) false fitted = Ok c ->
  (forall p, shape (e_back e p) = shape p) -> (i < fst (d_shape x))%nat -> (j < snd (d_shape x))%nat ->
  exists i' j', (i' < fst (d_shape x))%nat /\ (j' < snd (d_shape x))%nat /\
    (exists q, (Z.of_nat (i' * snd (d_shape x) + j') + (ZnearestE dx + ZnearestE dy) =
                Z.of_nat (i * snd (d_shape x) + j) + q * Z.of_nat (fst (d_shape x) * snd (d_shape x)))%Z) /\
    px (residual_shift c b dx dy) i j =
    px (residual_shift (without_gamma c) b dx dy) i j - px (gammap c b) i' j'.
Proof. exact gamma_flat. Qed.
Print Assumptions C72_background_rolled_flat.

Example C72_case : (forall p, shape (e_back (ex_env 1 1 ex_lost) p) = shape p) /\
  exists c, setup (ex_env 1 1 ex_lost) (Is (ex_dimg 1 Nomask)) (Is (ex_dimg 1 Nomask)) false true = Ok c.
Proof. split; [reflexivity|]. eexists. reflexivity. Qed.
