(** The background term of the fits: light taken for background. *)
From Coq Require Import Arith ZArith List Bool Reals Lia Lra.
From Flocq Require Import Core.
From Coquelicot Require Import Complex.
From Verif.Model Require Import Py Plane Ma Subtract.
From Verif.Spec Require Import Coadd Fourier Subtract Fits.
From Verif.Proof Require Import Coadd Fourier Dft CoaddMore Subtract SubtractMain SubtractFit Sign Fits.
Import ListNotations.
Local Open Scope R_scope.
Set Bullet Behavior "Strict Subproofs".

(** One pixel holding [k]; the background of an image is the image. *)
Definition pixel (k : R) : dimg :=
  mkdimg (1, 1)%nat (fun _ _ => 1) Nomask (fun _ _ => k) 1 (mkplane 1 1 (fun _ _ => 1)) (fun _ _ => 0).
Definition all_sky (s : solvers) : env :=
  mkenv (fun _ => Raise IOError) (fun _ => Raise IOError) (fun x _ => Ok x) (fun _ _ => Ok (1, 2)) (fun p => p) s.

Lemma pixel_setup s k k' : exists c, setup (all_sky s) (Is (pixel k)) (Is (pixel k')) false false = Ok c.
Proof.
  unfold setup, pixel. cbn [as_image bind d_shape fst snd Nat.eqb andb d_mask mask_or all_sky e_transp].
  unfold prepare. cbn [d_stamp d_shape]. rewrite !com_1 by lra. cbn [negb andb]. destruct (Rlt_dec 0 0) as [X|_]; [lra|].
  eexists. reflexivity.
Qed.

Lemma pixel_D s k k' c b : setup (all_sky s) (Is (pixel k)) (Is (pixel k')) false false = Ok c ->
  px (ifft2_ortho (diff_hat c b 0 0)) 0%nat 0%nat = RtoC ((k' - b * k) / sqrt (1 + b ^ 2)).
Proof.
  intros E. destruct (setup_images _ _ _ _ _ E) as (zr & zn & mix & Sh & _ & _ & Ep).
  destruct (prepare_wf _ false (pixel k) (pixel k') _ _ _ _ Sh Ep) as (W & Cs & Rv & Nv & _).
  destruct (prepare_inv _ _ _ _ _ _ _ _ Ep) as (_ & Pr & Pn & Dr & Dn & _).
  pose proof (diff_hat_shape c b 0 0 W) as Sd. rewrite Cs in Sd. destruct (dims _ _ Sd) as [N1 N2].
  rewrite (proj2 (hat_1 _ N1 N2)). rewrite diff_hat_cell by exact W. rewrite norm2_cell by exact W.
  assert (px (c_pr c) 0%nat 0%nat = RtoC 1) as Q1 by (rewrite Pr; apply hat_lit; lra).
  assert (px (c_pn c) 0%nat 0%nat = RtoC 1) as Q2 by (rewrite Pn; apply hat_lit; lra).
  assert (px (c_dr c) 0%nat 0%nat = RtoC k) as Q3.
  { rewrite Dr. unfold fourier_shift, pmap2. cbn [px]. rewrite Q2. unfold ihat.
    rewrite (proj1 (hat_1 (frame (d_shape (pixel k)) (fun i j => RtoC (d_interped (pixel k) i j))) eq_refl eq_refl)).
    destruct (dims _ _ (wf_pn c W)) as [-> ->]. rewrite Cs. cbn [nr nc d_shape pixel fst snd frame px d_interped used_psf d_stamp].
    rewrite com_1 by lra. cbn [fst snd]. unfold cis. match goal with |- context [cos ?a] => replace a with 0 by (cbn; field) end.
    rewrite cos_0, sin_0. change (1, 0) with (RtoC 1). ring. }
  assert (px (c_dn c) 0%nat 0%nat = RtoC k') as Q4.
  { rewrite Dn. unfold fourier_shift, pmap2. cbn [px]. rewrite Q1. unfold ihat.
    rewrite (proj1 (hat_1 (frame (d_shape (pixel k')) (fun i j => RtoC (d_interped (pixel k') i j))) eq_refl eq_refl)).
    destruct (dims _ _ (wf_pr c W)) as [-> ->]. rewrite Cs. cbn [nr nc d_shape pixel fst snd frame px d_interped used_psf d_stamp].
    rewrite com_1 by lra. cbn [fst snd]. unfold cis. match goal with |- context [cos ?a] => replace a with 0 by (cbn; field) end.
    rewrite cos_0, sin_0. change (1, 0) with (RtoC 1). ring. }
  rewrite Q3, Q4. unfold nrm. rewrite Nv, Rv, Q1, Q2. cbn [pixel d_var fst snd RtoC].
  replace (1 ^ 2 * (1 ^ 2 + 0 ^ 2) + 1 ^ 2 * (1 ^ 2 + 0 ^ 2) * b ^ 2) with (1 + b ^ 2) by ring.
  assert (0 < 1 + b ^ 2) as Pb by (pose proof (pow2_ge_0 b); lra).
  rewrite csqrt_pos by exact Pb. unfold phase. do 2 (destruct (Req_EM_T 0 0); [|congruence]).
  rewrite Cmult_1_r, <- RtoC_mult, <- RtoC_minus, RtoC_div; [reflexivity|]. apply Rgt_not_eq, sqrt_lt_R0. exact Pb.
Qed.

(** The new image is twice the reference and the zero points say so, but the background
    estimate takes the light for background: the best flux ratio is then 1, and the
    difference image shows the light. *)
Lemma C110_background_refuted_lm : exists e x y D P S m,
  reports_minima (e_solve e) /\ (forall p, shape (e_back e p) = shape p) /\
  (forall i j, d_interped y i j = 2 * d_interped x i j) /\ d_stamp y = d_stamp x /\ d_var y = d_var x /\
  e_transp e x y = Ok (1, 2) /\
  ratio_and_shift e (Is x) (Is y) false true false false false = Ok (1, 0, 0) /\
  subtract e (Is x) (Is y) false true false false false = Ok (D, P, S, m) /\ m = Nomask /\
  px D 0%nat 0%nat = RtoC (3 / sqrt 2).
Proof.
  set (e := all_sky (tries 1)). destruct (pixel_setup (tries 1) 3 6) as (c & E). fold e in E.
  assert (M : c_mask c = Nomask).
  { destruct (setup_images _ _ _ _ _ E) as (zr & zn & mix & Sh & Mi & _ & Ep).
    destruct (prepare_wf _ false (pixel 3) (pixel 6) _ _ _ _ Sh Ep) as (_ & _ & _ & _ & _ & _ & ->). now injection Mi as <-. }
  assert (F : fit (e_solve e) c true false false = Ok (1, 0, 0)).
  { pose proof (setup_ratio e (pixel 3) (pixel 6) false c 1 2 eq_refl E) as Rt. pose proof (setup_shape _ _ _ _ _ E) as Cs.
    unfold fit, least_squares. rewrite Rt, within1 by lra. unfold e, all_sky. cbn [e_solve tries lsq]. rewrite within1 by lra.
    assert (hits (frame_cost (c_mask c) (residual_beta c 1)) = true) as ->; [|reflexivity]. rewrite M.
    destruct (frame_cost Nomask (residual_beta c 1)) as [v|] eqn:Fc; [|discriminate].
    pose proof (left_over_beta e (pixel 3) (pixel 6) false c 1 E (fun p => eq_refl) ltac:(cbn; lra)) as Lo.
    rewrite M, <- Cs, <- (residual_beta_shape c 1), <- (frame_cost_all _ _ _ Fc) in Lo.
    cbn. rewrite <- Lo. destruct (Req_EM_T _ 0) as [|N]; [reflexivity|]. exfalso. apply N.
    unfold left_over, misfit_all. cbn [pixel d_shape fst snd rsum masked_at]. rewrite nearest_0.
    rewrite (pixel_D (tries 1) 3 6 c 1 E). cbn [RtoC fst].
    unfold sky_term. cbn [pixel d_shape fst snd Nat.mul Nat.add Z.of_nat Z.sub Z.opp Z.add d_var d_interped all_sky e e_back pixels px].
    replace (1 ^ 2 + 1 ^ 2 * 1 ^ 2) with (1 + 1 ^ 2) by ring. replace (6 - 3) with (6 - 1 * 3) by ring.
    rewrite Rminus_diag_eq by reflexivity. rewrite Rabs_R0. ring. }
  exists e, (pixel 3), (pixel 6). unfold ratio_and_shift, subtract. rewrite E. cbn [bind]. rewrite F. do 4 eexists.
  split; [apply tries_reports|]. split; [reflexivity|]. split; [intros; cbn; ring|]. do 4 (split; [reflexivity|]).
  split; [reflexivity|]. split; [exact M|]. rewrite (pixel_D (tries 1) 3 6 c 1 E). f_equal.
  replace (6 - 1 * 3) with 3 by ring. replace (1 + 1 ^ 2) with 2 by ring. reflexivity.
Qed.

Lemma C110_best_case_lm :
  let e := ex_env 1 1 (tries 2) in let x := ex_dimg 1 Nomask in let y := ex_dimg 2 Nomask in
  reports_minima (e_solve e) /\ (forall p, shape (e_back e p) = shape p) /\ 0 < d_var y /\ e_transp e x y = Ok (1, 1) /\
  ratio_and_shift e (Is x) (Is y) false true false false true = Ok (2, 0, 0) /\
  (exists r, subtract e (Is x) (Is y) false true false false true = Ok r) /\ allowed true false (1 / 1) 3 0 0.
Proof.
  cbn zeta. destruct C110_recovers_case_lm as (A & B & C0 & _ & _ & _ & T & R & D & P & S & m & H & _).
  split; [exact A|]. split; [exact B|]. split; [exact C0|]. split; [exact T|]. split; [exact R|]. split; [now exists (D, P, S, m)|].
  split; [lra|auto].
Qed.
