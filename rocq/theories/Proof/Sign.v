(** The sign of the PSF in a subtraction. *)
From Coq Require Import Arith ZArith List Bool Reals Lia Lra.
From Flocq Require Import Core.
From Coquelicot Require Import Complex.
From Verif.Model Require Import Py Plane Ma Subtract.
From Verif.Spec Require Import Coadd Fourier Subtract Sign.
From Verif.Proof Require Import Coadd Fourier Dft CoaddMore Subtract SubtractMain.
Import ListNotations.
Local Open Scope R_scope.
Set Bullet Behavior "Strict Subproofs".

Lemma rsum_opp n f : rsum n (fun i => - f i) = - rsum n f.
Proof. induction n as [|n IH]; cbn; [ring|rewrite IH; ring]. Qed.

Lemma psumR_opp p : psumR (pmap Ropp p) = - psumR p.
Proof. unfold psumR. cbn [pmap nr nc px]. rewrite <- rsum_opp. apply rsum_ext. intros i _. apply rsum_opp. Qed.

Lemma com_opp p : center_of_mass (pmap Ropp p) = center_of_mass p.
Proof.
  unfold center_of_mass. rewrite psumR_opp. cbn [pmap nr nc px].
  assert (forall g, psumR (mkplane (nr p) (nc p) (fun i j => - px p i j * g i j)) = - psumR (mkplane (nr p) (nc p) (fun i j => px p i j * g i j))) as Q.
  { intros g. rewrite <- psumR_opp. apply psumR_ext. split; [reflexivity|]. intros i j _ _. cbn. ring. }
  rewrite (Q (fun i _ => INR i)), (Q (fun _ j => INR j)). unfold Rdiv.
  destruct (Req_dec (psumR p) 0) as [Z|N].
  - rewrite Z, Ropp_0, Rinv_0. f_equal; ring.
  - f_equal; field; exact N.
Qed.

Lemma hat_opp sh p u v : px (fft2_ortho (pad_to sh (pmap RtoC (pmap Ropp p)))) u v =
  (- px (fft2_ortho (pad_to sh (pmap RtoC p))) u v)%C.
Proof.
  unfold fft2_ortho, dft_raw. cbn [pmap px nr nc pad_to].
  match goal with |- (?s * csum ?n ?f)%C = (- (?s * csum ?n ?g))%C => assert (csum n f = (RtoC (-1) * csum n g)%C) as -> end.
  { rewrite <- csum_scale. apply csum_ext. intros i _. rewrite <- csum_scale. apply csum_ext. intros j _.
    destruct (_ && _); cbn [px pmap]; [rewrite RtoC_opp|]; rewrite minus_one; ring. }
  rewrite minus_one. ring.
Qed.

Lemma psf_hat_opp x u v : no_vanishing_part x -> (u < fst (d_shape x))%nat -> (v < snd (d_shape x))%nat ->
  px (psf_hat (d_shape x) (pmap Ropp (d_stamp x))) u v = (- px (psf_hat (d_shape x) (d_stamp x)) u v)%C.
Proof.
  intros H Hu Hv. unfold psf_hat. cbn [pmap px]. unfold no_zero. rewrite hat_opp. cbn [Copp fst].
  specialize (H u v Hu Hv). destruct (Req_EM_T _ 0) as [E|_]; [exfalso; lra|].
  destruct (Req_EM_T _ 0) as [E|_]; [exfalso; lra|reflexivity].
Qed.

Lemma ifft_sum F G H sh : shape F = sh -> shape G = sh -> shape H = sh -> forall k : C,
  (forall u v, (u < fst sh)%nat -> (v < snd sh)%nat -> (px F u v + px G u v)%C = (k * px H u v)%C) ->
  forall i j, (px (ifft2_ortho F) i j + px (ifft2_ortho G) i j)%C = (k * px (ifft2_ortho H) i j)%C.
Proof.
  intros SF SG SH k E i j. destruct (dims _ _ SF) as [F1 F2]. destruct (dims _ _ SG) as [G1 G2]. destruct (dims _ _ SH) as [H1 H2].
  rewrite !ifft_px, F1, F2, G1, G2, H1, H2. rewrite <- Cmult_plus_distr_l, <- sum2_plus.
  rewrite (sum2_ext _ _ _ (fun u v => (k * (px H u v * har2 (fst sh) (snd sh) u v (Z.of_nat i) (Z.of_nat j)))%C)).
  - rewrite sum2_scale. ring.
  - intros u v Hu Hv. rewrite <- Cmult_plus_distr_r, E by assumption. ring.
Qed.

(** The parts of a subtraction, cell by cell. *)
Definition phase (sh : nat * nat) (dx dy : R) (u v : nat) : C :=
  if Req_EM_T dx 0 then (if Req_EM_T dy 0 then RtoC 1
    else cis (- (2 * PI) * (freq (fst sh) u * dx / INR (fst sh) + freq (snd sh) v * dy / INR (snd sh))))
  else cis (- (2 * PI) * (freq (fst sh) u * dx / INR (fst sh) + freq (snd sh) v * dy / INR (snd sh))).

Lemma diff_hat_cell c b dx dy u v : wf c ->
  px (diff_hat c b dx dy) u v = ((px (c_dn c) u v - RtoC b * px (c_dr c) u v * phase (c_shape c) dx dy u v) / csqrt (px (norm2 c b) u v))%C.
Proof.
  intros W. unfold diff_hat, phase. destruct (dims _ _ (wf_dr c W)) as [D1 D2].
  destruct (Req_EM_T dx 0); [destruct (Req_EM_T dy 0)|]; unfold pmap2 at 1 2, pmap at 1; cbn [px];
    [|unfold fourier_shift; cbn [px pmap nr nc]; rewrite D1, D2; reflexivity..].
  cbn [pmap px]. now rewrite Cmult_1_r.
Qed.

Lemma diff_hat_shape c b dx dy : wf c -> shape (diff_hat c b dx dy) = c_shape c.
Proof. intros W. unfold diff_hat. transitivity (shape (c_dn c)); [reflexivity|]. apply (wf_dn c W). Qed.

(** What the three subtractions have in common. *)
Lemma three e x y c c' c0 : no_vanishing_part y ->
  setup e (Is x) (Is y) false false = Ok c -> setup e (Is x) (Is (with_negative_psf y)) false false = Ok c' ->
  setup e (Is (without_light x)) (Is y) false false = Ok c0 ->
  c_shape c = d_shape x /\ wf c /\ wf c' /\ wf c0 /\ c_shape c' = d_shape x /\ c_shape c0 = d_shape x /\
  d_shape y = d_shape x /\
  c_nvar c = d_var y /\ c_rvar c' = c_rvar c /\ c_nvar c' = c_nvar c /\ c_rvar c0 = c_rvar c /\ c_nvar c0 = c_nvar c /\
  c_mask c' = c_mask c /\
  forall u v, (u < fst (d_shape x))%nat -> (v < snd (d_shape x))%nat ->
    px (c_pr c') u v = px (c_pr c) u v /\ px (c_pn c') u v = (- px (c_pn c) u v)%C /\
    px (c_pr c0) u v = px (c_pr c) u v /\ px (c_pn c0) u v = px (c_pn c) u v /\
    px (c_dn c') u v = px (c_dn c) u v /\ px (c_dr c') u v = (- px (c_dr c) u v)%C /\
    px (c_dn c0) u v = px (c_dn c) u v /\ px (c_dr c0) u v = RtoC 0.
Proof.
  intros NV E E' E0.
  destruct (setup_images _ _ _ _ _ E) as (zr & zn & mix & Sh & Em & _ & Ep).
  destruct (setup_images _ _ _ _ _ E') as (zr' & zn' & mix' & Sh' & Em' & _ & Ep').
  destruct (setup_images _ _ _ _ _ E0) as (zr0 & zn0 & mix0 & Sh0 & _ & _ & Ep0).
  cbn [with_negative_psf without_light d_shape d_mask] in *. rewrite Em in Em'. injection Em' as <-.
  destruct (prepare_wf _ _ _ _ _ _ _ _ Sh Ep) as (W & S1 & R1 & N1 & _ & _ & M1).
  destruct (prepare_wf _ false x (with_negative_psf y) _ _ _ _ Sh' Ep') as (W' & S2 & R2 & N2 & _ & _ & M2).
  destruct (prepare_wf _ false (without_light x) y _ _ _ _ Sh0 Ep0) as (W0 & S3 & R3 & N3 & _ & _ & _).
  destruct (prepare_inv _ _ _ _ _ _ _ _ Ep) as (_ & A1 & A2 & A3 & A4 & _).
  destruct (prepare_inv _ _ _ _ _ _ _ _ Ep') as (_ & B1 & B2 & B3 & B4 & _).
  destruct (prepare_inv _ _ _ _ _ _ _ _ Ep0) as (_ & C1 & C2 & C3 & C4 & _).
  cbn [with_negative_psf without_light d_shape d_var used_psf d_stamp] in *.
  do 6 (split; [assumption|]). split; [exact Sh|]. split; [exact N1|].
  do 4 (split; [congruence|]). split; [congruence|].
  intros u v Hu Hv.
  assert (P' : px (c_pn c') u v = (- px (c_pn c) u v)%C).
  { rewrite B2, A2. apply psf_hat_opp; [exact NV|rewrite Sh; exact Hu|rewrite Sh; exact Hv]. }
  split; [now rewrite B1, A1|]. split; [exact P'|]. split; [now rewrite C1, A1|]. split; [now rewrite C2, A2|].
  destruct (dims _ _ (wf_pn c W)) as [D1 D2]. destruct (dims _ _ (wf_pn c' W')) as [D1' D2'].
  split; [rewrite B4, A4, B1, A1; reflexivity|]. split.
  { rewrite B3, A3. unfold fourier_shift, pmap2. cbn [px nr nc]. rewrite P', com_opp, D1, D2, D1', D2', S1, S2.
    change (ihat (mkdimg (d_shape x) (d_data x) (d_mask x) (d_interped x) (d_var x) (d_stamp x) (d_render x))) with (ihat x). ring. }
  split; [rewrite C4, A4, C1, A1; reflexivity|].
  rewrite C3. unfold fourier_shift, pmap2. cbn [px nr nc].
  assert (px (ihat (without_light x)) u v = RtoC 0) as ->; [|ring].
  unfold ihat, fft2_ortho, dft_raw. cbn [pmap px nr nc frame without_light d_interped].
  rewrite (csum_ext _ _ (fun _ => RtoC 0)); [rewrite csum_0; ring|]. intros i _.
  rewrite (csum_ext _ _ (fun _ => RtoC 0)); [apply csum_0|]. intros j _. ring.
Qed.

Lemma same_norm c c' b u v : wf c -> wf c' -> c_rvar c' = c_rvar c -> c_nvar c' = c_nvar c ->
  px (c_pr c') u v = px (c_pr c) u v -> (px (c_pn c') u v = px (c_pn c) u v \/ px (c_pn c') u v = (- px (c_pn c) u v)%C) ->
  px (norm2 c' b) u v = px (norm2 c b) u v.
Proof.
  intros W W' R N P Q. rewrite !norm2_cell by assumption. unfold nrm. rewrite R, N, P. do 2 f_equal.
  destruct Q as [->| ->]; [reflexivity|]. cbn [Copp fst snd]. ring.
Qed.

(** The PSF of the new image with the other sign: the reference is added instead of being
    subtracted. The half of the sum of the two results is the subtraction of a reference
    without light. *)
Lemma C109_sum_lm : forall e x y beta shift it b dx dy D P S m D' P' S' m' D0 P0 S0 m0,
  no_vanishing_part y -> 0 < d_var y ->
  ratio_and_shift e (Is x) (Is y) false beta shift it false = Ok (b, dx, dy) ->
  ratio_and_shift e (Is x) (Is (with_negative_psf y)) false beta shift it false = Ok (b, dx, dy) ->
  ratio_and_shift e (Is (without_light x)) (Is y) false beta shift it false = Ok (b, dx, dy) ->
  subtract e (Is x) (Is y) false beta shift it false = Ok (D, P, S, m) ->
  subtract e (Is x) (Is (with_negative_psf y)) false beta shift it false = Ok (D', P', S', m') ->
  subtract e (Is (without_light x)) (Is y) false beta shift it false = Ok (D0, P0, S0, m0) ->
  (forall i j, (px D i j + px D' i j)%C = (RtoC 2 * px D0 i j)%C) /\
  (forall i j, px P' i j = - px P i j) /\ m' = m.
Proof.
  intros e x y beta shift it b dx dy D P S m D' P' S' m' D0 P0 S0 m0 NV Vy R R' R0 H H' H0.
  destruct (subtract_inv _ _ _ _ _ _ _ _ _ H) as (c & b1 & dx1 & dy1 & E1 & _ & F1 & G1).
  destruct (subtract_inv _ _ _ _ _ _ _ _ _ H') as (c' & b2 & dx2 & dy2 & E2 & _ & F2 & G2).
  destruct (subtract_inv _ _ _ _ _ _ _ _ _ H0) as (c0 & b3 & dx3 & dy3 & E3 & _ & F3 & G3).
  rewrite R in F1. rewrite R' in F2. rewrite R0 in F3. injection F1 as <- <- <-. injection F2 as <- <- <-. injection F3 as <- <- <-.
  unfold difference in G1, G2, G3. injection G1 as -> -> -> ->. injection G2 as -> -> -> ->. injection G3 as -> -> -> ->.
  destruct (three e x y c c' c0 NV E1 E2 E3) as (S1 & W & W' & W0 & S2 & S3 & _ & Nv & V1 & V2 & V3 & V4 & M & Q).
  split; [|split; [|exact M]].
  - apply ifft_sum with (sh := d_shape x); [now rewrite diff_hat_shape..|].
    intros u v Hu Hv. destruct (Q u v Hu Hv) as (Q1 & Q2 & Q3 & Q4 & Q5 & Q6 & Q7 & Q8).
    rewrite !diff_hat_cell by assumption.
    rewrite (same_norm c c' b u v) by (auto; congruence). rewrite (same_norm c c0 b u v) by (auto; congruence).
    rewrite S1, S2, S3, Q5, Q6, Q7, Q8. replace (RtoC 2) with (RtoC 1 + RtoC 1)%C by (rewrite <- RtoC_plus; f_equal; lra).
    unfold Cdiv. ring.
  - intros i j. change (fst (px (ifft2_ortho (diff_psf_hat c' b)) i j) = - fst (px (ifft2_ortho (diff_psf_hat c b)) i j)).
    assert (Z : (px (ifft2_ortho (diff_psf_hat c' b)) i j + px (ifft2_ortho (diff_psf_hat c b)) i j)%C = (RtoC 0 * px (ifft2_ortho (diff_psf_hat c b)) i j)%C).
    { assert (SP : forall k, wf k -> shape (diff_psf_hat k b) = c_shape k) by (intros k Wk; exact (wf_pr k Wk)).
      apply ifft_sum with (sh := d_shape x); [now rewrite SP..|].
      intros u v Hu Hv. destruct (Q u v Hu Hv) as (Q1 & Q2 & _).
      unfold diff_psf_hat, pmap2. cbn [px].
      rewrite (same_norm c c' b u v) by (auto; congruence). rewrite Q1, Q2. unfold diff_zp. rewrite V1, V2. unfold Cdiv. ring. }
    rewrite Cmult_0_l in Z. apply (f_equal fst) in Z. unfold Cplus, RtoC in Z. cbn [fst] in Z. lra.
Qed.

(** A single pixel of light seen by both images, the PSF of the new image with the sign
    turned: the difference of two equal images does not vanish. *)
Definition lit (s : R) : dimg :=
  mkdimg (1, 1)%nat (fun _ _ => 1) Nomask (fun _ _ => 3) 1 (mkplane 1 1 (fun _ _ => s)) (fun _ _ => 0).

Lemma hat_1 (p : plane C) : nr p = 1%nat -> nc p = 1%nat -> px (fft2_ortho p) 0 0 = px p 0%nat 0%nat /\ px (ifft2_ortho p) 0 0 = px p 0%nat 0%nat.
Proof.
  intros N M. unfold fft2_ortho, ifft2_ortho, dft_raw, idft_raw, pmap. cbn [px]. rewrite N, M. cbn [csum INR].
  assert (sqrt (1 * 1) = 1) as -> by (rewrite Rmult_1_r; apply sqrt_1).
  assert (cis (2 * PI * (0 * 0 / 1 + 0 * 0 / 1)) = RtoC 1) as ->.
  { unfold cis. replace (2 * PI * (0 * 0 / 1 + 0 * 0 / 1)) with 0 by field. now rewrite cos_0, sin_0. }
  assert (cis (- (2 * PI * (0 * 0 / 1 + 0 * 0 / 1))) = RtoC 1) as ->.
  { unfold cis. replace (- (2 * PI * (0 * 0 / 1 + 0 * 0 / 1))) with 0 by field. now rewrite cos_0, sin_0. }
  rewrite Rinv_1. split; ring.
Qed.

Lemma com_1 s : s <> 0 -> center_of_mass (mkplane 1 1 (fun _ _ => s)) = (0, 0).
Proof. intros N. unfold center_of_mass, psumR. cbn [nr nc px rsum INR]. f_equal; field; exact N. Qed.

Lemma hat_lit s : s <> 0 -> px (psf_hat (1, 1)%nat (mkplane 1 1 (fun _ _ => s))) 0 0 = RtoC s.
Proof.
  intros N. change (no_zero (px (fft2_ortho (pad_to (1, 1)%nat (pmap RtoC (mkplane 1 1 (fun _ _ => s))))) 0 0) = RtoC s).
  assert (px (fft2_ortho (pad_to (1, 1)%nat (pmap RtoC (mkplane 1 1 (fun _ _ => s))))) 0 0 = RtoC s) as E.
  { rewrite (proj1 (hat_1 (pad_to (1, 1)%nat (pmap RtoC (mkplane 1 1 (fun _ _ => s)))) eq_refl eq_refl)). reflexivity. }
  rewrite E. unfold no_zero. cbn [fst RtoC]. now destruct (Req_EM_T s 0).
Qed.

Lemma no_vanishing_lit : no_vanishing_part (lit 1).
Proof.
  intros u v Hu Hv. cbn [lit d_shape fst snd] in Hu, Hv. assert (u = 0%nat) as -> by lia. assert (v = 0%nat) as -> by lia.
  cbn [lit d_shape d_stamp].
  rewrite (proj1 (hat_1 (pad_to (1, 1)%nat (pmap RtoC (mkplane 1 1 (fun _ _ => 1)))) eq_refl eq_refl)). cbn. lra.
Qed.

Definition plain_env : env := ex_env 1 1 ex_lost.

Lemma lit_setup s l : s <> 0 -> exists c, setup plain_env (Is (if l : bool then lit 1 else without_light (lit 1))) (Is (lit s)) false false = Ok c /\
  c_ratio c = 1.
Proof.
  intros N. destruct l.
  all: unfold setup; cbn [as_image bind lit without_light d_shape fst snd Nat.eqb andb d_mask mask_or plain_env ex_env e_transp]; unfold lit, without_light; cbn [as_image bind d_shape fst snd Nat.eqb andb d_mask mask_or e_transp];
    unfold prepare; cbn [d_stamp d_shape]; rewrite !com_1 by (lra || exact N); cbn [negb andb]; destruct (Rlt_dec 0 0) as [X|_]; [lra|];
    eexists; (split; [reflexivity|]); cbn [c_ratio]; field.
Qed.

Lemma lit_runs s l : s <> 0 -> let x := if l : bool then lit 1 else without_light (lit 1) in
  ratio_and_shift plain_env (Is x) (Is (lit s)) false false false false false = Ok (1, 0, 0) /\
  exists D P S m, subtract plain_env (Is x) (Is (lit s)) false false false false false = Ok (D, P, S, m).
Proof.
  intros N x. destruct (lit_setup s l N) as (c & E & Ec). fold x in E. split.
  - unfold ratio_and_shift. rewrite E. cbn [bind fit]. now rewrite Ec.
  - unfold subtract. rewrite E. cbn [bind fit]. do 4 eexists. reflexivity.
Qed.

Lemma lit_neg : with_negative_psf (lit 1) = lit (-1).
Proof. unfold with_negative_psf, lit, pmap. cbn. repeat f_equal. Qed.

Lemma C109_sum_case_lm :
  let x := lit 1 in let y := lit 1 in let e := plain_env in
  no_vanishing_part y /\ 0 < d_var y /\
  ratio_and_shift e (Is x) (Is y) false false false false false = Ok (1, 0, 0) /\
  ratio_and_shift e (Is x) (Is (with_negative_psf y)) false false false false false = Ok (1, 0, 0) /\
  ratio_and_shift e (Is (without_light x)) (Is y) false false false false false = Ok (1, 0, 0) /\
  (exists r, subtract e (Is x) (Is y) false false false false false = Ok r) /\
  (exists r, subtract e (Is x) (Is (with_negative_psf y)) false false false false false = Ok r) /\
  (exists r, subtract e (Is (without_light x)) (Is y) false false false false false = Ok r).
Proof.
  cbn zeta. rewrite lit_neg.
  destruct (lit_runs 1 true ltac:(lra)) as (A1 & D1 & P1 & S1 & m1 & B1).
  destruct (lit_runs (-1) true ltac:(lra)) as (A2 & D2 & P2 & S2 & m2 & B2).
  destruct (lit_runs 1 false ltac:(lra)) as (A3 & D3 & P3 & S3 & m3 & B3).
  split; [exact no_vanishing_lit|]. split; [cbn; lra|]. split; [exact A1|]. split; [exact A2|]. split; [exact A3|].
  split; [now exists (D1, P1, S1, m1)|]. split; [now exists (D2, P2, S2, m2)|now exists (D3, P3, S3, m3)].
Qed.

(** Two images with the same pixels, noise and mask, whose PSFs have opposite signs: the
    difference is not zero; it is twice the image, divided by the noise. *)
Lemma C109_equal_images_refuted_lm : exists e x y D P S m,
  d_interped y = d_interped x /\ d_data y = d_data x /\ d_var y = d_var x /\ d_mask y = d_mask x /\
  d_stamp y = pmap Ropp (d_stamp x) /\
  ratio_and_shift e (Is x) (Is y) false false false false false = Ok (1, 0, 0) /\
  subtract e (Is x) (Is y) false false false false false = Ok (D, P, S, m) /\ px D 0 0 = RtoC (6 / sqrt 2).
Proof.
  destruct (lit_runs 1 true ltac:(lra)) as (A1 & D1 & P1 & S1 & m1 & B1).
  destruct (lit_runs (-1) true ltac:(lra)) as (A2 & D2 & P2 & S2 & m2 & B2).
  destruct (lit_runs 1 false ltac:(lra)) as (A3 & D3 & P3 & S3 & m3 & B3).
  cbv beta iota zeta in *.
  exists plain_env, (lit 1), (with_negative_psf (lit 1)), D2, P2, S2, m2. rewrite lit_neg.
  do 4 (split; [reflexivity|]). split; [unfold lit, pmap; cbn; repeat f_equal|]. split; [exact A2|]. split; [exact B2|].
  assert (Z : px D1 0%nat 0%nat = RtoC 0).
  { apply (scaled_zero plain_env (lit 1) (lit 1) 1 false false false false D1 P1 S1 m1); try assumption.
    - intros. cbn. ring.
    - split; [reflexivity|]. reflexivity.
    - cbn. lra. }
  assert (Z3 : px D3 0%nat 0%nat = RtoC (3 / sqrt 2)).
  { destruct (subtract_inv _ _ _ _ _ _ _ _ _ B3) as (c & b & dx & dy & E1 & _ & F1 & G1). rewrite A3 in F1. injection F1 as <- <- <-.
    unfold difference in G1. injection G1 as -> _ _ _.
    destruct (setup_images _ _ _ _ _ E1) as (zr & zn & mix & Sh & _ & _ & Ep).
    destruct (prepare_wf _ false (without_light (lit 1)) (lit 1) _ _ _ _ Sh Ep) as (W & Cs & Rv & Nv & _).
    destruct (prepare_inv _ _ _ _ _ _ _ _ Ep) as (_ & Pr & Pn & Dr & Dn & _).
    pose proof (diff_hat_shape c 1 0 0 W) as Sd. rewrite Cs in Sd. destruct (dims _ _ Sd) as [N1 N2].
    rewrite (proj2 (hat_1 _ N1 N2)). rewrite diff_hat_cell by exact W. rewrite norm2_cell by exact W.
    assert (px (c_pr c) 0%nat 0%nat = RtoC 1) as Q1 by (rewrite Pr; apply hat_lit; lra).
    assert (px (c_pn c) 0%nat 0%nat = RtoC 1) as Q2 by (rewrite Pn; apply hat_lit; lra).
    assert (px (c_dr c) 0%nat 0%nat = RtoC 0) as Q3.
    { rewrite Dr. unfold fourier_shift, pmap2. cbn [px]. unfold ihat.
      rewrite (proj1 (hat_1 (frame (d_shape (without_light (lit 1))) (fun i j => RtoC (d_interped (without_light (lit 1)) i j))) eq_refl eq_refl)).
      cbn. ring. }
    assert (px (c_dn c) 0%nat 0%nat = RtoC 3) as Q4.
    { rewrite Dn. unfold fourier_shift, pmap2. cbn [px]. rewrite Q1. unfold ihat.
      rewrite (proj1 (hat_1 (frame (d_shape (lit 1)) (fun i j => RtoC (d_interped (lit 1) i j))) eq_refl eq_refl)).
      destruct (dims _ _ (wf_pr c W)) as [-> ->]. rewrite Cs. cbn [nr nc without_light d_shape lit fst snd frame px d_interped used_psf d_stamp].
      rewrite com_1 by lra. cbn [fst snd]. unfold cis. match goal with |- context [cos ?a] => replace a with 0 by (cbn; field) end.
      rewrite cos_0, sin_0. change (1, 0) with (RtoC 1). ring. }
    rewrite Q3, Q4. unfold nrm. rewrite Nv, Rv, Q1, Q2. cbn [without_light lit d_var fst snd RtoC].
    replace (1 ^ 2 * (1 ^ 2 + 0 ^ 2) + 1 ^ 2 * (1 ^ 2 + 0 ^ 2) * 1 ^ 2) with 2 by ring.
    rewrite csqrt_pos by lra. rewrite Cmult_0_r, Cmult_0_l. unfold Cminus. rewrite Copp_0, Cplus_0_r.
    rewrite RtoC_div; [reflexivity|]. apply Rgt_not_eq, sqrt_lt_R0. lra. }
  pose proof (C109_sum_lm plain_env (lit 1) (lit 1) false false false 1 0 0 D1 P1 S1 m1 D2 P2 S2 m2 D3 P3 S3 m3 no_vanishing_lit) as T.
  rewrite lit_neg in T. destruct (T ltac:(cbn; lra) A1 A2 A3 B1 B2 B3) as (T1 & _). specialize (T1 0%nat 0%nat).
  rewrite Z, Z3, Cplus_0_l in T1. rewrite T1, <- RtoC_mult. f_equal. field. apply Rgt_not_eq, sqrt_lt_R0. lra.
Qed.
