(** Both PSFs of a subtraction with the other sign. *)
From Coq Require Import Arith ZArith List Bool Reals Lia Lra.
From Flocq Require Import Core.
From Coquelicot Require Import Complex.
From Verif.Model Require Import Py Plane Ma Subtract.
From Verif.Spec Require Import Coadd Fourier Subtract Sign.
From Verif.Proof Require Import Coadd Fourier Dft CoaddMore Subtract SubtractMain Sign.
Import ListNotations.
Local Open Scope R_scope.
Set Bullet Behavior "Strict Subproofs".

Section Both.
Context (c c' : ctx) (b : R) (W : wf c) (W' : wf c').
Hypothesis Sh : c_shape c' = c_shape c.
Hypothesis V1 : c_rvar c' = c_rvar c.
Hypothesis V2 : c_nvar c' = c_nvar c.
Hypothesis Q : forall u v, (u < fst (c_shape c))%nat -> (v < snd (c_shape c))%nat ->
  px (c_pr c') u v = (- px (c_pr c) u v)%C /\ px (c_pn c') u v = (- px (c_pn c) u v)%C /\
  px (c_dr c') u v = (- px (c_dr c) u v)%C /\ px (c_dn c') u v = (- px (c_dn c) u v)%C.

Lemma both_norm u v : (u < fst (c_shape c))%nat -> (v < snd (c_shape c))%nat ->
  px (norm2 c' b) u v = px (norm2 c b) u v.
Proof.
  intros Hu Hv. destruct (Q u v Hu Hv) as (Q1 & Q2 & _).
  rewrite !norm2_cell by assumption. unfold nrm. rewrite V1, V2, Q1, Q2. do 2 f_equal; cbn [Copp fst snd]; ring.
Qed.

Lemma both_diff_hat dx dy : plane_eq (diff_hat c' b dx dy) (pmap (fun z => (RtoC (-1) * z)%C) (diff_hat c b dx dy)).
Proof.
  split; [transitivity (shape (diff_hat c b dx dy)); [now rewrite !diff_hat_shape|reflexivity]|].
  intros i j Hi Hj. destruct (dims _ _ (diff_hat_shape c' b dx dy W')) as [E1 E2]. rewrite E1, Sh in Hi. rewrite E2, Sh in Hj.
  destruct (Q i j Hi Hj) as (_ & _ & Q3 & Q4). cbn [pmap px]. rewrite !diff_hat_cell by assumption.
  rewrite both_norm by assumption. rewrite Sh, Q3, Q4, minus_one. unfold Cdiv. ring.
Qed.

Lemma both_psf_hat : plane_eq (diff_psf_hat c' b) (diff_psf_hat c b).
Proof.
  split; [transitivity (shape (c_pr c')); [reflexivity|]; rewrite (wf_pr c' W'), Sh, <- (wf_pr c W); reflexivity|].
  intros i j Hi Hj. change (i < nr (c_pr c'))%nat in Hi. change (j < nc (c_pr c'))%nat in Hj.
  destruct (dims _ _ (wf_pr c' W')) as [E1 E2]. rewrite E1, Sh in Hi. rewrite E2, Sh in Hj.
  destruct (Q i j Hi Hj) as (Q1 & Q2 & _). unfold diff_psf_hat, pmap2. cbn [px].
  rewrite both_norm by assumption. rewrite Q1, Q2. unfold diff_zp. rewrite V1, V2. unfold Cdiv. ring.
Qed.

Hypothesis Z : c_nzp c' = c_nzp c.
Hypothesis R1 : c_rdata c' = c_rdata c.
Hypothesis R2 : c_ndata c' = c_ndata c.
Hypothesis S1 : shape (c_rdata c) = c_shape c.
Hypothesis S2 : shape (c_ndata c) = c_shape c.

Lemma conj_opp z : Cconj (- z)%C = (- Cconj z)%C.
Proof. destruct z. reflexivity. Qed.

Lemma both_kr : plane_eq (kr_hat c' b) (pmap (fun z => (RtoC (-1) * z)%C) (kr_hat c b)).
Proof.
  unfold kr_hat. rewrite Sh. split; [reflexivity|]. intros i j Hi Hj. cbn [frame nr nc] in Hi, Hj.
  destruct (Q i j Hi Hj) as (Q1 & Q2 & _). cbn [pmap frame px].
  rewrite both_norm by assumption. rewrite Z, Q1, Q2, !conj_opp, minus_one. unfold Cdiv. ring.
Qed.
Lemma both_kn : plane_eq (kn_hat c' b) (pmap (fun z => (RtoC (-1) * z)%C) (kn_hat c b)).
Proof.
  unfold kn_hat. rewrite Sh. split; [reflexivity|]. intros i j Hi Hj. cbn [frame nr nc] in Hi, Hj.
  destruct (Q i j Hi Hj) as (Q1 & Q2 & _). cbn [pmap frame px].
  rewrite both_norm by assumption. rewrite Z, Q1, Q2, !conj_opp, minus_one. unfold Cdiv. ring.
Qed.

Lemma noise_opp k k' d sh : plane_eq k' (pmap (fun z => (RtoC (-1) * z)%C) k) -> shape d = sh -> shape k = sh ->
  plane_eq (noise_map k' d) (noise_map k d).
Proof.
  intros E H1 H2. unfold noise_map. apply ifft2_ortho_ext. apply pmap2_ext.
  - transitivity (shape d); [reflexivity|]. rewrite H1, <- H2. symmetry. exact (proj1 E).
  - apply plane_refl.
  - apply dft_ext. eapply plane_eq_trans; [apply pmap_ext, ifft2_ortho_ext, E|].
    eapply plane_eq_trans; [apply pmap_ext, ifft2_ortho_scale|]. split; [reflexivity|].
    intros i j _ _. cbn [pmap px]. rewrite minus_one. ring.
Qed.

Lemma both_s_corr Dh Dh' Ph Ph' P P' :
  plane_eq Dh' (pmap (fun z => (RtoC (-1) * z)%C) Dh) -> plane_eq Ph' Ph -> plane_eq P' P -> shape Dh = shape Ph ->
  shape Dh = c_shape c ->
  plane_eq (s_corr c' b Dh' Ph' P') (pmap (option_map Ropp) (s_corr c b Dh Ph P)).
Proof.
  intros ED EP EPr Sd Sc. unfold s_corr.
  assert (psf_center P' = psf_center P) as ->.
  { unfold psf_center. now rewrite (com_ext _ _ EPr), (peak_ext _ _ EPr). }
  set (sx := fst _). set (sy := snd _).
  assert (diff_zp c' b = diff_zp c b) as -> by (unfold diff_zp; now rewrite V1, V2).
  match goal with |- context [ifft2_ortho (fourier_shift (pmap2 ?f Dh' Ph') sx sy)] => set (S' := pmap2 f Dh' Ph') end.
  match goal with |- context [ifft2_ortho (fourier_shift (pmap2 ?f Dh Ph) sx sy)] => set (S := pmap2 f Dh Ph) end.
  assert (plane_eq S' (pmap (fun z => (RtoC (-1) * z)%C) S)) as ES.
  { unfold S', S. split.
    - transitivity (shape Dh'); [reflexivity|]. rewrite (proj1 ED). reflexivity.
    - intros i j Hi Hj. cbn in Hi, Hj. unfold pmap, pmap2. cbn [px].
      rewrite (proj2 ED) by assumption. destruct (dims _ _ (proj1 ED)) as [T1 T2]. cbn in T1, T2.
      unfold shape in Sd. injection Sd as T3 T4.
      rewrite (proj2 EP).
      + cbn [pmap px]. rewrite minus_one. ring.
      + rewrite (proj1 (dims _ _ (proj1 EP))). cbn. lia.
      + rewrite (proj2 (dims _ _ (proj1 EP))). cbn. lia. }
  assert (plane_eq (ifft2_ortho (fourier_shift S' sx sy))
                   (pmap (fun z => (RtoC (-1) * z)%C) (ifft2_ortho (fourier_shift S sx sy)))) as EN.
  { eapply plane_eq_trans; [|apply ifft2_ortho_scale]. apply ifft2_ortho_ext.
    eapply plane_eq_trans; [apply fourier_shift_ext, ES|]. split; [reflexivity|].
    intros i j _ _. cbn. ring. }
  rewrite R1, R2.
  pose proof (noise_opp _ _ (c_rdata c) (c_shape c) both_kr S1 (sh_eta _)) as E1.
  pose proof (noise_opp _ _ (c_ndata c) (c_shape c) both_kn S2 (sh_eta _)) as E2.
  split; [unfold shape; cbn; now rewrite Sh|].
  intros i j Hi Hj. unfold frame in Hi, Hj. cbn [nr nc] in Hi, Hj. rewrite Sh in Hi, Hj.
  unfold frame, pmap at 1. cbn [px].
  destruct (dims _ _ S1) as [L1 L2]. destruct (dims _ _ S2) as [L3 L4].
  rewrite (proj2 E1), (proj2 E2) by (unfold noise_map; cbn; congruence).
  destruct (Ceq_dec _ (RtoC 0)) as [_|Hv]; [reflexivity|]. cbn [option_map]. f_equal.
  rewrite (proj2 EN).
  - cbn [pmap px]. set (num := px _ i j). set (v := csqrt _).
    replace (RtoC (-1) * num / v)%C with (RtoC (-1) * (num / v))%C by (unfold Cdiv; ring).
    unfold Cmult at 1, RtoC. cbn [fst snd]. ring.
  - unfold ifft2_ortho, fourier_shift, S', pmap2. cbn. rewrite (proj1 (dims _ _ (proj1 ED))). cbn.
    now rewrite (proj1 (dims _ _ Sc)).
  - unfold ifft2_ortho, fourier_shift, S', pmap2. cbn. rewrite (proj2 (dims _ _ (proj1 ED))). cbn.
    now rewrite (proj2 (dims _ _ Sc)).
Qed.
End Both.

(** The PSFs of both images with the other sign, and the same flux ratio and shift: the
    difference image has the other sign although its PSF has not, and so has the significance
    when the zero points are the same. *)
Lemma C109_both_lm : forall e x y beta shift it b dx dy D P S m D' P' S' m',
  no_vanishing_part x -> no_vanishing_part y ->
  ratio_and_shift e (Is x) (Is y) false beta shift it false = Ok (b, dx, dy) ->
  ratio_and_shift e (Is (with_negative_psf x)) (Is (with_negative_psf y)) false beta shift it false = Ok (b, dx, dy) ->
  subtract e (Is x) (Is y) false beta shift it false = Ok (D, P, S, m) ->
  subtract e (Is (with_negative_psf x)) (Is (with_negative_psf y)) false beta shift it false = Ok (D', P', S', m') ->
  plane_eq D' (pmap Copp D) /\ plane_eq P' P /\ m' = m /\
  (e_transp e (with_negative_psf x) (with_negative_psf y) = e_transp e x y -> plane_eq S' (pmap (option_map Ropp) S)).
Proof.
  intros e x y beta shift it b dx dy D P S m D' P' S' m' NX NY R R' H H'.
  destruct (subtract_inv _ _ _ _ _ _ _ _ _ H) as (c & b1 & dx1 & dy1 & E & _ & F1 & G1).
  destruct (subtract_inv _ _ _ _ _ _ _ _ _ H') as (c' & b2 & dx2 & dy2 & E' & _ & F2 & G2).
  rewrite R in F1. rewrite R' in F2. injection F1 as <- <- <-. injection F2 as <- <- <-.
  unfold difference in G1, G2. injection G1 as -> -> -> ->. injection G2 as -> -> -> ->.
  destruct (setup_images _ _ _ _ _ E) as (zr & zn & mix & Sxy & Em & Et & Ep).
  destruct (setup_images _ _ _ _ _ E') as (zr' & zn' & mix' & Sxy' & Em' & Et' & Ep').
  cbn [with_negative_psf d_shape d_mask] in Sxy', Em'. rewrite Em in Em'. injection Em' as <-.
  destruct (prepare_wf _ _ _ _ _ _ _ _ Sxy Ep) as (W & Cs & Vr & Vn & _ & Nz & M).
  destruct (prepare_wf _ false (with_negative_psf x) (with_negative_psf y) _ _ _ _ Sxy' Ep') as (W' & Cs' & Vr' & Vn' & _ & Nz' & M').
  destruct (prepare_inv _ _ _ _ _ _ _ _ Ep) as (_ & A1 & A2 & A3 & A4 & A5 & A6).
  destruct (prepare_inv _ _ _ _ _ _ _ _ Ep') as (_ & B1 & B2 & B3 & B4 & B5 & B6).
  cbn [with_negative_psf d_shape d_var used_psf d_stamp d_data] in A1, A2, A3, A4, A5, A6, B1, B2, B3, B4, B5, B6, Cs', Vr', Vn'.
  assert (Sh : c_shape c' = c_shape c) by congruence.
  assert (V1 : c_rvar c' = c_rvar c) by congruence. assert (V2 : c_nvar c' = c_nvar c) by congruence.
  assert (Q : forall u v, (u < fst (c_shape c))%nat -> (v < snd (c_shape c))%nat ->
    px (c_pr c') u v = (- px (c_pr c) u v)%C /\ px (c_pn c') u v = (- px (c_pn c) u v)%C /\
    px (c_dr c') u v = (- px (c_dr c) u v)%C /\ px (c_dn c') u v = (- px (c_dn c) u v)%C).
  { intros u v Hu Hv. rewrite Cs in Hu, Hv.
    assert (Q1 : px (c_pr c') u v = (- px (c_pr c) u v)%C).
    { rewrite B1, A1. now apply psf_hat_opp. }
    assert (Q2 : px (c_pn c') u v = (- px (c_pn c) u v)%C).
    { rewrite B2, A2. apply psf_hat_opp; [exact NY|rewrite Sxy; exact Hu|rewrite Sxy; exact Hv]. }
    split; [exact Q1|]. split; [exact Q2|].
    destruct (dims _ _ (wf_pn c W)) as [D1 D2]. destruct (dims _ _ (wf_pn c' W')) as [D1' D2'].
    destruct (dims _ _ (wf_pr c W)) as [D3 D4]. destruct (dims _ _ (wf_pr c' W')) as [D3' D4'].
    split.
    - rewrite B3, A3. unfold fourier_shift, pmap2. cbn [px nr nc]. rewrite Q2, com_opp, D1, D2, D1', D2', Cs, Cs'.
      change (ihat (with_negative_psf x)) with (ihat x). ring.
    - rewrite B4, A4. unfold fourier_shift, pmap2. cbn [px nr nc]. rewrite Q1, com_opp, D3, D4, D3', D4', Cs, Cs'.
      change (ihat (with_negative_psf y)) with (ihat y). ring. }
  pose proof (both_diff_hat c c' b W W' Sh V1 V2 Q dx dy) as ED.
  pose proof (both_psf_hat c c' b W W' Sh V1 V2 Q) as EP.
  assert (EPr : plane_eq (pmap fst (ifft2_ortho (diff_psf_hat c' b))) (pmap fst (ifft2_ortho (diff_psf_hat c b)))).
  { apply pmap_ext, ifft2_ortho_ext, EP. }
  split; [|split; [exact EPr|split; [congruence|]]].
  - eapply plane_eq_trans; [apply ifft2_ortho_ext, ED|].
    eapply plane_eq_trans; [apply ifft2_ortho_scale|]. split; [reflexivity|].
    intros i j _ _. cbn [pmap px]. rewrite minus_one. ring.
  - intros T. apply both_s_corr; auto; try congruence.
    + rewrite A5, Cs. apply sh_eta.
    + rewrite A6, Sxy, Cs. apply sh_eta.
    + transitivity (shape (c_dn c)); [reflexivity|]. transitivity (shape (c_pr c)); [|reflexivity].
      now rewrite (wf_dn c W), (wf_pr c W).
    + exact (wf_dn c W).
Qed.

Lemma neg_setup : exists c, setup plain_env (Is (lit (-1))) (Is (lit (-1))) false false = Ok c /\ c_ratio c = 1.
Proof.
  unfold setup; cbn [as_image bind lit d_shape fst snd Nat.eqb andb d_mask mask_or plain_env ex_env e_transp]; unfold lit;
    cbn [as_image bind d_shape fst snd Nat.eqb andb d_mask mask_or e_transp];
    unfold prepare; cbn [d_stamp d_shape]; rewrite !com_1 by lra; cbn [negb andb]; destruct (Rlt_dec 0 0) as [X|_]; [lra|];
    eexists; (split; [reflexivity|]); cbn [c_ratio]; field.
Qed.

Lemma C109_both_case_lm :
  let x := lit 1 in let y := lit 1 in let e := plain_env in
  no_vanishing_part x /\ no_vanishing_part y /\
  ratio_and_shift e (Is x) (Is y) false false false false false = Ok (1, 0, 0) /\
  ratio_and_shift e (Is (with_negative_psf x)) (Is (with_negative_psf y)) false false false false false = Ok (1, 0, 0) /\
  (exists r, subtract e (Is x) (Is y) false false false false false = Ok r) /\
  (exists r, subtract e (Is (with_negative_psf x)) (Is (with_negative_psf y)) false false false false false = Ok r) /\
  e_transp e (with_negative_psf x) (with_negative_psf y) = e_transp e x y.
Proof.
  cbn zeta. rewrite lit_neg.
  destruct (lit_runs 1 true ltac:(lra)) as (A1 & D1 & P1 & S1 & m1 & B1).
  destruct neg_setup as (c & E & Ec).
  split; [exact no_vanishing_lit|]. split; [exact no_vanishing_lit|]. split; [exact A1|].
  split; [unfold ratio_and_shift; rewrite E; cbn [bind fit]; now rewrite Ec|].
  split; [now exists (D1, P1, S1, m1)|]. split; [|reflexivity].
  unfold subtract. rewrite E. cbn [bind fit]. eexists. reflexivity.
Qed.
