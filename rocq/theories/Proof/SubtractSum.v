(** Sums of the difference PSF and of the difference image. *)
From Coq Require Import Arith ZArith List Bool Reals Lia Lra Psatz.
From Coquelicot Require Import Complex.
From Verif.Model Require Import Py Plane Ma Subtract.
From Verif.Spec Require Import Coadd Subtract.
From Verif.Proof Require Import Coadd Fourier CoaddMore Subtract SubtractMain.
Import ListNotations.
Set Bullet Behavior "Strict Subproofs".
Local Open Scope R_scope.

Definition side (sh : nat * nat) : R := sqrt (INR (fst sh) * INR (snd sh)).

Lemma side_pos sh : (0 < fst sh)%nat -> (0 < snd sh)%nat -> 0 < side sh.
Proof.
  intros H1 H2. apply sqrt_lt_R0. apply Rmult_lt_0_compat; now apply INR_pos.
Qed.

Lemma psum_ifft2_ortho F sh : shape F = sh -> (0 < fst sh)%nat -> (0 < snd sh)%nat ->
  psum (ifft2_ortho F) = (RtoC (side sh) * px F 0%nat 0%nat)%C.
Proof.
  intros <- H1 H2. unfold ifft2_ortho. rewrite psum_scale, psum_idft by assumption.
  cbn in H1, H2. pose proof (INR_pos _ H1) as P1. pose proof (INR_pos _ H2) as P2.
  rewrite Cmult_assoc, <- RtoC_mult. f_equal. f_equal. unfold side, shape. cbn [fst snd].
  assert (0 < INR (nr F) * INR (nc F)) as P by (now apply Rmult_lt_0_compat).
  rewrite <- (sqrt_sqrt (INR (nr F) * INR (nc F))) at 2 by lra. field.
  pose proof (sqrt_lt_R0 _ P). lra.
Qed.

Lemma fft2_ortho_00 f sh : shape f = sh ->
  px (fft2_ortho f) 0%nat 0%nat = (RtoC (/ side sh) * psum f)%C.
Proof.
  intros <-. unfold fft2_ortho, dft_raw. cbn [pmap px nr nc]. unfold side, shape. cbn [fst snd]. f_equal.
  apply csum_ext. intros x _. apply csum_ext. intros y _.
  replace (- (2 * PI * (INR 0 * INR x / INR (nr f) + INR 0 * INR y / INR (nc f)))) with 0.
  - rewrite cis_0. ring.
  - cbn. unfold Rdiv. ring.
Qed.

Lemma shift_00 F dx dy : (0 < nr F)%nat -> (0 < nc F)%nat -> px (fourier_shift F dx dy) 0%nat 0%nat = px F 0%nat 0%nat.
Proof.
  intros H1 H2. unfold fourier_shift. cbn [px]. unfold freq.
  assert (forall n, (0 < n)%nat -> (0 <? (n + 1) / 2)%nat = true) as H.
  { intros n Hn. apply Nat.ltb_lt. apply Nat.div_str_pos. lia. }
  rewrite !H by assumption.
  replace (- (2 * PI) * (INR 0 * dx / INR (nr F) + INR 0 * dy / INR (nc F))) with 0.
  - rewrite cis_0. ring.
  - cbn. unfold Rdiv. ring.
Qed.

Lemma csum_RtoC n f : csum n (fun i => RtoC (f i)) = RtoC (rsum n f).
Proof. induction n as [|n IH]; cbn; [reflexivity|]. now rewrite IH, RtoC_plus. Qed.

Lemma psum_RtoC p : psum (pmap RtoC p) = RtoC (psumR p).
Proof.
  unfold psum, psumR. cbn. rewrite <- csum_RtoC. apply csum_ext. intros i _. apply csum_RtoC.
Qed.

Lemma fst_csum n f : fst (csum n f) = rsum n (fun i => fst (f i)).
Proof. induction n as [|n IH]; cbn; [reflexivity|]. now rewrite IH. Qed.

Lemma psumR_fst p : psumR (pmap fst p) = fst (psum p).
Proof.
  unfold psum, psumR. cbn. rewrite fst_csum. apply rsum_ext. intros i _. now rewrite fst_csum.
Qed.

Lemma csum_pad n m f : (m <= n)%nat ->
  csum n (fun i => if (i <? m)%nat then f i else RtoC 0) = csum m f.
Proof.
  intros H. induction n as [|n IH].
  - now replace m with 0%nat by lia.
  - cbn [csum]. destruct (Nat.ltb_spec n m) as [L|L].
    + replace m with (S n) by lia. cbn [csum]. f_equal. apply csum_ext. intros i Hi.
      destruct (Nat.ltb_spec i (S n)); [reflexivity|lia].
    + rewrite IH by lia. ring.
Qed.

Lemma psum_pad sh p : (nr p <= fst sh)%nat -> (nc p <= snd sh)%nat -> psum (pad_to sh p) = psum p.
Proof.
  intros H1 H2. unfold psum, pad_to. cbn [nr nc px].
  rewrite <- (csum_pad (fst sh) (nr p) (fun i => csum (nc p) (fun j => px p i j))) by exact H1.
  apply csum_ext. intros i _. destruct (i <? nr p)%nat; cbn [andb].
  - now apply csum_pad.
  - apply csum_0.
Qed.

Lemma psf_hat_00 sh p s : psumR p = s -> 0 < s -> (nr p <= fst sh)%nat -> (nc p <= snd sh)%nat ->
  (0 < fst sh)%nat -> (0 < snd sh)%nat -> px (psf_hat sh p) 0%nat 0%nat = RtoC (s / side sh).
Proof.
  intros Es Hs H1 H2 Q1 Q2. unfold psf_hat. cbn [pmap px].
  rewrite (fft2_ortho_00 _ sh) by (apply sh_eta). rewrite psum_pad by assumption.
  rewrite psum_RtoC, Es, <- RtoC_mult. replace (/ side sh * s) with (s / side sh) by (unfold Rdiv; ring).
  pose proof (side_pos sh Q1 Q2) as P. unfold no_zero. cbn [fst RtoC].
  destruct (Req_EM_T (s / side sh) 0) as [E|_]; [|reflexivity].
  assert (0 < s / side sh) by (now apply Rdiv_lt_0_compat). lra.
Qed.

Lemma ihat_00 x : px (ihat x) 0%nat 0%nat = RtoC (flux x / side (d_shape x)).
Proof.
  unfold ihat. rewrite (fft2_ortho_00 _ (d_shape x)) by (apply sh_eta).
  change (frame (d_shape x) (fun i j => RtoC (d_interped x i j)))
    with (pmap RtoC (frame (d_shape x) (d_interped x))).
  rewrite psum_RtoC, <- RtoC_mult. f_equal. unfold flux, frame, Rdiv. ring.
Qed.

(** Values at zero frequency. *)
Lemma ctx_00 e x y fitted c s : setup e (Is x) (Is y) false fitted = Ok c ->
  psumR (used_psf fitted x) = s -> psumR (used_psf fitted y) = s -> 0 < s ->
  psf_inside fitted x -> psf_inside fitted y -> (0 < fst (d_shape x))%nat -> (0 < snd (d_shape x))%nat ->
  0 < d_var y ->
  let n := side (d_shape x) in
  wf c /\ d_shape y = d_shape x /\ c_shape c = d_shape x /\
  px (c_pr c) 0%nat 0%nat = RtoC (s / n) /\ px (c_pn c) 0%nat 0%nat = RtoC (s / n) /\
  px (c_dr c) 0%nat 0%nat = RtoC (s / n * (flux x / n)) /\ px (c_dn c) 0%nat 0%nat = RtoC (s / n * (flux y / n)) /\
  c_rvar c = d_var x /\ c_nvar c = d_var y /\
  (forall b, csqrt (px (norm2 c b) 0%nat 0%nat) = RtoC (s / n * sqrt (d_var y ^ 2 + b ^ 2 * d_var x ^ 2))) /\
  (forall b, 0 < sqrt (d_var y ^ 2 + b ^ 2 * d_var x ^ 2)).
Proof.
  intros E Sx Sy Hs Ix Iy Q1 Q2 Hv n.
  destruct (setup_images _ _ _ _ _ E) as (zr & zn & mix & Sh & _ & _ & Ep).
  destruct (prepare_wf _ _ _ _ _ _ _ _ Sh Ep) as (W & Cs & Vr & Vn & _).
  destruct (prepare_inv _ _ _ _ _ _ _ _ Ep) as (_ & Epr & Epn & Edr & Edn & _).
  pose proof (side_pos _ Q1 Q2) as Hn. fold n in Hn.
  assert (px (c_pr c) 0%nat 0%nat = RtoC (s / n)) as Pr.
  { rewrite Epr. apply psf_hat_00; auto; apply Ix. }
  assert (px (c_pn c) 0%nat 0%nat = RtoC (s / n)) as Pn.
  { rewrite Epn, Sh. unfold psf_inside in Iy. rewrite Sh in Iy. apply psf_hat_00; auto; apply Iy. }
  assert (forall b, 0 < d_var y ^ 2 + b ^ 2 * d_var x ^ 2) as HV.
  { intros b. assert (0 < d_var y ^ 2) by (apply pow_lt; exact Hv).
    assert (0 <= b ^ 2 * d_var x ^ 2) by (apply Rmult_le_pos; apply pow2_ge_0). lra. }
  assert (0 < s / n) as Hsn by (now apply Rdiv_lt_0_compat).
  split; [exact W|]. split; [exact Sh|]. split; [exact Cs|]. split; [exact Pr|]. split; [exact Pn|].
  destruct (dims _ _ (wf_pn c W)) as [L1 L2]. destruct (dims _ _ (wf_pr c W)) as [L3 L4]. rewrite Cs in L1, L2, L3, L4.
  split; [|split].
  - rewrite Edr, shift_00 by (cbn; lia). unfold pmap2. cbn [px]. rewrite Pn, ihat_00, <- RtoC_mult. reflexivity.
  - rewrite Edn, shift_00 by (cbn; lia). unfold pmap2. cbn [px]. rewrite Pr, ihat_00, <- RtoC_mult, Sh. reflexivity.
  - split; [exact Vr|]. split; [exact Vn|]. split.
    + intros b. rewrite norm2_cell by exact W. rewrite csqrt_pos by (apply nrm_pos; [exact W|congruence]).
      f_equal. unfold nrm. rewrite Pr, Pn, Vr, Vn. cbn [fst snd RtoC].
      replace (d_var y ^ 2 * ((s / n) ^ 2 + 0 ^ 2) + d_var x ^ 2 * ((s / n) ^ 2 + 0 ^ 2) * b ^ 2)
        with ((s / n) ^ 2 * (d_var y ^ 2 + b ^ 2 * d_var x ^ 2)) by (cbn; ring).
      rewrite sqrt_mult; [|apply pow2_ge_0|specialize (HV b); lra].
      rewrite sqrt_pow2 by lra. reflexivity.
    + intros b. apply sqrt_lt_R0, HV.
Qed.

Lemma RtoC_neq x : x <> 0 -> RtoC x <> RtoC 0.
Proof. intros H E. apply H. now apply RtoC_inj'. Qed.

Lemma psf_sum e x y beta shift it fitted s b dx dy D P S m :
  psumR (used_psf fitted x) = s -> psumR (used_psf fitted y) = s -> 0 < s ->
  psf_inside fitted x -> psf_inside fitted y -> (0 < fst (d_shape x))%nat -> (0 < snd (d_shape x))%nat ->
  0 < d_var y ->
  ratio_and_shift e (Is x) (Is y) false beta shift it fitted = Ok (b, dx, dy) ->
  subtract e (Is x) (Is y) false beta shift it fitted = Ok (D, P, S, m) ->
  (b <> 0 -> psumR P = s) /\
  psum D = RtoC ((flux y - b * flux x) / sqrt (d_var y ^ 2 + b ^ 2 * d_var x ^ 2)).
Proof.
  intros Sx Sy Hs Ix Iy Q1 Q2 Hv Hr Hsb.
  destruct (subtract_inv _ _ _ _ _ _ _ _ _ Hsb) as (c & b1 & dx1 & dy1 & E1 & _ & E3 & E4).
  rewrite Hr in E3. injection E3 as <- <- <-.
  destruct (ctx_00 _ _ _ _ _ _ E1 Sx Sy Hs Ix Iy Q1 Q2 Hv)
    as (W & Sh & Cs & Pr & Pn & Dr & Dn & Vr & Vn & Nm & Np).
  set (n := side (d_shape x)) in *. pose proof (side_pos _ Q1 Q2) as Hn. fold n in Hn.
  unfold difference in E4. injection E4 as -> -> _ _.
  specialize (Nm b). specialize (Np b). set (q := sqrt (d_var y ^ 2 + b ^ 2 * d_var x ^ 2)) in *.
  split.
  - intros Hb. rewrite psumR_fst, (psum_ifft2_ortho _ (c_shape c)).
    + fold n. unfold diff_psf_hat. unfold pmap2 at 1 2. cbn [px]. rewrite Nm, Pr, Pn, Cs. fold n.
      assert (diff_zp c b = b / q) as ->.
      { unfold diff_zp, q. rewrite Vr, Vn. f_equal. f_equal. ring. }
      rewrite <- !RtoC_mult, <- RtoC_div, <- RtoC_mult.
      * cbn. field. repeat split; lra.
      * apply Rmult_integral_contrapositive. split.
        -- apply Rmult_integral_contrapositive. split; [|lra]. apply Rgt_not_eq. now apply Rdiv_lt_0_compat.
        -- unfold Rdiv. apply Rmult_integral_contrapositive. split; [exact Hb|]. apply Rinv_neq_0_compat. lra.
    + exact (wf_pr c W).
    + rewrite Cs. exact Q1.
    + rewrite Cs. exact Q2.
  - assert (shape (diff_hat c b dx dy) = c_shape c) as Sd by exact (wf_dn c W).
    rewrite (psum_ifft2_ortho _ _ Sd) by (rewrite Cs; assumption). rewrite Cs. fold n.
    destruct (dims _ _ (wf_dr c W)) as [L1 L2]. rewrite Cs in L1, L2.
    assert (px (diff_hat c b dx dy) 0%nat 0%nat =
            ((px (c_dn c) 0%nat 0%nat - RtoC b * px (c_dr c) 0%nat 0%nat) / csqrt (px (norm2 c b) 0%nat 0%nat))%C) as ->.
    { unfold diff_hat. unfold pmap2 at 1 2. cbn [px]. f_equal. f_equal. f_equal.
      destruct (Req_EM_T dx 0); [destruct (Req_EM_T dy 0)|]; [reflexivity|..];
        rewrite shift_00 by (cbn; lia); reflexivity. }
    rewrite Nm, Dn, Dr, <- !RtoC_mult, <- RtoC_minus, <- RtoC_div, <- RtoC_mult.
    + f_equal. field. repeat split; lra.
    + apply Rmult_integral_contrapositive. split; [|lra]. apply Rgt_not_eq. now apply Rdiv_lt_0_compat.
Qed.
