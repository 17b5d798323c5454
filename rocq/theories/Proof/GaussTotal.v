(** Totals and centres of a subtraction with PSFs of different sums. *)
From Coq Require Import Arith ZArith List Bool Reals Lia Lra Psatz.
From Flocq Require Import Core.
From Coquelicot Require Import Complex.
From Verif.Model Require Import Py Plane Ma Subtract Gauss GaussSub.
From Verif.Spec Require Import Coadd Subtract GaussImage GaussSub.
From Verif.Proof Require Import Coadd Fourier CoaddMore Subtract SubtractMain SubtractSum SubtractFit.
Import ListNotations.
Set Bullet Behavior "Strict Subproofs".
Local Open Scope R_scope.
Local Notation rsum := Subtract.rsum.

(** The total of the difference image and of its PSF, for PSFs with the sums [sr] and [sn]. *)
Lemma C122_total_lm : forall e x y beta shift it fitted sr sn b dx dy D P S m,
  psumR (used_psf fitted x) = sr -> psumR (used_psf fitted y) = sn -> 0 < sr -> 0 < sn ->
  psf_inside fitted x -> psf_inside fitted y -> (0 < fst (d_shape x))%nat -> (0 < snd (d_shape x))%nat ->
  0 < d_var y ->
  ratio_and_shift e (Is x) (Is y) false beta shift it fitted = Ok (b, dx, dy) ->
  subtract e (Is x) (Is y) false beta shift it fitted = Ok (D, P, S, m) ->
  let q := sqrt ((d_var y * sr) ^ 2 + (b * d_var x * sn) ^ 2) in
  0 < q /\
  psum D = RtoC ((sr * flux y - b * sn * flux x) / q) /\
  (b <> 0 -> psumR P = sr * sn * sqrt (d_var y ^ 2 + (b * d_var x) ^ 2) / q).
Proof.
  intros e x y beta shift it fitted sr sn b dx dy D P S m Sx Sy Hr Hn' Ix Iy Q1 Q2 Hv Hra Hsb q.
  destruct (subtract_inv _ _ _ _ _ _ _ _ _ Hsb) as (c & b1 & dx1 & dy1 & E & _ & E3 & E4).
  rewrite Hra in E3. injection E3 as <- <- <-.
  destruct (setup_images _ _ _ _ _ E) as (zr & zn & mix & Sh & _ & _ & Ep).
  destruct (prepare_wf _ _ _ _ _ _ _ _ Sh Ep) as (W & Cs & Vr & Vn & _).
  destruct (prepare_inv _ _ _ _ _ _ _ _ Ep) as (_ & Epr & Epn & Edr & Edn & _).
  set (n := side (d_shape x)) in *. pose proof (side_pos _ Q1 Q2) as Hn. fold n in Hn.
  assert (px (c_pr c) 0%nat 0%nat = RtoC (sr / n)) as Pr.
  { rewrite Epr. apply psf_hat_00; auto; apply Ix. }
  assert (px (c_pn c) 0%nat 0%nat = RtoC (sn / n)) as Pn.
  { rewrite Epn, Sh. unfold psf_inside in Iy. rewrite Sh in Iy. apply psf_hat_00; auto; apply Iy. }
  assert (0 < (d_var y * sr) ^ 2 + (b * d_var x * sn) ^ 2) as HV.
  { assert (0 < (d_var y * sr) ^ 2) by (apply pow_lt, Rmult_lt_0_compat; assumption).
    pose proof (pow2_ge_0 (b * d_var x * sn)). lra. }
  assert (Hq : 0 < q) by (apply sqrt_lt_R0, HV).
  destruct (dims _ _ (wf_pn c W)) as [L1 L2]. destruct (dims _ _ (wf_pr c W)) as [L3 L4]. rewrite Cs in L1, L2, L3, L4.
  assert (Dr : px (c_dr c) 0%nat 0%nat = RtoC (sn / n * (flux x / n))).
  { rewrite Edr, shift_00 by (cbn; lia). unfold pmap2. cbn [px]. rewrite Pn, ihat_00, <- RtoC_mult. reflexivity. }
  assert (Dn : px (c_dn c) 0%nat 0%nat = RtoC (sr / n * (flux y / n))).
  { rewrite Edn, shift_00 by (cbn; lia). unfold pmap2. cbn [px]. rewrite Pr, ihat_00, <- RtoC_mult, Sh. reflexivity. }
  assert (Nm : csqrt (px (norm2 c b) 0%nat 0%nat) = RtoC (q / n)).
  { rewrite norm2_cell by exact W. rewrite csqrt_pos by (apply nrm_pos; [exact W|congruence]).
    f_equal. unfold nrm. rewrite Pr, Pn, Vr, Vn. cbn [fst snd RtoC].
    replace (d_var y ^ 2 * ((sr / n) ^ 2 + 0 ^ 2) + d_var x ^ 2 * ((sn / n) ^ 2 + 0 ^ 2) * b ^ 2)
      with (((d_var y * sr) ^ 2 + (b * d_var x * sn) ^ 2) * (/ n) ^ 2) by (field; lra).
    assert (0 < / n) by now apply Rinv_0_lt_compat.
    rewrite sqrt_mult; [|lra|apply pow2_ge_0]. rewrite sqrt_pow2 by lra. reflexivity. }
  unfold difference in E4. injection E4 as -> -> _ _.
  assert (Qn : q / n <> 0) by (apply Rgt_not_eq, Rdiv_lt_0_compat; assumption).
  split; [exact Hq|]. split.
  - assert (shape (diff_hat c b dx dy) = c_shape c) as Sd by exact (wf_dn c W).
    rewrite (psum_ifft2_ortho _ _ Sd) by (rewrite Cs; assumption). rewrite Cs. fold n.
    destruct (dims _ _ (wf_dr c W)) as [K1 K2]. rewrite Cs in K1, K2.
    assert (px (diff_hat c b dx dy) 0%nat 0%nat =
            ((px (c_dn c) 0%nat 0%nat - RtoC b * px (c_dr c) 0%nat 0%nat) / csqrt (px (norm2 c b) 0%nat 0%nat))%C) as ->.
    { unfold diff_hat. unfold pmap2 at 1 2. cbn [px]. f_equal. f_equal. f_equal.
      destruct (Req_EM_T dx 0); [destruct (Req_EM_T dy 0)|]; [reflexivity|..];
        rewrite shift_00 by (cbn; lia); reflexivity. }
    rewrite Nm, Dn, Dr, <- !RtoC_mult, <- RtoC_minus, <- RtoC_div, <- RtoC_mult by exact Qn.
    f_equal. field. repeat split; lra.
  - intros Hb. rewrite psumR_fst, (psum_ifft2_ortho _ (c_shape c)).
    + unfold diff_psf_hat. unfold pmap2 at 1 2. cbn [px]. rewrite Nm, Pr, Pn, Cs. fold n.
      set (r := sqrt (d_var y ^ 2 + (b * d_var x) ^ 2)).
      assert (Hr2 : 0 < r).
      { apply sqrt_lt_R0. assert (0 < d_var y ^ 2) by (apply pow_lt; exact Hv). pose proof (pow2_ge_0 (b * d_var x)). lra. }
      assert (diff_zp c b = b / r) as ->.
      { unfold diff_zp, r. rewrite Vr, Vn. f_equal. f_equal. ring. }
      rewrite <- !RtoC_mult, <- RtoC_div, <- RtoC_mult.
      * cbn. field. repeat split; lra.
      * apply Rmult_integral_contrapositive. split; [exact Qn|].
        unfold Rdiv. apply Rmult_integral_contrapositive. split; [exact Hb|]. apply Rinv_neq_0_compat. lra.
    + exact (wf_pr c W).
    + rewrite Cs. exact Q1.
    + rewrite Cs. exact Q2.
Qed.

(** If no source changed, the total of the difference is zero only if the PSFs have the same
    sum. *)
Lemma C122_unchanged_lm : forall e x y beta shift it fitted sr sn b dx dy D P S m,
  psumR (used_psf fitted x) = sr -> psumR (used_psf fitted y) = sn -> 0 < sr -> 0 < sn ->
  psf_inside fitted x -> psf_inside fitted y -> (0 < fst (d_shape x))%nat -> (0 < snd (d_shape x))%nat ->
  0 < d_var y ->
  ratio_and_shift e (Is x) (Is y) false beta shift it fitted = Ok (b, dx, dy) ->
  subtract e (Is x) (Is y) false beta shift it fitted = Ok (D, P, S, m) ->
  flux y = b * flux x -> flux y <> 0 -> (psum D = RtoC 0 <-> sr = sn).
Proof.
  intros e x y beta shift it fitted sr sn b dx dy D P S m Sx Sy Hr Hn Ix Iy Q1 Q2 Hv Hra Hsb Fl Nz.
  destruct (C122_total_lm e x y beta shift it fitted sr sn b dx dy D P S m Sx Sy Hr Hn Ix Iy Q1 Q2 Hv Hra Hsb) as (Hq & -> & _).
  set (q := sqrt _) in *. replace (b * sn * flux x) with (sn * flux y) by (rewrite Fl; ring).
  split.
  - intros H. injection H as H. assert (E : (sr - sn) * flux y = 0).
    { replace ((sr - sn) * flux y) with ((sr * flux y - sn * flux y) / q * q) by (field; lra). rewrite H. ring. }
    apply Rmult_integral in E. destruct E; [lra|contradiction].
  - intros ->. f_equal. field. lra.
Qed.

Section Bell.
Variables a b t : R.
Hypothesis Ha : 0 < a.
Hypothesis Hb : 0 < b.

Lemma rotated_0 x y : rotated a b t x y = 0 -> x = 0 /\ y = 0.
Proof.
  unfold rotated. intros H. pose proof (pow2_ge_0 ((x * cos t + y * sin t) / a)) as A.
  pose proof (pow2_ge_0 ((y * cos t - x * sin t) / b)) as B.
  assert (A0 : (x * cos t + y * sin t) / a = 0) by nra. assert (B0 : (y * cos t - x * sin t) / b = 0) by nra.
  assert (A1 : x * cos t + y * sin t = 0).
  { replace (x * cos t + y * sin t) with ((x * cos t + y * sin t) / a * a) by (field; lra). rewrite A0. ring. }
  assert (B1 : y * cos t - x * sin t = 0).
  { replace (y * cos t - x * sin t) with ((y * cos t - x * sin t) / b * b) by (field; lra). rewrite B0. ring. }
  pose proof (sin2_cos2 t) as C. unfold Rsqr in C. split; nra.
Qed.

Lemma rotated_nonneg x y : 0 <= rotated a b t x y.
Proof. unfold rotated. pose proof (pow2_ge_0 ((x * cos t + y * sin t) / a)). pose proof (pow2_ge_0 ((y * cos t - x * sin t) / b)). lra. Qed.
End Bell.

Lemma square_wider z a a' : 0 < a -> a < a' -> (z / a') ^ 2 <= (z / a) ^ 2 /\ (z <> 0 -> (z / a') ^ 2 < (z / a) ^ 2).
Proof.
  intros Ha L. assert (I : 0 < / a' < / a) by (split; [apply Rinv_0_lt_compat; lra|apply Rinv_lt_contravar; nra]).
  unfold Rdiv. rewrite !Rpow_mult_distr. assert (J : (/ a') ^ 2 < (/ a) ^ 2) by nra.
  pose proof (pow2_ge_0 z). split; [nra|]. intros Nz. assert (0 < z ^ 2) by nra. nra.
Qed.

Lemma rotated_wider a b a' b' t x y : 0 < a -> a < a' -> 0 < b -> b < b' ->
  rotated a' b' t x y <= rotated a b t x y /\ (x <> 0 \/ y <> 0 -> rotated a' b' t x y < rotated a b t x y).
Proof.
  intros Ha La Hb Lb. unfold rotated.
  destruct (square_wider (x * cos t + y * sin t) a a' Ha La) as [A1 A2].
  destruct (square_wider (y * cos t - x * sin t) b b' Hb Lb) as [B1 B2]. split; [lra|]. intros N.
  destruct (Req_dec (x * cos t + y * sin t) 0) as [E|E]; [|specialize (A2 E); lra].
  destruct (Req_dec (y * cos t - x * sin t) 0) as [E'|E']; [|specialize (B2 E'); lra].
  exfalso. pose proof (sin2_cos2 t) as C. unfold Rsqr in C. destruct N as [N|N]; apply N; nra.
Qed.

Lemma rsum_le' n f g : (forall i, (i < n)%nat -> f i <= g i) -> rsum n f <= rsum n g.
Proof.
  induction n as [|n IH]; intros H; cbn; [lra|]. pose proof (H n ltac:(lia)). specialize (IH (fun i L => H i (Nat.lt_lt_succ_r _ _ L))). lra.
Qed.

Lemma rsum_lt n f g k : (k < n)%nat -> (forall i, (i < n)%nat -> f i <= g i) -> f k < g k -> rsum n f < rsum n g.
Proof.
  induction n as [|n IH]; intros L H S; [lia|]. cbn. pose proof (H n ltac:(lia)) as Hn.
  assert (H' : forall i, (i < n)%nat -> f i <= g i) by (intros i Li; apply H; lia).
  destruct (Nat.eq_dec k n) as [->|Ne].
  - pose proof (rsum_le' n f g H'). lra.
  - specialize (IH ltac:(lia) H' S). lra.
Qed.

Lemma psumR_lt sh f g : (0 < fst sh)%nat -> (0 < snd sh)%nat ->
  (forall i j, (i < fst sh)%nat -> (j < snd sh)%nat -> f i j <= g i j) -> f 0%nat 0%nat < g 0%nat 0%nat ->
  psumR (mkplane (fst sh) (snd sh) f) < psumR (mkplane (fst sh) (snd sh) g).
Proof.
  intros H1 H2 H S. unfold psumR. cbn [nr nc px]. apply (rsum_lt _ _ _ 0 H1).
  - intros i Hi. apply rsum_le'. intros j Hj. now apply H.
  - apply (rsum_lt _ _ _ 0 H2); [|exact S]. intros j Hj. now apply H.
Qed.

(** The sum of a Gaussian of height one in a frame grows with its widths. *)
Lemma wider_sum u v a b a' b' t y0 x0 : d_shape v = d_shape u ->
  (0 < fst (d_shape u))%nat -> (0 < snd (d_shape u))%nat -> 0 < a < a' -> 0 < b < b' -> 0 < x0 ->
  gaussian_at (d_render u) (d_shape u) a b t y0 x0 -> gaussian_at (d_render v) (d_shape v) a' b' t y0 x0 ->
  0 < psumR (used_psf true u) < psumR (used_psf true v).
Proof.
  intros Sh H1 H2 [Ha La] [Hb Lb] X0 Gu Gv. unfold used_psf. rewrite Sh in *. split.
  - replace 0 with (psumR (mkplane (fst (d_shape u)) (snd (d_shape u)) (fun _ _ => 0))).
    + apply psumR_lt; try assumption.
      * intros i j Hi Hj. rewrite (Gu i j Hi Hj). left. apply exp_pos.
      * rewrite (Gu 0%nat 0%nat H1 H2). apply exp_pos.
    + unfold psumR. cbn [nr nc px]. assert (Z : forall n, rsum n (fun _ => 0) = 0) by (induction n as [|n IH]; cbn; [reflexivity|rewrite IH; ring]).
      assert (Z2 : forall m n, rsum n (fun _ => rsum m (fun _ => 0)) = 0).
      { intros m. rewrite Z. exact Z. }
      apply Z2.
  - apply psumR_lt; try assumption.
    + intros i j Hi Hj. rewrite (Gu i j Hi Hj), (Gv i j Hi Hj).
      destruct (rotated_wider a b a' b' t (INR j - x0) (INR i - y0) Ha La Hb Lb) as [[L|L] _].
      * left. apply exp_increasing. lra.
      * right. f_equal. lra.
    + rewrite (Gu 0%nat 0%nat H1 H2), (Gv 0%nat 0%nat H1 H2).
      destruct (rotated_wider a b a' b' t (INR 0 - x0) (INR 0 - y0) Ha La Hb Lb) as [_ L].
      apply exp_increasing. specialize (L ltac:(left; cbn; lra)). lra.
Qed.

(** Worse seeing in the new image, and nothing else changed: the total of the difference is
    negative. *)
Lemma C122_seeing_refuted_lm : forall e u v beta shift it a b a' b' th y0 x0 r dx dy D P S m,
  d_shape v = d_shape u -> (0 < fst (d_shape u))%nat -> (0 < snd (d_shape u))%nat -> 0 < x0 -> 0 < d_var v ->
  gaussian_at (d_render u) (d_shape u) a b th y0 x0 -> gaussian_at (d_render v) (d_shape v) a' b' th y0 x0 ->
  0 < a < a' -> 0 < b < b' ->
  ratio_and_shift e (Is u) (Is v) false beta shift it true = Ok (r, dx, dy) ->
  subtract e (Is u) (Is v) false beta shift it true = Ok (D, P, S, m) ->
  flux v = r * flux u -> 0 < flux v ->
  exists t, psum D = RtoC t /\ t < 0.
Proof.
  intros e u v beta shift it a b a' b' th y0 x0 r dx dy D P S m Sh H1 H2 X0 Hv Gu Gv Wa Wb Hr Hs Fl Pos.
  destruct (wider_sum u v a b a' b' th y0 x0 Sh H1 H2 Wa Wb X0 Gu Gv) as [S0 S1].
  assert (Iu : psf_inside true u) by (split; cbn; apply le_n).
  assert (Iv : psf_inside true v) by (split; cbn; apply le_n).
  destruct (C122_total_lm e u v beta shift it true _ _ r dx dy D P S m eq_refl eq_refl S0 ltac:(lra) Iu Iv H1 H2 Hv Hr Hs) as (Hq & -> & _).
  eexists. split; [reflexivity|]. set (q := sqrt _) in *.
  replace (r * psumR (used_psf true v) * flux u) with (psumR (used_psf true v) * flux v) by (rewrite Fl; ring).
  assert (0 < / q) by now apply Rinv_0_lt_compat. unfold Rdiv.
  assert ((psumR (used_psf true u) * flux v - psumR (used_psf true v) * flux v) < 0) by nra. nra.
Qed.

(** In a frame at least twice as wide as high, the values of a PSF with its axes along those of
    the frame grow from each row to the next. *)
Lemma C122_axes_refuted_lm : forall u a b i j,
  gaussian_at (d_render u) (d_shape u) a b 0 (INR (snd (d_shape u)) / 2) (INR (fst (d_shape u)) / 2) -> b <> 0 ->
  (2 * fst (d_shape u) <= snd (d_shape u))%nat -> (S i < fst (d_shape u))%nat -> (j < snd (d_shape u))%nat ->
  d_render u i j < d_render u (S i) j < 1.
Proof.
  intros u a b i j G Hb W Hi Hj. rewrite (G i j), (G (S i) j) by lia. unfold rotated. rewrite cos_0, sin_0.
  apply le_INR in W. rewrite mult_INR in W. apply lt_INR in Hi. rewrite S_INR in *. cbn [INR] in W.
  pose proof (pos_INR i). set (c := INR (snd (d_shape u)) / 2) in *. set (k := INR (fst (d_shape u)) / 2) in *.
  assert (Hc : INR i + 1 < c) by (unfold c; lra).
  assert (B : 0 < / b ^ 2) by (apply Rinv_0_lt_compat; nra).
  set (A := ((INR j - k) * 1 + (INR i - c) * 0) / a).
  assert (E1 : (((INR i - c) * 1 - (INR j - k) * 0) / b) ^ 2 = (INR i - c) ^ 2 * / b ^ 2) by (field; exact Hb).
  assert (E2 : (((INR i + 1 - c) * 1 - (INR j - k) * 0) / b) ^ 2 = (INR i + 1 - c) ^ 2 * / b ^ 2) by (field; exact Hb).
  rewrite E1, E2. replace (((INR j - k) * 1 + (INR i + 1 - c) * 0) / a) with A by (unfold A; f_equal; ring).
  pose proof (pow2_ge_0 A). assert (0 < (INR i + 1 - c) ^ 2 * / b ^ 2) by (apply Rmult_lt_0_compat; nra).
  assert (L : (INR i + 1 - c) ^ 2 * / b ^ 2 < (INR i - c) ^ 2 * / b ^ 2) by (apply Rmult_lt_compat_r; [exact B|nra]).
  split.
  - apply exp_increasing. unfold A in *. lra.
  - apply (Rlt_le_trans _ (exp 0)); [apply exp_increasing; lra|rewrite exp_0; lra].
Qed.

(** The Gaussian along one axis. *)
Definition bell1 (n : nat) (w : R) (i : nat) : R := exp (- ((INR i - INR n / 2) / w) ^ 2 / 2).

Lemma rsum_rev' n f : rsum n f = rsum n (fun i => f (n - 1 - i)%nat).
Proof.
  induction n as [|n IH]; [reflexivity|]. rewrite (rsum_shift n (fun i => f (S n - 1 - i)%nat)). cbn [Subtract.rsum].
  replace (S n - 1 - 0)%nat with n by lia. rewrite IH.
  rewrite (rsum_ext n (fun i => f (S n - 1 - S i)%nat) (fun i => f (n - 1 - i)%nat)); [ring|]. intros i Hi. f_equal. lia.
Qed.

Lemma bell1_sym n w i : (i < n)%nat -> bell1 n w (S i) = bell1 n w (n - S i).
Proof.
  intros H. unfold bell1. f_equal. rewrite minus_INR by lia. rewrite S_INR. unfold Rdiv. rewrite !Rpow_mult_distr.
  replace ((INR n - (INR i + 1) - INR n * / 2) ^ 2) with ((INR i + 1 - INR n * / 2) ^ 2) by field. reflexivity.
Qed.

Lemma bell1_moment n w : rsum (S n) (fun i => bell1 (S n) w i * INR i) =
  INR (S n) / 2 * (rsum (S n) (bell1 (S n) w) - bell1 (S n) w 0).
Proof.
  set (N := S n). assert (X : rsum n (fun i => (INR N / 2 - INR (S i)) * bell1 N w (S i)) = 0).
  { set (T := rsum _ _). assert (T = - T); [|lra]. unfold T at 1. rewrite rsum_rev'.
    transitivity (rsum n (fun i => (-1) * ((INR N / 2 - INR (S i)) * bell1 N w (S i)))).
    - apply rsum_ext. intros i Hi. rewrite (bell1_sym N w i) by (unfold N; lia).
      replace (S (n - 1 - i)) with (N - S i)%nat by (unfold N; lia). rewrite minus_INR by (unfold N; lia). field.
    - rewrite SubtractFit.rsum_scale. fold T. ring. }
  rewrite !(rsum_shift n). cbn [INR]. rewrite Rmult_0_r, Rplus_0_l.
  assert (Y : forall m, rsum m (fun i => bell1 N w (S i) * INR (S i)) = INR N / 2 * rsum m (fun i => bell1 N w (S i)) -
     rsum m (fun i => (INR N / 2 - INR (S i)) * bell1 N w (S i))).
  { induction m as [|m IH]; cbn [Subtract.rsum]; [ring|]. rewrite IH. ring. }
  rewrite Y, X. ring.
Qed.

Lemma rsum_prod' N M f g : rsum N (fun i => rsum M (fun j => f i * g j)) = rsum N f * rsum M g.
Proof.
  assert (A : forall k, rsum M (fun j => k * g j) = k * rsum M g) by (intros k; apply SubtractFit.rsum_scale).
  induction N as [|N IH]; cbn [Subtract.rsum]; [ring|]. rewrite IH, A. ring.
Qed.

Lemma bell1_pos n w i : 0 < bell1 n w i.
Proof. apply exp_pos. Qed.

Lemma bell1_sum_pos n w : 0 < rsum (S n) (bell1 (S n) w).
Proof.
  replace 0 with (rsum (S n) (fun _ => 0)).
  - apply (rsum_lt _ _ _ 0); [lia| |apply bell1_pos]. intros i _. left. apply bell1_pos.
  - induction (S n) as [|m IH]; cbn; [reflexivity|]. rewrite IH. ring.
Qed.

Lemma bell_split u a b n i j : d_shape u = (n, n) ->
  gaussian_at (d_render u) (n, n) a b 0 (INR n / 2) (INR n / 2) -> (i < n)%nat -> (j < n)%nat ->
  d_render u i j = bell1 n b i * bell1 n a j.
Proof.
  intros Sh G Hi Hj. rewrite (G i j Hi Hj). unfold bell1. rewrite <- exp_plus. f_equal. unfold rotated. rewrite cos_0, sin_0.
  rewrite !Rmult_1_r, !Rmult_0_r, Rplus_0_r, Rminus_0_r. unfold Rdiv; ring.
Qed.

(** The centre of mass of a PSF whose axes are those of a square frame of n x n pixels. *)
Lemma C122_centre_lm : forall u a b n, d_shape u = (n, n) -> (0 < n)%nat ->
  gaussian_at (d_render u) (n, n) a b 0 (INR n / 2) (INR n / 2) ->
  let along w i := exp (- ((INR i - INR n / 2) / w) ^ 2 / 2) in
  let part w := along w 0%nat / rsum n (along w) in
  center_of_mass (used_psf true u) = (INR n / 2 * (1 - part b), INR n / 2 * (1 - part a)).
Proof.
  intros u a b n Sh Hn G along part. destruct n as [|n]; [lia|]. set (N := S n) in *.
  change along with (bell1 N) in *. unfold part.
  assert (C : forall i j, (i < N)%nat -> (j < N)%nat -> d_render u i j = bell1 N b i * bell1 N a j)
    by (intros i j Hi Hj; exact (bell_split u a b N i j Sh G Hi Hj)).
  unfold center_of_mass, used_psf, psumR. rewrite Sh. cbn [nr nc px fst snd].
  assert (T : rsum N (fun i => rsum N (fun j => d_render u i j)) = rsum N (bell1 N b) * rsum N (bell1 N a)).
  { rewrite <- rsum_prod'. apply rsum_ext. intros i Hi. apply rsum_ext. intros j Hj. now apply C. }
  assert (T1 : rsum N (fun i => rsum N (fun j => d_render u i j * INR i)) = rsum N (fun i => bell1 N b i * INR i) * rsum N (bell1 N a)).
  { rewrite <- rsum_prod'. apply rsum_ext. intros i Hi. apply rsum_ext. intros j Hj. rewrite C by assumption. ring. }
  assert (T2 : rsum N (fun i => rsum N (fun j => d_render u i j * INR j)) = rsum N (bell1 N b) * rsum N (fun j => bell1 N a j * INR j)).
  { rewrite <- rsum_prod'. apply rsum_ext. intros i Hi. apply rsum_ext. intros j Hj. rewrite C by assumption. ring. }
  rewrite T, T1, T2. unfold N. rewrite !bell1_moment. fold N.
  pose proof (bell1_sum_pos n a). pose proof (bell1_sum_pos n b). fold N in H, H0.
  f_equal; field; lra.
Qed.

Lemma part_wider n w w' : (2 <= n)%nat -> 0 < w < w' ->
  bell1 n w 0 / rsum n (bell1 n w) < bell1 n w' 0 / rsum n (bell1 n w').
Proof.
  intros Hn [Hw Hl]. destruct n as [|n]; [lia|]. set (N := S n) in *.
  pose proof (bell1_sum_pos n w) as P. pose proof (bell1_sum_pos n w') as P'. fold N in P, P'.
  assert (K : rsum N (fun i => bell1 N w' i * / bell1 N w' 0) < rsum N (fun i => bell1 N w i * / bell1 N w 0)).
  { assert (Q : forall z i, 0 < z -> bell1 N z i * / bell1 N z 0 = exp (INR i * (INR N - INR i) * / z ^ 2 / 2)).
    { intros z i Hz. unfold bell1. rewrite <- exp_Ropp, <- exp_plus. f_equal. cbn [INR]. field. lra. }
    assert (I : 0 < / w' ^ 2 < / w ^ 2).
    { split; [apply Rinv_0_lt_compat; nra|apply Rinv_lt_contravar; [apply Rmult_lt_0_compat; nra|nra]]. }
    apply (rsum_lt _ _ _ 1); [lia| |].
    - intros i Hi. rewrite !Q by lra. apply lt_INR in Hi. pose proof (pos_INR i).
      assert (0 <= INR i * (INR N - INR i)) as [L|L] by (apply Rmult_le_pos; lra).
      + left. apply exp_increasing. nra.
      + right. rewrite <- L. now rewrite !Rmult_0_l.
    - rewrite !Q by lra. assert (1 < INR N) by (apply (lt_INR 1); lia). apply exp_increasing. cbn [INR]. nra. }
  assert (F : forall z, rsum N (fun i => bell1 N z i * / bell1 N z 0) = rsum N (bell1 N z) / bell1 N z 0).
  { intros z. unfold Rdiv. rewrite Rmult_comm. rewrite <- SubtractFit.rsum_scale. apply rsum_ext. intros i _. ring. }
  rewrite !F in K. pose proof (bell1_pos N w 0). pose proof (bell1_pos N w' 0).
  apply Rinv_lt_contravar in K.
  - unfold Rdiv in K. rewrite !Rinv_mult, !Rinv_inv in K. unfold Rdiv. lra.
  - apply Rmult_lt_0_compat; now apply Rdiv_lt_0_compat.
Qed.

(** The two images are moved by different amounts when the seeing differs. *)
Lemma C122_displaced_refuted_lm : forall u v a b a' b' n, d_shape u = (n, n) -> d_shape v = (n, n) -> (2 <= n)%nat ->
  gaussian_at (d_render u) (n, n) a b 0 (INR n / 2) (INR n / 2) ->
  gaussian_at (d_render v) (n, n) a' b' 0 (INR n / 2) (INR n / 2) ->
  0 < a < a' -> 0 < b < b' ->
  let (r, c) := center_of_mass (used_psf true u) in let (r', c') := center_of_mass (used_psf true v) in
  r' < r < INR n / 2 /\ c' < c < INR n / 2.
Proof.
  intros u v a b a' b' n Su Sv Hn Gu Gv Wa Wb.
  rewrite (C122_centre_lm u a b n Su ltac:(lia) Gu), (C122_centre_lm v a' b' n Sv ltac:(lia) Gv).
  fold (bell1 n a) (bell1 n b) (bell1 n a') (bell1 n b').
  pose proof (part_wider n a a' Hn Wa) as A. pose proof (part_wider n b b' Hn Wb) as B.
  assert (0 < INR n) by (apply (lt_INR 0); lia).
  assert (forall w, 0 < bell1 n w 0 / rsum n (bell1 n w)).
  { intros w. destruct n as [|n]; [lia|]. apply Rdiv_lt_0_compat; [apply bell1_pos|apply bell1_sum_pos]. }
  unfold bell1 in *. pose proof (H0 a). pose proof (H0 b). split; split; nra.
Qed.

(** The rendered stamp of such an image: the hypotheses of C121. *)
Lemma C122_stamp_lm : forall a b t, a <> 0 -> b <> 0 ->
  let p := render_stamp a b t 1 in
  exists dy dx, symmetric p dy dx /\ px p dy dx = 1 /\
    (forall i j, (i < nr p)%nat -> (j < nc p)%nat -> 0 < px p i j <= 1) /\
    (11 / 2 * sqrt ((a * cos t) ^ 2 + (b * sin t) ^ 2) <= INR dx < 11 / 2 * sqrt ((a * cos t) ^ 2 + (b * sin t) ^ 2) + 1) /\
    (11 / 2 * sqrt ((b * cos t) ^ 2 + (a * sin t) ^ 2) <= INR dy < 11 / 2 * sqrt ((b * cos t) ^ 2 + (a * sin t) ^ 2) + 1).
Proof.
  intros a b t Ha Hb p. exists (reach b a t), (reach a b t).
  assert (R : forall p q, let h := 11 / 2 * sqrt ((p * cos t) ^ 2 + (q * sin t) ^ 2) in h <= INR (reach p q t) < h + 1).
  { intros x y h. unfold reach. fold h. assert (0 <= h) by (unfold h; pose proof (sqrt_pos ((x * cos t) ^ 2 + (y * sin t) ^ 2)); lra).
    pose proof (Zceil_ub h) as U. assert (L : IZR (Zceil h) < h + 1).
    { pose proof (Zceil_lb h). lra. }
    assert (0 <= Zceil h)%Z.
    { apply le_IZR. lra. }
    rewrite INR_IZR_INZ, Z2Nat.id by assumption. lra. }
  assert (E : forall i j, px p i j = exp (- rotated a b t (INR j - INR (reach a b t)) (INR i - INR (reach b a t)) / 2)).
  { intros i j. cbn [p render_stamp px]. unfold gauss2d, rotated. rewrite !Rminus_0_r, Rmult_1_l. f_equal. rewrite sin_2a. field. now split. }
  split; [|split; [|split]].
  - split; [reflexivity|]. split; [reflexivity|]. intros i j Hi Hj. rewrite !E. cbn in Hi, Hj.
    rewrite !minus_INR by lia. rewrite !mult_INR. cbn [INR]. f_equal. f_equal. f_equal. unfold rotated, Rdiv. rewrite !Rpow_mult_distr. ring.
  - rewrite E. unfold rotated. rewrite !Rminus_diag_eq by reflexivity. rewrite <- exp_0. f_equal. field. now split.
  - intros i j _ _. rewrite E. split; [apply exp_pos|]. rewrite <- exp_0.
    assert (0 <= rotated a b t (INR j - INR (reach a b t)) (INR i - INR (reach b a t))) as [L|<-].
    { unfold rotated. pose proof pow2_ge_0 as Q. apply Rplus_le_le_0_compat; apply Q. }
    + left. apply exp_increasing. lra.
    + right. f_equal. field.
  - split; apply R.
Qed.
