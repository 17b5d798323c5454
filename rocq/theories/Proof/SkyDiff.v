(** What a subtraction shows of the sky, its noise, and that nothing is lost in taking real
    parts. *)
From Coq Require Import Arith ZArith List Bool Reals Lia Lra.
From Coquelicot Require Import Complex.
From Verif.Model Require Import Py Plane Ma Coadd Subtract Filter.
From Verif.Spec Require Import Coadd Fourier Filter Sky Subtract Signif.
From Verif.Proof Require Import Coadd Fourier Subtract SubtractSum Dft Filter FilterMain CoaddMore CoaddPoint Signif SkyDft Sky Herm.
Import ListNotations.
Local Open Scope R_scope.
Set Bullet Behavior "Strict Subproofs".

Lemma Hpsf_neq0 fitted x u v : Hpsf fitted x u v <> RtoC 0.
Proof.
  unfold Hpsf. destruct (Req_EM_T _ 0) as [E|N].
  - intros X. apply (f_equal fst) in X. cbn [fst RtoC] in X. revert X. apply Rgt_not_eq. apply Rinv_0_lt_compat. apply pow_lt. lra.
  - intros X. rewrite X in N. now apply N.
Qed.

Lemma denom_real fitted x y b u v :
  denom fitted x y b u v = RtoC (d_var y ^ 2 * sq (Hpsf fitted x u v) + b ^ 2 * d_var x ^ 2 * sq (Hpsf fitted y u v)).
Proof. unfold denom, sqmod. rewrite !conj_sq, <- !RtoC_mult, <- RtoC_plus. reflexivity. Qed.

Lemma denom_pos fitted x y b u v : 0 < d_var y ->
  0 < d_var y ^ 2 * sq (Hpsf fitted x u v) + b ^ 2 * d_var x ^ 2 * sq (Hpsf fitted y u v).
Proof.
  intros Hv. pose proof (sq_pos _ (Hpsf_neq0 fitted x u v)). pose proof (sq_nonneg (Hpsf fitted y u v)).
  pose proof (pow_lt _ 2 Hv). pose proof (pow2_ge_0 b). pose proof (pow2_ge_0 (d_var x)).
  assert (0 <= b ^ 2 * d_var x ^ 2 * sq (Hpsf fitted y u v)) by (apply Rmult_le_pos; [apply Rmult_le_pos|]; assumption).
  pose proof (Rmult_lt_0_compat _ _ H1 H). lra.
Qed.

Lemma herm_Hpsf fitted x : (0 < fst (d_shape x))%nat -> (0 < snd (d_shape x))%nat ->
  herm (fst (d_shape x)) (snd (d_shape x)) (Hpsf fitted x).
Proof.
  intros HN HM u v Hu Hv. unfold Hpsf. rewrite herm_padded by assumption. cbn [Cconj fst].
  destruct (Req_EM_T _ 0); [now rewrite conj_R|reflexivity].
Qed.

Lemma herm_denom fitted x y b : (0 < fst (d_shape x))%nat -> (0 < snd (d_shape x))%nat -> d_shape y = d_shape x ->
  herm (fst (d_shape x)) (snd (d_shape x)) (denom fitted x y b).
Proof.
  intros HN HM E. unfold denom, sqmod.
  assert (herm (fst (d_shape x)) (snd (d_shape x)) (Hpsf fitted y)) as Hy.
  { rewrite <- E. apply herm_Hpsf; rewrite E; assumption. }
  pose proof (herm_Hpsf fitted x HN HM) as Hx.
  apply herm_plus; (apply herm_mult; [apply herm_const|]); apply herm_mult; try assumption; now apply herm_conj.
Qed.

Definition zd_of (x y : dimg) (b : R) : R := b / sqrt (d_var x ^ 2 * b ^ 2 + d_var y ^ 2).

Definition psf_form (fitted : bool) (x y : dimg) (b : R) (u v : nat) : C :=
  (Hpsf fitted x u v * Hpsf fitted y u v * RtoC b / (csqrt (denom fitted x y b u v) * RtoC (zd_of x y b)))%C.

Lemma herm_psf_form fitted x y b : (0 < fst (d_shape x))%nat -> (0 < snd (d_shape x))%nat -> d_shape y = d_shape x ->
  0 < d_var y -> herm (fst (d_shape x)) (snd (d_shape x)) (psf_form fitted x y b).
Proof.
  intros HN HM E Hv. unfold psf_form.
  assert (herm (fst (d_shape x)) (snd (d_shape x)) (Hpsf fitted y)) as Hy.
  { rewrite <- E. apply herm_Hpsf; rewrite E; assumption. }
  pose proof (herm_Hpsf fitted x HN HM) as Hx.
  apply herm_div.
  - apply herm_mult; [now apply herm_mult|apply herm_const].
  - apply herm_mult; [|apply herm_const]. apply herm_sqrt; try assumption.
    + now apply herm_denom.
    + intros u v _ _. rewrite denom_real. cbn [fst snd RtoC]. split; [reflexivity|]. left. now apply denom_pos.
Qed.

(** What subtract gives for two images, with nothing in between. *)
Lemma diff_parts e x y zr zn beta shift it fitted b dx dy D P S m :
  e_transp e x y = Ok (zr, zn) -> (0 < fst (d_shape x))%nat -> (0 < snd (d_shape x))%nat -> 0 < d_var y ->
  ratio_and_shift e (Is x) (Is y) false beta shift it fitted = Ok (b, dx, dy) ->
  subtract e (Is x) (Is y) false beta shift it fitted = Ok (D, P, S, m) ->
  let sh := d_shape x in
  d_shape y = sh /\ shape D = sh /\ shape P = sh /\
  (forall i j, (i < fst sh)%nat -> (j < snd sh)%nat ->
    px D i j = px (ifft2_ortho (mkplane (fst sh) (snd sh) (fun u v =>
      ((Hpsf fitted x u v * px (fft2_ortho (real_frame sh (d_interped y))) u v *
          px (fourier_shift (pconst sh (RtoC 1)) (- fst (center_of_mass (used_psf fitted x))) (- snd (center_of_mass (used_psf fitted x)))) u v
        - RtoC b * Hpsf fitted y u v * px (fft2_ortho (real_frame sh (d_interped x))) u v *
          px (fourier_shift (pconst sh (RtoC 1)) (- fst (center_of_mass (used_psf fitted y))) (- snd (center_of_mass (used_psf fitted y)))) u v *
          px (fourier_shift (pconst sh (RtoC 1)) dx dy) u v)
       / RtoC (sqrt (d_var y ^ 2 * sq (Hpsf fitted x u v) + b ^ 2 * d_var x ^ 2 * sq (Hpsf fitted y u v))))%C))) i j) /\
  (forall u v, (u < fst sh)%nat -> (v < snd sh)%nat ->
    px (fft2_ortho (pmap RtoC P)) u v = psf_form fitted x y b u v).
Proof.
  intros T Q1 Q2 Hv Hr Hs sh.
  destruct (C89_difference_lm _ _ _ _ _ _ _ _ _ _ _ _ _ _ _ _ T Q1 Q2 Hv Hr Hs) as (SD & SP & HD & Pc' & EP' & HP').
  fold sh in SD, SP, HD, HP'.
  assert (exists Pc : plane C, P = @pmap C R (@fst R R) Pc /\
    forall u v, (u < fst sh)%nat -> (v < snd sh)%nat -> px (fft2_ortho Pc) u v = psf_form fitted x y b u v) as (Pc & EP & HP).
  { exists Pc'. split; [exact EP'|exact HP']. }
  clear Pc' EP' HP'.
  assert (d_shape y = sh) as Esh.
  { destruct (subtract_inv _ _ _ _ _ _ _ _ _ Hs) as (c & b1 & dx1 & dy1 & E1 & _).
    destruct (ctx_cells _ _ _ _ _ _ _ T E1) as (Sh & _). exact Sh. }
  split; [exact Esh|]. split; [exact SD|]. split; [exact SP|].
  destruct (shape_pair _ _ SD) as [D1 D2]. destruct (shape_pair _ _ SP) as [P1 P2]. split.
  - intros i j Hi Hj. destruct (fft_inverse D) as [_ I]; [rewrite D1; exact Q1|rewrite D2; exact Q2|].
    rewrite <- I by (change (nr (ifft2_ortho (fft2_ortho D))) with (nr D); change (nc (ifft2_ortho (fft2_ortho D))) with (nc D); rewrite ?D1, ?D2; assumption).
    rewrite !ifft_px. change (nr (fft2_ortho D)) with (nr D). change (nc (fft2_ortho D)) with (nc D). cbn [nr nc px]. rewrite D1, D2.
    f_equal. apply sum2_ext. intros u v Hu Hv'. f_equal. rewrite HD by assumption.
    rewrite denom_real, csqrt_pos by now apply denom_pos. f_equal.
    unfold fourier_shift at 1 2 3. cbn [px nr nc pmap times]. unfold fourier_shift. cbn [px nr nc pconst].
    unfold image_hat. rewrite Esh. fold sh. unfold real_frame, frame. ring.
  - assert (forall i j, (i < fst sh)%nat -> (j < snd sh)%nat -> px Pc i j = RtoC (px P i j)) as EPc.
    { intros i j Hi Hj. rewrite EP. cbn [pmap px].
      assert (@nr C Pc = fst sh /\ @nc C Pc = snd sh) as [C1 C2] by (rewrite EP in P1, P2; split; assumption).
      assert (snd (px Pc i j) = 0) as E0.
      { destruct (fft_inverse Pc) as [_ I]; [rewrite C1; exact Q1|rewrite C2; exact Q2|].
        pose proof (I i j (eq_ind_r (fun k => (i < k)%nat) Hi C1) (eq_ind_r (fun k => (j < k)%nat) Hj C2)) as I'. rewrite <- I'. clear I I'.
        assert (px (ifft2_ortho (fft2_ortho Pc)) i j = px (ifft2_ortho (mkplane (fst sh) (snd sh) (psf_form fitted x y b))) i j) as ->.
        { rewrite !ifft_px. change (nr (fft2_ortho Pc)) with (nr Pc). change (nc (fft2_ortho Pc)) with (nc Pc). cbn [nr nc px]. rewrite C1, C2.
          f_equal. apply sum2_ext. intros u v Hu Hv'. f_equal. now rewrite HP. }
        apply ifft_real; [exact Q1|exact Q2|]. now apply herm_psf_form. }
      destruct (px Pc i j) as [re im]. cbn [fst snd] in *. subst im. reflexivity. }
    intros u v Hu Hv'. rewrite <- (HP u v Hu Hv'). apply fft_ext. split.
    + rewrite EP. reflexivity.
    + intros i j Hi Hj. cbn [pmap nr nc] in Hi, Hj. rewrite P1 in Hi. rewrite P2 in Hj. rewrite EPc by assumption. reflexivity.
Qed.

Lemma shift_one_har sh a c u v : (0 < fst sh)%nat -> (0 < snd sh)%nat ->
  px (fourier_shift (pconst sh (RtoC 1)) (IZR a) (IZR c)) u v = har2 (fst sh) (snd sh) u v (- a) (- c).
Proof. intros HN HM. rewrite shift_har by assumption. cbn [pconst px nr nc]. ring. Qed.

Lemma shift_one_sq sh dx dy u v : sq (px (fourier_shift (pconst sh (RtoC 1)) dx dy) u v) = 1.
Proof.
  unfold fourier_shift. cbn [px pconst]. rewrite Cmult_1_l. unfold sq, cis. cbn [fst snd].
  set (t := _ * _). pose proof (sin2_cos2 t) as E. unfold Rsqr in E. lra.
Qed.

Lemma Hpsf_response fitted x u v : fits (d_shape x) (used_psf fitted x) ->
  (0 < fst (d_shape x))%nat -> (0 < snd (d_shape x))%nat ->
  fst (response (d_shape x) (used_psf fitted x) u v) <> 0 ->
  Hpsf fitted x u v = (unit_of (fst (d_shape x)) (snd (d_shape x)) * response (d_shape x) (used_psf fitted x) u v)%C.
Proof.
  intros F HN HM H. unfold Hpsf.
  change (fft2_ortho (pad_to (d_shape x) (pmap RtoC (used_psf fitted x)))) with (elem_hat (d_shape x) (used_psf fitted x)).
  rewrite elem_response by exact F. destruct (Req_EM_T _ 0) as [E|_]; [|reflexivity]. exfalso. apply H.
  set (r := response _ _ u v) in *. unfold unit_of in E. destruct r as [re ri]. unfold Cmult, RtoC in E. cbn [fst snd] in *.
  rewrite Rmult_0_l, Rminus_0_r in E. apply Rmult_integral in E. destruct E as [E|E]; [|exact E]. exfalso.
  revert E. apply Rinv_neq_0_compat. apply Rgt_not_eq. apply sqrt_lt_R0. now apply area_pos.
Qed.

(** C103: a new image that shows one sky and a reference that shows another, each through its
    own PSF: the difference image shows, through the PSF that subtract returns, the sky of the
    new image minus the flux ratio times that of the reference. The middle of that PSF is the
    sum of the middles of the two, counted around the frame. *)
Lemma C103_sky_lm : forall e x y zr zn beta shift it fitted b D P S m (skyr skyn : nat -> nat -> R) (fr fn : R) (ar cr an cn : Z),
  e_transp e x y = Ok (zr, zn) -> (0 < fst (d_shape x))%nat -> (0 < snd (d_shape x))%nat -> 0 < d_var y ->
  ratio_and_shift e (Is x) (Is y) false beta shift it fitted = Ok (b, 0, 0) -> b <> 0 ->
  subtract e (Is x) (Is y) false beta shift it fitted = Ok (D, P, S, m) ->
  let sh := d_shape x in
  let pr := used_psf fitted x in let pn := used_psf fitted y in
  fits sh pr -> fits sh pn ->
  center_of_mass pr = (IZR ar, IZR cr) -> center_of_mass pn = (IZR an, IZR cn) ->
  (forall u v, (u < fst sh)%nat -> (v < snd sh)%nat -> fst (response sh pr u v) <> 0 /\ fst (response sh pn u v) <> 0) ->
  (forall i j, (i < fst sh)%nat -> (j < snd sh)%nat ->
     d_interped x i j = fr * exposure sh skyr pr ar cr i j /\ d_interped y i j = fn * exposure sh skyn pn an cn i j) ->
  forall i j, (i < fst sh)%nat -> (j < snd sh)%nat ->
    px D i j = (RtoC (/ sqrt (d_var x ^ 2 * b ^ 2 + d_var y ^ 2)) *
      exposure_full sh (fun k l => (fn * skyn k l - b * fr * skyr k l)%R) (pmap RtoC P) (ar + an) (cr + cn) i j)%C.
Proof.
  intros e x y zr zn beta shift it fitted b D P S m skyr skyn fr fn ar cr an cn T HN HM Hv Hr Hb Hs sh pr pn
    Fr Fn Cr Cn Hresp Hpix i j Hi Hj.
  destruct (diff_parts _ _ _ _ _ _ _ _ _ _ _ _ _ _ _ _ T HN HM Hv Hr Hs) as (Esh & SD & SP & HD & HP).
  fold sh in Esh, SD, SP, HD, HP, HN, HM. fold pr pn in HD. rewrite Cr, Cn in HD. cbn [fst snd] in HD.
  rewrite HD by assumption. clear HD.
  assert (shape (pmap RtoC P) = sh) as SP' by exact SP.
  rewrite exposure_full_dft by assumption. rewrite ifft_px. cbn [nr nc px].
  set (U := unit_of (fst sh) (snd sh)). set (k := / sqrt (d_var x ^ 2 * b ^ 2 + d_var y ^ 2)).
  match goal with |- (U * ?A)%C = (RtoC k * (U * ?B))%C => transitivity (U * (RtoC k * B))%C; [f_equal|ring] end.
  rewrite <- sum2_scale. apply sum2_ext. intros u v Hu Hv'.
  assert (0 < d_var x ^ 2 * b ^ 2 + d_var y ^ 2) as Hroot.
  { pose proof (pow_lt _ 2 Hv). pose proof (pow2_ge_0 (d_var x * b)). replace ((d_var x * b) ^ 2) with (d_var x ^ 2 * b ^ 2) in H0 by ring. lra. }
  pose proof (sqrt_lt_R0 _ Hroot) as Hsq.
  specialize (HP u v Hu Hv'). rewrite fft_px in HP. change (nr (pmap RtoC P)) with (nr P) in HP. change (nc (pmap RtoC P)) with (nc P) in HP.
  destruct (shape_pair _ _ SP) as [P1 P2]. rewrite P1, P2 in HP. fold U in HP.
  unfold psf_form in HP. rewrite denom_real, csqrt_pos in HP by now apply denom_pos.
  pose proof (denom_pos fitted x y b u v Hv) as Hden. set (den := _ + _) in HP, Hden |- *.
  pose proof (sqrt_lt_R0 _ Hden) as Hsd.
  assert (px (fourier_shift (pconst sh (RtoC 1)) 0 0) u v = RtoC 1) as -> by (rewrite (shift_one_har sh 0 0), Z.opp_0 by assumption; unfold har2; rewrite !har_0; apply Cmult_1_l).
  rewrite <- (opp_IZR ar), <- (opp_IZR cr), <- (opp_IZR an), <- (opp_IZR cn), !shift_one_har by assumption.
  rewrite !Z.opp_involutive.
  assert (plane_eq (real_frame sh (d_interped x)) (real_frame sh (fun i j => fr * exposure sh skyr pr ar cr i j))) as E1.
  { split; [reflexivity|]. intros a c Ha Hc. cbn [real_frame frame px]. f_equal. now apply Hpix. }
  assert (plane_eq (real_frame sh (d_interped y)) (real_frame sh (fun i j => fn * exposure sh skyn pn an cn i j))) as E2.
  { split; [reflexivity|]. intros a c Ha Hc. cbn [real_frame frame px]. f_equal. now apply Hpix. }
  rewrite (fft_ext _ _ u v E1), (fft_ext _ _ u v E2), !fft_scaled, !fft_exposure by assumption. clear E1 E2.
  assert (px (fft2_ortho (real_frame sh (fun k l => (fn * skyn k l - b * fr * skyr k l)%R))) u v =
    (RtoC fn * px (fft2_ortho (real_frame sh skyn)) u v - RtoC b * RtoC fr * px (fft2_ortho (real_frame sh skyr)) u v)%C) as ->.
  { transitivity (px (fft2_ortho (mkplane (fst sh) (snd sh) (fun i j => (RtoC fn * RtoC (skyn i j) + RtoC (- (b * fr) * skyr i j))%C))) u v).
    - apply fft_ext. split; [reflexivity|]. intros a c _ _. cbn [real_frame frame px]. rewrite <- RtoC_mult, <- RtoC_plus. f_equal. ring.
    - rewrite fft_lin. change (mkplane (fst sh) (snd sh) (fun a c => RtoC (- (b * fr) * skyr a c))) with (real_frame sh (fun a c => - (b * fr) * skyr a c)).
      rewrite fft_scaled. change (mkplane (fst sh) (snd sh) (fun a c => RtoC (skyn a c))) with (real_frame sh skyn).
      rewrite RtoC_opp, RtoC_mult. ring. }
  destruct (Hresp u v Hu Hv') as [Rr Rn].
  assert (Hpsf fitted x u v = (U * response sh pr u v)%C) as Er by (apply Hpsf_response; assumption).
  assert (Hpsf fitted y u v = (U * response sh pn u v)%C) as En.
  { unfold U, pn, sh in *. rewrite <- Esh. apply Hpsf_response; rewrite Esh; assumption. }
  rewrite Er, En in HP |- *.
  set (rr := response sh pr u v) in *. set (rn := response sh pn u v) in *.
  set (TN := px (fft2_ortho (real_frame sh skyn)) u v). set (TR := px (fft2_ortho (real_frame sh skyr)) u v).
  set (dP := px (dft_raw (pmap RtoC P)) u v) in *.
  assert ((RtoC k * dP)%C = (U * rr * rn / RtoC (sqrt den))%C) as EP.
  { assert (forall z z' : C, (U * z)%C = (U * z')%C -> z = z') as Hcan.
    { intros z z' X. pose proof (unit_neq0 _ _ HN HM) as NU. fold U in NU.
      transitivity (/ U * (U * z))%C; [rewrite Cmult_assoc, Cinv_l by exact NU; ring|].
      rewrite X, Cmult_assoc, Cinv_l by exact NU. ring. }
    apply Hcan. transitivity (RtoC k * (U * dP))%C; [ring|]. rewrite HP. unfold Cdiv.
    unfold zd_of. set (rt := sqrt (d_var x ^ 2 * b ^ 2 + d_var y ^ 2)) in *. rewrite <- RtoC_mult.
    assert (sqrt den * (b / rt) <> 0) as Nz.
    { unfold Rdiv. apply Rmult_integral_contrapositive_currified; [lra|]. apply Rmult_integral_contrapositive_currified; [exact Hb|].
      apply Rinv_neq_0_compat. lra. }
    rewrite <- (RtoC_inv (sqrt den)), <- (RtoC_inv (sqrt den * (b / rt))) by (exact Nz || lra).
    transitivity (U * rr * (U * rn) * (RtoC k * RtoC b * RtoC (/ (sqrt den * (b / rt)))))%C; [ring|].
    rewrite <- !RtoC_mult.
    replace (k * b * / (sqrt den * (b / rt))) with (/ sqrt den).
    - ring.
    - unfold k. field. repeat split; lra || exact Hb. }
  rewrite !har2_plus.
  match goal with |- _ = (RtoC k * (?A * dP * ?B))%C => transitivity (RtoC k * dP * (A * B))%C; [rewrite EP|ring] end.
  unfold Cdiv. ring.
Qed.

(** C103: in particular nothing is left of a sky that both images show, when the flux ratio is
    that of the two images. *)
Lemma C103_same_lm : forall e x y zr zn beta shift it fitted b D P S m (sky : nat -> nat -> R) (fr fn : R) (ar cr an cn : Z),
  e_transp e x y = Ok (zr, zn) -> (0 < fst (d_shape x))%nat -> (0 < snd (d_shape x))%nat -> 0 < d_var y ->
  ratio_and_shift e (Is x) (Is y) false beta shift it fitted = Ok (b, 0, 0) -> b <> 0 -> b * fr = fn ->
  subtract e (Is x) (Is y) false beta shift it fitted = Ok (D, P, S, m) ->
  let sh := d_shape x in
  let pr := used_psf fitted x in let pn := used_psf fitted y in
  fits sh pr -> fits sh pn ->
  center_of_mass pr = (IZR ar, IZR cr) -> center_of_mass pn = (IZR an, IZR cn) ->
  (forall u v, (u < fst sh)%nat -> (v < snd sh)%nat -> fst (response sh pr u v) <> 0 /\ fst (response sh pn u v) <> 0) ->
  (forall i j, (i < fst sh)%nat -> (j < snd sh)%nat ->
     d_interped x i j = fr * exposure sh sky pr ar cr i j /\ d_interped y i j = fn * exposure sh sky pn an cn i j) ->
  forall i j, (i < fst sh)%nat -> (j < snd sh)%nat -> px D i j = RtoC 0.
Proof.
  intros e x y zr zn beta shift it fitted b D P S m sky fr fn ar cr an cn T HN HM Hv Hr Hb Hbf Hs sh pr pn
    Fr Fn Cr Cn Hresp Hpix i j Hi Hj.
  rewrite (C103_sky_lm _ _ _ _ _ _ _ _ _ _ _ _ _ _ sky sky fr fn ar cr an cn T HN HM Hv Hr Hb Hs Fr Fn Cr Cn Hresp Hpix i j Hi Hj).
  unfold exposure_full. rewrite (sum2_ext _ _ _ (fun _ _ => (RtoC 0 * RtoC 0)%C)); [rewrite sum2_scale; ring|].
  intros p q _ _. unfold pix_around. rewrite Hbf. rewrite Rminus_diag_eq by reflexivity. ring.
Qed.

(** C105: the difference image has no imaginary part, when the centres of the PSFs and the shift
    are whole, or the axis has an odd number of cells. *)
Lemma C105_real_lm : forall e x y zr zn beta shift it fitted b dx dy D P S m,
  e_transp e x y = Ok (zr, zn) -> (0 < fst (d_shape x))%nat -> (0 < snd (d_shape x))%nat -> 0 < d_var y ->
  ratio_and_shift e (Is x) (Is y) false beta shift it fitted = Ok (b, dx, dy) ->
  subtract e (Is x) (Is y) false beta shift it fitted = Ok (D, P, S, m) ->
  odd_or_whole2 (d_shape x) (center_of_mass (used_psf fitted x)) ->
  odd_or_whole2 (d_shape x) (center_of_mass (used_psf fitted y)) ->
  odd_or_whole2 (d_shape x) (dx, dy) ->
  forall i j, (i < fst (d_shape x))%nat -> (j < snd (d_shape x))%nat -> snd (px D i j) = 0.
Proof.
  intros e x y zr zn beta shift it fitted b dx dy D P S m T HN HM Hv Hr Hs [Cr1 Cr2] [Cn1 Cn2] [Cd1 Cd2] i j Hi Hj.
  cbn [fst snd] in Cd1, Cd2.
  destruct (diff_parts _ _ _ _ _ _ _ _ _ _ _ _ _ _ _ _ T HN HM Hv Hr Hs) as (Esh & SD & SP & HD & HP).
  rewrite HD by assumption. set (sh := d_shape x) in *.
  apply ifft_real; [assumption..|].
  pose proof (herm_Hpsf fitted x HN HM) as Hx. fold sh in Hx.
  assert (herm (fst sh) (snd sh) (Hpsf fitted y)) as Hy.
  { rewrite <- Esh. apply herm_Hpsf; rewrite Esh; assumption. }
  assert (forall a c, odd_or_whole (fst sh) a -> odd_or_whole (snd sh) c -> herm (fst sh) (snd sh) (px (fourier_shift (pconst sh (RtoC 1)) a c))) as Hph.
  { intros a c Oa Oc. apply (herm_shift (fst sh) (snd sh) (fun _ _ => RtoC 1)); try assumption. apply herm_const. }
  apply herm_div.
  - apply herm_minus.
    + apply herm_mult; [apply herm_mult; [exact Hx|now apply herm_fft]|apply Hph; now apply whole_opp].
    + apply herm_mult; [|now apply Hph]. apply herm_mult; [|apply Hph; now apply whole_opp]. apply herm_mult; [|now apply herm_fft].
      apply herm_mult; [apply herm_const|exact Hy].
  - apply (herm_ext _ _ _ (fun u v => csqrt (denom fitted x y b u v))); try assumption.
    + intros u v _ _. rewrite denom_real. symmetry. apply csqrt_pos. now apply denom_pos.
    + apply herm_sqrt; try assumption.
      * now apply herm_denom.
      * intros u v _ _. rewrite denom_real. cbn [fst snd RtoC]. split; [reflexivity|]. left. now apply denom_pos.
Qed.

(** C105: the transform of the PSF that is returned is the whole formula: nothing is lost where
    its real part is taken. *)
Lemma C105_psf_lm : forall e x y zr zn beta shift it fitted b dx dy D P S m,
  e_transp e x y = Ok (zr, zn) -> (0 < fst (d_shape x))%nat -> (0 < snd (d_shape x))%nat -> 0 < d_var y ->
  ratio_and_shift e (Is x) (Is y) false beta shift it fitted = Ok (b, dx, dy) ->
  subtract e (Is x) (Is y) false beta shift it fitted = Ok (D, P, S, m) ->
  let zd := b / sqrt (d_var x ^ 2 * b ^ 2 + d_var y ^ 2) in
  forall u v, (u < fst (d_shape x))%nat -> (v < snd (d_shape x))%nat ->
    px (fft2_ortho (pmap RtoC P)) u v =
    (Hpsf fitted x u v * Hpsf fitted y u v * RtoC b / (csqrt (denom fitted x y b u v) * RtoC zd))%C.
Proof.
  intros e x y zr zn beta shift it fitted b dx dy D P S m T HN HM Hv Hr Hs zd u v Hu Hv'.
  destruct (diff_parts _ _ _ _ _ _ _ _ _ _ _ _ _ _ _ _ T HN HM Hv Hr Hs) as (_ & _ & _ & _ & HP). now rewrite HP.
Qed.

(** C106: the difference image is the new image convolved with one kernel minus the reference
    convolved with another, and with these independent noise of the variances of the two
    images becomes noise of variance 1 in all the pixels, no two of them correlated. The
    kernels depend on the PSFs, the noise levels, the flux ratio and the shift only. *)
Lemma C106_white_lm : forall sh fitted (pr pn : plane R) (vr vn b dx dy : R),
  (0 < fst sh)%nat -> (0 < snd sh)%nat -> 0 < vn ->
  exists Kr Kn : plane C, shape Kr = sh /\ shape Kn = sh /\
    (forall e x y zr zn beta shift it D P S m,
      d_shape x = sh -> used_psf fitted x = pr -> used_psf fitted y = pn -> d_var x = vr -> d_var y = vn ->
      e_transp e x y = Ok (zr, zn) ->
      ratio_and_shift e (Is x) (Is y) false beta shift it fitted = Ok (b, dx, dy) ->
      subtract e (Is x) (Is y) false beta shift it fitted = Ok (D, P, S, m) ->
      forall i j, (i < fst sh)%nat -> (j < snd sh)%nat ->
        px D i j = (blurred sh (d_interped y) Kn i j - blurred sh (d_interped x) Kr i j)%C) /\
    forall i j i' j', (i < fst sh)%nat -> (j < snd sh)%nat -> (i' < fst sh)%nat -> (j' < snd sh)%nat ->
      (RtoC (vn ^ 2) * covariance sh Kn i j i' j' + RtoC (vr ^ 2) * covariance sh Kr i j i' j')%C =
      RtoC (if ((i =? i') && (j =? j'))%nat then 1 else 0).
Proof.
  intros sh fitted pr pn vr vn b dx dy HN HM Hvn.
  set (H := fun (p : plane R) (u v : nat) =>
    let z := px (fft2_ortho (pad_to sh (pmap RtoC p))) u v in if Req_EM_T (fst z) 0 then RtoC (/ 2 ^ 52) else z).
  assert (forall p u v, H p u v <> RtoC 0) as H0.
  { intros p u v. unfold H. destruct (Req_EM_T _ 0) as [E|N].
    - intros X. apply (f_equal fst) in X. cbn [fst RtoC] in X. revert X. apply Rgt_not_eq. apply Rinv_0_lt_compat. apply pow_lt. lra.
    - intros X. rewrite X in N. now apply N. }
  set (den := fun u v => vn ^ 2 * sq (H pr u v) + b ^ 2 * vr ^ 2 * sq (H pn u v)).
  assert (forall u v, 0 < den u v) as Pd.
  { intros u v. unfold den. pose proof (sq_pos _ (H0 pr u v)) as A1. pose proof (sq_nonneg (H pn u v)) as A2.
    pose proof (pow_lt _ 2 Hvn) as A3. pose proof (pow2_ge_0 b) as A4. pose proof (pow2_ge_0 vr) as A5.
    assert (0 <= b ^ 2 * vr ^ 2 * sq (H pn u v)) by (apply Rmult_le_pos; [apply Rmult_le_pos|]; assumption).
    pose proof (Rmult_lt_0_compat _ _ A3 A1). lra. }
  set (ph := fun dx dy u v => px (fourier_shift (pconst sh (RtoC 1)) dx dy) u v).
  set (gn := fun u v => (H pr u v * ph (- fst (center_of_mass pr))%R (- snd (center_of_mass pr))%R u v / RtoC (sqrt (den u v)))%C).
  set (gr := fun u v => (RtoC b * H pn u v * ph (- fst (center_of_mass pn))%R (- snd (center_of_mass pn))%R u v * ph dx dy u v / RtoC (sqrt (den u v)))%C).
  set (U := unit_of (fst sh) (snd sh)).
  exists (ifft2_ortho (mkplane (fst sh) (snd sh) (fun u v => (unit_of (fst sh) (snd sh) * gr u v)%C))), (ifft2_ortho (mkplane (fst sh) (snd sh) (fun u v => (unit_of (fst sh) (snd sh) * gn u v)%C))).
  assert (forall g, shape (ifft2_ortho (mkplane (fst sh) (snd sh) (fun u v => (unit_of (fst sh) (snd sh) * g u v)%C))) = sh) as HK.
  { intros g. unfold shape. cbn. now destruct sh. }
  split; [apply HK|]. split; [apply HK|]. split.
  - intros e x y zr zn beta shift it D P S m Ex Er En Evr Evn T Hr Hs i j Hi Hj.
    assert (0 < fst (d_shape x))%nat as HN' by now rewrite Ex. assert (0 < snd (d_shape x))%nat as HM' by now rewrite Ex.
    assert (0 < d_var y) as Hv' by now rewrite Evn.
    destruct (diff_parts _ _ _ _ _ _ _ _ _ _ _ _ _ _ _ _ T HN' HM' Hv' Hr Hs) as (Esh & SD & SP & HD & HP). clear HP.
    rewrite Ex in HD, Esh. rewrite HD by assumption. rewrite !blurred_dft by (try assumption; apply HK). fold U.
    rewrite ifft_px. cbn [nr nc px]. fold U. match goal with |- (U * ?A)%C = (U * ?B - U * ?B')%C => transitivity (U * (B + - B'))%C; [f_equal|ring] end.
    assert (forall z, (- z = (- RtoC 1) * z)%C) as Eopp by (intros z; ring).
    rewrite (Eopp (sum2 _ _ _)), <- sum2_scale, <- sum2_plus. apply sum2_ext. intros u v Hu Hv.
    rewrite !(kernel_dft sh) by assumption.
    assert (Hpsf fitted x u v = H pr u v) as -> by (unfold Hpsf, H; now rewrite Ex, Er).
    assert (Hpsf fitted y u v = H pn u v) as -> by (unfold Hpsf, H; now rewrite Esh, En).
    rewrite Er, En, Evr, Evn. fold (den u v). unfold gn, gr, ph, Cdiv. ring.
  - intros i j i' j' Hi Hj Hi' Hj'.
    assert (0 < cells_of sh) as Pc by now apply area_pos.
    assert (RtoC (cells_of sh) <> RtoC 0) as NC by (intros X; injection X; lra).
    assert (forall z z' : C, (RtoC (cells_of sh) * z)%C = (RtoC (cells_of sh) * z')%C -> z = z') as Hcan.
    { intros z z' X. transitivity (/ RtoC (cells_of sh) * (RtoC (cells_of sh) * z))%C.
      - rewrite Cmult_assoc, Cinv_l by exact NC. ring.
      - rewrite X, Cmult_assoc, Cinv_l by exact NC. ring. }
    apply Hcan. clear Hcan.
    match goal with |- (?c * (?a * ?x + ?b' * ?y))%C = _ => transitivity (a * (c * x) + b' * (c * y))%C; [ring|] end.
    rewrite !covariance_dft by (try assumption; apply HK). rewrite <- !sum2_scale, <- sum2_plus.
    rewrite (sum2_ext _ _ _ (fun u v => har2 (fst sh) (snd sh) u v (Z.of_nat i - Z.of_nat i') (Z.of_nat j - Z.of_nat j'))).
    + rewrite har2_sum by assumption. rewrite !sub_mod_eq by assumption. fold (cells_of sh).
      destruct (_ && _)%bool; rewrite <- RtoC_mult; f_equal; ring.
    + intros u v Hu Hv. rewrite !(kernel_dft sh) by assumption. rewrite !conj_sq.
      fold (sq (gn u v)) (sq (gr u v)).
      match goal with |- (?a * (?x * ?h) + ?b' * (?y * ?h))%C = _ => transitivity ((a * x + b' * y) * h)%C; [ring|] end.
      rewrite <- !RtoC_mult, <- RtoC_plus.
      replace (vn ^ 2 * sq (gn u v) + vr ^ 2 * sq (gr u v)) with 1; [ring|].
      pose proof (Pd u v) as Pp. pose proof (sqrt_lt_R0 _ Pp) as Ps.
      unfold gn, gr, Cdiv, ph. rewrite <- RtoC_inv by lra. rewrite !sq_mult, !sq_RtoC, !shift_one_sq.
      replace ((/ sqrt (den u v)) ^ 2) with (/ den u v).
      * transitivity (den u v / den u v); [field; lra|]. unfold den at 1. field. lra.
      * rewrite <- (sqrt_sqrt (den u v)) at 1 by lra. field. lra.
Qed.
