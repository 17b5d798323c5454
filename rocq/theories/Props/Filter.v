(** C86-C91: the zero points in a coadd, the matched filter, the squared PSF transform, the
    formulas of a subtraction, and coadds of images with point PSFs. *)
From Coq Require Import ZArith List Bool Arith Reals Lia Lra.
From Coquelicot Require Import Complex.
From Verif.Model Require Import Py Plane Ma Coadd Subtract Filter.
From Verif.Spec Require Import Fourier Filter Coadd CoaddExample Subtract Signif.
From Verif.Proof Require Import CoaddMain FilterMain CoaddWeights Signif CoaddPoint.
Import ListNotations.
Local Open Scope R_scope.

(** C86: what each image contributes to a coadd is weighted with the zero point that transparency gave
    that image: zp / var^2 times its filtered image, and (zp / var)^2 times its squared PSF
    transform. R is the ratio of the first sum to the root of the second, P its normalised
    image. The exception is an image whose filtered image was computed before, for the same
    inf_loss: that is used as it is. *)
Theorem C86_zero_points : forall mk reg transp fuel sched w ids loss n zps sh Rr P m l',
  ids <> [] -> NoDup ids -> transp (objs w) ids = Ok zps -> length zps = length ids ->
  run_limits fuel ids n -> images_fit (objs w) ids sh ->
  coadd mk reg transp fuel sched w (map Img ids) false loss n = (Some (Ok (Rr, P, m)), l') ->
  exists S Q ps raw, shape S = sh /\ shape Q = sh /\
    (forall r c, (r < fst sh)%nat -> (c < snd sh)%nat ->
      px S r c = total (fun iz => contribution (objs w (fst iz)) loss (snd iz) r c) (combine ids zps) /\
      px Q r c = total (fun iz => let x := objs w (fst iz) in
                   (RtoC ((snd iz / si_var x) ^ 2)%R * si_sq x loss r c)%C) (combine ids zps)) /\
    In ps (map (fun i => si_stamp (objs w i)) ids) /\
    (forall i, In i ids -> (si_stamp (objs w i) <= ps)%nat) /\
    plane_eq Rr (ifft2 (pmap2 Cdiv S (pmap csqrt Q))) /\
    plane_eq raw (ifft2 (fourier_shift (pmap csqrt Q) (INR ps) (INR ps))) /\
    plane_eq P (pmap (fun z => (z / psum raw)%C) raw).
Proof. exact C86_zero_points_lm. Qed.
Print Assumptions C86_zero_points.

(** Two images with zero points 2 and 3. *)
Example C86_case : exists Rr P m,
  let transp := fun (_ : heap) (_ : list nat) => Ok [2; 3] in
  images_fit (objs ex_world) [0%nat; 1%nat] (2%nat, 3%nat) /\ run_limits 0%nat [0%nat; 1%nat] 1%Z /\
  coadd ex_mk ex_reg transp 0%nat [] ex_world [Img 0%nat; Img 1%nat] false (1 / 5) 1%Z = (Some (Ok (Rr, P, m)), [Img 0%nat; Img 1%nat]).
Proof. exact C86_case_lm. Qed.

(** C86: so the coadd is not a function of the zero points alone: an image that was in a
    coadd before, with the same inf_loss, keeps in the numerator the zero point it had then. *)
Theorem C86_used_before_refuted : ~ (forall mk reg transp fuel sched w ids loss n zps sh Rr P m l',
  ids <> [] -> NoDup ids -> transp (objs w) ids = Ok zps -> length zps = length ids ->
  run_limits fuel ids n -> images_fit (objs w) ids sh ->
  coadd mk reg transp fuel sched w (map Img ids) false loss n = (Some (Ok (Rr, P, m)), l') ->
  exists S Q, shape S = sh /\ shape Q = sh /\
    (forall r c, (r < fst sh)%nat -> (c < snd sh)%nat ->
      px S r c = total (fun iz => let x := objs w (fst iz) in
                   (RtoC (snd iz / si_var x ^ 2) * si_base x loss r c)%C) (combine ids zps) /\
      px Q r c = total (fun iz => let x := objs w (fst iz) in
                   (RtoC ((snd iz / si_var x) ^ 2) * si_sq x loss r c)%C) (combine ids zps)) /\
    plane_eq Rr (ifft2 (pmap2 Cdiv S (pmap csqrt Q)))).
Proof. exact C86_used_before_refuted_lm. Qed.
Print Assumptions C86_used_before_refuted.

(** C87: the S component of an image with one PSF, whose centre of mass is at a whole cell:
    at each pixel, the pixels under the PSF centred there, weighted by the PSF; times zp / var^2
    and by 1 / sqrt(number of pixels). *)
Theorem C87_constant_psf : forall im nrm b bs a c S,
  (0 < fst (f_shape im))%nat -> (0 < snd (f_shape im))%nat -> f_var im <> 0 -> fits (f_shape im) b ->
  center_of_mass b = (IZR a, IZR c) ->
  s_component im nrm None (b :: bs) = Ok S ->
  shape S = f_shape im /\
  forall x y, (x < fst (f_shape im))%nat -> (y < snd (f_shape im))%nat ->
    px S x y = f_zp im / f_var im ^ 2 / sqrt (cells_of (f_shape im)) * seen (f_shape im) (f_pix im) b a c x y.
Proof. exact C87_constant_psf_lm. Qed.
Print Assumptions C87_constant_psf.

(** A frame of 4 x 4 with a star, through a stamp of 1 x 3 with its only pixel in the middle. *)
Example C87_case : exists S,
  fits (f_shape (star (4%nat, 4%nat))) mid_dot /\ center_of_mass mid_dot = (IZR 0, IZR 1) /\
  s_component (star (4%nat, 4%nat)) (fun _ _ => 1) None [mid_dot] = Ok S.
Proof.
  eexists. split; [split; cbn; lia|]. split; [|reflexivity].
  unfold center_of_mass, psumR. cbn. f_equal; field.
Qed.

(** C87: with a variable PSF: the same with the image times a_k / nrm, summed over the basis. *)
Theorem C87_variable_psf : forall im nrm fs b bs a c S,
  (0 < fst (f_shape im))%nat -> (0 < snd (f_shape im))%nat -> f_var im <> 0 ->
  Forall (fits (f_shape im)) (b :: bs) ->
  (forall i j, (i < fst (f_shape im))%nat -> (j < snd (f_shape im))%nat -> nrm i j <> 0) ->
  center_of_mass b = (IZR a, IZR c) ->
  s_component im nrm (Some fs) (b :: bs) = Ok S ->
  shape S = f_shape im /\
  forall x y, (x < fst (f_shape im))%nat -> (y < snd (f_shape im))%nat ->
    px S x y = f_zp im / f_var im ^ 2 / sqrt (cells_of (f_shape im)) *
      total_of (map (fun ab => seen (f_shape im) (fun i j => f_pix im i j * fst ab i j / nrm i j) (snd ab) a c x y)
                    (combine fs (b :: bs))).
Proof. exact C87_variable_psf_lm. Qed.
Print Assumptions C87_variable_psf.

(** The same with two elements, of which the second has the weight 1 / 2 everywhere. *)
Example C87_case_variable : exists S,
  Forall (fits (f_shape (star (4%nat, 4%nat)))) [mid_dot; mid_dot] /\ center_of_mass mid_dot = (IZR 0, IZR 1) /\
  s_component (star (4%nat, 4%nat)) (fun _ _ => 3 / 2) (Some [fun _ _ => 1; fun _ _ => 1 / 2]) [mid_dot; mid_dot] = Ok S.
Proof.
  eexists. split; [repeat constructor; cbn; lia|]. split; [|reflexivity].
  unfold center_of_mass, psumR. cbn. f_equal; field.
Qed.

(** C87: the total of the S component, wherever the centre of mass is. *)
Theorem C87_total : forall im nrm fields b bs S,
  (0 < fst (f_shape im))%nat -> (0 < snd (f_shape im))%nat -> f_var im <> 0 ->
  Forall (fits (f_shape im)) (b :: bs) ->
  (forall i j, (i < fst (f_shape im))%nat -> (j < snd (f_shape im))%nat -> nrm i j <> 0) ->
  s_component im nrm fields (b :: bs) = Ok S ->
  let sum f := rsum2 (fst (f_shape im)) (snd (f_shape im)) f in
  sum (px S) = f_zp im / f_var im ^ 2 / sqrt (cells_of (f_shape im)) *
    match fields with
    | None => sum (f_pix im) * rsum2 (nr b) (nc b) (px b)
    | Some fs => total_of (map (fun ab => sum (fun i j => f_pix im i j * fst ab i j / nrm i j) *
                                          rsum2 (nr (snd ab)) (nc (snd ab)) (px (snd ab)))
                               (combine fs (b :: bs)))
    end.
Proof. exact C87_total_lm. Qed.
Print Assumptions C87_total.

(** C87: so S depends on how much empty sky surrounds a source. *)
Theorem C87_empty_sky_refuted : ~ (forall im im' nrm b bs S S',
  (0 < fst (f_shape im))%nat -> (0 < snd (f_shape im))%nat -> f_var im <> 0 -> fits (f_shape im) b ->
  (fst (f_shape im) <= fst (f_shape im'))%nat -> (snd (f_shape im) <= snd (f_shape im'))%nat ->
  f_var im' = f_var im -> f_zp im' = f_zp im ->
  (forall i j, f_pix im' i j = if ((i <? fst (f_shape im)) && (j <? snd (f_shape im)))%nat then f_pix im i j else 0) ->
  s_component im nrm None (b :: bs) = Ok S -> s_component im' nrm None (b :: bs) = Ok S' ->
  forall i j, (i < fst (f_shape im))%nat -> (j < snd (f_shape im))%nat -> f_pix im i j <> 0 -> px S' i j = px S i j).
Proof. exact C87_empty_sky_refuted_lm. Qed.
Print Assumptions C87_empty_sky_refuted.

(** C88: the squared PSF transform is real and not negative. *)
Theorem C88_real : forall sh fields basis u v,
  snd (px (psf_hat_sqnorm sh fields basis) u v) = 0 /\ 0 <= fst (px (psf_hat_sqnorm sh fields basis) u v).
Proof. exact C88_real_lm. Qed.
Print Assumptions C88_real.

(** C88: its total over the frequencies is the sum of the squares of the pixels of the basis. *)
Theorem C88_total : forall sh fields basis, (0 < fst sh)%nat -> (0 < snd sh)%nat -> Forall (fits sh) basis ->
  psum (psf_hat_sqnorm sh fields basis) =
  RtoC (total_of (map (fun b => rsum2 (nr b) (nc b) (fun i j => px b i j ^ 2)) basis)).
Proof. exact C88_total_lm. Qed.
Print Assumptions C88_total.

(** C88: at frequency zero it is the sum of the squares of the sums of the elements, over the
    number of pixels. *)
Theorem C88_zero_frequency : forall sh fields basis, (0 < fst sh)%nat -> (0 < snd sh)%nat -> Forall (fits sh) basis ->
  px (psf_hat_sqnorm sh fields basis) 0%nat 0%nat =
  RtoC (total_of (map (fun b => rsum2 (nr b) (nc b) (px b) ^ 2) basis) / cells_of sh).
Proof. exact C88_zero_frequency_lm. Qed.
Print Assumptions C88_zero_frequency.

(** C88: p_sqnorm of an image whose stamps have even sides 2a and 2c: the sum of the
    autocorrelations of the elements, by 1 / sqrt(number of pixels), centred on (a, c). *)
Theorem C88_p_sqnorm : forall sh fields basis a c x y, (0 < fst sh)%nat -> (0 < snd sh)%nat ->
  Forall (fits sh) basis -> (x < fst sh)%nat -> (y < snd sh)%nat ->
  px (p_sqnorm sh (2 * a, 2 * c)%nat fields basis) x y =
  RtoC (total_of (map (fun b => seen sh (laid b) b (Z.of_nat a) (Z.of_nat c) x y) basis) / sqrt (cells_of sh)).
Proof. exact C88_p_sqnorm_lm. Qed.
Print Assumptions C88_p_sqnorm.

(** Stamps of 2 x 2 in a frame of 4 x 4. *)
Example C88_case :
  let ramp := mkplane 2 2 (fun i j => INR (i + j)) in
  Forall (fits (4%nat, 4%nat)) [ramp; ramp] /\
  px (p_sqnorm (4%nat, 4%nat) (2 * 1, 2 * 1)%nat None [ramp; ramp]) 1 1 = RtoC (12 / sqrt (cells_of (4%nat, 4%nat))).
Proof.
  cbn zeta. assert (Forall (fits (4%nat, 4%nat)) [mkplane 2 2 (fun i j => INR (i + j)); mkplane 2 2 (fun i j => INR (i + j))]) as F
    by (repeat constructor; cbn; lia).
  split; [exact F|]. rewrite (C88_peak_cell_lm _ _ _ 1 1) by (try exact F; cbn; lia). do 3 f_equal.
  unfold rsum2. cbn. ring.
Qed.

(** C88: no cell of p_sqnorm exceeds the sum of the squares of the pixels of the basis by
    1 / sqrt(number of pixels), whatever the stamp. *)
Theorem C88_peak : forall sh stamp fields basis x y, (0 < fst sh)%nat -> (0 < snd sh)%nat ->
  Forall (fits sh) basis -> (x < fst sh)%nat -> (y < snd sh)%nat ->
  Cmod (px (p_sqnorm sh stamp fields basis) x y) <=
  total_of (map (fun b => rsum2 (nr b) (nc b) (fun i j => px b i j ^ 2)) basis) / sqrt (cells_of sh).
Proof. exact C88_peak_lm. Qed.
Print Assumptions C88_peak.

(** C88: and for a stamp of 2a x 2c the cell (a, c) has it. *)
Theorem C88_peak_cell : forall sh fields basis a c, (a < fst sh)%nat -> (c < snd sh)%nat ->
  Forall (fits sh) basis ->
  px (p_sqnorm sh (2 * a, 2 * c)%nat fields basis) a c =
  RtoC (total_of (map (fun b => rsum2 (nr b) (nc b) (fun i j => px b i j ^ 2)) basis) / sqrt (cells_of sh)).
Proof. exact C88_peak_cell_lm. Qed.
Print Assumptions C88_peak_cell.

(** C88: it is not the squared modulus of the transform of the PSF of the image, that is of the combination
    of the elements with the coefficients at a place, normalised to 1. *)
Theorem C88_fields_ignored_refuted : ~ (forall sh fs basis p x y, (0 < fst sh)%nat -> (0 < snd sh)%nat ->
  Forall (fits sh) basis -> length fs = length basis -> fits sh p ->
  (forall i j, px p i j = total_of (map (fun ab => fst ab x y * px (snd ab) i j) (combine fs basis))) ->
  rsum2 (nr p) (nc p) (px p) = 1 ->
  forall u v, (u < fst sh)%nat -> (v < snd sh)%nat ->
    px (psf_hat_sqnorm sh (Some fs) basis) u v = RtoC (Cmod (px (fft2_ortho (pad_to sh (pmap RtoC p))) u v) ^ 2)).
Proof. exact C88_fields_ignored_refuted_lm. Qed.
Print Assumptions C88_fields_ignored_refuted.

(** C89: the transform of the difference image: the new image times the PSF of the reference, minus b
    times the reference times the PSF of the new image, each moved back by the centre of mass
    of the PSF it was multiplied by and the second one by (dx, dy), over the root of
    sigma_n^2 |Hr|^2 + b^2 sigma_r^2 |Hn|^2. And the PSF: the real part of the image whose
    transform is b Hr Hn over that root and over b / sqrt(sigma_r^2 b^2 + sigma_n^2). *)
Theorem C89_difference : forall e x y zr zn beta shift it fitted b dx dy D P S m,
  e_transp e x y = Ok (zr, zn) -> (0 < fst (d_shape x))%nat -> (0 < snd (d_shape x))%nat -> 0 < d_var y ->
  ratio_and_shift e (Is x) (Is y) false beta shift it fitted = Ok (b, dx, dy) ->
  subtract e (Is x) (Is y) false beta shift it fitted = Ok (D, P, S, m) ->
  let sh := d_shape x in
  let back p F := fourier_shift F (- fst (center_of_mass p)) (- snd (center_of_mass p)) in
  let zd := b / sqrt (d_var x ^ 2 * b ^ 2 + d_var y ^ 2) in
  shape D = sh /\ shape P = sh /\
  (forall u v, (u < fst sh)%nat -> (v < snd sh)%nat ->
    px (fft2_ortho D) u v =
    ((px (back (used_psf fitted x) (times sh (Hpsf fitted x) (image_hat y))) u v
      - px (fourier_shift (pmap (Cmult (RtoC b)) (back (used_psf fitted y) (times sh (Hpsf fitted y) (image_hat x)))) dx dy) u v)
     / csqrt (denom fitted x y b u v))%C) /\
  exists Pc, P = pmap fst Pc /\
    forall u v, (u < fst sh)%nat -> (v < snd sh)%nat ->
      px (fft2_ortho Pc) u v =
      (Hpsf fitted x u v * Hpsf fitted y u v * RtoC b / (csqrt (denom fitted x y b u v) * RtoC zd))%C.
Proof. exact C89_difference_lm. Qed.
Print Assumptions C89_difference.

(** Frames in the ratio 1 : 2 with the zero points 1 and 2: the ratio found is 2. *)
Example C89_case : exists D P S m,
  let e := ex_env 1 2 ex_lost in let x := ex_dimg 1 Nomask in let y := ex_dimg 2 Nomask in
  e_transp e x y = Ok (1, 2) /\ (0 < fst (d_shape x))%nat /\ (0 < snd (d_shape x))%nat /\ 0 < d_var y /\
  ratio_and_shift e (Is x) (Is y) false false false false true = Ok (2, 0, 0) /\
  subtract e (Is x) (Is y) false false false false true = Ok (D, P, S, m).
Proof.
  do 4 eexists. cbn zeta. split; [reflexivity|]. split; [cbn; lia|]. split; [cbn; lia|]. split; [cbn; lra|].
  split; [|reflexivity]. cbn. repeat f_equal. field.
Qed.

(** C90: the significance image. Its numerator is the difference filtered with its PSF and moved by the
    centre of the PSF; its denominator the root of V, the pixels plus 1 of each image convolved
    with the square of a kernel given by its transform. *)
Theorem C90_significance : forall e x y zr zn beta shift it fitted b dx dy D P S m,
  e_transp e x y = Ok (zr, zn) -> (0 < fst (d_shape x))%nat -> (0 < snd (d_shape x))%nat -> 0 < d_var y ->
  ratio_and_shift e (Is x) (Is y) false beta shift it fitted = Ok (b, dx, dy) ->
  subtract e (Is x) (Is y) false beta shift it fitted = Ok (D, P, S, m) ->
  let sh := d_shape x in
  let Hr := Hpsf fitted x in let Hn := Hpsf fitted y in
  let zd := b / sqrt (d_var x ^ 2 * b ^ 2 + d_var y ^ 2) in
  let psf_hat u v := (Hr u v * Hn u v * RtoC b / (csqrt (denom fitted x y b u v) * RtoC zd))%C in
  exists kr kn num cx cy,
    shape kr = sh /\ shape kn = sh /\ shape num = sh /\ shape S = sh /\ center_of P cx cy /\
    plane_eq (fft2_ortho kn) (arr2 sh (fun u v => (RtoC zn * Cconj (Hn u v) * sqmod (Hr u v) / denom fitted x y b u v)%C)) /\
    plane_eq (fft2_ortho kr) (arr2 sh (fun u v => (RtoC zn * Cconj (Hr u v) * RtoC b * sqmod (Hn u v) / denom fitted x y b u v)%C)) /\
    plane_eq (fft2_ortho num)
      (fourier_shift (arr2 sh (fun u v => (RtoC zd * px (fft2_ortho D) u v * Cconj (psf_hat u v))%C)) cx cy) /\
    forall i j, (i < fst sh)%nat -> (j < snd sh)%nat ->
      let V := (px (convolution (plus_one y) (squared kn)) i j + px (convolution (plus_one x) (squared kr)) i j)%C in
      (V = RtoC 0 -> px S i j = None) /\
      (V <> RtoC 0 -> px S i j = Some (fst (px num i j / csqrt V)%C)).
Proof. exact C90_significance_lm. Qed.
Print Assumptions C90_significance.

(** The same two frames. *)
Example C90_case : exists D P S m,
  let e := ex_env 1 2 ex_lost in let x := ex_dimg 1 Nomask in let y := ex_dimg 2 Nomask in
  e_transp e x y = Ok (1, 2) /\ (0 < fst (d_shape x))%nat /\ (0 < snd (d_shape x))%nat /\ 0 < d_var y /\
  ratio_and_shift e (Is x) (Is y) false false false false true = Ok (2, 0, 0) /\
  subtract e (Is x) (Is y) false false false false true = Ok (D, P, S, m).
Proof. exact C89_case. Qed.

(** C91: images whose PSF is one pixel (anywhere in its stamp): the coadd is, at each pixel, the sum of
    zp / var^2 times the images over the root of the sum of (zp / var)^2, by 1 / sqrt(number of
    pixels); its PSF is one pixel, at the size of the largest stamp from the corner. *)
Theorem C91_point_psf : forall mk reg transp fuel sched w ids loss n zps sh Rr P m l'
  (im : nat -> fimg) (ma : nat -> mask) (lo : nat -> R) (st : nat -> nat) (nm : nat -> R -> nat -> nat -> R)
  (bs : nat -> plane R) (p q : nat -> nat),
  ids <> [] -> NoDup ids -> transp (objs w) ids = Ok zps -> length zps = length ids ->
  run_limits fuel ids n -> images_fit (objs w) ids sh -> (0 < fst sh)%nat -> (0 < snd sh)%nat ->
  (forall i, In i ids ->
     objs w i = coadd_view (im i) (ma i) (lo i) (st i) (nm i) (fun _ => (None, [bs i])) /\
     f_var (im i) <> 0 /\ fits sh (bs i) /\ point (p i) (q i) (bs i)) ->
  let weights := combine ids zps in
  let W := total_of (map (fun iz => (snd iz / f_var (im (fst iz))) ^ 2) weights) in
  0 < W ->
  coadd mk reg transp fuel sched w (map Img ids) false loss n = (Some (Ok (Rr, P, m)), l') ->
  (forall x y, (x < fst sh)%nat -> (y < snd sh)%nat ->
    px Rr x y = RtoC (total_of (map (fun iz => snd iz / f_var (im (fst iz)) ^ 2 * f_pix (im (fst iz)) x y) weights)
                      / sqrt W / sqrt (cells_of sh))) /\
  exists ps, In ps (map st ids) /\ (forall i, In i ids -> (st i <= ps)%nat) /\
    forall x y, (x < fst sh)%nat -> (y < snd sh)%nat ->
      px P x y = RtoC (if ((x =? ps mod fst sh) && (y =? ps mod snd sh))%nat then 1 else 0).
Proof. exact C91_point_psf_lm. Qed.
Print Assumptions C91_point_psf.

(** Two images of 2 x 3 with noise 1 and 2 and zero points 2 and 3. *)
Example C91_case : exists Rr P m,
  let transp := fun (_ : heap) (_ : list nat) => Ok [2; 3] in
  images_fit (objs ex_points) [0%nat; 1%nat] (2%nat, 3%nat) /\ run_limits 0 [0%nat; 1%nat] 1 /\
  fits (2%nat, 3%nat) mid_dot /\ point 0 1 mid_dot /\
  0 < total_of (map (fun iz => (snd iz / f_var (ex_frame (fst iz))) ^ 2) (combine [0%nat; 1%nat] [2; 3])) /\
  coadd (fun _ => Raise IOError) (fun x _ => Ok x) transp 0 [] ex_points [Img 0; Img 1] false (1 / 5) 1 = (Some (Ok (Rr, P, m)), [Img 0; Img 1]).
Proof. exact C91_case_lm. Qed.
