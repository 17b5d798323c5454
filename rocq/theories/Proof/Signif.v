(** The difference image, its PSF and the significance image as given by formulas. *)
From Coq Require Import Arith ZArith List Bool Reals Lia Lra.
From Coquelicot Require Import Complex.
From Verif.Model Require Import Py Plane Ma Subtract.
From Verif.Spec Require Import Subtract Fourier Signif.
From Verif.Proof Require Import Fourier Subtract SubtractFit SubtractMain SubtractSum Dft Peak CoaddMore.
Import ListNotations.
Local Open Scope R_scope.
Set Bullet Behavior "Strict Subproofs".

Lemma ctx_cells e x y fitted c zr zn : e_transp e x y = Ok (zr, zn) -> setup e (Is x) (Is y) false fitted = Ok c ->
  d_shape y = d_shape x /\ c_shape c = d_shape x /\
  c_pr c = mkplane (fst (d_shape x)) (snd (d_shape x)) (Hpsf fitted x) /\
  c_pn c = mkplane (fst (d_shape x)) (snd (d_shape x)) (Hpsf fitted y) /\
  (forall b u v, px (norm2 c b) u v = denom fitted x y b u v) /\
  c_dr c = fourier_shift (pmap2 Cmult (c_pn c) (image_hat x)) (- fst (center_of_mass (used_psf fitted y))) (- snd (center_of_mass (used_psf fitted y))) /\
  c_dn c = fourier_shift (pmap2 Cmult (c_pr c) (image_hat y)) (- fst (center_of_mass (used_psf fitted x))) (- snd (center_of_mass (used_psf fitted x))) /\
  c_rvar c = d_var x /\ c_nvar c = d_var y /\ c_nzp c = zn /\
  c_rdata c = frame (d_shape x) (d_data x) /\ c_ndata c = frame (d_shape x) (d_data y).
Proof.
  intros T H. destruct (setup_images _ _ _ _ _ H) as (zr' & zn' & mix & Sh & _ & T' & Ep).
  rewrite T in T'. injection T' as <- <-. unfold prepare in Ep.
  change (if fitted then frame (d_shape x) (d_render x) else d_stamp x) with (used_psf fitted x) in Ep.
  change (if fitted then frame (d_shape y) (d_render y) else d_stamp y) with (used_psf fitted y) in Ep.
  destruct (center_of_mass (used_psf fitted x)) as [dxr dyr]. destruct (center_of_mass (used_psf fitted y)) as [dxn dyn].
  destruct (negb fitted && _); [discriminate|]. injection Ep as <-. cbn [c_shape c_pr c_pn c_dr c_dn c_rvar c_nvar c_nzp c_rdata c_ndata fst snd].
  split; [exact Sh|]. split; [reflexivity|]. split; [reflexivity|]. split.
  { unfold psf_hat. unfold pmap at 1. cbn [nr nc fft2_ortho pmap dft_raw pad_to]. rewrite Sh. unfold Hpsf. rewrite Sh. reflexivity. }
  split.
  { intros b u v. unfold norm2, pmap2. cbn [px c_na c_nb pmap]. unfold denom, sqmod.
    change (px (psf_hat (d_shape x) (used_psf fitted x)) u v) with (Hpsf fitted x u v).
    change (px (psf_hat (d_shape y) (used_psf fitted y)) u v) with (Hpsf fitted y u v).
    rewrite (RtoC_mult (b ^ 2)).
    change (d_var x * (d_var x * 1)) with (d_var x ^ 2). change (d_var y * (d_var y * 1)) with (d_var y ^ 2). ring. }
  do 5 (split; [reflexivity|]). split; [reflexivity|]. now rewrite Sh.
Qed.

Lemma image_hat_shape x : shape (image_hat x) = d_shape x.
Proof. unfold shape. cbn. now destruct (d_shape x). Qed.

Lemma fourier_shift_0 F u v : px (fourier_shift F 0 0) u v = px F u v.
Proof.
  unfold fourier_shift. cbn [px].
  replace (- (2 * PI) * (freq (nr F) u * 0 / INR (nr F) + freq (nc F) v * 0 / INR (nc F))) with 0 by (unfold Rdiv; ring).
  unfold cis. rewrite cos_0, sin_0. change (1, 0) with (RtoC 1). ring.
Qed.

(** C89: the transform of the difference image: the new image times the PSF of the reference, minus b
    times the reference times the PSF of the new image, each moved back by the centre of mass
    of the PSF it was multiplied by and the second one by (dx, dy), over the root of
    sigma_n^2 |Hr|^2 + b^2 sigma_r^2 |Hn|^2. And the PSF: the real part of the image whose
    transform is b Hr Hn over that root and over b / sqrt(sigma_r^2 b^2 + sigma_n^2). *)
Lemma C89_difference_lm : forall e x y zr zn beta shift it fitted b dx dy D P S m,
  e_transp e x y = Ok (zr, zn) -> (0 < fst (d_shape x))%nat -> (0 < snd (d_shape x))%nat -> 0 < d_var y ->
  ratio_and_shift e (Is x) (Is y) false beta shift it fitted = Ok (b, dx, dy) ->
  subtract e (Is x) (Is y) false beta shift it fitted = Ok (D, P, S, m) ->
  let sh := d_shape x in
  let back p F := fourier_shift F (- fst (center_of_mass p)) (- snd (center_of_mass p)) in
  let zd := b / sqrt (d_var x ^ 2 * b ^ 2 + d_var y ^ 2) in
  shape D = sh /\ shape P = sh /\
  (forall u v, (u < fst sh)%nat -> (v < snd sh)%nat ->
    px (fft2_ortho D) u v =
    ((px (back (used_psf fitted x) (times sh (Hpsf fitted x) (image_hat y))) u v
      - px (fourier_shift (pmap (Cmult (RtoC b)) (back (used_psf fitted y) (times sh (Hpsf fitted y) (image_hat x)))) dx dy) u v)
     / csqrt (denom fitted x y b u v))%C) /\
  exists Pc, P = pmap fst Pc /\
    forall u v, (u < fst sh)%nat -> (v < snd sh)%nat ->
      px (fft2_ortho Pc) u v =
      (Hpsf fitted x u v * Hpsf fitted y u v * RtoC b / (csqrt (denom fitted x y b u v) * RtoC zd))%C.
Proof.
  intros e x y zr zn beta shift it fitted b dx dy D P S m T Q1 Q2 Hv Hr Hs sh back zd.
  destruct (subtract_inv _ _ _ _ _ _ _ _ _ Hs) as (c & b1 & dx1 & dy1 & E1 & _ & E3 & E4).
  rewrite Hr in E3. injection E3 as <- <- <-.
  destruct (ctx_cells _ _ _ _ _ _ _ T E1) as (Sh & Cs & Pr & Pn & Nm & Dr & Dn & Vr & Vn & Zn & Rd & Nd).
  unfold difference in E4. injection E4 as -> -> _ _.
  assert (shape (diff_hat c b dx dy) = sh) as S1.
  { unfold diff_hat. change (shape (c_dn c) = sh). rewrite Dn. change (shape (c_pr c) = sh). rewrite Pr. unfold sh. now destruct (d_shape x). }
  assert (shape (diff_psf_hat c b) = sh) as S2.
  { unfold diff_psf_hat. change (shape (c_pr c) = sh). rewrite Pr. unfold sh. now destruct (d_shape x). }
  destruct (dims _ _ S1) as [L1 L2]. destruct (dims _ _ S2) as [L3 L4].
  split; [exact S1|]. split; [exact S2|]. split.
  - intros u v Hu Hv'.
    destruct (fft_inverse' (diff_hat c b dx dy)) as [_ I]; [rewrite L1; exact Q1|rewrite L2; exact Q2|].
    rewrite I by (change (nr (fft2_ortho ?F)) with (nr F); change (nc (fft2_ortho ?F)) with (nc F);
                  cbn [ifft2_ortho pmap nr nc idft_raw fft2_ortho dft_raw]; rewrite ?L1, ?L2; assumption).
    unfold diff_hat. unfold pmap2 at 1 2. cbn [px]. rewrite Nm. f_equal. f_equal; [rewrite Dn; unfold back; rewrite Pr; reflexivity|].
    assert (pmap (fun z => (RtoC b * z)%C) (c_dr c) =
            pmap (Cmult (RtoC b)) (back (used_psf fitted y) (times sh (Hpsf fitted y) (image_hat x)))) as <-.
    { rewrite Dr. unfold back. rewrite Pn. reflexivity. }
    destruct (Req_EM_T dx 0) as [->|]; [destruct (Req_EM_T dy 0) as [->|]|]; try reflexivity.
    now rewrite fourier_shift_0.
  - exists (ifft2_ortho (diff_psf_hat c b)). split; [reflexivity|]. intros u v Hu Hv'.
    destruct (fft_inverse' (diff_psf_hat c b)) as [_ I]; [rewrite L3; exact Q1|rewrite L4; exact Q2|].
    rewrite I by (cbn [ifft2_ortho pmap nr nc idft_raw fft2_ortho dft_raw]; rewrite ?L3, ?L4; assumption).
    unfold diff_psf_hat. unfold pmap2 at 1 2. cbn [px]. rewrite Nm, Pr, Pn. cbn [px].
    unfold diff_zp. rewrite Vr, Vn. reflexivity.
Qed.

Lemma psf_center_ok P : (0 < nr P)%nat -> (0 < nc P)%nat -> center_of P (fst (psf_center P)) (snd (psf_center P)).
Proof.
  intros HN HM. destruct (peak_first P HN HM) as (K1 & K2 & K3 & K4).
  exists (fst (peak P)), (snd (peak P)). split; [exact K1|]. split; [exact K2|]. split; [exact K3|]. split.
  { intros i j Hi Hj Hb. apply K4; auto. }
  unfold psf_center. destruct (center_of_mass P) as [mx my]. destruct (peak P) as [kx ky]. cbn [fst snd].
  unfold is_far. destruct (Rlt_dec 30 (Rabs (mx - INR kx))) as [A|A]; cbn [orb fst snd].
  - split; [auto|]. intros N. exfalso. apply N. now left.
  - destruct (Rlt_dec 30 (Rabs (my - INR ky))) as [B|B]; cbn [fst snd]; (split; [|auto]); [auto|tauto|tauto].
Qed.

(** C90: the significance image. Its numerator is the difference filtered with its PSF and moved by the
    centre of the PSF; its denominator the root of V, the pixels plus 1 of each image convolved
    with the square of a kernel given by its transform. *)
Lemma C90_significance_lm : forall e x y zr zn beta shift it fitted b dx dy D P S m,
  e_transp e x y = Ok (zr, zn) -> (0 < fst (d_shape x))%nat -> (0 < snd (d_shape x))%nat -> 0 < d_var y ->
  ratio_and_shift e (Is x) (Is y) false beta shift it fitted = Ok (b, dx, dy) ->
  subtract e (Is x) (Is y) false beta shift it fitted = Ok (D, P, S, m) ->
  let sh := d_shape x in
  let Hr := Hpsf fitted x in let Hn := Hpsf fitted y in
  let zd := b / sqrt (d_var x ^ 2 * b ^ 2 + d_var y ^ 2) in
  let psf_hat u v := (Hr u v * Hn u v * RtoC b / (csqrt (denom fitted x y b u v) * RtoC zd))%C in
  exists kr kn num cx cy,
    shape kr = sh /\ shape kn = sh /\ shape num = sh /\ shape S = sh /\ center_of P cx cy /\
    plane_eq (fft2_ortho kn) (arr2 sh (fun u v => (RtoC zn * Cconj (Hn u v) * sqmod (Hr u v) / denom fitted x y b u v)%C)) /\
    plane_eq (fft2_ortho kr) (arr2 sh (fun u v => (RtoC zn * Cconj (Hr u v) * RtoC b * sqmod (Hn u v) / denom fitted x y b u v)%C)) /\
    plane_eq (fft2_ortho num)
      (fourier_shift (arr2 sh (fun u v => (RtoC zd * px (fft2_ortho D) u v * Cconj (psf_hat u v))%C)) cx cy) /\
    forall i j, (i < fst sh)%nat -> (j < snd sh)%nat ->
      let V := (px (convolution (plus_one y) (squared kn)) i j + px (convolution (plus_one x) (squared kr)) i j)%C in
      (V = RtoC 0 -> px S i j = None) /\
      (V <> RtoC 0 -> px S i j = Some (fst (px num i j / csqrt V)%C)).
Proof.
  intros e x y zr zn beta shift it fitted b dx dy D P S m T Q1 Q2 Hv Hr Hs sh hr hn zd psf.
  destruct (subtract_inv _ _ _ _ _ _ _ _ _ Hs) as (c & b1 & dx1 & dy1 & E1 & _ & E3 & E4).
  rewrite Hr in E3. injection E3 as <- <- <-.
  destruct (ctx_cells _ _ _ _ _ _ _ T E1) as (Sh & Cs & Pr & Pn & Nm & Dr & Dn & Vr & Vn & Zn & Rd & Nd).
  unfold difference in E4. injection E4 as -> -> -> _.
  assert (shape (diff_hat c b dx dy) = sh) as S1.
  { unfold diff_hat. change (shape (c_dn c) = sh). rewrite Dn. change (shape (c_pr c) = sh). rewrite Pr. unfold sh. now destruct (d_shape x). }
  assert (shape (diff_psf_hat c b) = sh) as S2.
  { unfold diff_psf_hat. change (shape (c_pr c) = sh). rewrite Pr. unfold sh. now destruct (d_shape x). }
  destruct (dims _ _ S1) as [L1 L2]. destruct (dims _ _ S2) as [L3 L4].
  set (Pp := pmap fst (ifft2_ortho (diff_psf_hat c b))).
  set (Sh' := fourier_shift (pmap2 (fun d p => (RtoC (diff_zp c b) * d * Cconj p)%C) (diff_hat c b dx dy) (diff_psf_hat c b))
                 (fst (psf_center Pp)) (snd (psf_center Pp))).
  assert (shape (kr_hat c b) = sh) as S3 by (unfold kr_hat, frame, shape; cbn; rewrite Cs; unfold sh; now destruct (d_shape x)).
  assert (shape (kn_hat c b) = sh) as S4 by (unfold kn_hat, frame, shape; cbn; rewrite Cs; unfold sh; now destruct (d_shape x)).
  destruct (dims _ _ S3) as [M1 M2]. destruct (dims _ _ S4) as [M3 M4].
  exists (ifft2_ortho (kr_hat c b)), (ifft2_ortho (kn_hat c b)), (ifft2_ortho Sh'), (fst (psf_center Pp)), (snd (psf_center Pp)).
  split; [exact S3|]. split; [exact S4|]. split; [exact S1|].
  split; [unfold s_corr, frame, shape; cbn [nr nc]; rewrite Cs; unfold sh; now destruct (d_shape x)|].
  split.
  { apply psf_center_ok; cbn [Pp pmap nr nc ifft2_ortho idft_raw]; [rewrite L3; exact Q1|rewrite L4; exact Q2]. }
  assert (forall F, shape F = sh -> plane_eq (fft2_ortho (ifft2_ortho F)) F) as Inv.
  { intros F SF. destruct (dims _ _ SF) as [F1 F2]. apply fft_inverse'; [rewrite F1; exact Q1|rewrite F2; exact Q2]. }
  assert (forall (F G H : plane C), plane_eq F G -> plane_eq G H -> plane_eq F H) as Tr.
  { intros F G H [A1 A2] [B1 B2]. split; [congruence|]. intros i j Hi Hj. rewrite A2 by assumption.
    unfold shape in A1. injection A1 as A3 A4. apply B2; congruence. }
  split; [|split; [|split]].
  - eapply Tr; [apply Inv; exact S4|]. split; [rewrite S4; unfold sh; now destruct (d_shape x)|]. intros u v _ _. unfold kn_hat, frame, arr2. cbn [px].
    rewrite Nm, Pr, Pn, Zn. cbn [px]. unfold sqmod. f_equal. unfold hr, hn. ring.
  - eapply Tr; [apply Inv; exact S3|]. split; [rewrite S3; unfold sh; now destruct (d_shape x)|]. intros u v _ _. unfold kr_hat, frame, arr2. cbn [px].
    rewrite Nm, Pr, Pn, Zn. cbn [px]. unfold sqmod. f_equal. unfold hr, hn. ring.
  - eapply Tr; [apply Inv; exact S1|]. split; [change (shape (diff_hat c b dx dy) = shape (arr2 sh (fun _ _ => RtoC 0))); rewrite S1; unfold sh; now destruct (d_shape x)|]. intros u v Hu Hv'. unfold Sh', fourier_shift. cbn [px pmap2 nr nc arr2].
    rewrite L1, L2. f_equal. destruct (Inv _ S1) as [_ I]. rewrite I by assumption.
    unfold diff_zp. rewrite Vr, Vn. f_equal. f_equal.
    unfold psf, diff_psf_hat. unfold pmap2 at 1 2. cbn [px]. rewrite Nm, Pr, Pn. cbn [px]. unfold diff_zp. rewrite Vr, Vn. reflexivity.
  - intros i j Hi Hj V.
    unfold s_corr.
    repeat match goal with |- context [px (frame ?s ?f) i j] => change (px (frame s f) i j) with (f i j) end.
    cbv beta zeta. rewrite Rd, Nd. fold sh.
    assert (forall (k d : plane C) (F : plane R), shape k = sh -> (F = frame sh (d_data x) \/ F = frame sh (d_data y)) -> d = pmap (fun z => RtoC (z + 1)) F ->
       px (noise_map k F) i j = px (convolution d (squared (ifft2_ortho k))) i j) as Nz.
    { intros k d F Sk HF ->. unfold noise_map.
      destruct (fft_convolution (pmap (fun z => RtoC (z + 1)) F) (pmap (fun z => (z * z)%C) (ifft2_ortho k))) as [_ I].
      - destruct HF as [-> | ->]; exact Q1.
      - destruct HF as [-> | ->]; exact Q2.
      - unfold shape. cbn. destruct (dims _ _ Sk) as [-> ->]. destruct HF as [-> | ->]; reflexivity.
      - rewrite I; [reflexivity|destruct HF as [-> | ->]; exact Hi|destruct HF as [-> | ->]; exact Hj]. }
    rewrite (Nz (kn_hat c b) (plus_one y) (frame sh (d_data y)) S4 (or_intror eq_refl)).
    2:{ unfold plus_one, frame, pmap. cbn. now rewrite Sh. }
    rewrite (Nz (kr_hat c b) (plus_one x) (frame sh (d_data x)) S3 (or_introl eq_refl) eq_refl).
    fold V. fold Pp. fold Sh'.
    destruct (Ceq_dec (csqrt V) (RtoC 0)) as [E0|N0].
    + split; [reflexivity|]. intros N. exfalso. exact (csqrt_neq0 V N E0).
    + split; [|reflexivity]. intros E0. exfalso. apply N0. rewrite E0. unfold csqrt, RtoC. cbn [fst snd].
      change (0, 0) with (RtoC 0). rewrite Cmod_0. destruct (Rle_dec 0 0) as [_|]; [|lra].
      replace ((0 + 0) / 2) with 0 by field. replace ((0 - 0) / 2) with 0 by field. now rewrite sqrt_0.
Qed.
