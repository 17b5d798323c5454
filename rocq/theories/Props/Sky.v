(** What coadds and subtractions show of the sky, and their noise. *)
From Coq Require Import Arith ZArith List Bool Reals.
From Coquelicot Require Import Complex.
From Verif.Model Require Import Py Plane Ma Chunk Coadd Subtract Filter.
From Verif.Spec Require Import Coadd Fourier Filter Sky Subtract Signif.
From Verif.Proof Require Import Sky SkyDiff SkyReal SkyCases.
Import ListNotations.
Local Open Scope R_scope.

(** C100: noise-free images of the same sky, each through its own PSF (centred on its centre of
    mass, a whole cell) and with its own zero point: the coadd shows that sky through the PSF it
    returns, the cell at the size of the largest stamp being its middle. Its own zero point is
    the root of the sum of the squares of zp times the total of the PSF over the noise, by
    1 / sqrt(number of pixels). *)
Theorem C100_sky : forall mk reg transp fuel sched w ids loss n zps sh Rr P m l'
  (im : nat -> fimg) (ma : nat -> mask) (lo : nat -> R) (st : nat -> nat) (nm : nat -> R -> nat -> nat -> R)
  (bs : nat -> plane R) (a c : nat -> Z) (sky : nat -> nat -> R),
  ids <> [] -> NoDup ids -> transp (objs w) ids = Ok zps -> length zps = length ids ->
  run_limits fuel ids n -> images_fit (objs w) ids sh -> (0 < fst sh)%nat -> (0 < snd sh)%nat ->
  (forall i, In i ids ->
     objs w i = coadd_view (im i) (ma i) (lo i) (st i) (nm i) (fun _ => (None, [bs i])) /\
     f_var (im i) <> 0 /\ fits sh (bs i) /\ center_of_mass (bs i) = (IZR (a i), IZR (c i))) ->
  let weights := combine ids zps in
  covered sh bs weights ->
  (forall i z, In (i, z) weights -> forall x y, (x < fst sh)%nat -> (y < snd sh)%nat ->
     f_pix (im i) x y = z * exposure sh sky (bs i) (a i) (c i) x y) ->
  coadd mk reg transp fuel sched w (map Img ids) false loss n = (Some (Ok (Rr, P, m)), l') ->
  exists ps, In ps (map st ids) /\ (forall i, In i ids -> (st i <= ps)%nat) /\
    forall x y, (x < fst sh)%nat -> (y < snd sh)%nat ->
      px Rr x y = (RtoC (sqrt (total_of (map (fun iz => (snd iz * light (bs (fst iz)) / f_var (im (fst iz))) ^ 2) weights))
                         / sqrt (cells_of sh)) *
                   exposure_full sh sky P (Z.of_nat ps) (Z.of_nat ps) x y)%C.
Proof. exact C100_sky_lm. Qed.
Print Assumptions C100_sky.

(** Two images of 2 x 3 of one sky, with different PSFs, noise and zero points. *)
Example C100_case : exists Rr P m,
  let transp := fun (_ : heap) (_ : list nat) => Ok [INR 2; INR 3] in
  let bs := fun i => trio (1 / INR (5 + i)) in
  images_fit (objs ex_shots) [0%nat; 1%nat] (2%nat, 3%nat) /\ run_limits 0 [0%nat; 1%nat] 1 /\
  (forall i, In i [0%nat; 1%nat] ->
     objs ex_shots i = coadd_view (ex_shot i) Nomask (1 / 5) (5 + i) (fun _ _ _ => 1) (fun _ => (None, [bs i])) /\
     f_var (ex_shot i) <> 0 /\ fits (2%nat, 3%nat) (bs i) /\ center_of_mass (bs i) = (IZR 0, IZR 1)) /\
  covered (2%nat, 3%nat) bs (combine [0%nat; 1%nat] [INR 2; INR 3]) /\
  (forall i z, In (i, z) (combine [0%nat; 1%nat] [INR 2; INR 3]) -> forall x y, (x < 2)%nat -> (y < 3)%nat ->
     f_pix (ex_shot i) x y = z * exposure (2%nat, 3%nat) sky1 (bs i) 0 1 x y) /\
  coadd (fun _ => Raise IOError) (fun x _ => Ok x) transp 0 [] ex_shots [Img 0; Img 1] false (1 / 5) 1 = (Some (Ok (Rr, P, m)), [Img 0; Img 1]).
Proof. exact C100_case_lm. Qed.

(** C101: the coadd is a sum of the images, each convolved with a kernel that does not depend
    on what is in the images, and with these kernels independent noise of the variances of the
    images becomes noise of the same variance in all the pixels, 1 over the number of pixels, and
    no two pixels are correlated. *)
Theorem C101_white : forall sh ids zps (var : nat -> R) (bs : nat -> plane R),
  (0 < fst sh)%nat -> (0 < snd sh)%nat -> ids <> [] -> NoDup ids -> length zps = length ids ->
  (forall i, In i ids -> var i <> 0 /\ fits sh (bs i)) ->
  let weights := combine ids zps in
  covered sh bs weights ->
  exists K : nat * R -> plane C, (forall iz, shape (K iz) = sh) /\
    (forall mk reg transp fuel sched w loss n Rr P m l' (im : nat -> fimg) (ma : nat -> mask) (lo : nat -> R)
        (st : nat -> nat) (nm : nat -> R -> nat -> nat -> R),
      transp (objs w) ids = Ok zps -> run_limits fuel ids n -> images_fit (objs w) ids sh ->
      (forall i, In i ids ->
         objs w i = coadd_view (im i) (ma i) (lo i) (st i) (nm i) (fun _ => (None, [bs i])) /\ f_var (im i) = var i) ->
      coadd mk reg transp fuel sched w (map Img ids) false loss n = (Some (Ok (Rr, P, m)), l') ->
      forall x y, (x < fst sh)%nat -> (y < snd sh)%nat ->
        px Rr x y = total (fun iz => blurred sh (f_pix (im (fst iz))) (K iz) x y) weights) /\
    forall x y x' y', (x < fst sh)%nat -> (y < snd sh)%nat -> (x' < fst sh)%nat -> (y' < snd sh)%nat ->
      total (fun iz => (RtoC (var (fst iz) ^ 2) * covariance sh (K iz) x y x' y')%C) weights =
      RtoC (if ((x =? x') && (y =? y'))%nat then / cells_of sh else 0).
Proof. exact C101_white_lm. Qed.
Print Assumptions C101_white.

(** The PSFs, the noise and the zero points of the images of C100_case. *)
Example C101_case : let bs := fun i => trio (1 / INR (5 + i)) in
  (forall i, In i [0%nat; 1%nat] -> f_var (ex_shot i) <> 0 /\ fits (2%nat, 3%nat) (bs i)) /\
  covered (2%nat, 3%nat) bs (combine [0%nat; 1%nat] [INR 2; INR 3]) /\ NoDup [0%nat; 1%nat].
Proof.
  destruct C100_case as (Rr & P & m & _ & _ & H & C & _). split; [|split; [exact C|]].
  - intros i Hi. destruct (H i Hi) as (_ & V & F & _). now split.
  - repeat constructor; cbn; intuition discriminate.
Qed.

(** C102: how well the coadd shows a source: the square of its zero point times the energy of
    its PSF over the variance of its noise is the sum over the images of the same quantity. *)
Theorem C102_value : forall mk reg transp fuel sched w ids loss n zps sh Rr P m l'
  (im : nat -> fimg) (ma : nat -> mask) (lo : nat -> R) (st : nat -> nat) (nm : nat -> R -> nat -> nat -> R)
  (bs : nat -> plane R),
  ids <> [] -> NoDup ids -> transp (objs w) ids = Ok zps -> length zps = length ids ->
  run_limits fuel ids n -> images_fit (objs w) ids sh -> (0 < fst sh)%nat -> (0 < snd sh)%nat ->
  (forall i, In i ids ->
     objs w i = coadd_view (im i) (ma i) (lo i) (st i) (nm i) (fun _ => (None, [bs i])) /\
     f_var (im i) <> 0 /\ fits sh (bs i)) ->
  let weights := combine ids zps in
  covered sh bs weights ->
  coadd mk reg transp fuel sched w (map Img ids) false loss n = (Some (Ok (Rr, P, m)), l') ->
  let zp := sqrt (total_of (map (fun iz => (snd iz * light (bs (fst iz)) / f_var (im (fst iz))) ^ 2) weights)) / sqrt (cells_of sh) in
  let variance := / cells_of sh in
  zp ^ 2 * energy_full P / variance =
  total_of (map (fun iz => snd iz ^ 2 * energy (bs (fst iz)) / f_var (im (fst iz)) ^ 2) weights).
Proof. exact C102_value_lm. Qed.
Print Assumptions C102_value.

(** C102: no other linear combination of the pixels of the images shows a source better: for all
    weights of the pixels of all the images, the square of what the combination has of a
    source of flux 1, over the variance of its noise, is at most that of the coadd. *)
Theorem C102_best : forall mk reg transp fuel sched w ids loss n zps sh Rr P m l'
  (im : nat -> fimg) (ma : nat -> mask) (lo : nat -> R) (st : nat -> nat) (nm : nat -> R -> nat -> nat -> R)
  (bs : nat -> plane R) (a c : nat -> Z) (x0 y0 : nat) (L : nat * R -> nat -> nat -> R),
  ids <> [] -> NoDup ids -> transp (objs w) ids = Ok zps -> length zps = length ids ->
  run_limits fuel ids n -> images_fit (objs w) ids sh -> (x0 < fst sh)%nat -> (y0 < snd sh)%nat ->
  (forall i, In i ids ->
     objs w i = coadd_view (im i) (ma i) (lo i) (st i) (nm i) (fun _ => (None, [bs i])) /\
     f_var (im i) <> 0 /\ fits sh (bs i)) ->
  let weights := combine ids zps in
  covered sh bs weights ->
  coadd mk reg transp fuel sched w (map Img ids) false loss n = (Some (Ok (Rr, P, m)), l') ->
  let zp := sqrt (total_of (map (fun iz => (snd iz * light (bs (fst iz)) / f_var (im (fst iz))) ^ 2) weights)) / sqrt (cells_of sh) in
  let variance := / cells_of sh in
  let signal := total_of (map (fun iz => rsum2 (fst sh) (snd sh) (fun x y =>
     L iz x y * (snd iz * exposure sh (spot x0 y0) (bs (fst iz)) (a (fst iz)) (c (fst iz)) x y))) weights) in
  let noise := total_of (map (fun iz => f_var (im (fst iz)) ^ 2 * rsum2 (fst sh) (snd sh) (fun x y => L iz x y ^ 2)) weights) in
  signal ^ 2 <= zp ^ 2 * energy_full P / variance * noise.
Proof. exact C102_best_lm. Qed.
Print Assumptions C102_best.

(** C102: and some combination reaches it. *)
Theorem C102_reached : forall mk reg transp fuel sched w ids loss n zps sh Rr P m l'
  (im : nat -> fimg) (ma : nat -> mask) (lo : nat -> R) (st : nat -> nat) (nm : nat -> R -> nat -> nat -> R)
  (bs : nat -> plane R) (a c : nat -> Z) (x0 y0 : nat),
  ids <> [] -> NoDup ids -> transp (objs w) ids = Ok zps -> length zps = length ids ->
  run_limits fuel ids n -> images_fit (objs w) ids sh -> (x0 < fst sh)%nat -> (y0 < snd sh)%nat ->
  (forall i, In i ids ->
     objs w i = coadd_view (im i) (ma i) (lo i) (st i) (nm i) (fun _ => (None, [bs i])) /\
     f_var (im i) <> 0 /\ fits sh (bs i)) ->
  let weights := combine ids zps in
  covered sh bs weights ->
  coadd mk reg transp fuel sched w (map Img ids) false loss n = (Some (Ok (Rr, P, m)), l') ->
  let zp := sqrt (total_of (map (fun iz => (snd iz * light (bs (fst iz)) / f_var (im (fst iz))) ^ 2) weights)) / sqrt (cells_of sh) in
  let variance := / cells_of sh in
  exists L : nat * R -> nat -> nat -> R,
  let signal := total_of (map (fun iz => rsum2 (fst sh) (snd sh) (fun x y =>
     L iz x y * (snd iz * exposure sh (spot x0 y0) (bs (fst iz)) (a (fst iz)) (c (fst iz)) x y))) weights) in
  let noise := total_of (map (fun iz => f_var (im (fst iz)) ^ 2 * rsum2 (fst sh) (snd sh) (fun x y => L iz x y ^ 2)) weights) in
  signal ^ 2 = zp ^ 2 * energy_full P / variance * noise /\ 0 < signal /\ 0 < noise.
Proof. exact C102_reached_lm. Qed.
Print Assumptions C102_reached.

(** The images of C100_case. *)
Example C102_case : exists Rr P m,
  let transp := fun (_ : heap) (_ : list nat) => Ok [INR 2; INR 3] in
  let bs := fun i => trio (1 / INR (5 + i)) in
  images_fit (objs ex_shots) [0%nat; 1%nat] (2%nat, 3%nat) /\ run_limits 0 [0%nat; 1%nat] 1 /\
  (forall i, In i [0%nat; 1%nat] ->
     objs ex_shots i = coadd_view (ex_shot i) Nomask (1 / 5) (5 + i) (fun _ _ _ => 1) (fun _ => (None, [bs i])) /\
     f_var (ex_shot i) <> 0 /\ fits (2%nat, 3%nat) (bs i)) /\
  covered (2%nat, 3%nat) bs (combine [0%nat; 1%nat] [INR 2; INR 3]) /\
  coadd (fun _ => Raise IOError) (fun x _ => Ok x) transp 0 [] ex_shots [Img 0; Img 1] false (1 / 5) 1 = (Some (Ok (Rr, P, m)), [Img 0; Img 1]).
Proof.
  destruct C100_case as (Rr & P & m & A & B & H & C & _ & E). exists Rr, P, m. cbv zeta.
  do 2 (split; [assumption|]). split; [|now split]. intros i Hi. destruct (H i Hi) as (O & V & F & _). now split.
Qed.

(** C103: a new image that shows one sky and a reference that shows another, each through its
    own PSF: the difference image shows, through the PSF that subtract returns, the sky of the
    new image minus the flux ratio times that of the reference. The middle of that PSF is the
    sum of the middles of the two, counted around the frame. *)
Theorem C103_sky : forall e x y zr zn beta shift it fitted b D P S m (skyr skyn : nat -> nat -> R) (fr fn : R) (ar cr an cn : Z),
  e_transp e x y = Ok (zr, zn) -> (0 < fst (d_shape x))%nat -> (0 < snd (d_shape x))%nat -> 0 < d_var y ->
  ratio_and_shift e (Is x) (Is y) false beta shift it fitted = Ok (b, 0, 0) -> b <> 0 ->
  subtract e (Is x) (Is y) false beta shift it fitted = Ok (D, P, S, m) ->
  let sh := d_shape x in
  let pr := used_psf fitted x in let pn := used_psf fitted y in
  fits sh pr -> fits sh pn ->
  center_of_mass pr = (IZR ar, IZR cr) -> center_of_mass pn = (IZR an, IZR cn) ->
  (forall u v, (u < fst sh)%nat -> (v < snd sh)%nat -> fst (response sh pr u v) <> 0 /\ fst (response sh pn u v) <> 0) ->
  (forall i j, (i < fst sh)%nat -> (j < snd sh)%nat ->
     d_interped x i j = fr * exposure sh skyr pr ar cr i j /\ d_interped y i j = fn * exposure sh skyn pn an cn i j) ->
  forall i j, (i < fst sh)%nat -> (j < snd sh)%nat ->
    px D i j = (RtoC (/ sqrt (d_var x ^ 2 * b ^ 2 + d_var y ^ 2)) *
      exposure_full sh (fun k l => (fn * skyn k l - b * fr * skyr k l)%R) (pmap RtoC P) (ar + an) (cr + cn) i j)%C.
Proof. exact C103_sky_lm. Qed.
Print Assumptions C103_sky.

(** A reference and a new image of any sky. *)
Example C103_case : forall sky, exists D P S m,
  let e := ex_env 2 3 ex_found in
  e_transp e ex_ref (ex_new sky) = Ok (2, 3) /\ 0 < d_var (ex_new sky) /\
  ratio_and_shift e (Is ex_ref) (Is (ex_new sky)) false false false false false = Ok (3 / 2, 0, 0) /\
  subtract e (Is ex_ref) (Is (ex_new sky)) false false false false false = Ok (D, P, S, m) /\
  fits (2%nat, 3%nat) (used_psf false ex_ref) /\ fits (2%nat, 3%nat) (used_psf false (ex_new sky)) /\
  center_of_mass (used_psf false ex_ref) = (IZR 0, IZR 1) /\ center_of_mass (used_psf false (ex_new sky)) = (IZR 0, IZR 1) /\
  (forall u v, (u < 2)%nat -> (v < 3)%nat ->
     fst (response (2%nat, 3%nat) (used_psf false ex_ref) u v) <> 0 /\ fst (response (2%nat, 3%nat) (used_psf false (ex_new sky)) u v) <> 0) /\
  (forall i j, (i < 2)%nat -> (j < 3)%nat ->
     d_interped ex_ref i j = 2 * exposure (2%nat, 3%nat) sky1 (used_psf false ex_ref) 0 1 i j /\
     d_interped (ex_new sky) i j = 3 * exposure (2%nat, 3%nat) sky (used_psf false (ex_new sky)) 0 1 i j).
Proof. exact C103_case_lm. Qed.

(** C103: in particular nothing is left of a sky that both images show, when the flux ratio is
    that of the two images. *)
Theorem C103_same : forall e x y zr zn beta shift it fitted b D P S m (sky : nat -> nat -> R) (fr fn : R) (ar cr an cn : Z),
  e_transp e x y = Ok (zr, zn) -> (0 < fst (d_shape x))%nat -> (0 < snd (d_shape x))%nat -> 0 < d_var y ->
  ratio_and_shift e (Is x) (Is y) false beta shift it fitted = Ok (b, 0, 0) -> b <> 0 -> b * fr = fn ->
  subtract e (Is x) (Is y) false beta shift it fitted = Ok (D, P, S, m) ->
  let sh := d_shape x in
  let pr := used_psf fitted x in let pn := used_psf fitted y in
  fits sh pr -> fits sh pn ->
  center_of_mass pr = (IZR ar, IZR cr) -> center_of_mass pn = (IZR an, IZR cn) ->
  (forall u v, (u < fst sh)%nat -> (v < snd sh)%nat -> fst (response sh pr u v) <> 0 /\ fst (response sh pn u v) <> 0) ->
  (forall i j, (i < fst sh)%nat -> (j < snd sh)%nat ->
     d_interped x i j = fr * exposure sh sky pr ar cr i j /\ d_interped y i j = fn * exposure sh sky pn an cn i j) ->
  forall i j, (i < fst sh)%nat -> (j < snd sh)%nat -> px D i j = RtoC 0.
Proof. exact C103_same_lm. Qed.
Print Assumptions C103_same.

(** C104: the pixels of a coadd and of its PSF have no imaginary part, whatever the PSFs of the
    images, when the centre of mass of the first element of each is a cell. Along an axis with an
    odd number of cells it can be anywhere. *)
Theorem C104_real : forall mk reg transp fuel sched w ids loss n zps sh Rr P m l'
  (im : nat -> fimg) (ma : nat -> mask) (lo : nat -> R) (st : nat -> nat) (nm : nat -> R -> nat -> nat -> R)
  (fields : nat -> R -> option (list (nat -> nat -> R))) (first : nat -> R -> plane R) (others : nat -> R -> list (plane R)),
  ids <> [] -> NoDup ids -> transp (objs w) ids = Ok zps -> length zps = length ids ->
  run_limits fuel ids n -> images_fit (objs w) ids sh -> (0 < fst sh)%nat -> (0 < snd sh)%nat ->
  (forall i, In i ids ->
     objs w i = coadd_view (im i) (ma i) (lo i) (st i) (nm i) (fun l => (fields i l, first i l :: others i l)) /\
     f_var (im i) <> 0 /\ odd_or_whole2 sh (center_of_mass (first i loss))) ->
  (forall u v, (u < fst sh)%nat -> (v < snd sh)%nat ->
     exists i z b, In (i, z) (combine ids zps) /\ z <> 0 /\ In b (first i loss :: others i loss) /\ fits sh b /\
       response sh b u v <> RtoC 0) ->
  coadd mk reg transp fuel sched w (map Img ids) false loss n = (Some (Ok (Rr, P, m)), l') ->
  forall x y, (x < fst sh)%nat -> (y < snd sh)%nat -> snd (px Rr x y) = 0 /\ snd (px P x y) = 0.
Proof. exact C104_real_lm. Qed.
Print Assumptions C104_real.

(** An image with a PSF that varies over the frame. *)
Example C104_case : exists Rr P m,
  let transp := fun (_ : heap) (_ : list nat) => Ok [2] in
  images_fit (objs ex_varying) [0%nat] (2%nat, 3%nat) /\ run_limits 0 [0%nat] 1 /\
  objs ex_varying 0%nat = coadd_view (ex_shot 0) Nomask (1 / 5) 5 (fun _ _ _ => 1) (fun _ => (ex_fields, trio (1 / 5) :: [trio (1 / 7)])) /\
  f_var (ex_shot 0) <> 0 /\ odd_or_whole2 (2%nat, 3%nat) (center_of_mass (trio (1 / 5))) /\
  (forall u v, (u < 2)%nat -> (v < 3)%nat -> fits (2%nat, 3%nat) (trio (1 / 5)) /\ response (2%nat, 3%nat) (trio (1 / 5)) u v <> RtoC 0) /\
  coadd (fun _ => Raise IOError) (fun x _ => Ok x) transp 0 [] ex_varying [Img 0] false (1 / 5) 1 = (Some (Ok (Rr, P, m)), [Img 0]).
Proof. exact C104_case_lm. Qed.

(** C104: with the centre of mass between cells and an even number of them the coadd has an
    imaginary part. *)
Theorem C104_between_cells_refuted : exists Rr P m,
  let transp := fun (_ : heap) (_ : list nat) => Ok [1] in
  images_fit (objs ex_skewed_world) [0%nat] (1%nat, 2%nat) /\ run_limits 0 [0%nat] 1 /\
  objs ex_skewed_world 0%nat = coadd_view ex_skewed Nomask (1 / 5) 2 (fun _ _ _ => 1) (fun _ => (None, [skewed])) /\
  fits (1%nat, 2%nat) skewed /\ center_of_mass skewed = (0, 1 / 4) /\
  covered (1%nat, 2%nat) (fun _ => skewed) [(0%nat, 1)] /\
  coadd (fun _ => Raise IOError) (fun x _ => Ok x) transp 0 [] ex_skewed_world [Img 0] false (1 / 5) 1 = (Some (Ok (Rr, P, m)), [Img 0]) /\
  0 < snd (px Rr 0%nat 0%nat).
Proof. exact C104_between_cells_refuted_lm. Qed.
Print Assumptions C104_between_cells_refuted.

(** C105: the difference image has no imaginary part, when the centres of the PSFs and the shift
    are whole, or the axis has an odd number of cells. *)
Theorem C105_real : forall e x y zr zn beta shift it fitted b dx dy D P S m,
  e_transp e x y = Ok (zr, zn) -> (0 < fst (d_shape x))%nat -> (0 < snd (d_shape x))%nat -> 0 < d_var y ->
  ratio_and_shift e (Is x) (Is y) false beta shift it fitted = Ok (b, dx, dy) ->
  subtract e (Is x) (Is y) false beta shift it fitted = Ok (D, P, S, m) ->
  odd_or_whole2 (d_shape x) (center_of_mass (used_psf fitted x)) ->
  odd_or_whole2 (d_shape x) (center_of_mass (used_psf fitted y)) ->
  odd_or_whole2 (d_shape x) (dx, dy) ->
  forall i j, (i < fst (d_shape x))%nat -> (j < snd (d_shape x))%nat -> snd (px D i j) = 0.
Proof. exact C105_real_lm. Qed.
Print Assumptions C105_real.

(** C105: the transform of the PSF that is returned is the whole formula: nothing is lost where
    its real part is taken. *)
Theorem C105_psf : forall e x y zr zn beta shift it fitted b dx dy D P S m,
  e_transp e x y = Ok (zr, zn) -> (0 < fst (d_shape x))%nat -> (0 < snd (d_shape x))%nat -> 0 < d_var y ->
  ratio_and_shift e (Is x) (Is y) false beta shift it fitted = Ok (b, dx, dy) ->
  subtract e (Is x) (Is y) false beta shift it fitted = Ok (D, P, S, m) ->
  let zd := b / sqrt (d_var x ^ 2 * b ^ 2 + d_var y ^ 2) in
  forall u v, (u < fst (d_shape x))%nat -> (v < snd (d_shape x))%nat ->
    px (fft2_ortho (pmap RtoC P)) u v =
    (Hpsf fitted x u v * Hpsf fitted y u v * RtoC b / (csqrt (denom fitted x y b u v) * RtoC zd))%C.
Proof. exact C105_psf_lm. Qed.
Print Assumptions C105_psf.

(** The images of C103_case. *)
Example C105_case : forall sky, exists D P S m,
  let e := ex_env 2 3 ex_found in
  e_transp e ex_ref (ex_new sky) = Ok (2, 3) /\ 0 < d_var (ex_new sky) /\ d_shape ex_ref = (2%nat, 3%nat) /\
  ratio_and_shift e (Is ex_ref) (Is (ex_new sky)) false false false false false = Ok (3 / 2, 0, 0) /\
  subtract e (Is ex_ref) (Is (ex_new sky)) false false false false false = Ok (D, P, S, m) /\
  odd_or_whole2 (2%nat, 3%nat) (center_of_mass (used_psf false ex_ref)) /\
  odd_or_whole2 (2%nat, 3%nat) (center_of_mass (used_psf false (ex_new sky))) /\
  odd_or_whole2 (2%nat, 3%nat) (0, 0).
Proof.
  intros sky. destruct (C103_case sky) as (D & P & S & m & A & B & R & E & _ & _ & C1 & C2 & _). exists D, P, S, m. cbv zeta.
  rewrite C1, C2. do 2 (split; [assumption|]). split; [reflexivity|]. do 2 (split; [assumption|]).
  split; [|split]; split; right; eexists; reflexivity.
Qed.

(** C106: the difference image is the new image convolved with one kernel minus the reference
    convolved with another, and with these independent noise of the variances of the two
    images becomes noise of variance 1 in all the pixels, no two of them correlated. The
    kernels depend on the PSFs, the noise levels, the flux ratio and the shift only. *)
Theorem C106_white : forall sh fitted (pr pn : plane R) (vr vn b dx dy : R),
  (0 < fst sh)%nat -> (0 < snd sh)%nat -> 0 < vn ->
  exists Kr Kn : plane C, shape Kr = sh /\ shape Kn = sh /\
    (forall e x y zr zn beta shift it D P S m,
      d_shape x = sh -> used_psf fitted x = pr -> used_psf fitted y = pn -> d_var x = vr -> d_var y = vn ->
      e_transp e x y = Ok (zr, zn) ->
      ratio_and_shift e (Is x) (Is y) false beta shift it fitted = Ok (b, dx, dy) ->
      subtract e (Is x) (Is y) false beta shift it fitted = Ok (D, P, S, m) ->
      forall i j, (i < fst sh)%nat -> (j < snd sh)%nat ->
        px D i j = (blurred sh (d_interped y) Kn i j - blurred sh (d_interped x) Kr i j)%C) /\
    forall i j i' j', (i < fst sh)%nat -> (j < snd sh)%nat -> (i' < fst sh)%nat -> (j' < snd sh)%nat ->
      (RtoC (vn ^ 2) * covariance sh Kn i j i' j' + RtoC (vr ^ 2) * covariance sh Kr i j i' j')%C =
      RtoC (if ((i =? i') && (j =? j'))%nat then 1 else 0).
Proof. exact C106_white_lm. Qed.
Print Assumptions C106_white.

(** The images of C103_case, for any sky. *)
Example C106_case : forall sky, exists D P S m,
  let e := ex_env 2 3 ex_found in let x := ex_ref in let y := ex_new sky in
  d_shape x = (2%nat, 3%nat) /\ used_psf false y = used_psf false (ex_new sky1) /\ d_var y = d_var (ex_new sky1) /\ 0 < d_var y /\
  e_transp e x y = Ok (2, 3) /\
  ratio_and_shift e (Is x) (Is y) false false false false false = Ok (3 / 2, 0, 0) /\
  subtract e (Is x) (Is y) false false false false false = Ok (D, P, S, m).
Proof.
  intros sky. destruct (C103_case sky) as (D & P & S & m & A & B & R & E & _). exists D, P, S, m. cbv zeta.
  do 3 (split; [reflexivity|]). now split.
Qed.
