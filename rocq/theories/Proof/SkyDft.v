(** Transforms of exposures, and sums of squares before and after a transform. *)
From Coq Require Import Arith ZArith List Bool Reals Lia Lra.
From Coquelicot Require Import Complex.
From Verif.Model Require Import Py Plane Ma Coadd Subtract Filter.
From Verif.Spec Require Import Coadd Fourier Filter Sky.
From Verif.Proof Require Import Coadd Fourier Subtract SubtractSum Dft Filter FilterMain CoaddMore CoaddPoint.
Import ListNotations.
Local Open Scope R_scope.
Set Bullet Behavior "Strict Subproofs".

Lemma fft_ext f g u v : plane_eq f g -> px (fft2_ortho f) u v = px (fft2_ortho g) u v.
Proof.
  intros [S E]. unfold shape in S. injection S as S1 S2. rewrite !fft_px, !dft_har. rewrite <- S1, <- S2. f_equal.
  apply sum2_ext. intros i j Hi Hj. now rewrite E.
Qed.

Lemma response_har sh b u v :
  response sh b u v = sum2 (nr b) (nc b) (fun p q =>
    (RtoC (px b p q) * har2 (fst sh) (snd sh) u v (- Z.of_nat p) (- Z.of_nat q))%C).
Proof.
  unfold response. apply sum2_ext. intros p q _ _. f_equal. unfold har2, har. rewrite <- cis_plus. f_equal.
  rewrite !opp_IZR, <- !INR_IZR_INZ. unfold Rdiv. ring.
Qed.

Lemma elem_response sh b u v : fits sh b ->
  px (elem_hat sh b) u v = (unit_of (fst sh) (snd sh) * response sh b u v)%C.
Proof.
  intros [F1 F2]. unfold elem_hat. rewrite fft_px, dft_har, response_har.
  change (nr (pad_to sh (pmap RtoC b))) with (fst sh). change (nc (pad_to sh (pmap RtoC b))) with (snd sh). f_equal.
  rewrite <- (sum2_pad (fst sh) (snd sh) (nr b) (nc b)) by assumption. apply sum2_ext. intros i j _ _.
  cbn [pad_to px pmap nr nc]. destruct (_ && _)%bool; ring.
Qed.

(** The transform of an exposure. *)
Definition exposed_hat (sh : nat * nat) (T : nat -> nat -> C) (b : plane R) (a c : Z) : plane C :=
  mkplane (fst sh) (snd sh) (fun u v => (T u v * response sh b u v * har2 (fst sh) (snd sh) u v a c)%C).

Lemma exposure_ifft sh sky b a c x y : (0 < fst sh)%nat -> (0 < snd sh)%nat ->
  px (ifft2_ortho (exposed_hat sh (px (fft2_ortho (real_frame sh sky))) b a c)) x y = RtoC (exposure sh sky b a c x y).
Proof.
  intros HN HM. rewrite ifft_px. cbn [exposed_hat nr nc px].
  set (U := unit_of (fst sh) (snd sh)).
  rewrite (sum2_ext _ _ _ (fun u v => (U * (px (dft_raw (real_frame sh sky)) u v *
     sum2 (nr b) (nc b) (fun p q => (RtoC (px b p q) * har2 (fst sh) (snd sh) u v (-1 * Z.of_nat p) (-1 * Z.of_nat q))%C) *
     har2 (fst sh) (snd sh) u v (a + Z.of_nat x) (c + Z.of_nat y)))%C)).
  - rewrite sum2_scale.
    pose proof (filter_at (real_frame sh sky) (nr b) (nc b) (fun p q => RtoC (px b p q)) (-1)
      (a + Z.of_nat x) (c + Z.of_nat y) HN HM) as F.
    change (nr (real_frame sh sky)) with (fst sh) in F. change (nc (real_frame sh sky)) with (snd sh) in F.
    rewrite F. clear F. rewrite !Cmult_assoc. unfold U. rewrite unit_sq by assumption.
    rewrite Cmult_1_l. unfold exposure. rewrite <- sum2_RtoC. apply sum2_ext. intros p q _ _.
    rewrite RtoC_mult. f_equal. unfold around, pix_around, real_frame, frame. cbn [px nr nc].
    do 3 f_equal; lia.
  - intros u v _ _. rewrite fft_px. change (nr (real_frame sh sky)) with (fst sh). change (nc (real_frame sh sky)) with (snd sh).
    fold U. rewrite response_har.
    rewrite (sum2_ext (nr b) (nc b) _ (fun p q => (RtoC (px b p q) * har2 (fst sh) (snd sh) u v (-1 * Z.of_nat p) (-1 * Z.of_nat q))%C)).
    + rewrite har2_plus. ring.
    + intros p q _ _. do 2 f_equal; lia.
Qed.

Lemma fft_scaled sh (k : R) f u v :
  px (fft2_ortho (real_frame sh (fun i j => k * f i j))) u v = (RtoC k * px (fft2_ortho (real_frame sh f)) u v)%C.
Proof.
  rewrite !fft_px, !dft_har. cbn [real_frame frame nr nc px].
  rewrite (sum2_ext _ _ _ (fun i j => (RtoC k * (RtoC (f i j) * har2 (fst sh) (snd sh) u v (- Z.of_nat i) (- Z.of_nat j)))%C)).
  - rewrite sum2_scale. ring.
  - intros i j _ _. rewrite RtoC_mult. ring.
Qed.

Lemma fft_exposure sh sky b a c u v : (0 < fst sh)%nat -> (0 < snd sh)%nat ->
  (u < fst sh)%nat -> (v < snd sh)%nat ->
  px (fft2_ortho (real_frame sh (exposure sh sky b a c))) u v =
  (px (fft2_ortho (real_frame sh sky)) u v * response sh b u v * har2 (fst sh) (snd sh) u v a c)%C.
Proof.
  intros HN HM Hu Hv. set (G := exposed_hat sh (px (fft2_ortho (real_frame sh sky))) b a c).
  rewrite (fft_ext _ (ifft2_ortho G)).
  - destruct (fft_inverse' G HN HM) as [_ E]. rewrite E by assumption. reflexivity.
  - split; [reflexivity|]. intros i j Hi Hj. unfold G. rewrite exposure_ifft by assumption. reflexivity.
Qed.

(** Sums over the frame, read backwards. *)
Lemma sum2_turn N M (g : nat -> nat -> C) a b : (0 < N)%nat -> (0 < M)%nat ->
  sum2 N M (fun i j => g (wrap N (a - Z.of_nat i)) (wrap M (b - Z.of_nat j))) = sum2 N M g.
Proof.
  intros HN HM.
  rewrite (sum2_ext N M _ (fun i j => sum2 N M (fun p q => (g p q *
    (if ((a - Z.of_nat i - Z.of_nat p) mod Z.of_nat N =? 0) && ((b - Z.of_nat j - Z.of_nat q) mod Z.of_nat M =? 0)
     then RtoC 1 else RtoC 0))%C)%Z)).
  - rewrite sum2_swap. apply sum2_ext. intros p q _ _.
    rewrite (sum2_ext N M _ (fun i j => (g p q *
      (if ((a - Z.of_nat p - Z.of_nat i) mod Z.of_nat N =? 0) && ((b - Z.of_nat q - Z.of_nat j) mod Z.of_nat M =? 0)
       then RtoC 1 else RtoC 0))%C)%Z).
    + rewrite (sum2_pick N M (fun _ _ => g p q)) by assumption. ring.
    + intros i j _ _. replace (a - Z.of_nat i - Z.of_nat p)%Z with (a - Z.of_nat p - Z.of_nat i)%Z by lia.
      replace (b - Z.of_nat j - Z.of_nat q)%Z with (b - Z.of_nat q - Z.of_nat j)%Z by lia. reflexivity.
  - intros i j _ _. rewrite (sum2_pick N M g) by assumption. ring.
Qed.

Lemma covariance_dft sh K x y x' y' : (0 < fst sh)%nat -> (0 < snd sh)%nat -> shape K = sh ->
  (RtoC (cells_of sh) * covariance sh K x y x' y')%C =
  sum2 (fst sh) (snd sh) (fun u v => (px (dft_raw K) u v * Cconj (px (dft_raw K) u v) *
    har2 (fst sh) (snd sh) u v (Z.of_nat x - Z.of_nat x') (Z.of_nat y - Z.of_nat y'))%C).
Proof.
  intros HN HM SK. destruct (shape_pair _ _ SK) as [K1 K2].
  set (g := fun p q : nat => (around K (Z.of_nat x - Z.of_nat x' + Z.of_nat p) (Z.of_nat y - Z.of_nat y' + Z.of_nat q) *
    Cconj (px K p q))%C).
  assert (covariance sh K x y x' y' = sum2 (fst sh) (snd sh) g) as ->.
  { rewrite <- (sum2_turn (fst sh) (snd sh) g (Z.of_nat x') (Z.of_nat y')) by assumption.
    unfold covariance. apply sum2_ext. intros i j _ _. unfold g, around. rewrite K1, K2. f_equal.
    rewrite !(Z.add_comm (_ - _) (Z.of_nat (wrap _ _))), !wrap_wrap by assumption. do 2 f_equal; lia. }
  pose proof (filter_at K (fst sh) (snd sh) (fun p q => Cconj (px K p q)) 1
    (Z.of_nat x - Z.of_nat x') (Z.of_nat y - Z.of_nat y') ltac:(lia) ltac:(lia)) as F.
  rewrite K1, K2 in F. unfold cells_of. etransitivity; [|etransitivity; [symmetry; exact F|]].
  - f_equal. apply sum2_ext. intros p q _ _. unfold g. do 2 f_equal; lia.
  - apply sum2_ext. intros u v _ _. f_equal. f_equal. rewrite dft_har, conj_sum2, K1, K2. apply sum2_ext.
    intros p q _ _. rewrite conj_mult, har2_conj. do 2 f_equal; lia.
Qed.

(** Parseval. *)
Lemma parseval f : (0 < nr f)%nat -> (0 < nc f)%nat ->
  sum2 (nr f) (nc f) (fun i j => (px f i j * Cconj (px f i j))%C) =
  sum2 (nr f) (nc f) (fun u v => (px (fft2_ortho f) u v * Cconj (px (fft2_ortho f) u v))%C).
Proof.
  intros HN HM.
  pose proof (covariance_dft (nr f, nc f) f 0 0 0 0 HN HM eq_refl) as E. cbn [fst snd] in E.
  assert (covariance (nr f, nc f) f 0 0 0 0 = sum2 (nr f) (nc f) (fun i j => (px f i j * Cconj (px f i j))%C)) as Ec.
  { rewrite <- (sum2_turn (nr f) (nc f) (fun i j => (px f i j * Cconj (px f i j))%C) 0 0) by assumption.
    unfold covariance. apply sum2_ext. intros i j _ _. reflexivity. }
  rewrite Ec in E. clear Ec. pose proof (unit_sq (nr f) (nc f) HN HM) as Eu.
  rewrite <- (Cmult_1_l (sum2 _ _ (fun i j => (px f i j * _)%C))), <- Eu, <- Cmult_assoc.
  unfold cells_of in E. cbn [fst snd] in E. rewrite E, <- sum2_scale. apply sum2_ext. intros u v _ _.
  rewrite fft_px, conj_mult. unfold unit_of at 4. rewrite conj_R. fold (unit_of (nr f) (nc f)).
  rewrite !Z.sub_diag. unfold har2. rewrite !har_0. ring.
Qed.

(** A frame convolved with a kernel. *)
Lemma blurred_dft sh f K x y : (0 < fst sh)%nat -> (0 < snd sh)%nat -> shape K = sh ->
  blurred sh f K x y =
  (unit_of (fst sh) (snd sh) * sum2 (fst sh) (snd sh) (fun u v =>
    (px (fft2_ortho (real_frame sh f)) u v * px (dft_raw K) u v * har2 (fst sh) (snd sh) u v (Z.of_nat x) (Z.of_nat y))%C))%C.
Proof.
  intros HN HM SK. destruct (shape_pair _ _ SK) as [K1 K2].
  pose proof (filter_at (real_frame sh f) (fst sh) (snd sh) (px K) (-1) (Z.of_nat x) (Z.of_nat y) HN HM) as F.
  change (nr (real_frame sh f)) with (fst sh) in F. change (nc (real_frame sh f)) with (snd sh) in F.
  set (U := unit_of (fst sh) (snd sh)).
  rewrite (sum2_ext (fst sh) (snd sh) _ (fun u v => (U * (px (dft_raw (real_frame sh f)) u v *
     sum2 (fst sh) (snd sh) (fun p q => (px K p q * har2 (fst sh) (snd sh) u v (-1 * Z.of_nat p) (-1 * Z.of_nat q))%C) *
     har2 (fst sh) (snd sh) u v (Z.of_nat x) (Z.of_nat y)))%C)).
  - rewrite sum2_scale, F. rewrite !Cmult_assoc. unfold U. rewrite unit_sq by assumption. rewrite Cmult_1_l.
    unfold blurred. apply sum2_ext. intros p q _ _. reflexivity.
  - intros u v _ _. rewrite fft_px. change (nr (real_frame sh f)) with (fst sh). change (nc (real_frame sh f)) with (snd sh).
    fold U. rewrite (dft_har K), K1, K2.
    rewrite (sum2_ext (fst sh) (snd sh) (fun p q => (px K p q * har2 (fst sh) (snd sh) u v (- Z.of_nat p) (- Z.of_nat q))%C)
      (fun p q => (px K p q * har2 (fst sh) (snd sh) u v (-1 * Z.of_nat p) (-1 * Z.of_nat q))%C)).
    + ring.
    + intros p q _ _. do 2 f_equal; lia.
Qed.

(** The raw transform of a kernel given by its transform. *)
Lemma dft_of_ifft F u v : (0 < nr F)%nat -> (0 < nc F)%nat -> (u < nr F)%nat -> (v < nc F)%nat ->
  (unit_of (nr F) (nc F) * px (dft_raw (ifft2_ortho F)) u v)%C = px F u v.
Proof.
  intros HN HM Hu Hv. destruct (fft_inverse' F HN HM) as [_ E]. rewrite <- (E u v Hu Hv). rewrite fft_px. reflexivity.
Qed.
