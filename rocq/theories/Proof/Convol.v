(** The images that are convolved with a simulated PSF. *)
From Coq Require Import ZArith List Bool Arith Reals String Lia Lra.
From Coquelicot Require Import Complex.
From Verif.Model Require Import Py Plane Simtools Convol.
From Verif.Spec Require Import Fourier Simtools Widths Stars Convol.
From Verif.Proof Require Import Fourier Dft Simtools SimtoolsPsf SimtoolsMain Widths Stars.
Import ListNotations.
Local Open Scope R_scope.
Set Bullet Behavior "Strict Subproofs".

Lemma csum_cut N n f : (n <= N)%nat -> (forall i, (n <= i < N)%nat -> f i = RtoC 0) -> csum N f = csum n f.
Proof.
  intros H Z. induction N as [|N IH].
  - now replace n with 0%nat by lia.
  - destruct (Nat.eq_dec n (S N)) as [->|Hne]; [reflexivity|]. cbn [csum]. rewrite IH by (try lia; intros; apply Z; lia).
    rewrite Z by lia. apply Cplus_0_r.
Qed.

Lemma csum_real n f : csum n (fun i => RtoC (f i)) = RtoC (rsum n f).
Proof. induction n as [|n IH]; [reflexivity|]. cbn [csum rsum]. now rewrite IH, RtoC_plus. Qed.

(** The product of two transforms, in numpy's default normalisation. *)
Lemma conv_default f g x y : (0 < nr f)%nat -> (0 < nc f)%nat -> shape g = shape f -> (x < nr f)%nat -> (y < nc f)%nat ->
  px (ifft2 (pmap2 Cmult (dft_raw f) (dft_raw g))) x y = px (convolution f g) x y.
Proof.
  intros Hr Hc S Hx Hy. destruct (fft_convolution f g Hr Hc S) as [_ E]. rewrite <- E by assumption.
  rewrite ifft_px. cbn [ifft2 pmap px]. rewrite idft_har.
  change (nr (pmap2 Cmult (fft2_ortho f) (dft_raw g))) with (nr f). change (nc (pmap2 Cmult (fft2_ortho f) (dft_raw g))) with (nc f).
  change (nr (pmap2 Cmult (dft_raw f) (dft_raw g))) with (nr f). change (nc (pmap2 Cmult (dft_raw f) (dft_raw g))) with (nc f).
  set (K := unit_of (nr f) (nc f)).
  rewrite (sum2_ext _ _ (fun u v => (px (pmap2 Cmult (fft2_ortho f) (dft_raw g)) u v * _)%C)
    (fun u v => (K * (px (pmap2 Cmult (dft_raw f) (dft_raw g)) u v * har2 (nr f) (nc f) u v (Z.of_nat x) (Z.of_nat y)))%C)).
  - rewrite sum2_scale, Cmult_assoc. f_equal. unfold K, unit_of. rewrite sqrt_inv_sq; [reflexivity|]. now apply area_pos.
  - intros u v _ _. change (px (pmap2 Cmult (fft2_ortho f) (dft_raw g)) u v) with (px (fft2_ortho f) u v * px (dft_raw g) u v)%C.
    change (px (pmap2 Cmult (dft_raw f) (dft_raw g)) u v) with (px (dft_raw f) u v * px (dft_raw g) u v)%C. rewrite fft_px. fold K. ring.
Qed.

(** A padded array, read cyclically at a place that does not come round. *)
Lemma padded_cell a F1 F2 G1 G2 (u v : Z) : (0 < nr a)%nat -> (0 < nc a)%nat -> (nr a + G1 <= F1 + 1)%nat -> (nc a + G2 <= F2 + 1)%nat -> (0 < F1)%nat -> (0 < F2)%nat ->
  (- Z.of_nat G1 < u < Z.of_nat F1)%Z -> (- Z.of_nat G2 < v < Z.of_nat F2)%Z ->
  around (pad_to (F1, F2) (pmap RtoC a)) u v = RtoC (cell a u v).
Proof.
  intros N1 N2 H1 H2 P1 P2 Hu Hv. unfold around, pad_to, cell. cbn [px nr nc fst snd pmap].
  assert (W : forall F (z : Z), (0 < F)%nat -> (- Z.of_nat F < z < Z.of_nat F)%Z ->
     Z.of_nat (wrap F z) = (if z <? 0 then z + Z.of_nat F else z)%Z).
  { intros F z HF Hz. rewrite wrap_mod by exact HF. destruct (Z.ltb_spec z 0) as [L|L].
    - symmetry. apply Zmod_unique with (-1)%Z; lia.
    - apply Z.mod_small. lia. }
  pose proof (W F1 u P1 ltac:(lia)) as W1. pose proof (W F2 v P2 ltac:(lia)) as W2.
  destruct (Z.ltb_spec u 0) as [Lu|Lu].
  - replace (Nat.ltb (wrap F1 u) (nr a)) with false by (symmetry; apply Nat.ltb_ge; lia).
    replace (0 <=? u)%Z with false by (symmetry; apply Z.leb_gt; lia). reflexivity.
  - destruct (Z.ltb_spec v 0) as [Lv|Lv].
    + replace (Nat.ltb (wrap F2 v) (nc a)) with false by (symmetry; apply Nat.ltb_ge; lia).
      replace (0 <=? v)%Z with false by (symmetry; apply Z.leb_gt; lia). rewrite !andb_false_r. reflexivity.
    + replace (wrap F1 u) with (Z.to_nat u) by lia. replace (wrap F2 v) with (Z.to_nat v) by lia.
      replace (0 <=? u)%Z with true by (symmetry; apply Z.leb_le; lia). replace (0 <=? v)%Z with true by (symmetry; apply Z.leb_le; lia).
      replace (Nat.ltb (Z.to_nat u) (nr a)) with (u <? Z.of_nat (nr a))%Z
        by (destruct (Z.ltb_spec u (Z.of_nat (nr a))); symmetry; [apply Nat.ltb_lt|apply Nat.ltb_ge]; lia).
      replace (Nat.ltb (Z.to_nat v) (nc a)) with (v <? Z.of_nat (nc a))%Z
        by (destruct (Z.ltb_spec v (Z.of_nat (nc a))); symmetry; [apply Nat.ltb_lt|apply Nat.ltb_ge]; lia).
      cbn [andb]. rewrite andb_true_r. now destruct (_ && _)%bool.
Qed.

(** Each pixel of a convolved image is the sum over the pixels of the image, each seen through
    the PSF whose middle is put on it. *)
Lemma C124_convolution_lm : forall (fast : nat -> nat) (gal a : plane R) (i j : nat),
  (forall n, n <= fast n)%nat -> (0 < nr a)%nat -> (0 < nc a)%nat -> (i < nr gal)%nat -> (j < nc gal)%nat ->
  px (fftconvolve_same fast gal a) i j =
  rsum (nr gal) (fun k => rsum (nc gal) (fun l =>
    px gal k l * cell a (Z.of_nat i - Z.of_nat k + middle (nr a)) (Z.of_nat j - Z.of_nat l + middle (nc a)))).
Proof.
  intros fast gal a i j Hf Ra Ca Hi Hj. unfold fftconvolve_same. cbn [px fst snd].
  set (N := (nr gal + nr a - 1)%nat). set (M := (nc gal + nc a - 1)%nat). set (F1 := fast N). set (F2 := fast M).
  assert (B1 : (N <= F1)%nat) by apply Hf. assert (B2 : (M <= F2)%nat) by apply Hf.
  set (g := pad_to (F1, F2) (pmap RtoC gal)). set (b := pad_to (F1, F2) (pmap RtoC a)).
  replace (N - nr gal)%nat with (nr a - 1)%nat by lia. replace (M - nc gal)%nat with (nc a - 1)%nat by lia.
  set (c1 := ((nr a - 1) / 2)%nat). set (c2 := ((nc a - 1) / 2)%nat).
  assert (D1 : (2 * c1 <= nr a - 1)%nat) by (apply Nat.mul_div_le; lia).
  assert (D2 : (2 * c2 <= nc a - 1)%nat) by (apply Nat.mul_div_le; lia).
  assert (E : px (ifft2 (pmap2 Cmult (dft_raw g) (dft_raw b))) (i + c1)%nat (j + c2)%nat =
              px (convolution b g) (i + c1)%nat (j + c2)%nat).
  { rewrite <- (conv_default b g); [|change (0 < F1)%nat; lia|change (0 < F2)%nat; lia|reflexivity|change (i + c1 < F1)%nat; lia|change (j + c2 < F2)%nat; lia].
    unfold ifft2, idft_raw. cbn [pmap pmap2 px nr nc]. f_equal.
    change (nr (dft_raw g)) with F1. change (nc (dft_raw g)) with F2. change (nr (dft_raw b)) with F1. change (nc (dft_raw b)) with F2.
    apply csum_ext. intros u _. apply csum_ext. intros v _. f_equal. apply Cmult_comm. }
  rewrite E. cbn [px convolution]. change (nr g) with F1. change (nc g) with F2. unfold sum2.
  transitivity (fst (RtoC (rsum (nr gal) (fun k => rsum (nc gal) (fun l => px gal k l *
    cell a (Z.of_nat i - Z.of_nat k + middle (nr a)) (Z.of_nat j - Z.of_nat l + middle (nc a))))))); [|reflexivity]. f_equal.
  rewrite <- csum_real. rewrite (csum_cut F1 (nr gal)); [|lia|].
  - apply csum_ext. intros k Hk. rewrite <- csum_real. rewrite (csum_cut F2 (nc gal)); [|lia|].
    + apply csum_ext. intros l Hl. unfold b. rewrite (padded_cell a F1 F2 (nr gal) (nc gal)) by lia.
      unfold g, pad_to. cbn [px fst snd]. change (nr (pmap RtoC gal)) with (nr gal). change (nc (pmap RtoC gal)) with (nc gal).
      apply Nat.ltb_lt in Hk. apply Nat.ltb_lt in Hl. rewrite Hk, Hl. cbn [andb pmap px]. rewrite <- RtoC_mult. f_equal. rewrite Rmult_comm. f_equal.
      unfold middle. fold c1 c2. f_equal; lia.
    + intros l Hl. unfold g, pad_to. cbn [px fst snd]. change (nc (pmap RtoC gal)) with (nc gal).
      replace (Nat.ltb l (nc gal)) with false by (symmetry; apply Nat.ltb_ge; lia). rewrite andb_false_r. apply Cmult_0_r.
  - intros k Hk. rewrite <- (csum_0 F2). apply csum_ext. intros l _. unfold g, pad_to. cbn [px fst snd]. change (nr (pmap RtoC gal)) with (nr gal).
    replace (Nat.ltb k (nr gal)) with false by (symmetry; apply Nat.ltb_ge; lia). cbn [andb]. apply Cmult_0_r.
Qed.

Lemma rsum_one n k v : (k < n)%nat -> rsum n (fun i => if Nat.eqb i k then v else 0) = v.
Proof.
  intros H. induction n as [|n IH]; [lia|]. cbn [rsum]. destruct (Nat.eq_dec k n) as [->|Hk].
  - rewrite Nat.eqb_refl, rsum_zero; [lra|]. intros i Hi. destruct (Nat.eqb_spec i n); [lia|reflexivity].
  - rewrite IH by lia. destruct (Nat.eqb_spec n k); [lia|lra].
Qed.

(** A star is drawn as the PSF with its middle on the star. *)
Lemma C124_star_lm : forall (fast : nat -> nat) (gal a : plane R) (x y : nat) (w : R) (i j : nat),
  (forall n, n <= fast n)%nat -> (0 < nr a)%nat -> (0 < nc a)%nat -> one_star gal x y w -> (i < nr gal)%nat -> (j < nc gal)%nat ->
  px (fftconvolve_same fast gal a) i j =
  w * cell a (Z.of_nat i - Z.of_nat x + middle (nr a)) (Z.of_nat j - Z.of_nat y + middle (nc a)).
Proof.
  intros fast gal a x y w i j Hf Ra Ca (Hx & Hy & Hm) Hi Hj. rewrite C124_convolution_lm by assumption.
  rewrite (rsum_ext _ _ (fun k => if Nat.eqb k x then w * cell a (Z.of_nat i - Z.of_nat x + middle (nr a)) (Z.of_nat j - Z.of_nat y + middle (nc a)) else 0)).
  - now apply rsum_one.
  - intros k Hk. destruct (Nat.eqb_spec k x) as [->|Nk].
    + rewrite (rsum_ext _ _ (fun l => if Nat.eqb l y then w * cell a (Z.of_nat i - Z.of_nat x + middle (nr a)) (Z.of_nat j - Z.of_nat y + middle (nc a)) else 0)).
      * now apply rsum_one.
      * intros l Hl. rewrite (Hm x l Hx Hl), Nat.eqb_refl. cbn [andb]. destruct (Nat.eqb_spec l y) as [->|_]; [reflexivity|ring].
    + apply rsum_zero. intros l Hl. rewrite (Hm k l Hk Hl). destruct (Nat.eqb_spec k x); [contradiction|]. cbn [andb]. ring.
Qed.

Lemma rsum_swap n m f : rsum n (fun i => rsum m (fun j => f i j)) = rsum m (fun j => rsum n (fun i => f i j)).
Proof.
  induction n as [|n IH]; cbn [rsum].
  - symmetry. now apply rsum_zero.
  - rewrite IH. clear IH. induction m as [|m IH]; cbn [rsum]; [lra|]. rewrite <- IH. lra.
Qed.

Lemma rsum_app n m f : rsum (n + m) f = rsum n f + rsum m (fun i => f (n + i)%nat).
Proof.
  induction m as [|m IH]; [rewrite Nat.add_0_r; cbn; lra|]. rewrite Nat.add_succ_r. cbn [rsum]. rewrite IH. lra.
Qed.

(** A window that lies within the range. *)
Lemma rsum_window n P f c k : (c <= k)%nat -> (k + (P - c) <= n)%nat -> (c <= P)%nat ->
  (forall z, (z < 0 \/ Z.of_nat P <= z)%Z -> f z = 0) ->
  rsum n (fun i => f (Z.of_nat i - Z.of_nat k + Z.of_nat c)%Z) = rsum P (fun p => f (Z.of_nat p)).
Proof.
  intros H1 H2 H3 Z. replace n with ((k - c) + (P + (n - k - (P - c))))%nat by lia. rewrite !rsum_app.
  rewrite (rsum_zero (k - c)); [|intros i Hi; apply Z; lia].
  rewrite (rsum_zero (n - k - (P - c))); [|intros i Hi; apply Z; lia].
  rewrite Rplus_0_l, Rplus_0_r. apply rsum_ext. intros i _. f_equal. lia.
Qed.

Lemma cell_out a i j : (i < 0 \/ Z.of_nat (nr a) <= i \/ j < 0 \/ Z.of_nat (nc a) <= j)%Z -> cell a i j = 0.
Proof.
  intros H. unfold cell. destruct (Z.leb_spec 0 i), (Z.ltb_spec i (Z.of_nat (nr a))), (Z.leb_spec 0 j), (Z.ltb_spec j (Z.of_nat (nc a))); cbn [andb]; try reflexivity. lia.
Qed.

Lemma cell_in a i j : (i < nr a)%nat -> (j < nc a)%nat -> cell a (Z.of_nat i) (Z.of_nat j) = px a i j.
Proof.
  intros H1 H2. unfold cell. destruct (Z.leb_spec 0 (Z.of_nat i)), (Z.ltb_spec (Z.of_nat i) (Z.of_nat (nr a))), (Z.leb_spec 0 (Z.of_nat j)), (Z.ltb_spec (Z.of_nat j) (Z.of_nat (nc a))); try lia.
  cbn [andb]. now rewrite !Nat2Z.id.
Qed.

(** No light is lost if everything is half a PSF away from the border. *)
Lemma C124_light_lm : forall (fast : nat -> nat) (gal a : plane R),
  (forall n, n <= fast n)%nat -> (0 < nr a)%nat -> (0 < nc a)%nat ->
  (forall k l, (k < nr gal)%nat -> (l < nc gal)%nat -> px gal k l <> 0 ->
     ((nr a - 1) / 2 <= k /\ k + nr a / 2 < nr gal /\ (nc a - 1) / 2 <= l /\ l + nc a / 2 < nc gal)%nat) ->
  total (fftconvolve_same fast gal a) = total gal * total a.
Proof.
  intros fast gal a Hf Ra Ca Hin. unfold total. change (nr (fftconvolve_same fast gal a)) with (nr gal). change (nc (fftconvolve_same fast gal a)) with (nc gal).
  rewrite (rsum_ext (nr gal) _ (fun i => rsum (nr gal) (fun k => rsum (nc gal) (fun l => rsum (nc gal) (fun j =>
    px gal k l * cell a (Z.of_nat i - Z.of_nat k + middle (nr a)) (Z.of_nat j - Z.of_nat l + middle (nc a))))))).
  2:{ intros i Hi. rewrite (rsum_ext (nc gal) _ (fun j => rsum (nr gal) (fun k => rsum (nc gal) (fun l =>
        px gal k l * cell a (Z.of_nat i - Z.of_nat k + middle (nr a)) (Z.of_nat j - Z.of_nat l + middle (nc a)))))).
      - rewrite rsum_swap. apply rsum_ext. intros k _. apply rsum_swap.
      - intros j Hj. now apply C124_convolution_lm. }
  rewrite rsum_swap.
  rewrite (rsum_ext (nr gal) _ (fun k => rsum (nr a) (fun i => rsum (nc a) (fun j => px a i j)) * rsum (nc gal) (fun l => px gal k l))).
  - rewrite rsum_scal. apply Rmult_comm.
  - intros k Hk. rewrite rsum_swap, <- rsum_scal. apply rsum_ext. intros l Hl.
    destruct (Req_dec (px gal k l) 0) as [Z|Nz].
    + rewrite Z, Rmult_0_r. apply rsum_zero. intros i _. apply rsum_zero. intros j _. ring.
    + destruct (Hin k l Hk Hl Nz) as (A1 & A2 & A3 & A4).
      assert (D1 : ((nr a - 1) / 2 + nr a / 2 = nr a - 1)%nat).
      { destruct (Nat.Even_or_Odd (nr a)) as [[q Q]|[q Q]]; rewrite Q.
        - replace (2 * q - 1)%nat with (1 + (q - 1) * 2)%nat by lia. rewrite Nat.div_add by lia. rewrite Nat.mul_comm, Nat.div_mul by lia. cbn. lia.
        - replace (2 * q + 1 - 1)%nat with (q * 2)%nat by lia. rewrite Nat.div_mul by lia. replace (2 * q + 1)%nat with (1 + q * 2)%nat by lia. rewrite Nat.div_add by lia. cbn. lia. }
      assert (D2 : ((nc a - 1) / 2 + nc a / 2 = nc a - 1)%nat).
      { destruct (Nat.Even_or_Odd (nc a)) as [[q Q]|[q Q]]; rewrite Q.
        - replace (2 * q - 1)%nat with (1 + (q - 1) * 2)%nat by lia. rewrite Nat.div_add by lia. rewrite Nat.mul_comm, Nat.div_mul by lia. cbn. lia.
        - replace (2 * q + 1 - 1)%nat with (q * 2)%nat by lia. rewrite Nat.div_mul by lia. replace (2 * q + 1)%nat with (1 + q * 2)%nat by lia. rewrite Nat.div_add by lia. cbn. lia. }
      unfold middle. set (c1 := ((nr a - 1) / 2)%nat) in *. set (c2 := ((nc a - 1) / 2)%nat) in *.
      rewrite (rsum_window (nr gal) (nr a) (fun z => rsum (nc gal) (fun j => px gal k l * cell a z (Z.of_nat j - Z.of_nat l + Z.of_nat c2))) c1 k) by
        (first [lia | intros z Hz; apply rsum_zero; intros j _; rewrite cell_out by lia; ring]).
      rewrite (Rmult_comm _ (px gal k l)), <- rsum_scal. apply rsum_ext. intros i Hi. rewrite rsum_scal. f_equal.
      rewrite (rsum_window (nc gal) (nc a) (fun z => cell a (Z.of_nat i) z) c2 l) by (first [lia | intros z Hz; apply cell_out; lia]).
      apply rsum_ext. intros j Hj. now apply cell_in.
Qed.

Lemma bell_even w d : bell w (- d) = bell w d.
Proof. unfold bell. f_equal. f_equal. unfold Rdiv. ring. Qed.

Lemma bell_max w d : bell w d <= bell w 0.
Proof.
  unfold bell, Rpower. destruct (Req_dec (- (2 * d / w) ^ 2) 0) as [E|E].
  - rewrite E. replace (2 * 0 / w) with 0 by (unfold Rdiv; ring). right. f_equal. ring.
  - left. apply exp_increasing. apply Rmult_lt_compat_r; [rewrite <- ln_1; apply ln_increasing; lra|].
    replace (2 * 0 / w) with 0 by (unfold Rdiv; ring). pose proof (pow2_ge_0 (2 * d / w)). lra.
Qed.

Definition solid (q : plane (option R)) : plane R := pmap (fun x => match x with Some v => v | None => 0 end) q.

Lemma blur_is fast rotate m s xf yf th q : Psf rotate s xf yf th = Ok q -> blur_psf fast rotate m s xf yf th = fftconvolve_same fast m (solid q).
Proof. intros E. unfold blur_psf. now rewrite E. Qed.

(** How a star is drawn by [image]. The Gaussian is centred [off] pixels away from the star,
    to larger row and column numbers. *)
Lemma C124_place_lm : exists s : R, 1008 / 1000 < s < 1009 / 1000 /\
  forall (fast : nat -> nat) (rotate : plane R -> R -> plane R) (m : plane R) (x y : nat) (w xf yf : R),
  (forall n, n <= fast n)%nat -> one_star m x y w -> 0 < xf -> 0 < yf -> 1 <= Rmax xf yf ->
  let size := 5 * Rmax xf yf in
  let sky := blur_psf fast rotate m size xf yf 0 in
  exists (amp off : R) (n t : nat), 0 < amp /\ INR n <= size < INR n + 1 /\ off = (size - 1) / 2 - IZR (middle n) /\ 0 <= off < 1 /\
    (1 <= t)%nat /\ INR t <= 5 * (Rmax xf yf / (2335 / 1000)) < INR t + 1 /\
    forall i j, (i < nr m)%nat -> (j < nc m)%nat ->
      ((x <= i + t)%nat /\ (i < x + t)%nat /\ (y <= j + t)%nat /\ (j < y + t)%nat /\
       px sky i j = w * (amp * (bell (s * xf) (INR i - INR x - off) * bell (s * yf) (INR j - INR y - off)))) \/
      ((i + t < x \/ x + t <= i \/ j + t < y \/ y + t <= j)%nat /\ px sky i j = 0).
Proof.
  destruct C115_psf_lm as (s & Hs & Hp). exists s. split; [exact Hs|].
  intros fast rotate m x y w xf yf Hf Hm Hx Hy H1 size sky.
  set (n := Z.to_nat (Int_part size)).
  assert (Hn : INR n <= size < INR n + 1).
  { unfold n. destruct (base_Int_part size) as [A B]. assert (P : (0 <= Int_part size)%Z).
    { apply le_IZR. assert (-1 < Int_part size)%Z; [|apply IZR_le; lia]. apply lt_IZR. unfold size in *. lra. }
    rewrite INR_IZR_INZ, Z2Nat.id by exact P. lra. }
  assert (Hn5 : (5 <= n)%nat).
  { assert (INR 4 < INR n) by (simpl INR at 1; unfold size in Hn; lra). apply INR_lt in H. lia. }
  destruct (Hp rotate size xf yf n Hn ltac:(lia) Hx Hy) as (q & amp & k & t & Eq & Ha & Hk & Ht & Htl & Htu & Hc).
  { unfold size in *. lra. }
  assert (Dn : (2 * (n / 2) <= n)%nat) by (apply Nat.mul_div_le; lia).
  assert (Kn : ((n - 1) / 2 = k)%nat).
  { destruct Hk as [-> | ->]; [replace (2 * k + 1 - 1)%nat with (k * 2)%nat by lia; now rewrite Nat.div_mul|].
    replace (2 * k + 2 - 1)%nat with (1 + k * 2)%nat by lia. rewrite Nat.div_add by lia. reflexivity. }
  assert (Tk : (t <= k)%nat).
  { destruct Hk as [E|E]; [lia|]. destruct (Nat.le_gt_cases t k) as [L|L]; [exact L|exfalso].
    assert (t = k + 1)%nat by lia. assert (K2 : (2 <= k)%nat) by lia. apply le_INR in K2. cbn [INR] in K2.
    assert (En : INR n = 2 * INR k + 2) by (rewrite E, plus_INR, mult_INR; simpl; lra).
    assert (Et : INR t = INR k + 1) by (subst t; rewrite plus_INR; simpl; lra). unfold size in *. lra. }
  exists amp, ((size - 1) / 2 - IZR (middle n)), n, t.
  assert (Em : IZR (middle n) = INR k) by (unfold middle; rewrite Kn; now rewrite INR_IZR_INZ).
  split; [exact Ha|]. split; [exact Hn|]. split; [reflexivity|]. split.
  { rewrite Em. destruct Hk as [E|E]; rewrite E, plus_INR, mult_INR in Hn; simpl in Hn; lra. }
  split; [lia|]. split.
  { split; [exact Htl|]. destruct (Nat.lt_ge_cases t (n / 2)) as [L|L]; [exact (Htu L)|].
    assert (Lk : (k <= n / 2)%nat) by (apply Nat.div_le_lower_bound; lia). assert (Et : t = k) by lia. assert (En : n = (2 * k + 1)%nat).
    { destruct Hk as [E|E]; [exact E|]. rewrite E in L. replace (2 * k + 2)%nat with ((k + 1) * 2)%nat in L by lia. rewrite Nat.div_mul in L by lia. lia. }
    rewrite En, plus_INR, mult_INR in Hn. simpl in Hn. rewrite Et. unfold size in Hn. pose proof (pos_INR k). lra. }
  intros i j Hi Hj. unfold sky. rewrite (blur_is _ _ _ _ _ _ _ q Eq).
  assert (Sq : nr q = n /\ nc q = n).
  { destruct (C54_psf_normalised_lm rotate size xf yf n Hn ltac:(lia) Hx ltac:(lra) ltac:(unfold size in *; lra)) as (q' & p & Eq' & Pe & Sp & _).
    rewrite Eq in Eq'. injection Eq' as <-. destruct Pe as [Sh _]. unfold shape in *. cbn [pmap nr nc] in Sh. split; congruence. }
  destruct Sq as [Nr Nc].
  rewrite (C124_star_lm fast m (solid q) x y w i j Hf) by (try exact Hm; try assumption; cbn [solid pmap nr nc]; lia).
  cbn [solid pmap nr nc]. rewrite Nr, Nc. unfold middle. rewrite Kn.
  assert (Zero : (i + t < x \/ x + t <= i \/ j + t < y \/ y + t <= j)%nat ->
    cell (solid q) (Z.of_nat i - Z.of_nat x + Z.of_nat k) (Z.of_nat j - Z.of_nat y + Z.of_nat k) = 0).
  { intros Ho.
    destruct (Z_lt_le_dec (Z.of_nat i - Z.of_nat x + Z.of_nat k) 0) as [P|P]; [apply cell_out; lia|].
    destruct (Z_lt_le_dec (Z.of_nat j - Z.of_nat y + Z.of_nat k) 0) as [P'|P']; [apply cell_out; lia|].
    destruct (Z_lt_le_dec (Z.of_nat i - Z.of_nat x + Z.of_nat k) (Z.of_nat n)) as [P1|P1]; [|apply cell_out; cbn [solid pmap nr nc]; lia].
    destruct (Z_lt_le_dec (Z.of_nat j - Z.of_nat y + Z.of_nat k) (Z.of_nat n)) as [P2|P2]; [|apply cell_out; cbn [solid pmap nr nc]; lia].
    replace (Z.of_nat i - Z.of_nat x + Z.of_nat k)%Z with (Z.of_nat (i + k - x)) by lia.
    replace (Z.of_nat j - Z.of_nat y + Z.of_nat k)%Z with (Z.of_nat (j + k - y)) by lia.
    rewrite cell_in by (cbn [solid pmap nr nc]; lia). cbn [solid pmap px].
    destruct (Hc (i + k - x)%nat (j + k - y)%nat ltac:(lia) ltac:(lia)) as [_ Z]. now rewrite Z by lia. }
  destruct (Nat.lt_ge_cases (i + t) x) as [A|A]; [right; split; [lia|]; fold (solid q); rewrite Zero by lia; ring|].
  destruct (Nat.lt_ge_cases i (x + t)) as [B|B]; [|right; split; [lia|]; fold (solid q); rewrite Zero by lia; ring].
  destruct (Nat.lt_ge_cases (j + t) y) as [A'|A']; [right; split; [lia|]; fold (solid q); rewrite Zero by lia; ring|].
  destruct (Nat.lt_ge_cases j (y + t)) as [B'|B']; [|right; split; [lia|]; fold (solid q); rewrite Zero by lia; ring].
  left. repeat (split; [assumption|]). fold (solid q).
  replace (Z.of_nat i - Z.of_nat x + Z.of_nat k)%Z with (Z.of_nat (i + k - x)) by lia.
  replace (Z.of_nat j - Z.of_nat y + Z.of_nat k)%Z with (Z.of_nat (j + k - y)) by lia.
  rewrite cell_in by (cbn [solid pmap nr nc]; lia). cbn [solid pmap px].
  destruct (Hc (i + k - x)%nat (j + k - y)%nat ltac:(lia) ltac:(lia)) as [V _]. rewrite V by lia.
  rewrite !minus_INR, !plus_INR by lia. rewrite <- INR_IZR_INZ. do 2 f_equal. f_equal; f_equal; ring.
Qed.

(** When five times the larger width is an odd whole number, the star's own pixel is the
    brightest. *)
Lemma C124_centred_lm : forall (fast : nat -> nat) (rotate : plane R -> R -> plane R) (m : plane R) (x y : nat) (w xf yf : R) (k : nat),
  (forall n, n <= fast n)%nat -> one_star m x y w -> 0 < w -> 0 < xf -> 0 < yf -> 1 <= Rmax xf yf -> 5 * Rmax xf yf = 2 * INR k + 1 ->
  brightest (blur_psf fast rotate m (5 * Rmax xf yf) xf yf 0) (px (blur_psf fast rotate m (5 * Rmax xf yf) xf yf 0) x y).
Proof.
  intros fast rotate m x y w xf yf k Hf Hm Hw Hx Hy H1 Hk.
  destruct C124_place_lm as (s & Hs & H). destruct (H fast rotate m x y w xf yf Hf Hm Hx Hy H1) as (amp & off & n & t & Ha & Hn & Ho & _ & Ht & _ & Hp).
  set (sky := blur_psf fast rotate m (5 * Rmax xf yf) xf yf 0) in *. destruct Hm as (Mx & My & Hm).
  assert (Sh : nr sky = nr m /\ nc sky = nc m).
  { unfold sky, blur_psf. destruct (Psf _ _ _ _ _); split; reflexivity. }
  destruct Sh as [Sr Sc].
  assert (En : n = (2 * k + 1)%nat).
  { rewrite Hk in Hn. assert (A : INR n < INR (2 * k + 2)) by (rewrite plus_INR, mult_INR; simpl; lra).
    assert (B : INR (2 * k) < INR n) by (rewrite mult_INR; simpl; lra). apply INR_lt in A, B. lia. }
  assert (Oz : off = 0).
  { rewrite Ho, Hk. unfold middle. rewrite En. replace (2 * k + 1 - 1)%nat with (k * 2)%nat by lia. rewrite Nat.div_mul by lia. rewrite <- INR_IZR_INZ. lra. }
  assert (P : px sky x y = w * (amp * (bell (s * xf) 0 * bell (s * yf) 0))).
  { destruct (Hp x y Mx My) as [(_ & _ & _ & _ & E)|[B _]]; [|lia]. rewrite E, Oz. do 2 f_equal. f_equal; f_equal; ring. }
  split; [exists x, y; rewrite Sr, Sc; auto|]. intros i j Hi Hj. rewrite Sr in Hi. rewrite Sc in Hj.
  pose proof (bell_max (s * xf)) as B1. pose proof (bell_max (s * yf)) as B2. pose proof (bell_pos (s * xf)) as Q1. pose proof (bell_pos (s * yf)) as Q2.
  rewrite P. destruct (Hp i j Hi Hj) as [(_ & _ & _ & _ & E)|[_ E]]; rewrite E.
  - apply Rmult_le_compat_l; [lra|]. apply Rmult_le_compat_l; [lra|]. apply Rmult_le_compat; auto; left; auto.
  - left. apply Rmult_lt_0_compat; [exact Hw|]. apply Rmult_lt_0_compat; [exact Ha|]. now apply Rmult_lt_0_compat.
Qed.

Lemma even_star : exists m, one_star m 10 10 1 /\ nr m = 20%nat /\ nc m = 20%nat.
Proof.
  exists (mkplane 20 20 (fun i j => if (Nat.eqb i 10 && Nat.eqb j 10)%bool then 1 else 0)).
  split; [|split; reflexivity]. unfold one_star. cbn [nr nc px]. split; [lia|]. split; [lia|]. reflexivity.
Qed.

(** In general it is not: with a width of two pixels the next pixel on the diagonal is as bright. *)
Lemma C124_centre_refuted_lm : ~ (forall (fast : nat -> nat) (rotate : plane R -> R -> plane R) (m : plane R) (x y : nat) (w f : R),
  (forall n, n <= fast n)%nat -> one_star m x y w -> 0 < w -> 1 <= f -> (x + 1 < nr m)%nat -> (y + 1 < nc m)%nat ->
  let sky := blur_psf fast rotate m (5 * Rmax f f) f f 0 in
  px sky (x + 1) (y + 1) < px sky x y).
Proof.
  intros Hall. destruct even_star as (m & Hm & Rm & Cm).
  specialize (Hall (fun n => n) (fun a _ => a) m 10%nat 10%nat 1 2 ltac:(intros; lia) Hm ltac:(lra) ltac:(lra) ltac:(lia) ltac:(lia)). cbv zeta in Hall.
  destruct C124_place_lm as (s & Hs & H).
  destruct (H (fun n => n) (fun a _ => a) m 10%nat 10%nat 1 2 2 ltac:(intros; lia) Hm ltac:(lra) ltac:(lra)) as (amp & off & n & t & Ha & Hn & Ho & _ & Ht & Htl & Hp).
  { rewrite Rmax_left by lra. lra. }
  assert (En : n = 10%nat).
  { rewrite Rmax_left in Hn by lra. assert (A : INR n < INR 11) by (simpl INR; lra). assert (B : INR 9 < INR n) by (simpl INR; lra). apply INR_lt in A, B. lia. }
  assert (Oh : off = / 2).
  { rewrite Ho, En, Rmax_left by lra. unfold middle. change (IZR (Z.of_nat ((10 - 1) / 2))) with 4. lra. }
  destruct (Hp 10%nat 10%nat ltac:(lia) ltac:(lia)) as [(_ & _ & _ & _ & E1)|[B _]]; [|lia].
  destruct (Hp 11%nat 11%nat ltac:(lia) ltac:(lia)) as [(_ & _ & _ & _ & E2)|[B E2]].
  - change (10 + 1)%nat with 11%nat in Hall. rewrite E1, E2, Oh in Hall. simpl INR in Hall.
    replace (1 + 1 + 1 + 1 + 1 + 1 + 1 + 1 + 1 + 1 + 1 - (1 + 1 + 1 + 1 + 1 + 1 + 1 + 1 + 1 + 1) - / 2) with (/ 2) in Hall by lra.
    replace (1 + 1 + 1 + 1 + 1 + 1 + 1 + 1 + 1 + 1 - (1 + 1 + 1 + 1 + 1 + 1 + 1 + 1 + 1 + 1) - / 2) with (- / 2) in Hall by lra.
    rewrite !bell_even in Hall. lra.
  - rewrite Rmax_left in Htl by lra. assert (A : INR 3 < INR t) by (simpl INR; lra). apply INR_lt in A. lia.
Qed.

(** No light of stars is lost that are half a PSF away from the border. *)
Lemma C124_light_kept_lm : forall (fast : nat -> nat) (rotate : plane R -> R -> plane R) (m : plane R) (xf yf : R) (n : nat),
  (forall n, n <= fast n)%nat -> 0 < xf -> 0 <= yf -> 1 <= Rmax xf yf -> INR n <= 5 * Rmax xf yf < INR n + 1 ->
  (forall k l, (k < nr m)%nat -> (l < nc m)%nat -> px m k l <> 0 ->
     ((n - 1) / 2 <= k /\ k + n / 2 < nr m /\ (n - 1) / 2 <= l /\ l + n / 2 < nc m)%nat) ->
  total (blur_psf fast rotate m (5 * Rmax xf yf) xf yf 0) = total m.
Proof.
  intros fast rotate m xf yf n Hf Hx Hy H1 Hn Hin.
  assert (N5 : (5 <= n)%nat). { assert (A : INR 4 < INR n) by (simpl INR at 1; lra). apply INR_lt in A. lia. }
  destruct (C54_psf_normalised_lm rotate (5 * Rmax xf yf) xf yf n Hn ltac:(lia) Hx Hy ltac:(lra)) as (q & p & Eq & [Sh Pe] & Sp & _ & Tp).
  unfold shape in Sp. injection Sp as Pr Pc. unfold shape in Sh. cbn [pmap nr nc] in Sh. injection Sh as Qr Qc.
  rewrite (blur_is _ _ _ _ _ _ _ q Eq). rewrite C124_light_lm.
  - replace (total (solid q)) with 1; [ring|]. rewrite <- Tp. unfold total. cbn [solid pmap nr nc px]. rewrite Qr, Qc.
    apply rsum_ext. intros i Hi. apply rsum_ext. intros j Hj. rewrite Pe by (try rewrite Qr; try rewrite Qc; assumption). reflexivity.
  - exact Hf.
  - cbn [solid pmap nr]. lia.
  - cbn [solid pmap nc]. lia.
  - cbn [solid pmap nr nc]. rewrite Qr, Qc, Pr, Pc. exact Hin.
Qed.

Lemma fold_max l : forall c, (c <= fold_left Rmax l c) /\ (forall x, In x l -> x <= fold_left Rmax l c) /\ (fold_left Rmax l c = c \/ In (fold_left Rmax l c) l).
Proof.
  induction l as [|a l IH]; intros c; cbn [fold_left].
  - split; [lra|]. split; [intros x []|now left].
  - destruct (IH (Rmax c a)) as (A & B & D). split; [pose proof (Rmax_l c a); lra|]. split.
    + intros x [<-|Hx]; [pose proof (Rmax_r c a); lra|now apply B].
    + destruct D as [D|D]; [|right; now right]. rewrite D. unfold Rmax. destruct (Rle_dec c a); [right; now left|now left].
Qed.

Lemma pmax_brightest p : (0 < nr p)%nat -> (0 < nc p)%nat -> brightest p (pmax p).
Proof.
  intros Hr Hc. unfold pmax. set (cells := flat_map _ _).
  assert (In_cells : forall v, In v cells <-> exists i j, (i < nr p)%nat /\ (j < nc p)%nat /\ px p i j = v).
  { intros v. unfold cells. rewrite in_flat_map. split.
    - intros (i & Hi & H). apply in_map_iff in H as (j & E & Hj). apply in_seq in Hi, Hj. exists i, j. split; [lia|]. split; [lia|exact E].
    - intros (i & j & Hi & Hj & E). exists i. split; [apply in_seq; lia|]. apply in_map_iff. exists j. split; [exact E|apply in_seq; lia]. }
  destruct cells as [|c l] eqn:Ec.
  - exfalso. apply (proj2 (In_cells (px p 0%nat 0%nat))). exists 0%nat, 0%nat. auto.
  - destruct (fold_max l c) as (A & B & D). split.
    + apply In_cells. destruct D as [D|D]; [rewrite D; now left|now right].
    + intros i j Hi Hj. destruct (proj2 (In_cells (px p i j))) as [<-|H]; [exists i, j; auto|exact A|now apply B].
Qed.

(** What [image] returns: the noise has the brightest pixel over SN as deviation or mean. *)
Lemma C124_noise_lm : forall (G : Type) (default_rng : Z -> G)
  (rng_normal : G -> R -> R -> nat -> plane R * G) (rng_poisson : G -> R -> nat -> plane R * G)
  (blur : plane R -> R -> R -> R -> R -> plane R) (g : G) (MF : plane R) (N : nat) (xf sn yf theta : R) (std : option R) (seed : option Z) (bias : R),
  (forall g m s n, shape (fst (rng_normal g m s n)) = (n, n)) -> (forall g m n, shape (fst (rng_poisson g m n)) = (n, n)) ->
  (forall m s xf yf theta, shape (blur m s xf yf theta) = shape m) -> shape MF = (N, N) -> (1 <= N)%nat ->
  let sky := blur MF (5 * Rmax xf yf) xf yf theta in
  let gen := match seed with Some s => default_rng s | None => g end in
  exists b, brightest sky b /\
    (exists im, fst (image default_rng rng_normal rng_poisson blur g MF N xf sn yf theta "gaussian" std seed bias) = Ok im /\
       shape im = (N, N) /\ forall i j, (i < N)%nat -> (j < N)%nat ->
         px im i j = px (fst (rng_normal gen 0 (b / sn) N)) i j + px sky i j + bias) /\
    (exists im, fst (image default_rng rng_normal rng_poisson blur g MF N xf sn yf theta "poisson" std seed bias) = Ok im /\
       shape im = (N, N) /\ forall i j, (i < N)%nat -> (j < N)%nat ->
         px im i j = px (fst (rng_poisson gen (b / sn) N)) i j + px sky i j + bias).
Proof.
  intros G default_rng rng_normal rng_poisson blur g MF N xf sn yf theta std seed bias Sn Sp Sb SM HN sky gen.
  assert (Ss : nr sky = N /\ nc sky = N) by (pose proof (Sb MF (5 * Rmax xf yf) xf yf theta) as E; fold sky in E; rewrite SM in E; unfold shape in E; injection E; auto).
  destruct Ss as [Sr Sc].
  assert (U : forall c : plane R, shape c = (N, N) -> exists im, padd3 c sky bias = Ok im /\ shape im = (N, N) /\
     forall i j, (i < N)%nat -> (j < N)%nat -> px im i j = px c i j + px sky i j + bias).
  { intros c Hc. unfold shape in Hc. injection Hc as Cr Cc. unfold padd3, ufunc2, bshape, shape, bdim. cbn [fst snd]. rewrite Cr, Cc, Sr, Sc, !Nat.eqb_refl. cbn [bind].
    eexists. split; [reflexivity|]. split; [reflexivity|]. intros i j Hi Hj. cbn [pmap px]. unfold bidx.
    destruct (Nat.eqb_spec N 1) as [E|E]; [|reflexivity]. replace i with 0%nat by lia. replace j with 0%nat by lia. reflexivity. }
  exists (pmax sky). split; [apply pmax_brightest; lia|].
  unfold image. fold sky. rewrite Sr, Sc. replace (Nat.eqb N 0) with false by (symmetry; apply Nat.eqb_neq; lia). cbn [orb].
  cbn [String.eqb]. cbn [Ascii.eqb Bool.eqb]. fold gen. split.
  - specialize (Sn gen 0 (pmax sky / sn) N). destruct (rng_normal gen 0 (pmax sky / sn) N) as [c g1]. cbn [fst] in *. apply U, Sn.
  - specialize (Sp gen (pmax sky / sn) N). destruct (rng_poisson gen (pmax sky / sn) N) as [c g1]. cbn [fst] in *. apply U, Sp.
Qed.

(** The documented standard deviation of the background is not used. *)
Lemma C124_std_lm : forall (G : Type) (default_rng : Z -> G)
  (rng_normal : G -> R -> R -> nat -> plane R * G) (rng_poisson : G -> R -> nat -> plane R * G)
  (blur : plane R -> R -> R -> R -> R -> plane R) (g : G) (MF : plane R) (N : nat) (xf sn yf theta : R) (bkg : string) (std std' : option R) (seed : option Z) (bias : R),
  image default_rng rng_normal rng_poisson blur g MF N xf sn yf theta bkg std seed bias =
  image default_rng rng_normal rng_poisson blur g MF N xf sn yf theta bkg std' seed bias.
Proof. reflexivity. Qed.

(** The quadrants of [sim_varpsf] with the angle zero show all the light of their stars. *)
Lemma C124_field_lm : forall (G : Type) (default_rng : Z -> G)
  (rng_normal : G -> R -> R -> nat -> plane R * G) (rng_poisson : G -> R -> nat -> plane R * G)
  (rng_integers : G -> R -> R -> nat -> res (list Z) * G) (fast : nat -> nat) (rotate : plane R -> R -> plane R)
  (g : G) (nstars : nat) (sn : R) (thetas : list R) (N : nat) (seed : option Z) (frame : plane R) (g' : G),
  (forall n, n <= fast n)%nat ->
  (forall g m s n, shape (fst (rng_normal g m s n)) = (n, n)) ->
  (forall g lo hi k l g2, rng_integers g lo hi k = (Ok l, g2) ->
     List.length l = k /\ forall z, In z l -> lo - 1 < IZR z < hi) ->
  sim_varpsf default_rng rng_normal rng_poisson rng_integers (blur_psf fast rotate) g nstars sn thetas N seed = (Ok frame, g') ->
  forall i j, (i < 2)%nat -> (j < 2)%nat -> nth_error thetas (i + 2 * j) = Some 0 ->
  exists (stars : list (nat * nat)) (m sky noise : plane R) (gen : G) (b : R),
    List.length stars = (nstars / 4)%nat /\ star_map N stars m /\ shape sky = (N, N) /\ total sky = total m /\
    ((1 <= N)%nat -> brightest sky b) /\ noise = fst (rng_normal gen 0 (b / sn) N) /\
    forall u v, (u < N)%nat -> (v < N)%nat -> px frame (i * N + u) (j * N + v) = px noise u v + px sky u v + 200.
Proof.
  intros G default_rng rng_normal rng_poisson rng_integers fast rotate g nstars sn thetas N seed frame g' Hf Sn Hi Es i j Li Lj Et.
  assert (Sb : forall m s xf yf theta, shape (blur_psf fast rotate m s xf yf theta) = shape m).
  { intros m s xf yf th. unfold blur_psf. destruct (Psf _ _ _ _ _); reflexivity. }
  destruct (C116_stars_lm G default_rng rng_normal rng_poisson rng_integers (blur_psf fast rotate) g nstars sn thetas N seed frame g' Sn Sb Hi Es i j 0 Li Lj Et)
    as (stars & m & noise & gen & Ls & Hb & Sm & En & Hp).
  cbv zeta in Hb, En, Hp. replace (5 + 5 * 0 / 180) with 5 in Hb, En, Hp by lra. rewrite (Rmax_left 5 5) in Hb, En, Hp by lra.
  exists stars, m, (blur_psf fast rotate m (5 * 5) 5 5 0), noise, gen, (pmax (blur_psf fast rotate m (5 * 5) 5 5 0)).
  destruct Sm as [Sh Sm]. split; [exact Ls|]. split; [now split|]. split; [rewrite Sb; exact Sh|]. split.
  - assert (Hr : Rmax 5 5 = 5) by (apply Rmax_left; lra).
    pose proof (C124_light_kept_lm fast rotate m 5 5 25 Hf ltac:(lra) ltac:(lra)) as L. rewrite Hr in L. apply L; [lra|simpl INR; lra|].
    unfold shape in Sh. injection Sh as Mr Mc. rewrite Mr, Mc. intros k l Hk Hl Nz.
    destruct (Sm k l Hk Hl) as [Z _]. assert (D : In (k, l) stars).
    { destruct (in_dec (fun p q : nat * nat => ltac:(decide equality; apply Nat.eq_dec)) (k, l) stars) as [D|D]; [exact D|]. now rewrite (Z D) in Nz. }
    destruct (Hb k l D) as [[B1 B2] [B3 B4]].
    assert (K1 : (14 < k)%nat) by (apply INR_lt; simpl INR at 1; lra). assert (L1 : (14 < l)%nat) by (apply INR_lt; simpl INR at 1; lra).
    assert (K2 : (k + 15 < N)%nat) by (apply INR_lt; rewrite plus_INR; simpl INR at 2; lra).
    assert (L2 : (l + 15 < N)%nat) by (apply INR_lt; rewrite plus_INR; simpl INR at 2; lra).
    change ((25 - 1) / 2)%nat with 12%nat. change (25 / 2)%nat with 12%nat. lia.
  - split; [|split; [exact En|exact Hp]]. intros HN. apply pmax_brightest.
    + pose proof (Sb m (5 * 5) 5 5 0) as E. rewrite Sh in E. unfold shape in E. injection E. lia.
    + pose proof (Sb m (5 * 5) 5 5 0) as E. rewrite Sh in E. unfold shape in E. injection E. lia.
Qed.

Lemma C124_star_case_lm : exists m, one_star m 10 10 1 /\ nr m = 20%nat /\ nc m = 20%nat /\ 1 <= Rmax 3 2 /\ 5 * Rmax 3 2 = 2 * INR 7 + 1 /\
  INR 15 <= 5 * Rmax 3 2 < INR 15 + 1 /\
  (forall k l, (k < nr m)%nat -> (l < nc m)%nat -> px m k l <> 0 ->
     ((15 - 1) / 2 <= k /\ k + 15 / 2 < nr m /\ (15 - 1) / 2 <= l /\ l + 15 / 2 < nc m)%nat).
Proof.
  destruct even_star as (m & Hm & Rm & Cm). exists m. rewrite Rmax_left by lra. simpl INR. repeat (split; [first [assumption|lra]|]). 
  intros k l Hk Hl Nz. destruct Hm as (_ & _ & Hm). rewrite (Hm k l Hk Hl) in Nz.
  destruct (Nat.eqb_spec k 10) as [->|]; [|contradiction]. destruct (Nat.eqb_spec l 10) as [->|]; [|contradiction]. rewrite Rm, Cm. cbn. lia.
Qed.

Lemma C124_field_case_lm : forall (rotate : plane R -> R -> plane R),
  exists (ints : Z -> R -> R -> nat -> res (list Z) * Z) (frame : plane R) (g' : Z),
  (forall g lo hi k l g2, ints g lo hi k = (Ok l, g2) ->
     List.length l = k /\ forall z, In z l -> lo - 1 < IZR z < hi) /\
  sim_varpsf (fun s => s) (fun g _ _ n => (pconst (n, n) 0, g)) (fun g _ n => (pconst (n, n) 0, g))
    ints (blur_psf (fun n => n) rotate) 0%Z 8 30 [0; 0; 0; 0] 64 (Some 1%Z) = (Ok frame, g').
Proof.
  intros rotate. set (ints := fun (g : Z) lo hi k =>
    if Rlt_dec 20 hi then if Rle_dec lo 20 then (Ok (repeat 20%Z k), g) else (Raise ValueError, g)
    else (Raise ValueError, g)). exists ints.
  assert (HI : forall g lo hi k l g2, ints g lo hi k = (Ok l, g2) ->
     List.length l = k /\ forall z, In z l -> lo - 1 < IZR z < hi).
  { intros g lo hi k l g2. unfold ints. destruct (Rlt_dec 20 hi); [|discriminate]. destruct (Rle_dec lo 20); [|discriminate].
    intros [= <- _]. split; [apply repeat_length|]. intros z Hz. apply repeat_spec in Hz. subst z. simpl. lra. }
  assert (Sb : forall m s xf yf theta, shape (blur_psf (fun n => n) rotate m s xf yf theta) = shape m).
  { intros m s xf yf th. unfold blur_psf. destruct (Psf _ _ _ _ _); reflexivity. }
  set (blur := blur_psf (fun n => n) rotate) in *. clearbody blur.
  assert (Hone : forall st, exists p st', one_frame (fun s => s) (fun g _ _ n => (pconst (n, n) 0, g)) (fun g _ n => (pconst (n, n) 0, g))
    ints blur st 8 30 0 64 (Some 1%Z) = (Ok p, st') /\ shape p = (64, 64)%nat).
  { intros st. unfold one_frame. assert (Emx : Rmax (5 + 5 * 0 / 180) 5 = 5) by (rewrite Rmax_right; lra). rewrite Emx.
    assert (EI : forall g, ints g (3 * 5) (INR 64 - 3 * 5) (8 / 4)%nat = (Ok [20; 20]%Z, g)).
    { intros g. unfold ints. assert (INR 64 = 64) by (rewrite INR_IZR_INZ; reflexivity).
      destruct (Rlt_dec 20 (INR 64 - 3 * 5)); [|lra]. destruct (Rle_dec (3 * 5) 20); [|lra]. reflexivity. }
    rewrite EI. rewrite EI.
    destruct (star_ok 64 5 [20; 20]%Z [20; 20]%Z) as (stars & m & _ & _ & _ & Em & Sm & _);
      [lra|reflexivity|..].
    1,2: intros z [<-|[<-|[]]]; rewrite INR_IZR_INZ; simpl; lra.
    rewrite Em. unfold image. cbn [String.eqb Ascii.eqb Bool.eqb].
    set (b := blur m _ _ _ _). assert (B : shape b = (64, 64)%nat) by (unfold b; rewrite Sb; exact Sm). clearbody b.
    pose proof B as B'. injection B' as Sm1 Sm2. rewrite Sm1, Sm2. cbn [Nat.eqb orb]. unfold padd3.
    destruct (ufunc2_same (pconst (64, 64)%nat 0) b 64) as (s & Es & Ss & _); [reflexivity|exact B|].
    rewrite Es. cbn [bind]. eexists; eexists. split; [reflexivity|exact Ss]. }
  unfold sim_varpsf. cbn [all_frames option_map].
  destruct (Hone (Some 1%Z, 0%Z)) as (p0 & s0 & -> & S0).
  destruct (Hone s0) as (p1 & s1 & -> & S1).
  destruct (Hone s1) as (p2 & s2 & -> & S2).
  destruct (Hone s2) as (p3 & s3 & -> & S3).
  destruct (C57_tile_lm 64 p0 p1 p2 p3 []) as (f & Ef & _ & _); [assumption..|].
  exists f, (snd s3). split; [exact HI|].
  cbn [bind snd]. rewrite Ef. reflexivity.
Qed.
