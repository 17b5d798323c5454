(** What a coadd shows of the sky, its noise, and how well it shows a source. *)
From Coq Require Import Arith ZArith List Bool Reals Lia Lra.
From Coquelicot Require Import Complex.
From Verif.Model Require Import Py Plane Ma Chunk Coadd Subtract Filter.
From Verif.Spec Require Import Coadd Fourier Filter Sky.
From Verif.Proof Require Import Coadd Fourier Subtract SubtractSum Dft Filter FilterMain CoaddMain CoaddMore CoaddWeights CoaddPoint SkyDft.
Import ListNotations.
Local Open Scope R_scope.
Set Bullet Behavior "Strict Subproofs".

Lemma conj_sq (z : C) : (z * Cconj z)%C = RtoC (fst z ^ 2 + snd z ^ 2).
Proof. destruct z as [a b]. unfold Cmult, Cconj, RtoC. cbn. f_equal; ring. Qed.

Lemma pow2_gt_0 r : r <> 0 -> 0 < r ^ 2.
Proof. intros H. rewrite <- Rsqr_pow2. now apply Rsqr_pos_lt. Qed.

Definition sq (z : C) : R := fst z ^ 2 + snd z ^ 2.

Lemma sq_nonneg z : 0 <= sq z.
Proof. unfold sq. pose proof (pow2_ge_0 (fst z)). pose proof (pow2_ge_0 (snd z)). lra. Qed.

Lemma sq_pos z : z <> RtoC 0 -> 0 < sq z.
Proof.
  intros H. destruct z as [a b]. unfold sq. cbn [fst snd].
  destruct (Req_dec a 0) as [->|Na].
  - destruct (Req_dec b 0) as [->|Nb]; [now elim H|]. pose proof (pow2_gt_0 b Nb). lra.
  - pose proof (pow2_gt_0 a Na). pose proof (pow2_ge_0 b). lra.
Qed.

(** The power at a frequency. *)
Definition power (sh : nat * nat) (var : nat -> R) (bs : nat -> plane R) (weights : list (nat * R)) (u v : nat) : R :=
  total_of (map (fun iz => (snd iz / var (fst iz)) ^ 2 * sq (px (elem_hat sh (bs (fst iz))) u v)) weights).

Lemma total_of_pos l : (forall r, In r l -> 0 <= r) -> (exists r, In r l /\ 0 < r) -> 0 < total_of l.
Proof.
  induction l as [|a l IH]; intros H1 [r [Hr Hp]]; [easy|]. cbn [total_of fold_right]. fold (total_of l).
  assert (0 <= total_of l) as Hl.
  { clear -H1. unfold total_of. assert (forall r, In r l -> 0 <= r) as H by (intros; apply H1; now right). clear H1.
    induction l as [|b l IH]; cbn [fold_right]; [lra|]. specialize (IH (fun r Hr => H r (or_intror Hr))).
    specialize (H b (or_introl eq_refl)). lra. }
  destruct Hr as [->|Hr]; [lra|]. specialize (IH (fun r Hr => H1 r (or_intror Hr)) (ex_intro _ r (conj Hr Hp))).
  specialize (H1 a (or_introl eq_refl)). lra.
Qed.

Lemma unit_neq0 N M : (0 < N)%nat -> (0 < M)%nat -> unit_of N M <> RtoC 0.
Proof.
  intros H1 H2 E. pose proof (unit_sq N M H1 H2) as U. rewrite E in U. rewrite !Cmult_0_l in U.
  injection U as A. lra.
Qed.

Lemma power_pos sh var bs weights u v : (0 < fst sh)%nat -> (0 < snd sh)%nat ->
  (forall i z, In (i, z) weights -> var i <> 0 /\ fits sh (bs i)) ->
  covered sh bs weights -> (u < fst sh)%nat -> (v < snd sh)%nat -> 0 < power sh var bs weights u v.
Proof.
  intros HN HM Hw Hc Hu Hv. apply total_of_pos.
  - intros r Hr. apply in_map_iff in Hr as [[i z] [<- _]]. apply Rmult_le_pos; [apply pow2_ge_0|apply sq_nonneg].
  - destruct (Hc u v Hu Hv) as (i & z & Hin & Hz & Hr). destruct (Hw i z Hin) as [V F].
    eexists. split; [apply in_map_iff; exists (i, z); split; [reflexivity|exact Hin]|]. cbn [fst snd].
    apply Rmult_lt_0_compat.
    + apply pow2_gt_0. unfold Rdiv. apply Rmult_integral_contrapositive_currified; [exact Hz|now apply Rinv_neq_0_compat].
    + apply sq_pos. rewrite elem_response by exact F. apply Cmult_neq_0; [now apply unit_neq0|exact Hr].
Qed.


Definition phase (sh : nat * nat) (b : plane R) (u v : nat) : C :=
  cis (- (2 * PI) * (freq (fst sh) u * fst (center_of_mass b) / INR (fst sh) +
                     freq (snd sh) v * snd (center_of_mass b) / INR (snd sh))).

Lemma phase_sq sh b u v : (phase sh b u v * Cconj (phase sh b u v))%C = RtoC 1.
Proof. unfold phase. rewrite cis_conj, <- cis_plus. rewrite Rplus_opp_r. apply cis_0. Qed.

Lemma phase_har sh b a c u v : (0 < fst sh)%nat -> (0 < snd sh)%nat -> center_of_mass b = (IZR a, IZR c) ->
  phase sh b u v = har2 (fst sh) (snd sh) u v (- a) (- c).
Proof.
  intros HN HM E. unfold phase. rewrite E. cbn [fst snd]. rewrite Rmult_plus_distr_l, cis_plus.
  unfold har2. now rewrite !freq_har by assumption.
Qed.

Lemma const_base im b u v :
  px (s_hat_const im b) u v = (px (fft2_ortho (real_frame (f_shape im) (f_pix im))) u v *
                               Cconj (px (elem_hat (f_shape im) b) u v) * phase (f_shape im) b u v)%C.
Proof. unfold s_hat_const, phase. destruct (center_of_mass b) as [dx dy]. reflexivity. Qed.

Lemma const_sq sh b u v : px (psf_hat_sqnorm sh None [b]) u v = RtoC (sq (px (elem_hat sh b) u v)).
Proof.
  unfold psf_hat_sqnorm. cbn [fold_left].
  match goal with |- px (pmap2 Cplus ?A ?B) u v = _ =>
    change (px (pmap2 Cplus A B) u v) with (px (elem_hat sh b) u v * Cconj (px (elem_hat sh b) u v) + RtoC 0)%C end.
  rewrite conj_sq. unfold sq. ring.
Qed.

(** The parts of a coadd of images with one PSF each. *)
Lemma coadd_parts mk reg transp fuel sched w ids loss n zps sh Rr P m l'
  (im : nat -> fimg) (ma : nat -> mask) (lo : nat -> R) (st : nat -> nat) (nm : nat -> R -> nat -> nat -> R)
  (bs : nat -> plane R) :
  ids <> [] -> NoDup ids -> transp (objs w) ids = Ok zps -> length zps = length ids ->
  run_limits fuel ids n -> images_fit (objs w) ids sh -> (0 < fst sh)%nat -> (0 < snd sh)%nat ->
  (forall i, In i ids ->
     objs w i = coadd_view (im i) (ma i) (lo i) (st i) (nm i) (fun _ => (None, [bs i])) /\
     f_var (im i) <> 0 /\ fits sh (bs i)) ->
  let weights := combine ids zps in
  covered sh bs weights ->
  coadd mk reg transp fuel sched w (map Img ids) false loss n = (Some (Ok (Rr, P, m)), l') ->
  let pw := power sh (fun i => f_var (im i)) bs weights in
  let U := unit_of (fst sh) (snd sh) in
  (forall i, In i ids -> f_shape (im i) = sh) /\
  (forall u v, (u < fst sh)%nat -> (v < snd sh)%nat -> 0 < pw u v) /\
  shape P = sh /\
  (forall x y, (x < fst sh)%nat -> (y < snd sh)%nat ->
    px Rr x y = (U * px (ifft2_ortho (mkplane (fst sh) (snd sh) (fun u v =>
      (total (fun iz => RtoC (snd iz / f_var (im (fst iz)) ^ 2) *
         (px (fft2_ortho (real_frame sh (f_pix (im (fst iz))))) u v *
          Cconj (px (elem_hat sh (bs (fst iz))) u v) * phase sh (bs (fst iz)) u v)) weights
       / RtoC (sqrt (pw u v)))))) x y)%C) /\
  exists ps, In ps (map st ids) /\ (forall i, In i ids -> (st i <= ps)%nat) /\
    forall x y, (x < fst sh)%nat -> (y < snd sh)%nat ->
      px P x y = (px (ifft2_ortho (mkplane (fst sh) (snd sh) (fun u v =>
        (U * RtoC (sqrt (pw u v)) * har2 (fst sh) (snd sh) u v (- Z.of_nat ps) (- Z.of_nat ps))))) x y
        / RtoC (sqrt (pw 0%nat 0%nat)))%C.
Proof.
  intros Hne Nd Et El Hrl Hf HN HM Hi weights Hc E pw U.
  destruct (C86_zero_points_lm _ _ _ _ _ _ _ _ _ _ _ _ _ _ _ Hne Nd Et El Hrl Hf E)
    as (S & Q & ps & raw & SS & SQ & HSQ & Ips & Ups & [SR HR] & [Sraw Hraw] & [SP HP]).
  destruct (shape_pair _ _ SS) as [S1 S2]. destruct (shape_pair _ _ SQ) as [Q1 Q2].
  assert (forall i, In i ids -> f_shape (im i) = sh) as Hsh.
  { intros i Hin. destruct (Hi i Hin) as (Eo & _). destruct (Hf i Hin) as [Es _]. now rewrite Eo in Es. }
  assert (forall u v, (u < fst sh)%nat -> (v < snd sh)%nat -> 0 < pw u v) as Hp.
  { intros u v Hu Hv. apply power_pos; try assumption. intros i z Hin. apply in_combine_l in Hin.
    destruct (Hi i Hin) as (_ & V & F). now split. }
  assert (forall u v, (u < fst sh)%nat -> (v < snd sh)%nat -> px (pmap csqrt Q) u v = RtoC (sqrt (pw u v))) as EC.
  { intros u v Hu Hv. cbn [pmap px]. destruct (HSQ u v Hu Hv) as [_ ->].
    rewrite <- csqrt_pos by now apply Hp. f_equal. unfold pw, power. rewrite <- total_RtoC.
    apply total_ext. intros [i z] Hin. cbn [fst snd]. assert (In i ids) as Hin' by now apply in_combine_l in Hin.
    destruct (Hi i Hin') as (Eo & _). rewrite Eo. cbn [coadd_view si_sq si_var fst snd].
    rewrite (Hsh i Hin'), const_sq, <- RtoC_mult. reflexivity. }
  assert (nr Rr = fst sh /\ nc Rr = snd sh) as [R1 R2].
  { unfold shape in SR. injection SR as B1 B2. split; [rewrite B1; exact S1|rewrite B2; exact S2]. }
  assert (nr raw = fst sh /\ nc raw = snd sh) as [W1 W2].
  { unfold shape in Sraw. injection Sraw as B1 B2. split; [rewrite B1; exact Q1|rewrite B2; exact Q2]. }
  assert (nr P = fst sh /\ nc P = snd sh) as [P1 P2].
  { unfold shape in SP. injection SP as B1 B2. split; [rewrite B1; exact W1|rewrite B2; exact W2]. }
  split; [exact Hsh|]. split; [exact Hp|]. split; [unfold shape; rewrite P1, P2; now destruct sh|]. split.
  - intros x y Hx Hy. rewrite HR by (rewrite ?R1, ?R2; assumption).
    match goal with |- _ = (_ * px (ifft2_ortho ?G) x y)%C => set (G0 := G) end.
    assert (plane_eq (pmap2 Cdiv S (pmap csqrt Q)) G0) as EG.
    { split; [unfold shape; cbn [pmap2 nr nc G0]; now rewrite S1, S2|]. intros u v Hu Hv.
      change (nr (pmap2 Cdiv S (pmap csqrt Q))) with (nr S) in Hu. change (nc (pmap2 Cdiv S (pmap csqrt Q))) with (nc S) in Hv.
      rewrite S1 in Hu. rewrite S2 in Hv.
      change (px (pmap2 Cdiv S (pmap csqrt Q)) u v) with (px S u v / px (pmap csqrt Q) u v)%C.
      rewrite EC by assumption. unfold G0. cbn [px]. f_equal. destruct (HSQ u v Hu Hv) as [-> _]. fold weights.
      apply total_ext. intros [i z] Hin. cbn [fst snd]. assert (In i ids) as Hin' by now apply in_combine_l in Hin.
      destruct (Hi i Hin') as (Eo & _). rewrite Eo. unfold contribution.
      cbn [coadd_view si_shat si_var si_base fst snd s_base]. rewrite const_base, (Hsh i Hin'). reflexivity. }
    destruct (ifft2_ext _ _ EG) as [_ I]. rewrite I by (cbn; rewrite ?S1, ?S2; assumption).
    now rewrite ifft2_ortho_unit by assumption.
  - exists ps.
    assert (map (fun i => si_stamp (objs w i)) ids = map st ids) as Est.
    { apply map_ext_in. intros i Hin. destruct (Hi i Hin) as (-> & _). reflexivity. }
    rewrite Est in Ips. split; [exact Ips|]. split.
    { intros i Hin. specialize (Ups i Hin). destruct (Hi i Hin) as (Eo & _). now rewrite Eo in Ups. }
    assert (psum raw = RtoC (sqrt (pw 0%nat 0%nat))) as Es.
    { transitivity (psum (ifft2 (fourier_shift (pmap csqrt Q) (INR ps) (INR ps)))).
      - apply psum_ext. split; [exact Sraw|exact Hraw].
      - rewrite psum_ifft2 by (cbn; lia). rewrite shift_00 by (cbn; lia). now apply EC. }
    intros x y Hx Hy. rewrite HP by (rewrite ?P1, ?P2; assumption). cbn [pmap px]. rewrite Es. f_equal.
    rewrite Hraw by (rewrite ?W1, ?W2; assumption).
    rewrite ifft2_ortho_unit by (cbn [fourier_shift nr nc pmap]; rewrite ?Q1, ?Q2; assumption).
    change (nr (fourier_shift (pmap csqrt Q) (INR ps) (INR ps))) with (nr Q).
    change (nc (fourier_shift (pmap csqrt Q) (INR ps) (INR ps))) with (nc Q).
    rewrite Q1, Q2. fold U. rewrite !ifft_px. cbn [nr nc px fourier_shift pmap].
    rewrite Q1, Q2. fold U. f_equal.
    rewrite <- sum2_scale. apply sum2_ext. intros u v Hu Hv.
    change (csqrt (px Q u v)) with (px (pmap csqrt Q) u v). rewrite EC by assumption.
    rewrite Rmult_plus_distr_l, cis_plus. rewrite !INR_IZR_INZ with (n := ps). rewrite !freq_har by assumption.
    unfold har2. ring.
Qed.

Lemma ifft_lin_ext F G (k : C) x y : nr F = nr G -> nc F = nc G ->
  (forall u v, (u < nr G)%nat -> (v < nc G)%nat -> (k * px F u v)%C = px G u v) ->
  (k * px (ifft2_ortho F) x y)%C = px (ifft2_ortho G) x y.
Proof.
  intros E1 E2 H. rewrite !ifft_px, E1, E2.
  match goal with |- (k * (?U * ?S))%C = _ => transitivity (U * (k * S))%C; [ring|] end. f_equal.
  rewrite <- sum2_scale. apply sum2_ext. intros u v Hu Hv. rewrite <- H by assumption. ring.
Qed.

Lemma dft_P sh (P : plane C) (g : nat -> nat -> C) (s : C) u v : (0 < fst sh)%nat -> (0 < snd sh)%nat -> shape P = sh ->
  (forall x y, (x < fst sh)%nat -> (y < snd sh)%nat ->
     px P x y = (px (ifft2_ortho (mkplane (fst sh) (snd sh) (fun u v => (unit_of (fst sh) (snd sh) * g u v)%C))) x y / s)%C) ->
  (u < fst sh)%nat -> (v < snd sh)%nat -> px (dft_raw P) u v = (g u v / s)%C.
Proof.
  intros HN HM SP HP Hu Hv. destruct (shape_pair _ _ SP) as [P1 P2].
  set (G := mkplane (fst sh) (snd sh) (fun u v => (unit_of (fst sh) (snd sh) * g u v)%C)) in *.
  rewrite dft_har, P1, P2.
  rewrite (sum2_ext _ _ _ (fun x y => (/ s * (px (ifft2_ortho G) x y * har2 (fst sh) (snd sh) u v (- Z.of_nat x) (- Z.of_nat y)))%C)).
  - rewrite sum2_scale. pose proof (dft_of_ifft G u v HN HM Hu Hv) as E. rewrite dft_har in E.
    change (nr (ifft2_ortho G)) with (fst sh) in E. change (nc (ifft2_ortho G)) with (snd sh) in E.
    change (nr G) with (fst sh) in E. change (nc G) with (snd sh) in E.
    change (px G u v) with (unit_of (fst sh) (snd sh) * g u v)%C in E.
    set (X := sum2 _ _ _) in *. unfold Cdiv. rewrite (Cmult_comm (g u v)). f_equal.
    pose proof (unit_neq0 _ _ HN HM) as NU. set (U := unit_of _ _) in *.
    transitivity (/ U * (U * X))%C; [rewrite Cmult_assoc, Cinv_l by exact NU; ring|].
    rewrite E, Cmult_assoc, Cinv_l by exact NU. ring.
  - intros x y Hx Hy. rewrite HP by assumption. unfold Cdiv. ring.
Qed.

Lemma exposure_full_dft sh sky P a c x y : (0 < fst sh)%nat -> (0 < snd sh)%nat -> shape P = sh ->
  exposure_full sh sky P a c x y =
  (unit_of (fst sh) (snd sh) * sum2 (fst sh) (snd sh) (fun u v =>
    (px (fft2_ortho (real_frame sh sky)) u v * px (dft_raw P) u v *
     har2 (fst sh) (snd sh) u v (Z.of_nat x + a) (Z.of_nat y + c))%C))%C.
Proof.
  intros HN HM SK. destruct (shape_pair _ _ SK) as [K1 K2].
  pose proof (filter_at (real_frame sh sky) (fst sh) (snd sh) (px P) (-1) (Z.of_nat x + a) (Z.of_nat y + c) HN HM) as F.
  change (nr (real_frame sh sky)) with (fst sh) in F. change (nc (real_frame sh sky)) with (snd sh) in F.
  set (U := unit_of (fst sh) (snd sh)).
  rewrite (sum2_ext (fst sh) (snd sh) _ (fun u v => (U * (px (dft_raw (real_frame sh sky)) u v *
     sum2 (fst sh) (snd sh) (fun p q => (px P p q * har2 (fst sh) (snd sh) u v (-1 * Z.of_nat p) (-1 * Z.of_nat q))%C) *
     har2 (fst sh) (snd sh) u v (Z.of_nat x + a) (Z.of_nat y + c)))%C)).
  - rewrite sum2_scale, F. rewrite !Cmult_assoc. unfold U. rewrite unit_sq by assumption. rewrite Cmult_1_l.
    unfold exposure_full. apply sum2_ext. intros p q _ _. f_equal.
    unfold around, pix_around, real_frame, frame. cbn [px nr nc]. do 3 f_equal; lia.
  - intros u v _ _. rewrite fft_px. change (nr (real_frame sh sky)) with (fst sh). change (nc (real_frame sh sky)) with (snd sh).
    fold U. rewrite (dft_har P), K1, K2.
    rewrite (sum2_ext (fst sh) (snd sh) (fun p q => (px P p q * har2 (fst sh) (snd sh) u v (- Z.of_nat p) (- Z.of_nat q))%C)
      (fun p q => (px P p q * har2 (fst sh) (snd sh) u v (-1 * Z.of_nat p) (-1 * Z.of_nat q))%C)).
    + ring.
    + intros p q _ _. do 2 f_equal; lia.
Qed.

Lemma har_freq0 N M x y : har2 N M 0 0 x y = RtoC 1.
Proof.
  unfold har2, har. cbn [INR]. rewrite !Rmult_0_l. unfold Rdiv. rewrite !Rmult_0_l, Rmult_0_r. rewrite cis_0. ring.
Qed.

Lemma response_0 sh b : response sh b 0 0 = RtoC (light b).
Proof.
  rewrite response_har. unfold light. rewrite <- sum2_RtoC. apply sum2_ext. intros p q _ _.
  rewrite har_freq0. ring.
Qed.

Lemma sq_mult a b : sq (a * b)%C = sq a * sq b.
Proof. destruct a, b. unfold sq, Cmult. cbn. ring. Qed.

Lemma sq_RtoC r : sq (RtoC r) = r ^ 2.
Proof. unfold sq, RtoC. cbn. ring. Qed.

Lemma sq_unit sh : (0 < fst sh)%nat -> (0 < snd sh)%nat -> sq (unit_of (fst sh) (snd sh)) = / cells_of sh.
Proof.
  intros H1 H2. unfold unit_of. rewrite sq_RtoC. fold (cells_of sh).
  assert (0 < cells_of sh) as Pc by now apply area_pos.
  replace ((/ sqrt (cells_of sh)) ^ 2) with (/ (sqrt (cells_of sh) * sqrt (cells_of sh))).
  - now rewrite sqrt_sqrt by lra.
  - assert (0 < sqrt (cells_of sh)) by now apply sqrt_lt_R0. field. lra.
Qed.

Lemma total_of_scale {A} (k : R) (f : A -> R) l : total_of (map (fun a => k * f a) l) = k * total_of (map f l).
Proof. unfold total_of. induction l as [|a l IH]; cbn [map fold_right]; [ring|]. rewrite IH. ring. Qed.

Lemma power_0 sh var bs (weights : list (nat * R)) : (0 < fst sh)%nat -> (0 < snd sh)%nat ->
  (forall i z, In (i, z) weights -> fits sh (bs i)) ->
  power sh var bs weights 0 0 =
  total_of (map (fun iz => (snd iz * light (bs (fst iz)) / var (fst iz)) ^ 2) weights) / cells_of sh.
Proof.
  intros HN HM Hw. unfold power, Rdiv at 2. rewrite Rmult_comm, <- total_of_scale. f_equal. apply map_ext_in.
  intros [i z] Hin. cbn [fst snd]. rewrite elem_response by now apply (Hw i z). rewrite response_0, sq_mult, sq_unit, sq_RtoC by assumption.
  unfold Rdiv. ring.
Qed.

(** C100: noise-free images of the same sky, each through its own PSF (centred on its centre of
    mass, a whole cell) and with its own zero point: the coadd shows that sky through the PSF it
    returns, the cell at the size of the largest stamp being its middle. Its own zero point is
    the root of the sum of the squares of zp times the total of the PSF over the noise, by
    1 / sqrt(number of pixels). *)
Lemma C100_sky_lm : forall mk reg transp fuel sched w ids loss n zps sh Rr P m l'
  (im : nat -> fimg) (ma : nat -> mask) (lo : nat -> R) (st : nat -> nat) (nm : nat -> R -> nat -> nat -> R)
  (bs : nat -> plane R) (a c : nat -> Z) (sky : nat -> nat -> R),
  ids <> [] -> NoDup ids -> transp (objs w) ids = Ok zps -> length zps = length ids ->
  run_limits fuel ids n -> images_fit (objs w) ids sh -> (0 < fst sh)%nat -> (0 < snd sh)%nat ->
  (forall i, In i ids ->
     objs w i = coadd_view (im i) (ma i) (lo i) (st i) (nm i) (fun _ => (None, [bs i])) /\
     f_var (im i) <> 0 /\ fits sh (bs i) /\ center_of_mass (bs i) = (IZR (a i), IZR (c i))) ->
  let weights := combine ids zps in
  covered sh bs weights ->
  (forall i z, In (i, z) weights -> forall x y, (x < fst sh)%nat -> (y < snd sh)%nat ->
     f_pix (im i) x y = z * exposure sh sky (bs i) (a i) (c i) x y) ->
  coadd mk reg transp fuel sched w (map Img ids) false loss n = (Some (Ok (Rr, P, m)), l') ->
  exists ps, In ps (map st ids) /\ (forall i, In i ids -> (st i <= ps)%nat) /\
    forall x y, (x < fst sh)%nat -> (y < snd sh)%nat ->
      px Rr x y = (RtoC (sqrt (total_of (map (fun iz => (snd iz * light (bs (fst iz)) / f_var (im (fst iz))) ^ 2) weights))
                         / sqrt (cells_of sh)) *
                   exposure_full sh sky P (Z.of_nat ps) (Z.of_nat ps) x y)%C.
Proof.
  intros mk reg transp fuel sched w ids loss n zps sh Rr P m l' im ma lo st nm bs a c sky
    Hne Nd Et El Hrl Hf HN HM Hi weights Hc Hpix E.
  assert (forall i, In i ids ->
     objs w i = coadd_view (im i) (ma i) (lo i) (st i) (nm i) (fun _ => (None, [bs i])) /\
     f_var (im i) <> 0 /\ fits sh (bs i)) as Hi'.
  { intros i Hin. destruct (Hi i Hin) as (A & B & D & _). auto. }
  destruct (coadd_parts _ _ _ _ _ _ _ _ _ _ _ _ _ _ _ im ma lo st nm bs Hne Nd Et El Hrl Hf HN HM Hi' Hc E)
    as (Hsh & Hp & SP & HR & ps & Ips & Ups & HP). fold weights in Hp, HR, HP.
  set (pw := power sh (fun i => f_var (im i)) bs weights) in *. set (U := unit_of (fst sh) (snd sh)) in *.
  exists ps. split; [exact Ips|]. split; [exact Ups|]. intros x y Hx Hy.
  set (T := fft2_ortho (real_frame sh sky)).
  assert (forall u v, (u < fst sh)%nat -> (v < snd sh)%nat ->
    px (dft_raw P) u v = (RtoC (sqrt (pw u v)) * har2 (fst sh) (snd sh) u v (- Z.of_nat ps) (- Z.of_nat ps) / RtoC (sqrt (pw 0%nat 0%nat)))%C) as HdP.
  { intros u v Hu Hv. apply (dft_P sh P (fun u v => (RtoC (sqrt (pw u v)) * har2 (fst sh) (snd sh) u v (- Z.of_nat ps) (- Z.of_nat ps))%C)); try assumption.
    intros i j Hii Hj. rewrite HP by assumption. f_equal. rewrite !ifft_px. cbn [nr nc px]. f_equal. apply sum2_ext.
    intros u' v' _ _. fold U. ring. }
  replace (sqrt (total_of (map (fun iz => (snd iz * light (bs (fst iz)) / f_var (im (fst iz))) ^ 2) weights)) / sqrt (cells_of sh))
    with (sqrt (pw 0%nat 0%nat)).
  2:{ unfold pw. rewrite power_0; [|assumption|assumption|].
      - apply sqrt_div_alt. now apply area_pos.
      - intros i z Hin. apply in_combine_l in Hin. now destruct (Hi i Hin) as (_ & _ & D & _). }
  rewrite exposure_full_dft by assumption. fold T U. rewrite HR by assumption.
  rewrite (ifft_lin_ext _ (mkplane (fst sh) (snd sh) (fun u v => (px T u v * RtoC (sqrt (pw u v)))%C))); [|reflexivity|reflexivity|].
  - rewrite ifft_px. cbn [nr nc px]. fold U.
    rewrite (Cmult_comm (RtoC (sqrt (pw 0%nat 0%nat)))), <- Cmult_assoc. f_equal. rewrite <- sum2_scale_r.
    apply sum2_ext. intros u v Hu Hv. rewrite HdP by assumption.
    pose proof (har2_cancel (fst sh) (snd sh) u v (Z.of_nat ps) (Z.of_nat ps)) as Ec.
    rewrite har2_plus. set (h1 := har2 _ _ u v (Z.of_nat ps) _) in *. set (h2 := har2 _ _ u v (- _)%Z _) in *.
    set (h := har2 _ _ u v (Z.of_nat x) _).
    assert (RtoC (sqrt (pw 0%nat 0%nat)) <> RtoC 0) as N0.
    { intros X. injection X. apply Rgt_not_eq. apply sqrt_lt_R0. now apply Hp. }
    set (s0 := RtoC (sqrt (pw 0%nat 0%nat))) in *. unfold Cdiv.
    transitivity (px T u v * RtoC (sqrt (pw u v)) * h * (h1 * h2) * (/ s0 * s0))%C; [|ring].
    rewrite Ec, Cinv_l by exact N0. ring.
  - intros u v Hu Hv. cbn [nr nc px] in *. pose proof (Hp u v Hu Hv) as Pp. pose proof (sqrt_lt_R0 _ Pp) as Ps.
    assert (U * total (fun iz => RtoC (snd iz / f_var (im (fst iz)) ^ 2) *
         (px (fft2_ortho (real_frame sh (f_pix (im (fst iz))))) u v *
          Cconj (px (elem_hat sh (bs (fst iz))) u v) * phase sh (bs (fst iz)) u v)) weights = RtoC (pw u v) * px T u v)%C as ET.
    { rewrite <- total_scale. unfold pw, power. rewrite <- total_RtoC, (Cmult_comm (total _ _)), <- total_scale. apply total_ext.
      intros [i z] Hin. cbn [fst snd]. assert (In i ids) as Hin' by now apply in_combine_l in Hin.
      destruct (Hi i Hin') as (_ & V & F & Ecm). rewrite (phase_har sh (bs i) (a i) (c i)) by assumption.
      assert (plane_eq (real_frame sh (f_pix (im i))) (real_frame sh (fun x y => z * exposure sh sky (bs i) (a i) (c i) x y))) as Epl.
      { split; [reflexivity|]. intros r k Hr Hk. cbn [real_frame frame px]. f_equal. now apply Hpix. }
      rewrite (fft_ext _ _ u v Epl), fft_scaled, fft_exposure by assumption. fold T.
      pose proof (har2_cancel (fst sh) (snd sh) u v (a i) (c i)) as Ec.
      set (h1 := har2 _ _ u v (a i) _) in *. set (h2 := har2 _ _ u v (- a i)%Z _) in *.
      rewrite RtoC_mult. unfold sq at 1. rewrite <- conj_sq.
      rewrite (elem_response sh (bs i) u v F) at 2. fold U.
      replace ((z / f_var (im i)) ^ 2) with (z / f_var (im i) ^ 2 * z) by (now field). rewrite RtoC_mult.
      set (cj := Cconj (px (elem_hat sh (bs i)) u v)).
      transitivity (RtoC (z / f_var (im i) ^ 2) * RtoC z * (px T u v) * U * response sh (bs i) u v * cj * (h1 * h2))%C; [ring|].
      rewrite Ec. ring. }
    unfold Cdiv. rewrite Cmult_assoc, ET.
    rewrite <- RtoC_inv by lra.
    transitivity (px T u v * (RtoC (pw u v) * RtoC (/ sqrt (pw u v))))%C; [ring|]. f_equal. rewrite <- RtoC_mult. f_equal.
    rewrite <- (sqrt_sqrt (pw u v)) at 1 by lra. field. lra.
Qed.

Lemma Cinv_1 : (/ RtoC 1)%C = RtoC 1.
Proof. rewrite <- RtoC_inv by lra. f_equal. field. Qed.

Lemma total_sum2 {A} N M (f : A -> nat -> nat -> C) l :
  total (fun a => sum2 N M (f a)) l = sum2 N M (fun u v => total (fun a => f a u v) l).
Proof.
  induction l as [|a l IH]; cbn [total fold_right].
  - rewrite (sum2_ext _ _ _ (fun _ _ => (RtoC 0 * RtoC 0)%C)) by (intros; cbn; ring). rewrite sum2_scale. ring.
  - fold (total (fun a => sum2 N M (f a)) l). rewrite IH, <- sum2_plus. reflexivity.
Qed.

Lemma total_scale_r {A} (k : C) (f : A -> C) l : total (fun a => (f a * k)%C) l = (total f l * k)%C.
Proof. unfold total. induction l as [|a l IH]; cbn [fold_right]; [ring|]. rewrite IH. ring. Qed.

Lemma kernel_dft sh g u v : (0 < fst sh)%nat -> (0 < snd sh)%nat -> (u < fst sh)%nat -> (v < snd sh)%nat ->
  px (dft_raw (ifft2_ortho (mkplane (fst sh) (snd sh) (fun u v => (unit_of (fst sh) (snd sh) * g u v)%C)))) u v = g u v.
Proof.
  intros HN HM Hu Hv. set (G := mkplane _ _ _). rewrite (dft_P sh (ifft2_ortho G) g (RtoC 1)); try assumption.
  - unfold Cdiv. rewrite Cinv_1. ring.
  - unfold G, shape. cbn. now destruct sh.
  - intros x y _ _. fold G. unfold Cdiv. rewrite Cinv_1. ring.
Qed.

Lemma sub_mod_eq n x x' : (0 < n)%nat -> (x < n)%nat -> (x' < n)%nat ->
  ((Z.of_nat x - Z.of_nat x') mod Z.of_nat n =? 0)%Z = (x =? x')%nat.
Proof. intros H Hx Hx'. rewrite mod_sub_swap by assumption. now rewrite wrap_small. Qed.

(** C101: the coadd is a sum of the images, each convolved with a kernel that does not depend
    on what is in the images, and with these kernels independent noise of the variances of the
    images becomes noise of the same variance in all the pixels, 1 over the number of pixels, and
    no two pixels are correlated. *)
Lemma C101_white_lm : forall sh ids zps (var : nat -> R) (bs : nat -> plane R),
  (0 < fst sh)%nat -> (0 < snd sh)%nat -> ids <> [] -> NoDup ids -> length zps = length ids ->
  (forall i, In i ids -> var i <> 0 /\ fits sh (bs i)) ->
  let weights := combine ids zps in
  covered sh bs weights ->
  exists K : nat * R -> plane C, (forall iz, shape (K iz) = sh) /\
    (forall mk reg transp fuel sched w loss n Rr P m l' (im : nat -> fimg) (ma : nat -> mask) (lo : nat -> R)
        (st : nat -> nat) (nm : nat -> R -> nat -> nat -> R),
      transp (objs w) ids = Ok zps -> run_limits fuel ids n -> images_fit (objs w) ids sh ->
      (forall i, In i ids ->
         objs w i = coadd_view (im i) (ma i) (lo i) (st i) (nm i) (fun _ => (None, [bs i])) /\ f_var (im i) = var i) ->
      coadd mk reg transp fuel sched w (map Img ids) false loss n = (Some (Ok (Rr, P, m)), l') ->
      forall x y, (x < fst sh)%nat -> (y < snd sh)%nat ->
        px Rr x y = total (fun iz => blurred sh (f_pix (im (fst iz))) (K iz) x y) weights) /\
    forall x y x' y', (x < fst sh)%nat -> (y < snd sh)%nat -> (x' < fst sh)%nat -> (y' < snd sh)%nat ->
      total (fun iz => (RtoC (var (fst iz) ^ 2) * covariance sh (K iz) x y x' y')%C) weights =
      RtoC (if ((x =? x') && (y =? y'))%nat then / cells_of sh else 0).
Proof.
  intros sh ids zps var bs HN HM Hne Nd El Hi weights Hc.
  set (pw := power sh var bs weights). set (U := unit_of (fst sh) (snd sh)).
  assert (forall u v, (u < fst sh)%nat -> (v < snd sh)%nat -> 0 < pw u v) as Hp.
  { intros u v Hu Hv. apply power_pos; try assumption. intros i z Hin. apply in_combine_l in Hin. now apply Hi. }
  set (g := fun (iz : nat * R) u v => (U * RtoC (snd iz / var (fst iz) ^ 2) * Cconj (px (elem_hat sh (bs (fst iz))) u v) *
     phase sh (bs (fst iz)) u v / RtoC (sqrt (pw u v)))%C).
  exists (fun iz => ifft2_ortho (mkplane (fst sh) (snd sh) (fun u v => (U * g iz u v)%C))).
  assert (forall iz, shape (ifft2_ortho (mkplane (fst sh) (snd sh) (fun u v => (U * g iz u v)%C))) = sh) as HK.
  { intros iz. unfold shape. cbn. now destruct sh. }
  split; [exact HK|]. split.
  - intros mk reg transp fuel sched w loss n Rr P m l' im ma lo st nm Et Hrl Hf Hv E x y Hx Hy.
    assert (forall i, In i ids ->
       objs w i = coadd_view (im i) (ma i) (lo i) (st i) (nm i) (fun _ => (None, [bs i])) /\
       f_var (im i) <> 0 /\ fits sh (bs i)) as Hi'.
    { intros i Hin. destruct (Hv i Hin) as [A ->]. destruct (Hi i Hin) as [B D]. auto. }
    destruct (coadd_parts _ _ _ _ _ _ _ _ _ _ _ _ _ _ _ im ma lo st nm bs Hne Nd Et El Hrl Hf HN HM Hi' Hc E)
      as (Hsh & _ & _ & HR & _). rewrite HR by assumption. clear HR. fold weights U.
    rewrite ifft_px. cbn [nr nc px]. fold U.
    rewrite (total_ext _ (fun iz => (U * sum2 (fst sh) (snd sh) (fun u v =>
      (px (fft2_ortho (real_frame sh (f_pix (im (fst iz))))) u v * g iz u v * har2 (fst sh) (snd sh) u v (Z.of_nat x) (Z.of_nat y))%C))%C)).
    + rewrite total_scale, total_sum2. f_equal. rewrite <- sum2_scale. apply sum2_ext. intros u v Hu Hv'.
      assert (power sh (fun i => f_var (im i)) bs weights u v = pw u v) as ->.
      { unfold pw, power. f_equal. apply map_ext_in. intros [i z] Hin. cbn [fst snd]. apply in_combine_l in Hin.
        now destruct (Hv i Hin) as [_ ->]. }
      unfold Cdiv.
      match goal with |- (U * (?T * ?a * ?h))%C = _ => transitivity ((U * T) * (a * h))%C; [ring|] end.
      rewrite <- total_scale, <- total_scale_r. apply total_ext. intros [i z] Hin. cbn [fst snd]. apply in_combine_l in Hin.
      destruct (Hv i Hin) as [_ ->]. unfold g, Cdiv. cbn [fst snd]. ring.
    + intros iz Hin. rewrite blurred_dft by (try assumption; apply HK). fold U. f_equal. apply sum2_ext. intros u v Hu Hv'.
      rewrite (kernel_dft sh (g iz)) by assumption. reflexivity.
  - intros x y x' y' Hx Hy Hx' Hy'.
    assert (0 < cells_of sh) as Pc by now apply area_pos.
    assert (RtoC (cells_of sh) <> RtoC 0) as NC by (intros X; injection X; lra).
    assert (forall z z' : C, (RtoC (cells_of sh) * z)%C = (RtoC (cells_of sh) * z')%C -> z = z') as Hcan.
    { intros z z' X. transitivity (/ RtoC (cells_of sh) * (RtoC (cells_of sh) * z))%C.
      - rewrite Cmult_assoc, Cinv_l by exact NC. ring.
      - rewrite X, Cmult_assoc, Cinv_l by exact NC. ring. }
    apply Hcan. clear Hcan. rewrite <- total_scale.
    rewrite (total_ext _ (fun iz => sum2 (fst sh) (snd sh) (fun u v => (RtoC (var (fst iz) ^ 2) * (g iz u v * Cconj (g iz u v)) *
       har2 (fst sh) (snd sh) u v (Z.of_nat x - Z.of_nat x') (Z.of_nat y - Z.of_nat y'))%C))).
    + rewrite total_sum2. rewrite (sum2_ext _ _ _ (fun u v => (RtoC (/ cells_of sh) *
        har2 (fst sh) (snd sh) u v (Z.of_nat x - Z.of_nat x') (Z.of_nat y - Z.of_nat y'))%C)).
      * rewrite sum2_scale, har2_sum by assumption. rewrite !sub_mod_eq by assumption. fold (cells_of sh).
        destruct (_ && _)%bool; rewrite <- !RtoC_mult; f_equal; ring.
      * intros u v Hu Hv. rewrite total_scale_r. f_equal. pose proof (Hp u v Hu Hv) as Pp. pose proof (sqrt_lt_R0 _ Pp) as Ps.
        rewrite (total_ext _ (fun iz => (RtoC (/ cells_of sh / pw u v) *
          RtoC ((snd iz / var (fst iz)) ^ 2 * sq (px (elem_hat sh (bs (fst iz))) u v)))%C)).
        -- rewrite total_scale, total_RtoC. fold (power sh var bs weights u v). fold pw. rewrite <- RtoC_mult. f_equal. field. split; lra.
        -- intros [i z] Hin. cbn [fst snd]. apply in_combine_l in Hin. destruct (Hi i Hin) as [V _].
           rewrite conj_sq. fold (sq (g (i, z) u v)). unfold g, Cdiv. cbn [fst snd].
           rewrite <- RtoC_inv by lra. rewrite !sq_mult, !sq_RtoC. unfold U. rewrite sq_unit by assumption.
           assert (sq (phase sh (bs i) u v) = 1) as ->.
           { pose proof (phase_sq sh (bs i) u v) as X. rewrite conj_sq in X. now injection X. }
           assert (sq (Cconj (px (elem_hat sh (bs i)) u v)) = sq (px (elem_hat sh (bs i)) u v)) as ->.
           { unfold sq, Cconj. cbn [fst snd]. ring. }
           rewrite <- !RtoC_mult. f_equal.
           replace ((/ sqrt (pw u v)) ^ 2) with (/ pw u v).
           ++ field. split; [exact V|]. split; lra.
           ++ rewrite <- (sqrt_sqrt (pw u v)) at 1 by lra. field. lra.
    + intros iz Hin. pose proof (covariance_dft sh _ x y x' y' HN HM (HK iz)) as X. cbn [fst snd].
      rewrite Cmult_assoc, (Cmult_comm (RtoC (cells_of sh))), <- Cmult_assoc, X, <- sum2_scale. apply sum2_ext.
      intros u v Hu Hv. rewrite (kernel_dft sh (g iz)) by assumption. ring.
Qed.

Lemma sq_har2 N M u v a c : sq (har2 N M u v a c) = 1.
Proof.
  pose proof (har2_cancel N M u v a c) as X. rewrite <- (har2_conj N M u v a c), conj_sq in X. now injection X.
Qed.

Lemma rsum2_sq P : RtoC (energy_full P) = sum2 (nr P) (nc P) (fun i j => (px P i j * Cconj (px P i j))%C).
Proof. unfold energy_full. rewrite <- sum2_RtoC. apply sum2_ext. intros i j _ _. now rewrite conj_sq. Qed.

Lemma elem_energy sh b : (0 < fst sh)%nat -> (0 < snd sh)%nat -> fits sh b ->
  rsum2 (fst sh) (snd sh) (fun u v => sq (px (elem_hat sh b) u v)) = energy b.
Proof.
  intros HN HM F. pose proof (C88_total_lm sh None [b] HN HM (Forall_cons _ F (Forall_nil _))) as E.
  cbn [map total_of fold_right] in E. rewrite Rplus_0_r in E. unfold psum in E.
  pose proof (sqnorm_shape sh None [b]) as S. destruct (shape_pair _ _ S) as [S1 S2]. rewrite S1, S2 in E.
  fold (sum2 (fst sh) (snd sh) (fun i j => px (psf_hat_sqnorm sh None [b]) i j)) in E.
  rewrite (sum2_ext _ _ _ (fun u v => RtoC (sq (px (elem_hat sh b) u v)))) in E by (intros; apply const_sq).
  rewrite sum2_RtoC in E. injection E as E'. exact E'.
Qed.

Lemma rsum_scale n k f : rsum n (fun i => k * f i) = k * rsum n f.
Proof. induction n as [|n IH]; cbn; [ring|]. rewrite IH. ring. Qed.
Lemma rsum2_scale N M k f : rsum2 N M (fun i j => k * f i j) = k * rsum2 N M f.
Proof. unfold rsum2. rewrite <- rsum_scale. apply rsum_ext. intros i _. apply rsum_scale. Qed.
Lemma rsum_plus n f g : rsum n (fun i => f i + g i) = rsum n f + rsum n g.
Proof. induction n as [|n IH]; cbn; [ring|]. rewrite IH. ring. Qed.
Lemma rsum2_plus N M f g : rsum2 N M (fun i j => f i j + g i j) = rsum2 N M f + rsum2 N M g.
Proof. unfold rsum2. rewrite <- rsum_plus. apply rsum_ext. intros i _. apply rsum_plus. Qed.
Lemma rsum_nonneg n f : (forall i, 0 <= f i) -> 0 <= rsum n f.
Proof. intros H. induction n as [|n IH]; cbn; [lra|]. specialize (H n). lra. Qed.
Lemma rsum2_nonneg N M f : (forall i j, 0 <= f i j) -> 0 <= rsum2 N M f.
Proof. intros H. apply rsum_nonneg. intros i. apply rsum_nonneg. intros j. apply H. Qed.

Lemma total_of_plus {A} (f g : A -> R) l : total_of (map (fun a => f a + g a) l) = total_of (map f l) + total_of (map g l).
Proof. unfold total_of. induction l as [|a l IH]; cbn [map fold_right]; [ring|]. rewrite IH. ring. Qed.
Lemma total_of_nonneg' {A} (f : A -> R) l : (forall a, 0 <= f a) -> 0 <= total_of (map f l).
Proof. intros H. unfold total_of. induction l as [|a l IH]; cbn [map fold_right]; [lra|]. specialize (H a). lra. Qed.

Lemma total_of_rsum2 {A} N M (f : A -> nat -> nat -> R) l :
  total_of (map (fun a => rsum2 N M (f a)) l) = rsum2 N M (fun u v => total_of (map (fun a => f a u v) l)).
Proof.
  induction l as [|a l IH]; cbn [map total_of fold_right].
  - symmetry. rewrite (rsum2_ext _ _ _ (fun _ _ => 0 * 0)) by (intros; ring). rewrite rsum2_scale. ring.
  - fold (total_of (map (fun a => rsum2 N M (f a)) l)). rewrite IH, <- rsum2_plus. reflexivity.
Qed.

Lemma power_total sh var bs (weights : list (nat * R)) : (0 < fst sh)%nat -> (0 < snd sh)%nat ->
  (forall i z, In (i, z) weights -> fits sh (bs i)) ->
  rsum2 (fst sh) (snd sh) (power sh var bs weights) =
  total_of (map (fun iz => (snd iz / var (fst iz)) ^ 2 * energy (bs (fst iz))) weights).
Proof.
  intros HN HM Hw. unfold power. rewrite <- total_of_rsum2. f_equal. apply map_ext_in. intros [i z] Hin. cbn [fst snd].
  rewrite rsum2_scale, elem_energy by (try assumption; now apply (Hw i z)). reflexivity.
Qed.

(** C102: how well the coadd shows a source: the square of its zero point times the energy of
    its PSF over the variance of its noise is the sum over the images of the same quantity. *)
Lemma C102_value_lm : forall mk reg transp fuel sched w ids loss n zps sh Rr P m l'
  (im : nat -> fimg) (ma : nat -> mask) (lo : nat -> R) (st : nat -> nat) (nm : nat -> R -> nat -> nat -> R)
  (bs : nat -> plane R),
  ids <> [] -> NoDup ids -> transp (objs w) ids = Ok zps -> length zps = length ids ->
  run_limits fuel ids n -> images_fit (objs w) ids sh -> (0 < fst sh)%nat -> (0 < snd sh)%nat ->
  (forall i, In i ids ->
     objs w i = coadd_view (im i) (ma i) (lo i) (st i) (nm i) (fun _ => (None, [bs i])) /\
     f_var (im i) <> 0 /\ fits sh (bs i)) ->
  let weights := combine ids zps in
  covered sh bs weights ->
  coadd mk reg transp fuel sched w (map Img ids) false loss n = (Some (Ok (Rr, P, m)), l') ->
  let zp := sqrt (total_of (map (fun iz => (snd iz * light (bs (fst iz)) / f_var (im (fst iz))) ^ 2) weights)) / sqrt (cells_of sh) in
  let variance := / cells_of sh in
  zp ^ 2 * energy_full P / variance =
  total_of (map (fun iz => snd iz ^ 2 * energy (bs (fst iz)) / f_var (im (fst iz)) ^ 2) weights).
Proof.
  intros mk reg transp fuel sched w ids loss n zps sh Rr P m l' im ma lo st nm bs
    Hne Nd Et El Hrl Hf HN HM Hi weights Hc E zp variance.
  destruct (coadd_parts _ _ _ _ _ _ _ _ _ _ _ _ _ _ _ im ma lo st nm bs Hne Nd Et El Hrl Hf HN HM Hi Hc E)
    as (Hsh & Hp & SP & HR & ps & Ips & Ups & HP). fold weights in Hp, HR, HP. clear HR.
  set (pw := power sh (fun i => f_var (im i)) bs weights) in *. set (U := unit_of (fst sh) (snd sh)) in *.
  assert (forall i z, In (i, z) weights -> fits sh (bs i)) as Hfit.
  { intros i z Hin. apply in_combine_l in Hin. now destruct (Hi i Hin) as (_ & _ & D). }
  assert (0 < cells_of sh) as Pc by now apply area_pos.
  assert (0 < pw 0%nat 0%nat) as P0 by now apply Hp.
  assert (zp ^ 2 = pw 0%nat 0%nat) as Ez.
  { unfold zp. rewrite <- sqrt_div_alt by exact Pc. rewrite <- (power_0 sh (fun i => f_var (im i)) bs weights HN HM Hfit). fold pw.
    rewrite <- Rsqr_pow2. apply Rsqr_sqrt. lra. }
  destruct (shape_pair _ _ SP) as [P1 P2].
  assert (energy_full P = / cells_of sh * / pw 0%nat 0%nat *
    total_of (map (fun iz => (snd iz / f_var (im (fst iz))) ^ 2 * energy (bs (fst iz))) weights)) as EE.
  { assert (RtoC (energy_full P) = RtoC (/ cells_of sh * / pw 0%nat 0%nat * rsum2 (fst sh) (snd sh) pw)) as X.
    - rewrite rsum2_sq, parseval by (rewrite ?P1, ?P2; assumption). rewrite P1, P2.
      rewrite RtoC_mult, <- sum2_RtoC, <- sum2_scale. apply sum2_ext. intros u v Hu Hv.
      rewrite conj_sq. fold (sq (px (fft2_ortho P) u v)). rewrite <- RtoC_mult. f_equal. rewrite fft_px, P1, P2. fold U.
      rewrite (dft_P sh P (fun u v => (RtoC (sqrt (pw u v)) * har2 (fst sh) (snd sh) u v (- Z.of_nat ps) (- Z.of_nat ps))%C) (RtoC (sqrt (pw 0%nat 0%nat))));
        try assumption.
      + pose proof (sqrt_lt_R0 _ P0). unfold Cdiv. rewrite <- RtoC_inv by lra. rewrite !sq_mult, !sq_RtoC. unfold U. rewrite sq_unit by assumption.
        rewrite sq_har2.
        pose proof (Hp u v Hu Hv). rewrite <- (Rsqr_pow2 (sqrt (pw u v))), Rsqr_sqrt by lra.
        replace ((/ sqrt (pw 0%nat 0%nat)) ^ 2) with (/ (sqrt (pw 0%nat 0%nat) * sqrt (pw 0%nat 0%nat))) by (field; lra).
        rewrite sqrt_sqrt by lra. ring.
      + intros i j Hii Hj. rewrite HP by assumption. f_equal. rewrite !ifft_px. cbn [nr nc px]. f_equal. apply sum2_ext.
        intros u' v' _ _. fold U. ring.
    - injection X as X'. rewrite X'. unfold pw at 2. rewrite power_total by assumption. reflexivity. }
  rewrite Ez, EE. unfold variance. unfold Rdiv at 1. rewrite Rinv_inv.
  transitivity (total_of (map (fun iz => (snd iz / f_var (im (fst iz))) ^ 2 * energy (bs (fst iz))) weights)).
  - field. split; lra.
  - f_equal. apply map_ext_in. intros [i z] Hin. cbn [fst snd]. apply in_combine_l in Hin. destruct (Hi i Hin) as (_ & V & _).
    field. exact V.
Qed.

Lemma fft_spot sh x0 y0 u v : (x0 < fst sh)%nat -> (y0 < snd sh)%nat ->
  sq (px (fft2_ortho (real_frame sh (spot x0 y0))) u v) = / cells_of sh.
Proof.
  intros Hx Hy. assert (0 < fst sh)%nat as HN by lia. assert (0 < snd sh)%nat as HM by lia.
  rewrite fft_px, dft_har. cbn [real_frame frame nr nc px].
  rewrite (sum2_ext _ _ _ (fun x y => (har2 (fst sh) (snd sh) u v (- Z.of_nat x) (- Z.of_nat y) *
    (if ((Z.of_nat x0 - Z.of_nat x) mod Z.of_nat (fst sh) =? 0) && ((Z.of_nat y0 - Z.of_nat y) mod Z.of_nat (snd sh) =? 0)
     then RtoC 1 else RtoC 0))%C)%Z).
  - rewrite (sum2_pick (fst sh) (snd sh) (fun x y => har2 (fst sh) (snd sh) u v (- Z.of_nat x) (- Z.of_nat y))) by assumption.
    rewrite !wrap_small by assumption. rewrite !sq_mult, sq_unit, sq_RtoC by assumption.
    rewrite sq_har2.
    ring.
  - intros x y Hx' Hy'. rewrite !sub_mod_eq by assumption. unfold spot. rewrite (Nat.eqb_sym x), (Nat.eqb_sym y).
    destruct (_ && _)%bool; ring.
Qed.

Lemma spot_energy sh b a c x0 y0 : fits sh b -> (x0 < fst sh)%nat -> (y0 < snd sh)%nat ->
  rsum2 (fst sh) (snd sh) (fun x y => exposure sh (spot x0 y0) b a c x y ^ 2) = energy b.
Proof.
  intros F Hx Hy. assert (0 < fst sh)%nat as HN by lia. assert (0 < snd sh)%nat as HM by lia.
  rewrite <- (elem_energy sh b) by assumption.
  pose proof (parseval (real_frame sh (exposure sh (spot x0 y0) b a c)) HN HM) as E.
  cbn [real_frame frame nr nc px] in E.
  fold (frame sh (fun i j => RtoC (exposure sh (spot x0 y0) b a c i j))) in E. 
  fold (real_frame sh (exposure sh (spot x0 y0) b a c)) in E.
  rewrite (sum2_ext _ _ _ (fun x y => RtoC (exposure sh (spot x0 y0) b a c x y ^ 2))) in E.
  2:{ intros i j _ _. rewrite conj_R, <- RtoC_mult. f_equal. ring. }
  rewrite sum2_RtoC in E. rewrite (sum2_ext _ _ _ (fun u v => RtoC (sq (px (elem_hat sh b) u v)))) in E.
  - rewrite sum2_RtoC in E. injection E as E'. exact E'.
  - intros u v Hu Hv. rewrite conj_sq. f_equal. fold (sq (px (fft2_ortho (real_frame sh (exposure sh (spot x0 y0) b a c))) u v)).
    rewrite fft_exposure by assumption. rewrite !sq_mult, fft_spot by assumption.
    rewrite sq_har2.
    rewrite elem_response, sq_mult, sq_unit by assumption. ring.
Qed.

Lemma discriminant A B D : (forall t, 0 <= t ^ 2 * A - 2 * t * B + D) -> 0 <= A -> B ^ 2 <= A * D.
Proof.
  intros H HA. destruct (Rle_lt_or_eq_dec 0 A HA) as [Ap|<-].
  - specialize (H (B / A)). replace ((B / A) ^ 2 * A - 2 * (B / A) * B + D) with ((A * D - B ^ 2) / A) in H by (field; lra).
    apply (Rmult_le_compat_r A) in H; [|lra]. rewrite Rmult_0_l in H. unfold Rdiv in H. rewrite Rmult_assoc, Rinv_l, Rmult_1_r in H by lra. lra.
  - destruct (Req_dec B 0) as [->|NB]; [lra|]. specialize (H ((D + 1) / (2 * B))).
    replace (((D + 1) / (2 * B)) ^ 2 * 0 - 2 * ((D + 1) / (2 * B)) * B + D) with (-1) in H by (field; exact NB). lra.
Qed.

(** C102: no other linear combination of the pixels of the images shows a source better: for all
    weights of the pixels of all the images, the square of what the combination has of a
    source of flux 1, over the variance of its noise, is at most that of the coadd. *)
Lemma C102_best_lm : forall mk reg transp fuel sched w ids loss n zps sh Rr P m l'
  (im : nat -> fimg) (ma : nat -> mask) (lo : nat -> R) (st : nat -> nat) (nm : nat -> R -> nat -> nat -> R)
  (bs : nat -> plane R) (a c : nat -> Z) (x0 y0 : nat) (L : nat * R -> nat -> nat -> R),
  ids <> [] -> NoDup ids -> transp (objs w) ids = Ok zps -> length zps = length ids ->
  run_limits fuel ids n -> images_fit (objs w) ids sh -> (x0 < fst sh)%nat -> (y0 < snd sh)%nat ->
  (forall i, In i ids ->
     objs w i = coadd_view (im i) (ma i) (lo i) (st i) (nm i) (fun _ => (None, [bs i])) /\
     f_var (im i) <> 0 /\ fits sh (bs i)) ->
  let weights := combine ids zps in
  covered sh bs weights ->
  coadd mk reg transp fuel sched w (map Img ids) false loss n = (Some (Ok (Rr, P, m)), l') ->
  let zp := sqrt (total_of (map (fun iz => (snd iz * light (bs (fst iz)) / f_var (im (fst iz))) ^ 2) weights)) / sqrt (cells_of sh) in
  let variance := / cells_of sh in
  let signal := total_of (map (fun iz => rsum2 (fst sh) (snd sh) (fun x y =>
     L iz x y * (snd iz * exposure sh (spot x0 y0) (bs (fst iz)) (a (fst iz)) (c (fst iz)) x y))) weights) in
  let noise := total_of (map (fun iz => f_var (im (fst iz)) ^ 2 * rsum2 (fst sh) (snd sh) (fun x y => L iz x y ^ 2)) weights) in
  signal ^ 2 <= zp ^ 2 * energy_full P / variance * noise.
Proof.
  intros mk reg transp fuel sched w ids loss n zps sh Rr P m l' im ma lo st nm bs a c x0 y0 L
    Hne Nd Et El Hrl Hf Hx Hy Hi weights Hc E zp variance signal noise.
  assert (0 < fst sh)%nat as HN by lia. assert (0 < snd sh)%nat as HM by lia.
  pose proof (C102_value_lm _ _ _ _ _ _ _ _ _ _ _ _ _ _ _ im ma lo st nm bs Hne Nd Et El Hrl Hf HN HM Hi Hc E) as V.
  cbn zeta in V. fold weights in V. unfold zp, variance. rewrite V. clear V.
  set (e := fun iz : nat * R => exposure sh (spot x0 y0) (bs (fst iz)) (a (fst iz)) (c (fst iz))).
  apply discriminant.
  - intros t.
    replace (t ^ 2 * total_of (map (fun iz => snd iz ^ 2 * energy (bs (fst iz)) / f_var (im (fst iz)) ^ 2) weights) - 2 * t * signal + noise)
      with (total_of (map (fun iz => rsum2 (fst sh) (snd sh) (fun x y =>
        (t * (snd iz / f_var (im (fst iz))) * e iz x y - f_var (im (fst iz)) * L iz x y) ^ 2)) weights)).
    + apply total_of_nonneg'. intros iz. apply rsum2_nonneg. intros x y. apply pow2_ge_0.
    + unfold signal, noise, Rminus. rewrite Ropp_mult_distr_l. rewrite <- !total_of_scale, <- !total_of_plus. f_equal. apply map_ext_in.
      intros [i z] Hin. cbn [fst snd]. apply in_combine_l in Hin. destruct (Hi i Hin) as (_ & V & F).
      rewrite <- (spot_energy sh (bs i) (a i) (c i) x0 y0) by assumption.
      rewrite (rsum2_ext _ _ (fun x y => (t * (z / f_var (im i)) * e (i, z) x y + - (f_var (im i) * L (i, z) x y)) ^ 2)
        (fun x y => t ^ 2 * z ^ 2 / f_var (im i) ^ 2 * (e (i, z) x y ^ 2) + - (2 * t) * (L (i, z) x y * (z * e (i, z) x y)) +
                    f_var (im i) ^ 2 * L (i, z) x y ^ 2)).
      * rewrite !rsum2_plus, !rsum2_scale. unfold e. cbn [fst snd]. field. exact V.
      * intros x y _ _. field. exact V.
  - apply total_of_nonneg'. intros [i z]. cbn [fst snd]. unfold Rdiv. apply Rmult_le_pos.
    + apply Rmult_le_pos; [apply pow2_ge_0|]. apply rsum2_nonneg. intros; apply pow2_ge_0.
    + destruct (Req_dec (f_var (im i)) 0) as [->|N].
      * replace (0 ^ 2) with 0 by ring. rewrite Rinv_0. lra.
      * left. apply Rinv_0_lt_compat. now apply pow2_gt_0.
Qed.

(** C102: and some combination reaches it. *)
Lemma C102_reached_lm : forall mk reg transp fuel sched w ids loss n zps sh Rr P m l'
  (im : nat -> fimg) (ma : nat -> mask) (lo : nat -> R) (st : nat -> nat) (nm : nat -> R -> nat -> nat -> R)
  (bs : nat -> plane R) (a c : nat -> Z) (x0 y0 : nat),
  ids <> [] -> NoDup ids -> transp (objs w) ids = Ok zps -> length zps = length ids ->
  run_limits fuel ids n -> images_fit (objs w) ids sh -> (x0 < fst sh)%nat -> (y0 < snd sh)%nat ->
  (forall i, In i ids ->
     objs w i = coadd_view (im i) (ma i) (lo i) (st i) (nm i) (fun _ => (None, [bs i])) /\
     f_var (im i) <> 0 /\ fits sh (bs i)) ->
  let weights := combine ids zps in
  covered sh bs weights ->
  coadd mk reg transp fuel sched w (map Img ids) false loss n = (Some (Ok (Rr, P, m)), l') ->
  let zp := sqrt (total_of (map (fun iz => (snd iz * light (bs (fst iz)) / f_var (im (fst iz))) ^ 2) weights)) / sqrt (cells_of sh) in
  let variance := / cells_of sh in
  exists L : nat * R -> nat -> nat -> R,
  let signal := total_of (map (fun iz => rsum2 (fst sh) (snd sh) (fun x y =>
     L iz x y * (snd iz * exposure sh (spot x0 y0) (bs (fst iz)) (a (fst iz)) (c (fst iz)) x y))) weights) in
  let noise := total_of (map (fun iz => f_var (im (fst iz)) ^ 2 * rsum2 (fst sh) (snd sh) (fun x y => L iz x y ^ 2)) weights) in
  signal ^ 2 = zp ^ 2 * energy_full P / variance * noise /\ 0 < signal /\ 0 < noise.
Proof.
  intros mk reg transp fuel sched w ids loss n zps sh Rr P m l' im ma lo st nm bs a c x0 y0
    Hne Nd Et El Hrl Hf Hx Hy Hi weights Hc E zp variance.
  assert (0 < fst sh)%nat as HN by lia. assert (0 < snd sh)%nat as HM by lia.
  pose proof (C102_value_lm _ _ _ _ _ _ _ _ _ _ _ _ _ _ _ im ma lo st nm bs Hne Nd Et El Hrl Hf HN HM Hi Hc E) as V.
  cbn zeta in V. fold weights in V. unfold zp, variance. rewrite V. clear V.
  set (V := total_of _).
  set (e := fun iz : nat * R => exposure sh (spot x0 y0) (bs (fst iz)) (a (fst iz)) (c (fst iz))).
  assert (0 < V) as PV.
  { pose proof (power_total sh (fun i => f_var (im i)) bs weights HN HM) as T.
    replace V with (rsum2 (fst sh) (snd sh) (power sh (fun i => f_var (im i)) bs weights)).
    - assert (forall u v, (u < fst sh)%nat -> (v < snd sh)%nat -> 0 < power sh (fun i => f_var (im i)) bs weights u v) as Pp.
      { intros u v Hu Hv. apply power_pos; try assumption. intros i z Hin. apply in_combine_l in Hin. now destruct (Hi i Hin) as (_ & ? & ?). }
      clear -Pp HN HM. set (p := power _ _ _ _) in *. clearbody p.
      assert (forall k f, (forall j, (j < k)%nat -> 0 < f j) -> (0 < k)%nat -> 0 < rsum k f) as Hs.
      { induction k as [|k IH]; intros f Hf Hk; [lia|]. cbn [rsum]. pose proof (Hf k ltac:(lia)) as A.
        destruct k as [|k]; [cbn [rsum]; lra|]. pose proof (IH f ltac:(intros; apply Hf; lia) ltac:(lia)). lra. }
      unfold rsum2. apply Hs; [|exact HN]. intros u Hu. apply Hs; [|exact HM]. intros v Hv. now apply Pp.
    - rewrite T.
      + unfold V. f_equal. apply map_ext_in. intros [i z] Hin. cbn [fst snd]. apply in_combine_l in Hin.
        destruct (Hi i Hin) as (_ & N & _). field. exact N.
      + intros i z Hin. apply in_combine_l in Hin. now destruct (Hi i Hin) as (_ & _ & F). }
  exists (fun iz x y => snd iz / f_var (im (fst iz)) ^ 2 * e iz x y). cbn zeta.
  assert (total_of (map (fun iz => rsum2 (fst sh) (snd sh) (fun x y =>
     snd iz / f_var (im (fst iz)) ^ 2 * e iz x y * (snd iz * exposure sh (spot x0 y0) (bs (fst iz)) (a (fst iz)) (c (fst iz)) x y))) weights) = V) as ->.
  { unfold V. f_equal. apply map_ext_in. intros [i z] Hin. cbn [fst snd]. apply in_combine_l in Hin. destruct (Hi i Hin) as (_ & N & F).
    rewrite <- (spot_energy sh (bs i) (a i) (c i) x0 y0) by assumption.
    rewrite (rsum2_ext _ _ _ (fun x y => z ^ 2 / f_var (im i) ^ 2 * (e (i, z) x y ^ 2))).
    - rewrite rsum2_scale. unfold e. cbn [fst snd]. field. exact N.
    - intros x y _ _. unfold e. cbn [fst snd]. field. exact N. }
  assert (total_of (map (fun iz => f_var (im (fst iz)) ^ 2 * rsum2 (fst sh) (snd sh) (fun x y => (snd iz / f_var (im (fst iz)) ^ 2 * e iz x y) ^ 2)) weights) = V) as ->.
  { unfold V. f_equal. apply map_ext_in. intros [i z] Hin. cbn [fst snd]. apply in_combine_l in Hin. destruct (Hi i Hin) as (_ & N & F).
    rewrite <- (spot_energy sh (bs i) (a i) (c i) x0 y0) by assumption.
    rewrite (rsum2_ext _ _ _ (fun x y => z ^ 2 / f_var (im i) ^ 4 * (e (i, z) x y ^ 2))).
    - rewrite rsum2_scale. unfold e. cbn [fst snd]. field. exact N.
    - intros x y _ _. unfold e. cbn [fst snd]. field. exact N. }
  split; [ring|]. split; exact PV.
Qed.
