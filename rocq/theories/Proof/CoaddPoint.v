(** The coadd of images whose PSF is a single pixel. *)
From Coq Require Import Arith ZArith List Bool Reals Lia Lra.
From Coquelicot Require Import Complex.
From Verif.Model Require Import Py Plane Ma Chunk Coadd Subtract Filter.
From Verif.Spec Require Import Coadd Fourier Filter.
From Verif.Proof Require Import Coadd Fourier Subtract SubtractSum Dft Filter FilterMain CoaddMain CoaddMore CoaddWeights.
Import ListNotations.
Local Open Scope R_scope.
Set Bullet Behavior "Strict Subproofs".

Lemma rsum_pick n k v : (k < n)%nat -> rsum n (fun i => if (i =? k)%nat then v else 0) = v.
Proof.
  intros H. assert (RtoC (rsum n (fun i => if (i =? k)%nat then v else 0)) = RtoC v) as E.
  - rewrite <- csum_RtoC. etransitivity; [|apply (csum_one n k (RtoC v) H)].
    apply csum_ext. intros i _. now destruct (_ =? _)%nat.
  - now injection E.
Qed.

Lemma rsum_0 n : rsum n (fun _ => 0) = 0.
Proof. induction n as [|n IH]; cbn; [reflexivity|]. rewrite IH. ring. Qed.

Lemma rsum2_point b p q (f : nat -> nat -> R) : point p q b ->
  rsum2 (nr b) (nc b) (fun i j => f i j * px b i j) = f p q.
Proof.
  intros (Hp & Hq & H). unfold rsum2. rewrite <- (rsum_pick (nr b) p (f p q)) by exact Hp.
  apply rsum_ext. intros i Hi. destruct (Nat.eqb_spec i p) as [->|N].
  - rewrite <- (rsum_pick (nc b) q (f p q)) by exact Hq. apply rsum_ext. intros j Hj. rewrite H by assumption.
    rewrite Nat.eqb_refl. cbn [andb]. destruct (Nat.eqb_spec j q) as [->|]; ring.
  - rewrite <- (rsum_0 (nc b)). apply rsum_ext. intros j Hj. rewrite H by assumption.
    apply Nat.eqb_neq in N. rewrite N. cbn [andb]. ring.
Qed.

Lemma point_center b p q : point p q b -> center_of_mass b = (IZR (Z.of_nat p), IZR (Z.of_nat q)).
Proof.
  intros P. unfold center_of_mass. rewrite !psumR_rsum2. cbn [nr nc px].
  rewrite (rsum2_ext _ _ (px b) (fun i j => 1 * px b i j)) by (intros; ring).
  rewrite (rsum2_ext _ _ (fun i j => px b i j * INR i) (fun i j => INR i * px b i j)) by (intros; ring).
  rewrite (rsum2_ext _ _ (fun i j => px b i j * INR j) (fun i j => INR j * px b i j)) by (intros; ring).
  rewrite (rsum2_point b p q (fun _ _ => 1) P).
  rewrite (rsum2_point b p q (fun i _ => INR i) P), (rsum2_point b p q (fun _ j => INR j) P).
  rewrite <- !INR_IZR_INZ. f_equal; field.
Qed.

Lemma elem_point sh b p q u v : (0 < fst sh)%nat -> (0 < snd sh)%nat -> fits sh b -> point p q b ->
  px (elem_hat sh b) u v = (unit_of (fst sh) (snd sh) * har2 (fst sh) (snd sh) u v (- Z.of_nat p) (- Z.of_nat q))%C.
Proof.
  intros HN HM [F1 F2] (Hp & Hq & H). unfold elem_hat. rewrite fft_px, dft_har.
  change (nr (pad_to sh (pmap RtoC b))) with (fst sh). change (nc (pad_to sh (pmap RtoC b))) with (snd sh). f_equal.
  unfold sum2. rewrite (csum_ext (fst sh) _ (fun i => if (i =? p)%nat then
    har2 (fst sh) (snd sh) u v (- Z.of_nat p) (- Z.of_nat q) else RtoC 0)).
  - apply csum_one. lia.
  - intros i Hi. destruct (Nat.eqb_spec i p) as [->|N].
    + rewrite (csum_ext (snd sh) _ (fun j => if (j =? q)%nat then har2 (fst sh) (snd sh) u v (- Z.of_nat p) (- Z.of_nat q) else RtoC 0)).
      * apply csum_one. lia.
      * intros j Hj. cbn [pad_to px pmap nr nc]. destruct (Nat.ltb_spec p (nr b)); [|lia].
        destruct (Nat.ltb_spec j (nc b)); cbn [andb].
        -- rewrite H by assumption. rewrite Nat.eqb_refl. cbn [andb]. destruct (Nat.eqb_spec j q) as [->|]; ring.
        -- destruct (Nat.eqb_spec j q); [lia|ring].
    + etransitivity; [|apply (csum_0 (snd sh))]. apply csum_ext. intros j Hj. cbn [pad_to px pmap nr nc].
      destruct (Nat.ltb_spec i (nr b)), (Nat.ltb_spec j (nc b)); cbn [andb]; try ring.
      rewrite H by assumption. apply Nat.eqb_neq in N. rewrite N. cbn [andb]. ring.
Qed.

Lemma har2_cancel N M u v a c : (har2 N M u v a c * har2 N M u v (- a) (- c))%C = RtoC 1.
Proof. rewrite <- har2_plus. rewrite !Z.add_opp_diag_r. unfold har2. rewrite !har_0. ring. Qed.

(** The transform is kept, up to the unit. *)
Lemma point_base im b p q u v : (0 < fst (f_shape im))%nat -> (0 < snd (f_shape im))%nat ->
  fits (f_shape im) b -> point p q b ->
  px (s_hat_const im b) u v =
  (unit_of (fst (f_shape im)) (snd (f_shape im)) * px (fft2_ortho (real_frame (f_shape im) (f_pix im))) u v)%C.
Proof.
  intros HN HM F P. unfold s_hat_const. rewrite (point_center b p q P).
  rewrite shift_har by assumption.
  match goal with |- (px (pmap2 times_conj ?A ?B) u v * _)%C = _ =>
    change (px (pmap2 times_conj A B) u v) with (px A u v * Cconj (px B u v))%C end.
  rewrite (elem_point _ _ p q u v HN HM F P). rewrite conj_mult, har2_conj. unfold unit_of at 1. rewrite conj_R.
  fold (unit_of (fst (f_shape im)) (snd (f_shape im))). rewrite !Z.opp_involutive.
  change (frame (f_shape im) (fun i j => RtoC (f_pix im i j))) with (real_frame (f_shape im) (f_pix im)).
  match goal with |- (?A * (?U * ?X) * ?Y)%C = _ => transitivity (U * A * (X * Y))%C; [ring|] end.
  change (nr (pmap2 times_conj ?A ?B)) with (fst (f_shape im)).
  etransitivity; [apply (f_equal (fun z => (_ * z)%C)), har2_cancel|]. ring.
Qed.

Lemma point_sq sh b p q u v : (0 < fst sh)%nat -> (0 < snd sh)%nat -> fits sh b -> point p q b ->
  px (psf_hat_sqnorm sh None [b]) u v = RtoC (/ cells_of sh).
Proof.
  intros HN HM F P. unfold psf_hat_sqnorm. cbn [fold_left].
  match goal with |- px (pmap2 Cplus ?A ?B) u v = _ =>
    change (px (pmap2 Cplus A B) u v) with (times_conj (px (elem_hat sh b) u v) (px (elem_hat sh b) u v) + RtoC 0)%C end.
  rewrite (elem_point _ _ p q u v HN HM F P). unfold times_conj. rewrite conj_mult, har2_conj. unfold unit_of. rewrite conj_R.
  match goal with |- (?U * ?X * (?U * ?Y) + _)%C = _ => transitivity (U * U * (X * Y))%C; [ring|] end.
  rewrite har2_cancel. rewrite sqrt_inv_sq by now apply area_pos. unfold cells_of. ring.
Qed.

Lemma fft_zero N M u v : px (fft2_ortho (mkplane N M (fun _ _ => RtoC 0))) u v = RtoC 0.
Proof.
  rewrite fft_px, dft_har. rewrite (sum2_ext _ _ _ (fun _ _ => (RtoC 0 * RtoC 0)%C)).
  - rewrite sum2_scale. ring.
  - intros. cbn [px]. ring.
Qed.

Lemma fft_lin N M (k : C) (f g : nat -> nat -> C) u v :
  px (fft2_ortho (mkplane N M (fun i j => (k * f i j + g i j)%C))) u v =
  (k * px (fft2_ortho (mkplane N M f)) u v + px (fft2_ortho (mkplane N M g)) u v)%C.
Proof.
  rewrite !fft_px, !dft_har. cbn [nr nc px].
  rewrite (sum2_ext _ _ _ (fun x y => (k * (f x y * har2 N M u v (- Z.of_nat x) (- Z.of_nat y)) +
    g x y * har2 N M u v (- Z.of_nat x) (- Z.of_nat y))%C)) by (intros; ring).
  rewrite sum2_plus, sum2_scale. ring.
Qed.

Lemma ifft2_ortho_unit F x y : (0 < nr F)%nat -> (0 < nc F)%nat ->
  px (ifft2 F) x y = (unit_of (nr F) (nc F) * px (ifft2_ortho F) x y)%C.
Proof.
  intros HN HM. unfold ifft2, ifft2_ortho. cbn [pmap px]. unfold unit_of. rewrite Cmult_assoc. f_equal.
  symmetry. apply sqrt_inv_sq. now apply area_pos.
Qed.

Lemma mod_sub_swap n x a : (0 < n)%nat -> (x < n)%nat ->
  ((Z.of_nat x - a) mod Z.of_nat n =? 0)%Z = (x =? wrap n a)%nat.
Proof.
  intros H Hx. rewrite <- mod_sub_eq by assumption. apply eq_true_iff_eq. rewrite !Z.eqb_eq, !Z.mod_divide by lia.
  replace (a - Z.of_nat x)%Z with (- (Z.of_nat x - a))%Z by lia. symmetry. apply Z.divide_opp_r.
Qed.

(** The weighted sum of the images. *)
Definition wsum (im : nat -> fimg) (l : list (nat * R)) (x y : nat) : R :=
  total_of (map (fun iz => snd iz / f_var (im (fst iz)) ^ 2 * f_pix (im (fst iz)) x y) l).
Definition wpow (im : nat -> fimg) (l : list (nat * R)) : R :=
  total_of (map (fun iz => (snd iz / f_var (im (fst iz))) ^ 2) l).

Lemma fft_wsum im l N M u v :
  px (fft2_ortho (mkplane N M (fun i j => RtoC (wsum im l i j)))) u v =
  total (fun iz => (RtoC (snd iz / f_var (im (fst iz)) ^ 2) *
    px (fft2_ortho (mkplane N M (fun i j => RtoC (f_pix (im (fst iz)) i j)))) u v)%C) l.
Proof.
  induction l as [|iz l IH].
  - unfold wsum. cbn [map total_of fold_right total]. apply fft_zero.
  - cbn [total fold_right]. fold (total (fun iz => (RtoC (snd iz / f_var (im (fst iz)) ^ 2) *
      px (fft2_ortho (mkplane N M (fun i j => RtoC (f_pix (im (fst iz)) i j)))) u v)%C) l).
    rewrite <- IH, <- fft_lin. rewrite !fft_px, !dft_har. f_equal. apply sum2_ext. intros i j _ _. cbn [px]. f_equal.
    unfold wsum. cbn [map total_of fold_right]. rewrite RtoC_plus, RtoC_mult. reflexivity.
Qed.

Lemma total_scale {A} (k : C) (f : A -> C) l : total (fun a => (k * f a)%C) l = (k * total f l)%C.
Proof. unfold total. induction l as [|a l IH]; cbn [fold_right]; [ring|]. rewrite IH. ring. Qed.

Lemma total_RtoC {A} (f : A -> R) l : total (fun a => RtoC (f a)) l = RtoC (total_of (map f l)).
Proof. unfold total, total_of. induction l as [|a l IH]; cbn [fold_right map]; [reflexivity|]. now rewrite IH, RtoC_plus. Qed.

(** C91: images whose PSF is one pixel (anywhere in its stamp): the coadd is, at each pixel, the sum of
    zp / var^2 times the images over the root of the sum of (zp / var)^2, by 1 / sqrt(number of
    pixels); its PSF is one pixel, at the size of the largest stamp from the corner. *)
Lemma C91_point_psf_lm : forall mk reg transp fuel sched w ids loss n zps sh Rr P m l'
  (im : nat -> fimg) (ma : nat -> mask) (lo : nat -> R) (st : nat -> nat) (nm : nat -> R -> nat -> nat -> R)
  (bs : nat -> plane R) (p q : nat -> nat),
  ids <> [] -> NoDup ids -> transp (objs w) ids = Ok zps -> length zps = length ids ->
  run_limits fuel ids n -> images_fit (objs w) ids sh -> (0 < fst sh)%nat -> (0 < snd sh)%nat ->
  (forall i, In i ids ->
     objs w i = coadd_view (im i) (ma i) (lo i) (st i) (nm i) (fun _ => (None, [bs i])) /\
     f_var (im i) <> 0 /\ fits sh (bs i) /\ point (p i) (q i) (bs i)) ->
  let weights := combine ids zps in
  let W := total_of (map (fun iz => (snd iz / f_var (im (fst iz))) ^ 2) weights) in
  0 < W ->
  coadd mk reg transp fuel sched w (map Img ids) false loss n = (Some (Ok (Rr, P, m)), l') ->
  (forall x y, (x < fst sh)%nat -> (y < snd sh)%nat ->
    px Rr x y = RtoC (total_of (map (fun iz => snd iz / f_var (im (fst iz)) ^ 2 * f_pix (im (fst iz)) x y) weights)
                      / sqrt W / sqrt (cells_of sh))) /\
  exists ps, In ps (map st ids) /\ (forall i, In i ids -> (st i <= ps)%nat) /\
    forall x y, (x < fst sh)%nat -> (y < snd sh)%nat ->
      px P x y = RtoC (if ((x =? ps mod fst sh) && (y =? ps mod snd sh))%nat then 1 else 0).
Proof.
  intros mk reg transp fuel sched w ids loss n zps sh Rr P m l' im ma lo st nm bs p q
    Hne Nd Et El Hrl Hf HN HM Hi weights W HW E.
  destruct (C86_zero_points_lm _ _ _ _ _ _ _ _ _ _ _ _ _ _ _ Hne Nd Et El Hrl Hf E)
    as (S & Q & ps & raw & SS & SQ & HSQ & Ips & Ups & [_ HR] & [Sraw Hraw] & [SP HP]).
  destruct (shape_pair _ _ SS) as [S1 S2]. destruct (shape_pair _ _ SQ) as [Q1 Q2].
  assert (0 < cells_of sh) as Pc by now apply area_pos.
  assert (forall i, In i ids -> f_shape (im i) = sh) as Hsh.
  { intros i Hin. destruct (Hi i Hin) as (Eo & _). destruct (Hf i Hin) as [Es _]. now rewrite Eo in Es. }
  set (U := unit_of (fst sh) (snd sh)).
  set (G := mkplane (fst sh) (snd sh) (fun i j => RtoC (wsum im weights i j))).
  assert (forall r c, (r < fst sh)%nat -> (c < snd sh)%nat -> px S r c = (U * px (fft2_ortho G) r c)%C) as ES.
  { intros r c Hr Hc. destruct (HSQ r c Hr Hc) as [-> _]. unfold G. rewrite fft_wsum. rewrite <- total_scale.
    apply total_ext. intros [i z] Hin. cbn [fst snd]. assert (In i ids) as Hin' by now apply in_combine_l in Hin.
    destruct (Hi i Hin') as (Eo & Hv & Hfit & Hpt). rewrite Eo. unfold contribution. cbn [coadd_view si_shat si_var si_base fst snd s_base].
    rewrite (point_base _ _ (p i) (q i)) by (rewrite ?(Hsh i Hin'); assumption). rewrite (Hsh i Hin').
    unfold real_frame, frame. fold U. ring. }
  assert (forall r c, (r < fst sh)%nat -> (c < snd sh)%nat -> px Q r c = RtoC (W / cells_of sh)) as EQ.
  { intros r c Hr Hc. destruct (HSQ r c Hr Hc) as [_ ->].
    rewrite (total_ext _ (fun iz => (RtoC (/ cells_of sh) * RtoC ((snd iz / f_var (im (fst iz))) ^ 2))%C)).
    - rewrite total_scale, total_RtoC. fold weights. rewrite <- RtoC_mult. f_equal. unfold W, Rdiv. ring.
    - intros [i z] Hin. cbn [fst snd]. assert (In i ids) as Hin' by now apply in_combine_l in Hin.
      destruct (Hi i Hin') as (Eo & Hv & Hfit & Hpt). rewrite Eo. cbn [coadd_view si_sq si_var fst snd].
      rewrite (Hsh i Hin'), (point_sq sh _ (p i) (q i)) by assumption. ring. }
  assert (0 < W / cells_of sh) as HWc by now apply Rdiv_lt_0_compat.
  assert (forall r c, (r < fst sh)%nat -> (c < snd sh)%nat -> px (pmap csqrt Q) r c = RtoC (sqrt (W / cells_of sh))) as EC.
  { intros r c Hr Hc. cbn [pmap px]. rewrite EQ by assumption. now apply csqrt_pos. }
  assert (sqrt (W / cells_of sh) = sqrt W / sqrt (cells_of sh)) as Ed by (apply sqrt_div_alt; exact Pc).
  assert (0 < sqrt W) as PW by now apply sqrt_lt_R0. assert (0 < sqrt (cells_of sh)) as PN by now apply sqrt_lt_R0.
  assert (nr Rr = fst sh /\ nc Rr = snd sh) as [R1 R2].
  { destruct (C86_zero_points_lm _ _ _ _ _ _ _ _ _ _ _ _ _ _ _ Hne Nd Et El Hrl Hf E)
      as (S' & Q' & ps' & raw' & SS' & _ & _ & _ & _ & [SR _] & _). destruct (shape_pair _ _ SS') as [A1 A2].
    unfold shape in SR. injection SR as B1 B2. split; [rewrite B1; exact A1|rewrite B2; exact A2]. }
  split.
  - intros x y Hx Hy. rewrite HR by (rewrite ?R1, ?R2; assumption).
    set (k := RtoC (/ sqrt W)).
    assert (plane_eq (pmap2 Cdiv S (pmap csqrt Q)) (pmap (fun z => (k * z)%C) (fft2_ortho G))) as EF.
    { split; [unfold shape; cbn; congruence|]. intros r c Hr Hc. change (nr (pmap2 Cdiv S (pmap csqrt Q))) with (nr S) in Hr.
      change (nc (pmap2 Cdiv S (pmap csqrt Q))) with (nc S) in Hc. rewrite S1 in Hr. rewrite S2 in Hc.
      change (px (pmap2 Cdiv S (pmap csqrt Q)) r c) with (px S r c / px (pmap csqrt Q) r c)%C.
      rewrite EC, ES by assumption. rewrite Ed. unfold U, unit_of, k. fold (cells_of sh).
      change (px (pmap (fun z => (RtoC (/ sqrt W) * z)%C) (fft2_ortho G)) r c) with (RtoC (/ sqrt W) * px (fft2_ortho G) r c)%C.
      unfold Cdiv. rewrite <- RtoC_inv by (apply Rgt_not_eq; now apply Rdiv_lt_0_compat).
      match goal with |- (RtoC ?a * ?g * RtoC ?b)%C = _ => transitivity (RtoC a * RtoC b * g)%C; [ring|] end.
      rewrite <- RtoC_mult. f_equal. f_equal. field. split; lra. }
    destruct (ifft2_ext _ _ EF) as [_ I]. rewrite I by (cbn; rewrite ?S1, ?S2; assumption). clear I.
    rewrite ifft2_ortho_unit by assumption.
    change (nr (pmap (fun z => (k * z)%C) (fft2_ortho G))) with (fst sh). change (nc (pmap (fun z => (k * z)%C) (fft2_ortho G))) with (snd sh).
    rewrite ifft_scale. destruct (fft_inverse G) as [_ I]; [exact HN|exact HM|]. rewrite I by assumption.
    unfold G, k, unit_of. cbn [px]. fold (cells_of sh). rewrite <- !RtoC_mult. f_equal. unfold wsum. field. split; lra.
  - exists ps.
    assert (map (fun i => si_stamp (objs w i)) ids = map st ids) as Est.
    { apply map_ext_in. intros i Hin. destruct (Hi i Hin) as (-> & _). reflexivity. }
    rewrite Est in Ips. split; [exact Ips|]. split.
    { intros i Hin. specialize (Ups i Hin). destruct (Hi i Hin) as (Eo & _). now rewrite Eo in Ups. }
    set (s := sqrt (W / cells_of sh)) in *.
    assert (nr raw = fst sh /\ nc raw = snd sh) as [W1 W2].
    { unfold shape in Sraw. injection Sraw as B1 B2. split; [rewrite B1; exact Q1|rewrite B2; exact Q2]. }
    assert (forall x y, (x < fst sh)%nat -> (y < snd sh)%nat ->
       px raw x y = (RtoC s * RtoC (if ((x =? ps mod fst sh) && (y =? ps mod snd sh))%nat then 1 else 0))%C) as Eraw.
    { intros x y Hx Hy. rewrite Hraw by (rewrite ?W1, ?W2; assumption).
      rewrite ifft2_ortho_unit by (cbn [fourier_shift nr nc pmap]; rewrite ?Q1, ?Q2; assumption).
      change (nr (fourier_shift (pmap csqrt Q) (INR ps) (INR ps))) with (nr Q).
      change (nc (fourier_shift (pmap csqrt Q) (INR ps) (INR ps))) with (nc Q). rewrite Q1, Q2.
      rewrite ifft_px. cbn [fourier_shift nr nc pmap].
      change (mkplane ?a ?b ?f) with (fourier_shift (pmap csqrt Q) (INR ps) (INR ps)).
      rewrite Q1, Q2. rewrite Cmult_assoc.
      rewrite (sum2_ext _ _ _ (fun u v => (RtoC s * har2 (fst sh) (snd sh) u v (Z.of_nat x - Z.of_nat ps) (Z.of_nat y - Z.of_nat ps))%C)).
      - rewrite sum2_scale, har2_sum by assumption. rewrite !mod_sub_swap by assumption.
        replace (ps mod fst sh)%nat with (wrap (fst sh) (Z.of_nat ps)) by (unfold wrap; rewrite <- Nat2Z.inj_mod; lia).
        replace (ps mod snd sh)%nat with (wrap (snd sh) (Z.of_nat ps)) by (unfold wrap; rewrite <- Nat2Z.inj_mod; lia).
        pose proof (unit_sq (fst sh) (snd sh) HN HM) as Eu.
        destruct (_ && _)%bool; [|ring].
        transitivity (RtoC s * (unit_of (fst sh) (snd sh) * unit_of (fst sh) (snd sh) * RtoC (INR (fst sh) * INR (snd sh))))%C; [ring|].
        rewrite Eu. reflexivity.
      - intros u v Hu Hv. rewrite !INR_IZR_INZ. rewrite shift_har by (cbn; rewrite ?Q1, ?Q2; assumption).
        rewrite EC by assumption. cbn [pmap nr nc]. rewrite Q1, Q2.
        replace (Z.of_nat x - Z.of_nat ps)%Z with (- Z.of_nat ps + Z.of_nat x)%Z by lia.
        replace (Z.of_nat y - Z.of_nat ps)%Z with (- Z.of_nat ps + Z.of_nat y)%Z by lia.
        rewrite har2_plus. ring. }
    assert (psum raw = RtoC s) as Es.
    { unfold psum. rewrite W1, W2. rewrite (csum_ext (fst sh) _ (fun x => if (x =? ps mod fst sh)%nat then RtoC s else RtoC 0)).
      - apply csum_one. apply Nat.mod_upper_bound. lia.
      - intros x Hx. destruct (Nat.eqb_spec x (ps mod fst sh)) as [Ex|Nx].
        + rewrite (csum_ext (snd sh) _ (fun y => if (y =? ps mod snd sh)%nat then RtoC s else RtoC 0)).
          * apply csum_one. apply Nat.mod_upper_bound. lia.
          * intros y Hy. rewrite Eraw by assumption. apply Nat.eqb_eq in Ex. rewrite Ex. cbn [andb].
            destruct (y =? ps mod snd sh)%nat; [apply Cmult_1_r|apply Cmult_0_r].
        + etransitivity; [|apply (csum_0 (snd sh))]. apply csum_ext. intros y Hy. rewrite Eraw by assumption.
          apply Nat.eqb_neq in Nx. rewrite Nx. cbn [andb]. apply Cmult_0_r. }
    intros x y Hx Hy.
    assert (nr P = fst sh /\ nc P = snd sh) as [P1 P2].
    { unfold shape in SP. injection SP as B1 B2. split; [rewrite B1; exact W1|rewrite B2; exact W2]. }
    rewrite HP by (rewrite ?P1, ?P2; assumption). cbn [pmap px]. rewrite Es, Eraw by assumption.
    assert (0 < s) as Ps by (unfold s; now apply sqrt_lt_R0).
    unfold Cdiv. rewrite <- RtoC_inv by lra. rewrite <- !RtoC_mult. f_equal. field. lra.
Qed.

(** The hypotheses can be met: two images of 2 x 3 with a PSF in the middle of a stamp of
    1 x 3, noise 1 and 2, zero points 2 and 3. *)
Definition mid_dot : plane R := mkplane 1 3 (fun _ j => match j with 1%nat => 1 | _ => 0 end).
Definition ex_frame (i : nat) : fimg := mkfimg (2%nat, 3%nat) (fun r c => INR (r + c)) (INR (S i)) 1.
Definition ex_points : world :=
  mkworld (fun i => coadd_view (ex_frame i) Nomask (1 / 5) 5 (fun _ _ _ => 1) (fun _ => (None, [mid_dot]))) 2.

Lemma C91_case_lm : exists Rr P m,
  let transp := fun (_ : heap) (_ : list nat) => Ok [2; 3] in
  images_fit (objs ex_points) [0%nat; 1%nat] (2%nat, 3%nat) /\ run_limits 0 [0%nat; 1%nat] 1 /\
  fits (2%nat, 3%nat) mid_dot /\ point 0 1 mid_dot /\
  0 < total_of (map (fun iz => (snd iz / f_var (ex_frame (fst iz))) ^ 2) (combine [0%nat; 1%nat] [2; 3])) /\
  coadd (fun _ => Raise IOError) (fun x _ => Ok x) transp 0 [] ex_points [Img 0; Img 1] false (1 / 5) 1 = (Some (Ok (Rr, P, m)), [Img 0; Img 1]).
Proof.
  assert (forall h, h = objs ex_points \/ h = upd (upd (objs ex_points) 0 (with_zp_loss 2 (1 / 5) (objs ex_points 0%nat))) 1
      (with_zp_loss 3 (1/5) (objs ex_points 1%nat)) -> images_fit h [0%nat; 1%nat] (2%nat, 3%nat)) as F.
  { intros h [->| ->] i [<-|[<-|[]]]; (split; [reflexivity|split; [exact Logic.I|cbn; congruence]]). }
  destruct (seq_spec 0 [] _ [0%nat; 1%nat] (2%nat, 3%nat) 1 ltac:(lia) ltac:(discriminate) (F _ (or_intror eq_refl)))
    as [ps [a [E _]]].
  unfold finish in E. do 3 eexists. cbn zeta. split; [apply F; auto|]. split; [left; lia|].
  split; [split; cbn; lia|]. split.
  { split; [cbn; lia|]. split; [cbn; lia|]. intros i j Hi Hj. cbn in Hi, Hj. destruct i; [|lia].
    destruct j as [|[|[|j]]]; [reflexivity..|lia]. }
  split; [cbn; lra|].
  unfold coadd, Verif.Model.Coadd.prepare. cbn [convert bind objs]. cbn [bind set_zps].
  f_equal. exact E.
Qed.
