(** The matched filter, the squared PSF transform and the noise maps in pixel space. *)
From Coq Require Import Arith ZArith List Bool Reals Lia Lra.
From Coquelicot Require Import Complex.
From Verif.Model Require Import Py Plane Subtract Filter.
From Verif.Spec Require Import Subtract Fourier Filter.
From Verif.Proof Require Import Fourier Subtract SubtractSum Dft Filter.
Import ListNotations.
Local Open Scope R_scope.
Set Bullet Behavior "Strict Subproofs".

Lemma s_component_inv im nrm fields b bs S : s_component im nrm fields (b :: bs) = Ok S ->
  S = pmap fst (ifft2_ortho (pmap (fun z => (RtoC (f_zp im / f_var im ^ 2) * z)%C)
        match fields with
        | None => s_hat_const im b
        | Some fs => s_hat_fields im nrm (center_of_mass b) fs (b :: bs)
        end)).
Proof. unfold s_component, s_hat, s_base. cbn [bind]. intros E. injection E as <-. reflexivity. Qed.

Lemma fst_scale k z : fst (RtoC k * z)%C = k * fst z.
Proof. destruct z as [x y]. cbn. ring. Qed.

(** C87: the S component of an image with one PSF, whose centre of mass is at a whole cell:
    at each pixel, the pixels under the PSF centred there, weighted by the PSF; times zp / var^2
    and by 1 / sqrt(number of pixels). *)
Lemma C87_constant_psf_lm : forall im nrm b bs a c S,
  (0 < fst (f_shape im))%nat -> (0 < snd (f_shape im))%nat -> f_var im <> 0 -> fits (f_shape im) b ->
  center_of_mass b = (IZR a, IZR c) ->
  s_component im nrm None (b :: bs) = Ok S ->
  shape S = f_shape im /\
  forall x y, (x < fst (f_shape im))%nat -> (y < snd (f_shape im))%nat ->
    px S x y = f_zp im / f_var im ^ 2 / sqrt (cells_of (f_shape im)) * seen (f_shape im) (f_pix im) b a c x y.
Proof.
  intros im nrm b bs a c S HN HM Hv Hf Hc E. rewrite (s_component_inv _ _ _ _ _ _ E). unfold s_hat_const. rewrite Hc.
  split; [unfold shape; cbn; now destruct (f_shape im)|]. intros x y Hx Hy.
  set (F := fourier_shift _ _ _).
  change (px (pmap fst (ifft2_ortho (pmap (fun z => (RtoC (f_zp im / f_var im ^ 2) * z)%C) F))) x y) with
    (fst (px (ifft2_ortho (pmap (fun z => (RtoC (f_zp im / f_var im ^ 2) * z)%C) F)) x y)).
  rewrite ifft_scale, fst_scale. unfold F. clear F.
  pose proof (term_px (f_shape im) (f_pix im) b a c x y HN HM Hf Hx Hy) as T. unfold real_frame in T. rewrite T.
  rewrite unit_RtoC, fst_scale. cbn [fst RtoC]. unfold cells_of. cbn [fst]. unfold Rdiv. ring.
Qed.

(** C87: with a variable PSF: the same with the image times a_k / nrm, summed over the basis. *)
Lemma C87_variable_psf_lm : forall im nrm fs b bs a c S,
  (0 < fst (f_shape im))%nat -> (0 < snd (f_shape im))%nat -> f_var im <> 0 ->
  Forall (fits (f_shape im)) (b :: bs) ->
  (forall i j, (i < fst (f_shape im))%nat -> (j < snd (f_shape im))%nat -> nrm i j <> 0) ->
  center_of_mass b = (IZR a, IZR c) ->
  s_component im nrm (Some fs) (b :: bs) = Ok S ->
  shape S = f_shape im /\
  forall x y, (x < fst (f_shape im))%nat -> (y < snd (f_shape im))%nat ->
    px S x y = f_zp im / f_var im ^ 2 / sqrt (cells_of (f_shape im)) *
      total_of (map (fun ab => seen (f_shape im) (fun i j => f_pix im i j * fst ab i j / nrm i j) (snd ab) a c x y)
                    (combine fs (b :: bs))).
Proof.
  intros im nrm fs b bs a c S HN HM Hv Hf Hn Hc E. rewrite (s_component_inv _ _ _ _ _ _ E). rewrite Hc.
  set (F := s_hat_fields _ _ _ _ _).
  split.
  { change (shape F = f_shape im). apply s_hat_fields_shape. }
  intros x y Hx Hy.
  change (px (pmap fst (ifft2_ortho (pmap (fun z => (RtoC (f_zp im / f_var im ^ 2) * z)%C) F))) x y) with
    (fst (px (ifft2_ortho (pmap (fun z => (RtoC (f_zp im / f_var im ^ 2) * z)%C) F)) x y)).
  rewrite ifft_scale, fst_scale. unfold F. rewrite s_hat_fields_px by assumption.
  rewrite unit_RtoC, fst_scale. cbn [fst RtoC]. unfold cells_of, weighted, Rdiv. ring.
Qed.

Lemma psumR_rsum2 p : psumR p = rsum2 (nr p) (nc p) (px p).
Proof. reflexivity. Qed.

(** C87: the total of the S component, wherever the centre of mass is. *)
Lemma C87_total_lm : forall im nrm fields b bs S,
  (0 < fst (f_shape im))%nat -> (0 < snd (f_shape im))%nat -> f_var im <> 0 ->
  Forall (fits (f_shape im)) (b :: bs) ->
  (forall i j, (i < fst (f_shape im))%nat -> (j < snd (f_shape im))%nat -> nrm i j <> 0) ->
  s_component im nrm fields (b :: bs) = Ok S ->
  let sum f := rsum2 (fst (f_shape im)) (snd (f_shape im)) f in
  sum (px S) = f_zp im / f_var im ^ 2 / sqrt (cells_of (f_shape im)) *
    match fields with
    | None => sum (f_pix im) * rsum2 (nr b) (nc b) (px b)
    | Some fs => total_of (map (fun ab => sum (fun i j => f_pix im i j * fst ab i j / nrm i j) *
                                          rsum2 (nr (snd ab)) (nc (snd ab)) (px (snd ab)))
                               (combine fs (b :: bs)))
    end.
Proof.
  intros im nrm fields b bs S HN HM Hv Hf Hn E sum. apply s_component_inv in E.
  set (F := match fields with None => _ | Some _ => _ end) in E.
  assert (shape F = f_shape im) as SF.
  { unfold F. destruct fields as [fs|]; [apply s_hat_fields_shape|].
    unfold s_hat_const. destruct (center_of_mass b). unfold shape. cbn. now destruct (f_shape im). }
  assert (sum (px S) = f_zp im / f_var im ^ 2 * (side (f_shape im) * fst (px F 0%nat 0%nat))) as ->.
  { destruct (shape_pair _ _ SF) as [F1 F2]. unfold sum.
    replace (rsum2 (fst (f_shape im)) (snd (f_shape im)) (px S)) with (psumR S).
    2:{ rewrite psumR_rsum2, E. cbn [pmap nr nc ifft2_ortho idft_raw]. rewrite F1, F2. reflexivity. }
    rewrite E, psumR_fst.
    rewrite (psum_ifft2_ortho _ (f_shape im)) by (try assumption; exact SF).
    cbn [pmap px]. rewrite fst_scale, fst_scale. ring. }
  assert (0 < sqrt (cells_of (f_shape im))) as P by (apply sqrt_lt_R0; now apply area_pos).
  assert (side (f_shape im) * / cells_of (f_shape im) = / sqrt (cells_of (f_shape im))) as Es.
  { unfold side. fold (cells_of (f_shape im)).
    assert (0 < cells_of (f_shape im)) as Pc by now apply area_pos.
    rewrite <- (sqrt_sqrt (cells_of (f_shape im))) at 2 by lra.
    rewrite Rinv_mult. rewrite <- Rmult_assoc, Rinv_r by lra. ring. }
  unfold F. clear E SF F. destruct fields as [fs|].
  - rewrite s_hat_fields_fsum.
    rewrite (fsum_px _ (f_shape im) _ (fterm_shape im nrm _) (fun F => px F 0%nat 0%nat)); [|apply pconst_shape|reflexivity].
    change (px (pconst (f_shape im) (RtoC 0)) 0%nat 0%nat) with (RtoC 0). rewrite Cplus_0_r.
    rewrite (map_ext_in _ (fun ab : (nat -> nat -> R) * plane R => (RtoC (/ cells_of (f_shape im)) *
        RtoC (sum (fun i j => f_pix im i j * fst ab i j / nrm i j)%R * rsum2 (nr (snd ab)) (nc (snd ab)) (px (snd ab)))%R)%C)).
    + rewrite <- (map_map (fun ab : (nat -> nat -> R) * plane R => sum (fun i j => f_pix im i j * fst ab i j / nrm i j) *
                                rsum2 (nr (snd ab)) (nc (snd ab)) (px (snd ab)))
                          (fun r => (RtoC (/ cells_of (f_shape im)) * RtoC r)%C)).
      rewrite fold_RtoC, fst_scale. cbn [fst RtoC]. 
      replace (f_zp im / f_var im ^ 2 / sqrt (cells_of (f_shape im))) with
        (f_zp im / f_var im ^ 2 * (side (f_shape im) * / cells_of (f_shape im))) by (rewrite Es; reflexivity).
      ring.
    + intros ab Hin. unfold fterm. rewrite term_00; try assumption.
      * rewrite RtoC_mult. reflexivity.
      * rewrite Forall_forall in Hf. apply Hf. destruct ab. now apply in_combine_r in Hin.
  - inversion Hf as [|? ? Hb _]; subst.
    unfold s_hat_const. destruct (center_of_mass b) as [dx dy].
    change (frame (f_shape im) (fun i j => RtoC (f_pix im i j))) with (real_frame (f_shape im) (f_pix im)).
    rewrite term_00 by assumption. cbn [fst RtoC]. fold (cells_of (f_shape im)).
    rewrite psumR_rsum2. fold (sum (f_pix im)). 
      replace (f_zp im / f_var im ^ 2 / sqrt (cells_of (f_shape im))) with
        (f_zp im / f_var im ^ 2 * (side (f_shape im) * / cells_of (f_shape im))) by (rewrite Es; reflexivity).
      ring.
Qed.

(** *** Frames of different sizes *)
Definition dot : plane R := mkplane 1 1 (fun _ _ => 1).

Lemma dot_center : center_of_mass dot = (IZR 0, IZR 0).
Proof. unfold center_of_mass, psumR. cbn. f_equal; field. Qed.

Lemma seen_dot sh f x y : (x < fst sh)%nat -> (y < snd sh)%nat -> seen sh f dot 0 0 x y = f x y.
Proof.
  intros Hx Hy. unfold seen, rsum2. cbn [nr nc dot rsum px]. unfold pix_around.
  rewrite !Z.sub_0_r, !Z.add_0_r, !wrap_small by assumption. ring.
Qed.

(** A source of flux 1 in the corner of an empty frame. *)
Definition star (sh : nat * nat) : fimg :=
  mkfimg sh (fun i j => match i, j with O, O => 1 | _, _ => 0 end) 1 1.

(** C87: so S depends on how much empty sky surrounds a source. *)
Lemma C87_empty_sky_refuted_lm : ~ (forall im im' nrm b bs S S',
  (0 < fst (f_shape im))%nat -> (0 < snd (f_shape im))%nat -> f_var im <> 0 -> fits (f_shape im) b ->
  (fst (f_shape im) <= fst (f_shape im'))%nat -> (snd (f_shape im) <= snd (f_shape im'))%nat ->
  f_var im' = f_var im -> f_zp im' = f_zp im ->
  (forall i j, f_pix im' i j = if ((i <? fst (f_shape im)) && (j <? snd (f_shape im)))%nat then f_pix im i j else 0) ->
  s_component im nrm None (b :: bs) = Ok S -> s_component im' nrm None (b :: bs) = Ok S' ->
  forall i j, (i < fst (f_shape im))%nat -> (j < snd (f_shape im))%nat -> f_pix im i j <> 0 -> px S' i j = px S i j).
Proof.
  intros H.
  assert (exists S, s_component (star (2%nat, 2%nat)) (fun _ _ => 1) None [dot] = Ok S) as [S E] by (eexists; reflexivity).
  assert (exists S', s_component (star (4%nat, 4%nat)) (fun _ _ => 1) None [dot] = Ok S') as [S' E'] by (eexists; reflexivity).
  specialize (H (star (2%nat, 2%nat)) (star (4%nat, 4%nat)) (fun _ _ => 1) dot [] S S'
    ltac:(cbn; lia) ltac:(cbn; lia) ltac:(cbn; lra) ltac:(cbv; lia) ltac:(cbn; lia) ltac:(cbn; lia) eq_refl eq_refl).
  assert (forall i j, f_pix (star (4%nat, 4%nat)) i j = if ((i <? fst (f_shape (star (2%nat, 2%nat)))) && (j <? snd (f_shape (star (2%nat, 2%nat)))))%nat then f_pix (star (2%nat, 2%nat)) i j else 0) as Hp.
  { intros i j. cbn [star f_pix f_shape fst snd]. destruct i as [|i], j as [|j]; try reflexivity; now destruct (_ && _)%bool. }
  specialize (H Hp E E' 0%nat 0%nat ltac:(cbn; lia) ltac:(cbn; lia) ltac:(cbn; lra)).
  destruct (C87_constant_psf_lm (star (2%nat, 2%nat)) (fun _ _ => 1) dot [] 0 0 S
     ltac:(cbn; lia) ltac:(cbn; lia) ltac:(cbn; lra) ltac:(cbv; lia) dot_center E) as [_ A].
  destruct (C87_constant_psf_lm (star (4%nat, 4%nat)) (fun _ _ => 1) dot [] 0 0 S'
     ltac:(cbn; lia) ltac:(cbn; lia) ltac:(cbn; lra) ltac:(cbv; lia) dot_center E') as [_ B].
  rewrite (A 0%nat 0%nat), (B 0%nat 0%nat) in H by (cbn; lia). clear A B.
  rewrite !seen_dot in H by (cbn; lia). unfold cells_of in H. cbn [star f_shape f_pix f_zp f_var fst snd INR] in H.
  replace ((1 + 1 + 1 + 1) * (1 + 1 + 1 + 1)) with (4 * 4) in H by lra.
  replace ((1 + 1) * (1 + 1)) with (2 * 2) in H by lra.
  rewrite !sqrt_square in H by lra. lra.
Qed.

(** ** The squared PSF transform *)
Definition sqterm (sh : nat * nat) (b : plane R) : plane C := pmap (fun z => times_conj z z) (elem_hat sh b).

Lemma sqterm_shape sh b : shape (sqterm sh b) = sh.
Proof. now destruct sh. Qed.

Lemma sqnorm_fsum sh fields basis : psf_hat_sqnorm sh fields basis = fsum _ (sqterm sh) basis (pconst sh (RtoC 0)).
Proof. reflexivity. Qed.

Lemma sqnorm_shape sh fields basis : shape (psf_hat_sqnorm sh fields basis) = sh.
Proof. rewrite sqnorm_fsum. apply fsum_shape; [apply sqterm_shape|apply pconst_shape]. Qed.

Lemma times_conj_self z : times_conj z z = RtoC (fst z ^ 2 + snd z ^ 2).
Proof. destruct z as [x y]. unfold times_conj, Cconj, Cmult, RtoC. cbn. f_equal; ring. Qed.

Lemma sqnorm_px sh fields basis u v : px (psf_hat_sqnorm sh fields basis) u v =
  RtoC (total_of (map (fun b => fst (px (elem_hat sh b) u v) ^ 2 + snd (px (elem_hat sh b) u v) ^ 2) basis)).
Proof.
  rewrite sqnorm_fsum.
  rewrite (fsum_px _ sh _ (sqterm_shape sh) (fun F => px F u v)); [|apply pconst_shape|reflexivity].
  change (px (pconst sh (RtoC 0)) u v) with (RtoC 0). rewrite Cplus_0_r.
  rewrite <- (Cmult_1_l (RtoC (total_of _))), <- fold_RtoC, map_map. f_equal. apply map_ext. intros b.
  rewrite Cmult_1_l. change (px (sqterm sh b) u v) with (times_conj (px (elem_hat sh b) u v) (px (elem_hat sh b) u v)).
  apply times_conj_self.
Qed.

Lemma total_of_nonneg {A} (f : A -> R) l : (forall a, 0 <= f a) -> 0 <= total_of (map f l).
Proof. intros H. induction l as [|a l IH]; cbn; [lra|]. specialize (H a). unfold total_of in IH. lra. Qed.

(** C88: the squared PSF transform is real and not negative. *)
Lemma C88_real_lm : forall sh fields basis u v,
  snd (px (psf_hat_sqnorm sh fields basis) u v) = 0 /\ 0 <= fst (px (psf_hat_sqnorm sh fields basis) u v).
Proof.
  intros sh fields basis u v. rewrite sqnorm_px. cbn [fst snd RtoC]. split; [reflexivity|].
  apply total_of_nonneg. intros b. pose proof (pow2_ge_0 (fst (px (elem_hat sh b) u v))).
  pose proof (pow2_ge_0 (snd (px (elem_hat sh b) u v))). lra.
Qed.

(** Sum over the frequencies of one term, and its image. *)
Lemma sqterm_px sh b a c x y : (0 < fst sh)%nat -> (0 < snd sh)%nat -> fits sh b ->
  (x < fst sh)%nat -> (y < snd sh)%nat ->
  px (ifft2_ortho (fourier_shift (sqterm sh b) (IZR a) (IZR c))) x y =
  (unit_of (fst sh) (snd sh) * RtoC (seen sh (laid b) b a c x y))%C.
Proof.
  intros HN HM Hf Hx Hy. rewrite <- term_px by assumption. rewrite !ifft_px.
  f_equal. apply sum2_ext. intros u v Hu Hv. f_equal.
  rewrite !shift_har by assumption. f_equal.
  change (px (sqterm sh b) u v) with (times_conj (px (elem_hat sh b) u v) (px (elem_hat sh b) u v)).
  change (px (pmap2 times_conj (fft2_ortho (real_frame sh (laid b))) (elem_hat sh b)) u v) with
    (times_conj (px (fft2_ortho (real_frame sh (laid b))) u v) (px (elem_hat sh b) u v)).
  f_equal. unfold elem_hat. rewrite !fft_px. f_equal. rewrite !dft_har. apply sum2_ext. intros i j _ _.
  f_equal. unfold real_frame, frame, laid. cbn [px pad_to pmap nr nc]. now destruct (_ && _)%bool.
Qed.

Lemma ifft_at_0 F : (0 < nr F)%nat -> (0 < nc F)%nat -> px (ifft2_ortho F) 0%nat 0%nat = (unit_of (nr F) (nc F) * psum F)%C.
Proof.
  intros HN HM. rewrite ifft_px. f_equal. unfold psum. apply sum2_ext. intros u v _ _.
  unfold har2. rewrite !har_0. ring.
Qed.

Lemma psum_plus F G : nr F = nr G -> nc F = nc G -> psum (pmap2 Cplus F G) = (psum F + psum G)%C.
Proof.
  intros E1 E2. unfold psum. rewrite <- E1, <- E2.
  change (sum2 (nr F) (nc F) (fun i j => px F i j + px G i j)%C = (sum2 (nr F) (nc F) (px F) + sum2 (nr F) (nc F) (px G))%C).
  apply sum2_plus.
Qed.

Definition energy (b : plane R) : R := rsum2 (nr b) (nc b) (fun i j => px b i j ^ 2).

Lemma sqterm_total sh b : (0 < fst sh)%nat -> (0 < snd sh)%nat -> fits sh b ->
  psum (sqterm sh b) = RtoC (energy b).
Proof.
  intros HN HM Hf. pose proof (sqterm_px sh b 0 0 0 0 HN HM Hf HN HM) as E.
  rewrite ifft_at_0 in E by assumption.
  change (nr (fourier_shift (sqterm sh b) (IZR 0) (IZR 0))) with (fst sh) in E.
  change (nc (fourier_shift (sqterm sh b) (IZR 0) (IZR 0))) with (snd sh) in E.
  assert (unit_of (fst sh) (snd sh) <> RtoC 0) as Nz.
  { unfold unit_of. apply RtoC_neq. apply Rinv_neq_0_compat. apply Rgt_not_eq. apply sqrt_lt_R0. now apply area_pos. }
  apply (f_equal (fun z => (/ unit_of (fst sh) (snd sh) * z)%C)) in E.
  rewrite !Cmult_assoc, Cinv_l, !Cmult_1_l in E by exact Nz.
  replace (psum (sqterm sh b)) with (psum (fourier_shift (sqterm sh b) (IZR 0) (IZR 0))).
  - rewrite E. f_equal. destruct Hf as [F1 F2]. unfold seen, energy. apply rsum2_ext. intros p q Hp Hq.
    unfold pix_around, laid. rewrite !Z.sub_0_r, !Z.add_0_l, !wrap_small by lia.
    apply Nat.ltb_lt in Hp, Hq. rewrite Hp, Hq. cbn [andb]. ring.
  - unfold psum. apply csum_ext. intros u _. apply csum_ext. intros v _. rewrite shift_har by assumption.
    unfold har2. rewrite !har_0. ring.
Qed.

(** C88: its total over the frequencies is the sum of the squares of the pixels of the basis. *)
Lemma C88_total_lm : forall sh fields basis, (0 < fst sh)%nat -> (0 < snd sh)%nat -> Forall (fits sh) basis ->
  psum (psf_hat_sqnorm sh fields basis) =
  RtoC (total_of (map (fun b => rsum2 (nr b) (nc b) (fun i j => px b i j ^ 2)) basis)).
Proof.
  intros sh fields basis HN HM Hf. rewrite sqnorm_fsum.
  rewrite (fsum_px _ sh _ (sqterm_shape sh) psum); [|apply pconst_shape|].
  - replace (psum (pconst sh (RtoC 0))) with (RtoC 0).
    2:{ unfold psum. symmetry. etransitivity; [|apply (csum_0 (fst sh))]. apply csum_ext. intros i _.
        etransitivity; [|apply (csum_0 (snd sh))]. reflexivity. }
    rewrite Cplus_0_r. rewrite <- (Cmult_1_l (RtoC (total_of _))), <- fold_RtoC, map_map. f_equal.
    apply map_ext_in. intros b Hb. rewrite Cmult_1_l. rewrite Forall_forall in Hf. apply sqterm_total; auto.
  - intros F G HF HG. apply shape_pair in HF. apply shape_pair in HG. apply psum_plus; destruct HF, HG; congruence.
Qed.

(** C88: at frequency zero it is the sum of the squares of the sums of the elements, over the
    number of pixels. *)
Lemma C88_zero_frequency_lm : forall sh fields basis, (0 < fst sh)%nat -> (0 < snd sh)%nat -> Forall (fits sh) basis ->
  px (psf_hat_sqnorm sh fields basis) 0%nat 0%nat =
  RtoC (total_of (map (fun b => rsum2 (nr b) (nc b) (px b) ^ 2) basis) / cells_of sh).
Proof.
  intros sh fields basis HN HM Hf. rewrite sqnorm_px. f_equal.
  assert (0 < cells_of sh) as P by now apply area_pos.
  induction Hf as [|b l [H1 H2] Hl IH]; cbn [map total_of fold_right]; [unfold Rdiv; ring|].
  change (fold_right Rplus 0 ?l) with (total_of l). rewrite IH. clear IH.
  unfold elem_hat. rewrite (fft2_ortho_00 _ sh) by now destruct sh. rewrite psum_pad by assumption.
  rewrite psum_RtoC. rewrite <- RtoC_mult. cbn [fst snd RtoC]. rewrite psumR_rsum2.
  unfold side. fold (cells_of sh).
  replace ((/ sqrt (cells_of sh) * rsum2 (nr b) (nc b) (px b)) ^ 2) with
    (/ (sqrt (cells_of sh) * sqrt (cells_of sh)) * rsum2 (nr b) (nc b) (px b) ^ 2)
    by (rewrite Rinv_mult; ring).
  rewrite sqrt_sqrt by lra. field. lra.
Qed.

(** *** p_sqnorm *)
(** C88: p_sqnorm of an image whose stamps have even sides 2a and 2c: the sum of the
    autocorrelations of the elements, by 1 / sqrt(number of pixels), centred on (a, c). *)
Lemma C88_p_sqnorm_lm : forall sh fields basis a c x y, (0 < fst sh)%nat -> (0 < snd sh)%nat ->
  Forall (fits sh) basis -> (x < fst sh)%nat -> (y < snd sh)%nat ->
  px (p_sqnorm sh (2 * a, 2 * c)%nat fields basis) x y =
  RtoC (total_of (map (fun b => seen sh (laid b) b (Z.of_nat a) (Z.of_nat c) x y) basis) / sqrt (cells_of sh)).
Proof.
  intros sh fields basis a c x y HN HM Hf Hx Hy. unfold p_sqnorm. cbn [fst snd].
  assert (forall n, INR (2 * n) / 2 = IZR (Z.of_nat n)) as Ei.
  { intros n. rewrite mult_INR, <- INR_IZR_INZ. cbn. field. }
  rewrite !Ei. rewrite sqnorm_fsum.
  rewrite (fsum_px _ sh _ (sqterm_shape sh) (fun F => px (ifft2_ortho (fourier_shift F (IZR (Z.of_nat a)) (IZR (Z.of_nat c)))) x y));
    [|apply pconst_shape|].
  - assert (px (ifft2_ortho (fourier_shift (pconst sh (RtoC 0)) (IZR (Z.of_nat a)) (IZR (Z.of_nat c)))) x y = RtoC 0) as ->.
    { rewrite ifft_px. rewrite (sum2_ext _ _ _ (fun _ _ => (RtoC 0 * RtoC 0)%C)).
      - rewrite sum2_scale. ring.
      - intros u v _ _. unfold fourier_shift. cbn [px pconst]. ring. }
    rewrite Cplus_0_r. rewrite (map_ext_in _ (fun b => (unit_of (fst sh) (snd sh) * RtoC (seen sh (laid b) b (Z.of_nat a) (Z.of_nat c) x y))%C)).
    + rewrite <- (map_map (fun b => seen sh (laid b) b (Z.of_nat a) (Z.of_nat c) x y) (fun r => (unit_of (fst sh) (snd sh) * RtoC r)%C)).
      rewrite fold_RtoC, unit_RtoC, <- RtoC_mult. f_equal. unfold Rdiv, cells_of. ring.
    + intros b Hb. rewrite Forall_forall in Hf. apply sqterm_px; auto.
  - intros F G HF HG. apply shape_pair in HF. apply shape_pair in HG. destruct HF as [F1 F2], HG as [G1 G2].
    rewrite <- ifft_plus by (cbn; congruence). rewrite !ifft_px.
    f_equal. apply sum2_ext. intros u v _ _. f_equal. unfold fourier_shift. cbn [px pmap2 nr nc]. rewrite F1, F2, G1, G2. ring.
Qed.

Lemma Cmod_csum n f : Cmod (csum n f) <= rsum n (fun i => Cmod (f i)).
Proof.
  induction n as [|n IH]; cbn; [rewrite Cmod_0; lra|].
  pose proof (Cmod_triangle (csum n f) (f n)). lra.
Qed.

Lemma rsum_le n f g : (forall i, (i < n)%nat -> f i <= g i) -> rsum n f <= rsum n g.
Proof.
  induction n as [|n IH]; intros H; cbn; [lra|].
  assert (rsum n f <= rsum n g) by (apply IH; intros; apply H; lia). pose proof (H n ltac:(lia)). lra.
Qed.

Lemma Cmod_sum2 N M f : Cmod (sum2 N M f) <= rsum2 N M (fun i j => Cmod (f i j)).
Proof.
  unfold sum2, rsum2. eapply Rle_trans; [apply Cmod_csum|]. apply rsum_le. intros i _. apply Cmod_csum.
Qed.

Lemma Cmod_cis t : Cmod (cis t) = 1.
Proof.
  unfold Cmod, cis. cbn [fst snd]. rewrite <- sqrt_1. f_equal.
  pose proof (sin2_cos2 t) as E. unfold Rsqr in E. rewrite <- E. ring.
Qed.

Lemma Cmod_har2 N M u v x y : Cmod (har2 N M u v x y) = 1.
Proof. unfold har2, har. rewrite Cmod_mult, !Cmod_cis. ring. Qed.

(** C88: no cell of p_sqnorm exceeds the sum of the squares of the pixels of the basis by
    1 / sqrt(number of pixels), whatever the stamp. *)
Lemma C88_peak_lm : forall sh stamp fields basis x y, (0 < fst sh)%nat -> (0 < snd sh)%nat ->
  Forall (fits sh) basis -> (x < fst sh)%nat -> (y < snd sh)%nat ->
  Cmod (px (p_sqnorm sh stamp fields basis) x y) <=
  total_of (map (fun b => rsum2 (nr b) (nc b) (fun i j => px b i j ^ 2)) basis) / sqrt (cells_of sh).
Proof.
  intros sh stamp fields basis x y HN HM Hf Hx Hy. unfold p_sqnorm.
  rewrite ifft_px, Cmod_mult.
  set (F := fourier_shift _ _ _).
  assert (nr F = fst sh /\ nc F = snd sh) as [F1 F2].
  { pose proof (sqnorm_shape sh fields basis) as E. apply shape_pair in E. exact E. }
  rewrite F1, F2. unfold unit_of. rewrite Cmod_R.
  assert (0 < sqrt (cells_of sh)) as P by (apply sqrt_lt_R0; now apply area_pos).
  rewrite Rabs_pos_eq by (left; now apply Rinv_0_lt_compat). fold (cells_of sh).
  unfold Rdiv. rewrite Rmult_comm. apply Rmult_le_compat_r; [left; now apply Rinv_0_lt_compat|].
  eapply Rle_trans; [apply Cmod_sum2|].
  pose proof (C88_total_lm sh fields basis HN HM Hf) as T.
  apply (f_equal fst) in T. cbn [fst RtoC] in T. rewrite <- T. clear T.
  unfold psum. pose proof (sqnorm_shape sh fields basis) as E. apply shape_pair in E. destruct E as [-> ->].
  rewrite fst_csum. apply rsum_le. intros u Hu. rewrite fst_csum. apply rsum_le. intros v Hv.
  rewrite Cmod_mult, Cmod_har2. unfold F, fourier_shift. cbn [px]. rewrite Cmod_mult, Cmod_cis.
  destruct (C88_real_lm sh fields basis u v) as [Ei Er].
  replace (Cmod (px (psf_hat_sqnorm sh fields basis) u v)) with (fst (px (psf_hat_sqnorm sh fields basis) u v)); [lra|].
  destruct (px (psf_hat_sqnorm sh fields basis) u v) as [re im]. cbn [fst snd] in *. subst im.
  change (re, 0) with (RtoC re). rewrite Cmod_R, Rabs_pos_eq; auto.
Qed.

(** C88: and for a stamp of 2a x 2c the cell (a, c) has it. *)
Lemma C88_peak_cell_lm : forall sh fields basis a c, (a < fst sh)%nat -> (c < snd sh)%nat ->
  Forall (fits sh) basis ->
  px (p_sqnorm sh (2 * a, 2 * c)%nat fields basis) a c =
  RtoC (total_of (map (fun b => rsum2 (nr b) (nc b) (fun i j => px b i j ^ 2)) basis) / sqrt (cells_of sh)).
Proof.
  intros sh fields basis a c Ha Hc Hf. rewrite C88_p_sqnorm_lm by (try assumption; lia). do 2 f_equal. f_equal.
  apply map_ext_in. intros b Hb. rewrite Forall_forall in Hf. destruct (Hf b Hb) as [F1 F2].
  unfold seen. apply rsum2_ext. intros p q Hp Hq. unfold pix_around, laid.
  rewrite !Z.sub_diag, !Z.add_0_l, !wrap_small by lia.
  apply Nat.ltb_lt in Hp, Hq. rewrite Hp, Hq. cbn [andb]. ring.
Qed.

(** *** The coefficient fields are not used *)
Definition left_dot : plane R := mkplane 1 2 (fun _ j => match j with O => 1 | _ => 0 end).
Definition right_dot : plane R := mkplane 1 2 (fun _ j => match j with O => 0 | _ => 1 end).

(** C88: it is not the squared modulus of the transform of the PSF of the image, that is of the combination
    of the elements with the coefficients at a place, normalised to 1. *)
Lemma C88_fields_ignored_refuted_lm : ~ (forall sh fs basis p x y, (0 < fst sh)%nat -> (0 < snd sh)%nat ->
  Forall (fits sh) basis -> length fs = length basis -> fits sh p ->
  (forall i j, px p i j = total_of (map (fun ab => fst ab x y * px (snd ab) i j) (combine fs basis))) ->
  rsum2 (nr p) (nc p) (px p) = 1 ->
  forall u v, (u < fst sh)%nat -> (v < snd sh)%nat ->
    px (psf_hat_sqnorm sh (Some fs) basis) u v = RtoC (Cmod (px (fft2_ortho (pad_to sh (pmap RtoC p))) u v) ^ 2)).
Proof.
  intros H.
  set (p := mkplane 1 2 (fun i j => / 2 * px left_dot i j + (/ 2 * px right_dot i j + 0))).
  specialize (H (1%nat, 2%nat) [fun _ _ => / 2; fun _ _ => / 2] [left_dot; right_dot] p 0%nat 0%nat).
  assert (Forall (fits (1%nat, 2%nat)) [left_dot; right_dot]) as F by (repeat constructor).
  specialize (H ltac:(cbn; lia) ltac:(cbn; lia) F eq_refl ltac:(split; constructor) ltac:(reflexivity)).
  assert (rsum2 (nr p) (nc p) (px p) = 1) as Es by (unfold rsum2; cbn; lra).
  specialize (H Es 0%nat 0%nat ltac:(cbn; lia) ltac:(cbn; lia)).
  rewrite C88_zero_frequency_lm in H by (try exact F; cbn; lia).
  rewrite (fft2_ortho_00 _ (1%nat, 2%nat)) in H by reflexivity.
  rewrite psum_pad in H by (cbn; lia). rewrite psum_RtoC, psumR_rsum2, Es, <- RtoC_mult, Cmod_R in H.
  unfold side, cells_of, rsum2 in H. cbn [fst snd map total_of fold_right nr nc left_dot right_dot rsum px INR] in H.
  rewrite pow2_abs in H.
  replace ((/ sqrt (1 * (1 + 1)) * 1) ^ 2) with (/ (sqrt (1 * (1 + 1)) * sqrt (1 * (1 + 1)))) in H
    by (rewrite Rinv_mult; ring).
  rewrite sqrt_sqrt in H by lra. injection H as H. lra.
Qed.
