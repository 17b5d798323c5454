(** Lemmas on the matched filter. *)
From Coq Require Import Arith ZArith List Bool Reals Lia Lra.
From Coquelicot Require Import Complex.
From Verif.Model Require Import Py Plane Subtract Filter.
From Verif.Spec Require Import Subtract Fourier Filter.
From Verif.Proof Require Import Fourier Subtract SubtractSum Dft.
Import ListNotations.
Local Open Scope R_scope.
Set Bullet Behavior "Strict Subproofs".

Lemma sum2_RtoC N M f : sum2 N M (fun i j => RtoC (f i j)) = RtoC (rsum2 N M f).
Proof. unfold sum2, rsum2. rewrite <- csum_RtoC. apply csum_ext. intros i _. apply csum_RtoC. Qed.

Lemma rsum2_ext N M f g : (forall i j, (i < N)%nat -> (j < M)%nat -> f i j = g i j) -> rsum2 N M f = rsum2 N M g.
Proof. intros H. apply rsum_ext. intros i Hi. apply rsum_ext. intros j Hj. now apply H. Qed.

(** A sum over the frame of a padded stamp. *)
Lemma sum2_pad N M n m f : (n <= N)%nat -> (m <= M)%nat ->
  sum2 N M (fun i j => if ((i <? n) && (j <? m))%nat then f i j else RtoC 0) = sum2 n m f.
Proof.
  intros H1 H2. unfold sum2.
  rewrite <- (csum_pad N n (fun i => csum m (fun j => f i j))) by exact H1.
  apply csum_ext. intros i _. destruct (i <? n)%nat; cbn [andb].
  - now rewrite csum_pad.
  - apply csum_0.
Qed.

Lemma wrap_wrap n z d : (0 < n)%nat -> wrap n (Z.of_nat (wrap n z) + d) = wrap n (z + d).
Proof. intros H. unfold wrap at 1 3. rewrite wrap_mod by exact H. now rewrite Zplus_mod_idemp_l. Qed.

Definition real_frame (sh : nat * nat) (f : nat -> nat -> R) : plane C := frame sh (fun i j => RtoC (f i j)).

(** One term of the filter. *)
Lemma term_px sh f b a c x y : (0 < fst sh)%nat -> (0 < snd sh)%nat -> fits sh b ->
  (x < fst sh)%nat -> (y < snd sh)%nat ->
  px (ifft2_ortho (fourier_shift (pmap2 times_conj (fft2_ortho (real_frame sh f)) (elem_hat sh b)) (IZR a) (IZR c))) x y
  = (unit_of (fst sh) (snd sh) * RtoC (seen sh f b a c x y))%C.
Proof.
  intros HN HM [F1 F2] Hx Hy.
  set (F := pmap2 times_conj (fft2_ortho (real_frame sh f)) (elem_hat sh b)).
  destruct (ifft_shift F a c) as [_ E]; [exact HN|exact HM|].
  rewrite E; [|exact Hx|exact Hy]. clear E. unfold moved, around. cbn [px].
  change (nr (ifft2_ortho F)) with (fst sh). change (nc (ifft2_ortho F)) with (snd sh).
  destruct (fft_correlation (real_frame sh f) (pad_to sh (pmap RtoC b))) as [_ E]; [exact HN|exact HM|reflexivity|].
  etransitivity; [apply E; apply wrap_lt; assumption|]. clear E.
  cbn [pmap px correlation]. f_equal.
  change (nr (pad_to sh (pmap RtoC b))) with (fst sh). change (nc (pad_to sh (pmap RtoC b))) with (snd sh).
  unfold seen. rewrite <- sum2_RtoC. rewrite <- (sum2_pad (fst sh) (snd sh) (nr b) (nc b)) by assumption.
  apply sum2_ext. intros p q Hp Hq. cbn [pad_to px pmap nr nc].
  destruct (_ && _)%bool; [|rewrite conj_R; ring].
  rewrite conj_R, RtoC_mult. f_equal.
  unfold around, real_frame, frame, pix_around. cbn [px nr nc fst snd]. now rewrite !wrap_wrap.
Qed.

Lemma ifft_plus F G x y : nr G = nr F -> nc G = nc F ->
  px (ifft2_ortho (pmap2 Cplus F G)) x y = (px (ifft2_ortho F) x y + px (ifft2_ortho G) x y)%C.
Proof.
  intros E1 E2. rewrite !ifft_px. rewrite E1, E2. change (nr (pmap2 Cplus F G)) with (nr F).
  change (nc (pmap2 Cplus F G)) with (nc F). rewrite <- Cmult_plus_distr_l, <- sum2_plus. f_equal.
  apply sum2_ext. intros u v _ _. change (px (pmap2 Cplus F G) u v) with (px F u v + px G u v)%C. ring.
Qed.

Lemma ifft_scale k F x y : px (ifft2_ortho (pmap (fun z => (k * z)%C) F)) x y = (k * px (ifft2_ortho F) x y)%C.
Proof.
  rewrite !ifft_px. change (nr (pmap (fun z => (k * z)%C) F)) with (nr F).
  change (nc (pmap (fun z => (k * z)%C) F)) with (nc F).
  rewrite (sum2_ext _ _ _ (fun u v => (k * (px F u v * har2 (nr F) (nc F) u v (Z.of_nat x) (Z.of_nat y)))%C)).
  - rewrite sum2_scale. ring.
  - intros u v _ _. change (px (pmap (fun z => (k * z)%C) F) u v) with (k * px F u v)%C. ring.
Qed.

Lemma ifft_zero sh x y : px (ifft2_ortho (pconst sh (RtoC 0))) x y = RtoC 0.
Proof.
  rewrite ifft_px. rewrite (sum2_ext _ _ _ (fun _ _ => (RtoC 0 * RtoC 0)%C)).
  - rewrite sum2_scale. ring.
  - intros u v _ _. change (px (pconst sh (RtoC 0)) u v) with (RtoC 0). ring.
Qed.

(** Folding pmap2 Cplus over a list of frames of one shape. *)
Section Fold.
Variables (A : Type) (sh : nat * nat) (t : A -> plane C).
Hypothesis Ht : forall a, shape (t a) = sh.
Definition fsum (l : list A) (s : plane C) : plane C := fold_left (fun s a => pmap2 Cplus (t a) s) l s.

Lemma fsum_shape l s : shape s = sh -> shape (fsum l s) = sh.
Proof.
  revert s. induction l as [|a l IH]; intros s Hs; [exact Hs|].
  cbn. apply IH. unfold shape, pmap2. cbn. apply Ht.
Qed.

Lemma fsum_px (phi : plane C -> C) (l : list A) s : shape s = sh ->
  (forall F G, shape F = sh -> shape G = sh -> phi (pmap2 Cplus F G) = (phi F + phi G)%C) ->
  phi (fsum l s) = (fold_right Cplus (RtoC 0) (map (fun a => phi (t a)) l) + phi s)%C.
Proof.
  intros Hs Hphi. revert s Hs. induction l as [|a l IH]; intros s Hs; [cbn [map fold_right]; change (fsum [] s) with s; ring|].
  cbn [map fold_right]. change (fsum (a :: l) s) with (fsum l (pmap2 Cplus (t a) s)).
  rewrite IH by (unfold shape, pmap2; cbn; apply Ht). rewrite Hphi by auto. ring.
Qed.
End Fold.

Lemma fold_RtoC (l : list R) (K : C) : fold_right Cplus (RtoC 0) (map (fun r => (K * RtoC r)%C) l) = (K * RtoC (total_of l))%C.
Proof. induction l as [|r l IH]; cbn [map fold_right total_of]; [ring|]. change (fold_right Rplus 0 l) with (total_of l). rewrite IH, RtoC_plus. ring. Qed.

Definition weighted (im : fimg) (nrm a : nat -> nat -> R) (i j : nat) : R := f_pix im i j * a i j / nrm i j.

Definition fterm (im : fimg) (nrm : nat -> nat -> R) (d : R * R) (ab : (nat -> nat -> R) * plane R) : plane C :=
  fourier_shift (pmap2 times_conj (fft2_ortho (real_frame (f_shape im) (weighted im nrm (fst ab))))
                  (elem_hat (f_shape im) (snd ab))) (fst d) (snd d).

Lemma s_hat_fields_fsum im nrm d fs bs :
  s_hat_fields im nrm d fs bs = fsum _ (fterm im nrm d) (combine fs bs) (pconst (f_shape im) (RtoC 0)).
Proof. reflexivity. Qed.

Lemma shape_pair {A} (p : plane A) sh : shape p = sh -> nr p = fst sh /\ nc p = snd sh.
Proof. intros <-. split; reflexivity. Qed.

Lemma fterm_shape im nrm d ab : shape (fterm im nrm d ab) = f_shape im.
Proof. unfold fterm. unfold shape. cbn. now destruct (f_shape im). Qed.

Lemma pconst_shape {A} sh (z : A) : shape (pconst sh z) = sh.
Proof. now destruct sh. Qed.

Lemma s_hat_fields_shape im nrm d fs bs : shape (s_hat_fields im nrm d fs bs) = f_shape im.
Proof. rewrite s_hat_fields_fsum. apply fsum_shape; [apply fterm_shape|apply pconst_shape]. Qed.

Lemma s_hat_fields_px im nrm a c fs bs x y :
  (0 < fst (f_shape im))%nat -> (0 < snd (f_shape im))%nat -> Forall (fits (f_shape im)) bs ->
  (x < fst (f_shape im))%nat -> (y < snd (f_shape im))%nat ->
  px (ifft2_ortho (s_hat_fields im nrm (IZR a, IZR c) fs bs)) x y =
  (unit_of (fst (f_shape im)) (snd (f_shape im)) *
   RtoC (total_of (map (fun ab => seen (f_shape im) (weighted im nrm (fst ab)) (snd ab) a c x y) (combine fs bs))))%C.
Proof.
  intros HN HM Hf Hx Hy. rewrite s_hat_fields_fsum.
  rewrite (fsum_px _ (f_shape im) _ (fterm_shape im nrm _) (fun F => px (ifft2_ortho F) x y)).
  - rewrite ifft_zero, Cplus_0_r, <- fold_RtoC, map_map. f_equal. apply map_ext_in. intros ab Hin.
    apply term_px; try assumption. rewrite Forall_forall in Hf. apply Hf. destruct ab. apply in_combine_r in Hin. exact Hin.
  - apply pconst_shape.
  - intros F G HF HG. apply shape_pair in HF. apply shape_pair in HG. apply ifft_plus; destruct HF, HG; congruence.
Qed.

Lemma unit_RtoC N M : unit_of N M = RtoC (/ sqrt (INR N * INR M)).
Proof. reflexivity. Qed.

(** Total flux through a term, any shift. *)
Lemma term_00 sh f b dx dy : (0 < fst sh)%nat -> (0 < snd sh)%nat -> fits sh b ->
  px (fourier_shift (pmap2 times_conj (fft2_ortho (real_frame sh f)) (elem_hat sh b)) dx dy) 0%nat 0%nat =
  RtoC (/ (INR (fst sh) * INR (snd sh)) * (rsum2 (fst sh) (snd sh) f * psumR b)).
Proof.
  intros HN HM [F1 F2]. rewrite shift_00 by assumption.
  change (px (pmap2 times_conj (fft2_ortho (real_frame sh f)) (elem_hat sh b)) 0%nat 0%nat) with
    (px (fft2_ortho (real_frame sh f)) 0%nat 0%nat * Cconj (px (elem_hat sh b) 0%nat 0%nat))%C.
  unfold elem_hat. rewrite (fft2_ortho_00 _ sh) by now destruct sh. rewrite (fft2_ortho_00 _ sh) by now destruct sh.
  rewrite psum_pad by assumption. rewrite psum_RtoC.
  change (psum (real_frame sh f)) with (sum2 (fst sh) (snd sh) (fun i j => RtoC (f i j))). rewrite sum2_RtoC.
  rewrite <- RtoC_mult, <- RtoC_mult, conj_R, <- RtoC_mult. f_equal.
  assert (0 < INR (fst sh) * INR (snd sh)) as P by now apply area_pos.
  unfold side. rewrite <- (sqrt_sqrt (INR (fst sh) * INR (snd sh))) at 3 by lra.
  rewrite Rinv_mult. ring.
Qed.
