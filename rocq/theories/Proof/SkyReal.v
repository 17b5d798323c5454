(** Proofs that coadds have no imaginary part. *)
From Coq Require Import Arith ZArith List Bool Reals Lra Lia.
From Coquelicot Require Import Complex.
From Verif.Model Require Import Py Plane Ma Chunk Coadd Subtract Filter.
From Verif.Spec Require Import Coadd Fourier Filter Sky.
From Verif.Proof Require Import Coadd Fourier Subtract SubtractSum Dft Filter FilterMain CoaddMain CoaddMore CoaddWeights CoaddPoint SkyDft Sky Herm.
Import ListNotations.
Local Open Scope R_scope.
Set Bullet Behavior "Strict Subproofs".

Lemma herm_conv sh f b dx dy : (0 < fst sh)%nat -> (0 < snd sh)%nat -> odd_or_whole (fst sh) dx -> odd_or_whole (snd sh) dy ->
  herm (fst sh) (snd sh) (px (fourier_shift (pmap2 times_conj (fft2_ortho (frame sh (fun i j => RtoC (f i j)))) (elem_hat sh b)) dx dy)).
Proof.
  intros HN HM Ox Oy.
  apply (herm_shift (fst sh) (snd sh) (fun u v => times_conj (px (fft2_ortho (frame sh (fun i j => RtoC (f i j)))) u v) (px (elem_hat sh b) u v))); try assumption.
  unfold times_conj. apply herm_mult; [now apply (herm_fft sh f)|]. apply herm_conj. now apply herm_padded.
Qed.

Lemma herm_s_base im nrm fields b rest s : (0 < fst (f_shape im))%nat -> (0 < snd (f_shape im))%nat ->
  odd_or_whole2 (f_shape im) (center_of_mass b) -> s_base im nrm fields (b :: rest) = Ok s ->
  herm (fst (f_shape im)) (snd (f_shape im)) (px s).
Proof.
  intros HN HM [Ox Oy] E. unfold s_base in E. destruct (center_of_mass b) as [dx dy] eqn:Hc. cbn [fst snd] in Ox, Oy. destruct fields as [fs|]; injection E as <-.
  - rewrite s_hat_fields_fsum.
    apply (herm_ext _ _ _ (fun u v => total (fun ab => px (fterm im nrm (dx, dy) ab) u v) (combine fs (b :: rest)))); try assumption.
    + intros u v _ _. rewrite (fsum_px _ (f_shape im) _ (fterm_shape im nrm _) (fun F => px F u v)); [|apply pconst_shape|reflexivity].
      change (px (pconst (f_shape im) (RtoC 0)) u v) with (RtoC 0). rewrite Cplus_0_r. unfold total.
      induction (combine fs (b :: rest)) as [|z l IH]; [reflexivity|]. cbn [map fold_right]. now rewrite IH.
    + apply herm_total. intros ab _. unfold fterm. cbn [fst snd].
      apply (herm_conv (f_shape im) (fun i j => f_pix im i j * fst ab i j / nrm i j)); assumption.
  - unfold s_hat_const. rewrite Hc. now apply herm_conv.
Qed.

Lemma herm_sqnorm sh fields basis : (0 < fst sh)%nat -> (0 < snd sh)%nat ->
  herm (fst sh) (snd sh) (px (psf_hat_sqnorm sh fields basis)).
Proof.
  intros HN HM. rewrite sqnorm_fsum.
  apply (herm_ext _ _ _ (fun u v => total (fun b => px (sqterm sh b) u v) basis)); try assumption.
  - intros u v _ _. rewrite (fsum_px _ sh _ (sqterm_shape sh) (fun F => px F u v)); [|apply pconst_shape|reflexivity].
    change (px (pconst sh (RtoC 0)) u v) with (RtoC 0). rewrite Cplus_0_r. unfold total.
    induction basis as [|z l IH]; [reflexivity|]. cbn [map fold_right]. now rewrite IH.
  - apply herm_total. intros b _. apply (herm_mult _ _ (px (elem_hat sh b)) (fun u v => Cconj (px (elem_hat sh b) u v))).
    + now apply herm_padded.
    + apply herm_conj. now apply herm_padded.
Qed.

(** C104: the pixels of a coadd and of its PSF have no imaginary part, whatever the PSFs of the
    images, when the centre of mass of the first element of each is a cell. Along an axis with an
    odd number of cells it can be anywhere. *)
Lemma C104_real_lm : forall mk reg transp fuel sched w ids loss n zps sh Rr P m l'
  (im : nat -> fimg) (ma : nat -> mask) (lo : nat -> R) (st : nat -> nat) (nm : nat -> R -> nat -> nat -> R)
  (fields : nat -> R -> option (list (nat -> nat -> R))) (first : nat -> R -> plane R) (others : nat -> R -> list (plane R)),
  ids <> [] -> NoDup ids -> transp (objs w) ids = Ok zps -> length zps = length ids ->
  run_limits fuel ids n -> images_fit (objs w) ids sh -> (0 < fst sh)%nat -> (0 < snd sh)%nat ->
  (forall i, In i ids ->
     objs w i = coadd_view (im i) (ma i) (lo i) (st i) (nm i) (fun l => (fields i l, first i l :: others i l)) /\
     f_var (im i) <> 0 /\ odd_or_whole2 sh (center_of_mass (first i loss))) ->
  (forall u v, (u < fst sh)%nat -> (v < snd sh)%nat ->
     exists i z b, In (i, z) (combine ids zps) /\ z <> 0 /\ In b (first i loss :: others i loss) /\ fits sh b /\
       response sh b u v <> RtoC 0) ->
  coadd mk reg transp fuel sched w (map Img ids) false loss n = (Some (Ok (Rr, P, m)), l') ->
  forall x y, (x < fst sh)%nat -> (y < snd sh)%nat -> snd (px Rr x y) = 0 /\ snd (px P x y) = 0.
Proof.
  intros mk reg transp fuel sched w ids loss n zps sh Rr P m l' im ma lo st nm fields first others
    Hne Nd Et El Hrl Hf HN HM Hi _ E x y Hx Hy.
  destruct (C86_zero_points_lm _ _ _ _ _ _ _ _ _ _ _ _ _ _ _ Hne Nd Et El Hrl Hf E)
    as (S & Q & ps & raw & SS & SQ & HSQ & Ips & Ups & [SR HR] & [Sraw Hraw] & [SP HP]).
  destruct (shape_pair _ _ SS) as [S1 S2]. destruct (shape_pair _ _ SQ) as [Q1 Q2].
  assert (forall i, In i ids -> f_shape (im i) = sh) as Hsh.
  { intros i Hin. destruct (Hi i Hin) as (Eo & _). destruct (Hf i Hin) as [Es _]. now rewrite Eo in Es. }
  assert (herm (fst sh) (snd sh) (px S)) as HS.
  { eapply herm_ext; [assumption..| |]. { intros u v Hu Hv. exact (proj1 (HSQ u v Hu Hv)). }
    apply herm_total. intros [i z] Hin. cbn [fst snd]. assert (In i ids) as Hin' by now apply in_combine_l in Hin.
    destruct (Hi i Hin') as (Eo & _ & Ec). rewrite Eo. unfold contribution. cbn [coadd_view si_shat si_var si_base fst snd].
    apply herm_mult; [apply herm_const|]. destruct (s_base _ _ _ _) as [s|e] eqn:Es; [|apply herm_const].
    rewrite <- (Hsh i Hin'). eapply herm_s_base; try rewrite (Hsh i Hin'); eassumption. }
  assert (forall u v, (u < fst sh)%nat -> (v < snd sh)%nat -> snd (px Q u v) = 0 /\ 0 <= fst (px Q u v)) as PQ.
  { intros u v Hu Hv. destruct (HSQ u v Hu Hv) as [_ ->]. clear HSQ.
    assert (forall i z, In (i, z) (combine ids zps) -> In i ids) as Hl by (intros i z Hin; now apply in_combine_l in Hin).
    induction (combine ids zps) as [|[i z] l IH]; [cbn; lra|]. cbn [total fold_right fst snd].
    destruct IH as [I1 I2]; [intros; eapply Hl; right; eassumption|].
    destruct (Hi i (Hl i z (or_introl eq_refl))) as (Eo & _). rewrite Eo. cbn [coadd_view si_sq si_var fst snd].
    destruct (C88_real_lm (f_shape (im i)) (fields i loss) (first i loss :: others i loss) u v) as [A1 A2].
    destruct (px (psf_hat_sqnorm _ _ _) u v) as [p q]. cbn [fst snd] in A1, A2. subst q.
    unfold total in I1, I2. destruct (fold_right _ _ _) as [p' q']. cbn [fst snd] in I1, I2. subst q'.
    unfold Cplus, Cmult, RtoC. cbn [fst snd]. pose proof (pow2_ge_0 (z / f_var (im i))) as A3.
    pose proof (Rmult_le_pos _ _ A3 A2). split; [ring|lra]. }
  assert (herm (fst sh) (snd sh) (px Q)) as HQ.
  { eapply herm_ext; [assumption..| |]. { intros u v Hu Hv. exact (proj2 (HSQ u v Hu Hv)). }
    apply herm_total. intros [i z] Hin. cbn [fst snd]. assert (In i ids) as Hin' by now apply in_combine_l in Hin.
    destruct (Hi i Hin') as (Eo & _). rewrite Eo. cbn [coadd_view si_sq si_var fst snd].
    apply herm_mult; [apply herm_const|]. rewrite <- (Hsh i Hin'). apply herm_sqnorm; now rewrite (Hsh i Hin'). }
  pose proof (herm_sqrt _ _ _ HN HM HQ PQ) as HR'.
  assert (forall F x y, nr F = fst sh -> nc F = snd sh -> herm (fst sh) (snd sh) (px F) -> (x < fst sh)%nat -> (y < snd sh)%nat ->
    snd (px (ifft2 F) x y) = 0) as Hreal.
  { intros F x' y' F1 F2 HF Hx' Hy'. rewrite ifft2_ortho_unit by (rewrite ?F1, ?F2; assumption). rewrite F1, F2.
    pose proof (ifft_real (fst sh) (snd sh) (px F) x' y' HN HM HF) as I.
    destruct F as [fr fc fp]. cbn [nr nc] in F1, F2. subst fr fc. cbn [px] in I.
    unfold unit_of. set (t := px (ifft2_ortho _) x' y') in *. destruct t as [p q]. cbn [snd] in I. subst q.
    unfold Cmult, RtoC. cbn [fst snd]. ring. }
  assert (nr Rr = fst sh /\ nc Rr = snd sh) as [R1 R2].
  { unfold shape in SR. injection SR as B1 B2. split; [rewrite B1; exact S1|rewrite B2; exact S2]. }
  assert (nr raw = fst sh /\ nc raw = snd sh) as [W1 W2].
  { unfold shape in Sraw. injection Sraw as B1 B2. split; [rewrite B1; exact Q1|rewrite B2; exact Q2]. }
  assert (nr P = fst sh /\ nc P = snd sh) as [P1 P2].
  { unfold shape in SP. injection SP as B1 B2. split; [rewrite B1; exact W1|rewrite B2; exact W2]. }
  split.
  - rewrite HR by (rewrite ?R1, ?R2; assumption). apply Hreal; try assumption. now apply herm_div.
  - assert (forall u v, (u < fst sh)%nat -> (v < snd sh)%nat -> snd (px raw u v) = 0) as Rraw.
    { intros u v Hu Hv. rewrite Hraw by (rewrite ?W1, ?W2; assumption). apply Hreal; try assumption.
      rewrite INR_IZR_INZ. destruct Q as [qr qc qp]. cbn [nr nc] in Q1, Q2. subst qr qc.
      apply (herm_shift (fst sh) (snd sh) (fun u v => csqrt (qp u v))); try assumption; apply whole. }
    rewrite HP by (rewrite ?P1, ?P2; assumption). cbn [pmap px].
    assert (psum raw = RtoC (rsum2 (fst sh) (snd sh) (fun i j => fst (px raw i j)))) as Ep.
    { transitivity (sum2 (fst sh) (snd sh) (px raw)).
      - unfold psum, sum2. now rewrite W1, W2.
      - rewrite (sum2_ext _ _ _ (fun i j => RtoC (fst (px raw i j)))); [apply sum2_RtoC|].
        intros i j Hi' Hj'. specialize (Rraw i j Hi' Hj'). destruct (px raw i j) as [p q]. cbn in *. now subst q. }
    rewrite Ep. specialize (Rraw x y Hx Hy). destruct (px raw x y) as [p q]. cbn [snd] in Rraw. subst q.
    unfold Cdiv, Cmult, Cinv, RtoC. cbn [fst snd]. unfold Rdiv. rewrite Ropp_0. ring.
Qed.
