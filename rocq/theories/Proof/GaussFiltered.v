(** What images with a Gaussian PSF answer. *)
From Coq Require Import ZArith List Bool Arith Reals Lia Lra.
From Coquelicot Require Import Complex.
From Verif.Model Require Import Py Plane Ma Coadd.
From Verif.Spec Require Import Coadd.
From Verif.Model Require Import Filter.
From Verif.Spec Require Import Filter.
From Verif.Proof Require Import Filter FilterMain.
From Verif.Model Require Import Interp Subtract Sources Stamps Transparency KL Session Chain ChainCoadd Gauss GaussImage.
From Verif.Spec Require Import Session Uses UsesCoadd GaussImage.
From Verif.Proof Require Import Interp KL KLMain Session SessionBad SessionHist SessionMain SessionLm GaussMain Chain ChainUnits Uses UsesCoadd UsesCoaddMain Filtered GaussImage.
Import ListNotations.
Local Open Scope R_scope.
Set Bullet Behavior "Strict Subproofs".

(** get_variable_psf answers the same after any history, whatever loss and shape are asked for,
    and does not set the loss. *)
Lemma C121_psf_lm : forall NI FT IM (L : lib NI FT IM) fitter stats render sh s0 cs stamps p G l sh',
  lib_ok L -> new_image L sh s0 -> stamps_of _ _ _ L sh = Ok (stamps, p) ->
  gaussian_of fitter stats render stamps G -> Forall g_plain cs ->
  let s := g_exec_all L fitter stats render cs s0 in
  fst (gauss_psf L fitter stats render l sh' s) = Ok (NoField, [G]) /\
  inf_loss s = g_last_loss cs /\ inf_loss (snd (gauss_psf L fitter stats render l sh' s)) = g_last_loss cs.
Proof.
  intros NI FT IM L fitter stats render sh s0 cs stamps p G l sh' O Nw St Hg F s.
  destruct (g_reached NI FT IM L fitter stats render sh s0 cs stamps p G O Nw St Hg F) as (J & Jp & _ & _ & _ & _ & I).
  fold s in I. pose proof I as (Js & Hl & _ & Mo & _). pose proof (mo_loss _ Mo) as Nl. rewrite <- Hl in Nl.
  destruct (Jp l sh' s Js Nl) as (s' & E & _ & _ & Hl'). rewrite E. cbn [fst snd]. split; [reflexivity|].
  unfold g_history in Hl. rewrite (proj1 (history_loss (map forget cs))) in Hl. split; [exact Hl|rewrite Hl'; exact Hl].
Qed.

(** The matched filter is that of the Gaussian, for the zero point in force when it was made. *)
Lemma C121_filter_lm : forall NI FT IM (L : lib NI FT IM) fitter stats render sh s0 cs stamps p G,
  lib_ok L -> new_image L sh s0 -> stamps_of _ _ _ L sh = Ok (stamps, p) ->
  gaussian_of fitter stats render stamps G -> Forall g_plain cs ->
  fst (g_s_hat_comp L fitter stats render (g_exec_all L fitter stats render cs s0)) =
  Ok (shat_of L (snd (made_of (need_filt (g_history cs)))) NoField [G] (normal_of L NoField [G])).
Proof.
  intros NI FT IM L fitter stats render sh s0 cs stamps p G O Nw St Hg F.
  destruct (g_reached NI FT IM L fitter stats render sh s0 cs stamps p G O Nw St Hg F) as (J & Jp & Jn & Jh & Jc & _ & I).
  destruct (gfilt_step NI FT IM L fitter stats render G J Jp Jn Jh _ _ I) as (s' & E & _). rewrite E. reflexivity.
Qed.

(** The filtered image, unless it was first read for the loss in force. *)
Lemma g_component NI FT IM (L : lib NI FT IM) fitter stats render sh s0 cs stamps p G :
  lib_ok L -> new_image L sh s0 -> stamps_of _ _ _ L sh = Ok (stamps, p) ->
  gaussian_of fitter stats render stamps G -> Forall g_plain cs ->
  first_component (2 / 10) (map forget cs) <> Some (g_last_loss cs) ->
  fst (g_s_component L fitter stats render (g_exec_all L fitter stats render cs s0)) =
  Ok (ifft_real L (shat_of L (snd (made_of (need_filt (g_history cs)))) NoField [G] (normal_of L NoField [G]))).
Proof.
  intros O Nw St Hg F N.
  destruct (g_reached NI FT IM L fitter stats render sh s0 cs stamps p G O Nw St Hg F) as (J & Jp & Jn & Jh & Jc & _ & I).
  destruct (gcomp_step NI FT IM L fitter stats render G J Jp Jn Jh Jc _ _ I) as (s' & E & _). rewrite E. cbn [fst].
  do 4 f_equal. unfold g_comp. set (m := g_history cs).
  destruct (need_comp_cases m) as [(_ & x & Q)|(f & Q & _)].
  - exfalso. apply N.
    assert (Cf : match m_comp m with
      | Some (first, _) => first_component (2 / 10) (map forget cs) = Some first
      | None => first_component (2 / 10) (map forget cs) = None end)
      by exact (comp_first (map forget cs) (remember (2 / 10) 1 None None None) eq_refl).
    rewrite Q in Cf. rewrite Cf. f_equal. exact (proj1 (history_loss (map forget cs))).
  - rewrite Q. reflexivity.
Qed.

Local Notation rsum := Subtract.rsum.

Lemma rsum_same n f g : (forall i, (i < n)%nat -> f i = g i) -> rsum n f = rsum n g.
Proof. induction n as [|n IH]; intros H; cbn [rsum]; [reflexivity|]. now rewrite IH, (H n) by (intros; try apply H; lia). Qed.

Lemma rsum_rev n f : rsum n f = rsum n (fun i => f (n - 1 - i)%nat).
Proof.
  revert f. induction n as [|n IH]; intros f; [reflexivity|].
  assert (Sh : forall g, rsum (S n) g = g 0%nat + rsum n (fun i => g (S i))).
  { clear. induction n as [|n IH]; intros g; cbn [rsum] in *; [ring|]. rewrite IH. ring. }
  rewrite (Sh (fun i => f (S n - 1 - i)%nat)). cbn [rsum]. rewrite (IH f). rewrite Rplus_comm. f_equal; [f_equal; lia|].
  apply rsum_same. intros i Hi. f_equal. lia.
Qed.

Lemma rsum2_rev N M f : rsum2 N M f = rsum2 N M (fun i j => f (N - 1 - i)%nat (M - 1 - j)%nat).
Proof.
  unfold rsum2. rewrite rsum_rev. apply rsum_same. intros i Hi. now rewrite rsum_rev.
Qed.

Lemma rsum2_lin N M f g k : rsum2 N M (fun i j => k * f i j - g i j) = k * rsum2 N M f - rsum2 N M g.
Proof.
  unfold rsum2. assert (A : forall n u v, rsum n (fun i => k * u i - v i) = k * rsum n u - rsum n v).
  { clear. induction n as [|n IH]; intros u v; cbn [rsum]; [ring|]. rewrite IH. ring. }
  rewrite <- A. apply rsum_same. intros i Hi. apply A.
Qed.

Lemma symmetric_center e a c : symmetric e a c -> rsum2 (nr e) (nc e) (px e) <> 0 ->
  center_of_mass e = (IZR (Z.of_nat a), IZR (Z.of_nat c)).
Proof.
  intros (Hr & Hc & Hs) Hn.
  assert (T : forall (w : nat -> nat -> R) (k : R),
     (forall i j, (i < nr e)%nat -> (j < nc e)%nat -> w (2 * a - i)%nat (2 * c - j)%nat = 2 * k - w i j) ->
     rsum2 (nr e) (nc e) (fun i j => px e i j * w i j) / rsum2 (nr e) (nc e) (px e) = k).
  { intros w k Hw. set (T := rsum2 (nr e) (nc e) (fun i j => px e i j * w i j)).
    assert (E : T = 2 * k * rsum2 (nr e) (nc e) (px e) - T).
    { unfold T at 1. rewrite rsum2_rev. unfold T. rewrite <- rsum2_lin. apply rsum2_ext. intros i j Hi Hj.
      replace (nr e - 1 - i)%nat with (2 * a - i)%nat by lia. replace (nc e - 1 - j)%nat with (2 * c - j)%nat by lia.
      rewrite <- (Hs i j Hi Hj), Hw by assumption. ring. }
    replace T with (k * rsum2 (nr e) (nc e) (px e)) by lra. now field. }
  unfold center_of_mass, psumR. cbn [nr nc px]. fold (rsum2 (nr e) (nc e) (px e)).
  fold (rsum2 (nr e) (nc e) (fun i j => px e i j * INR i)). fold (rsum2 (nr e) (nc e) (fun i j => px e i j * INR j)).
  rewrite <- !INR_IZR_INZ. f_equal; apply T; intros i j Hi Hj; rewrite minus_INR by lia; rewrite mult_INR; cbn [INR]; ring.
Qed.

(** Each pixel of s_component. *)
Lemma C121_pixels_lm : forall W fuel o d x cs fitter stats render stamps p G e a c,
  (forall n c, length (fst (l_eigh W n c)) = n) -> build W fuel o d = Some (Ok x) ->
  stamps_of _ _ _ (bu_lib x) (stamp_shape (bu_attr x)) = Ok (stamps, p) ->
  gaussian_of fitter stats render stamps G -> Forall g_plain cs ->
  first_component (2 / 10) (map forget cs) <> Some (g_last_loss cs) ->
  is_stamp G e -> symmetric e a c -> rsum2 (nr e) (nc e) (px e) <> 0 ->
  let sh := shape (m_dat (bu_data x)) in
  fits sh e -> var (bu_back x) <> 0 ->
  exists S, fst (g_s_component (bu_lib x) fitter stats render (bu_attr (g_after fitter stats render cs x))) = Ok (Ok S) /\
    shape S = sh /\
    forall i j, (i < fst sh)%nat -> (j < snd sh)%nat ->
      px S i j = snd (made_of (need_filt (g_history cs))) / var (bu_back x) ^ 2 / sqrt (cells_of sh) *
                 Filter.seen sh (px (bu_clean x)) e (Z.of_nat a) (Z.of_nat c) i j.
Proof.
  intros W fuel o d x cs fitter stats render stamps p G e a c EL Bx St Hg F N He Hs Hn sh Hf Hv.
  destruct (build_lib _ _ _ _ _ Bx) as (Dx & Lx & sh0 & Nw & Sh). rewrite <- Sh in St.
  assert (O : lib_ok (bu_lib x)) by (rewrite Lx; now apply lib_of_ok).
  change (bu_attr (g_after fitter stats render cs x)) with (g_exec_all (bu_lib x) fitter stats render cs (bu_attr x)).
  rewrite (g_component _ _ _ (bu_lib x) fitter stats render sh0 (bu_attr x) cs stamps p G O Nw St Hg F N).
  set (z := snd (made_of (need_filt (g_history cs)))). rewrite Lx. unfold lib_of. cbn [shat_of normal_of ifft_real].
  rewrite <- Dx. fold sh. change (b_rms (bu_back x)) with (var (bu_back x)). cbn [on_pixels map].
  set (nrm := px _). set (im := mkfimg _ _ _ _).
  assert (Ex : exists S, Filter.s_component im nrm None [numbers G] = Ok S) by (unfold Filter.s_component, Filter.s_hat, s_base; cbn; eauto).
  destruct Ex as (S & ES). exists S. split; [now f_equal|].
  destruct (stamp_numbers G e He) as [Ss V].
  assert (Hf' : fits sh (numbers G)).
  { unfold shape in Ss. injection Ss as Sr Sc. unfold fits in *. rewrite Sr, Sc in Hf. exact Hf. }
  pose proof (symmetric_center e a c Hs Hn) as Hc. rewrite (com_ext e (numbers G) Ss V) in Hc.
  assert (P0 : (0 < fst sh)%nat /\ (0 < snd sh)%nat).
  { destruct Hs as (H1 & H2 & _). destruct Hf. lia. }
  destruct P0 as [Pr Pc].
  destruct (C87_constant_psf_lm im nrm (numbers G) [] _ _ S Pr Pc Hv Hf' Hc ES) as [Sp P].
  split; [exact Sp|]. intros i j Hi Hj. rewrite (P i j Hi Hj). unfold im. cbn [f_zp f_var f_shape f_pix].
  now rewrite (seen_is_ext sh (px (bu_clean x)) e (numbers G) _ _ i j Ss V).
Qed.

(** psf_hat_sqnorm() does not use the Gaussian. *)
Lemma C121_squared_lm : forall W fuel o d x cs fitter stats render stamps p G a b,
  (forall n c, length (fst (l_eigh W n c)) = n) -> build W fuel o d = Some (Ok x) ->
  stamps_of _ _ _ (bu_lib x) (stamp_shape (bu_attr x)) = Ok (stamps, p) ->
  gaussian_of fitter stats render stamps G -> Forall g_plain cs ->
  psf_for (bu_lib x) (stamp_shape (bu_attr x)) (g_last_loss cs) = Ok (a, b) ->
  exists q, sqnorm_of (g_after fitter stats render cs x) = Ok q /\ squared x (bu_lib x) (g_last_loss cs) q.
Proof.
  intros W fuel o d x cs fitter stats render stamps p G a b EL Bx St Hg F Ep.
  destruct (build_lib _ _ _ _ _ Bx) as (Dx & Lx & sh & Nw & Sh). rewrite <- Sh in Ep, St.
  assert (O : lib_ok (bu_lib x)) by (rewrite Lx; now apply lib_of_ok).
  destruct (g_reached _ _ _ (bu_lib x) fitter stats render sh (bu_attr x) cs stamps p G O Nw St Hg F)
    as (J & _ & _ & _ & _ & H11 & (Js & Hl & _ & Mo & _)).
  pose proof (mo_loss _ Mo) as Nl. unfold g_history in Hl, Nl. rewrite (proj1 (history_loss (map forget cs))) in Hl, Nl.
  fold (g_last_loss cs) in Hl, Nl.
  destruct (H11 _ (a, b) Js) as [K1 K2]; [rewrite Hl; exact Nl|rewrite Hl; exact Ep|]. cbn [fst snd] in K1, K2.
  unfold sqnorm_of. change (bu_lib (g_after fitter stats render cs x)) with (bu_lib x).
  change (bu_attr (g_after fitter stats render cs x)) with (g_exec_all (bu_lib x) fitter stats render cs (bu_attr x)).
  destruct (Session.kl_basis _ _ _ (bu_lib x) _) as [rb s2]. cbn [fst snd] in K1, K2.
  rewrite K1. cbn [bind]. rewrite K2. cbn [bind]. eexists. split; [reflexivity|].
  exists a, b, (on_pixels a), (map numbers b). rewrite <- Sh. split; [exact Ep|].
  split; [apply on_pixels_at|]. split; [apply numbers_are|reflexivity].
Qed.

Lemma rsum_0_le n f : (forall i, (i < n)%nat -> 0 <= f i) -> 0 <= rsum n f.
Proof. induction n as [|n IH]; intros H; cbn [rsum]; [lra|]. pose proof (H n ltac:(lia)). pose proof (IH ltac:(intros; apply H; lia)). lra. Qed.

Lemma rsum_one n f u : (forall i, (i < n)%nat -> 0 <= f i) -> (u < n)%nat -> f u <= rsum n f.
Proof.
  induction n as [|n IH]; intros H Hu; cbn [rsum]; [lia|]. pose proof (H n ltac:(lia)) as Hn.
  assert (H' : forall i, (i < n)%nat -> 0 <= f i) by (intros; apply H; lia).
  destruct (Nat.eq_dec u n) as [->|N]; [pose proof (rsum_0_le n f H'); lra|]. pose proof (IH H' ltac:(lia)). lra.
Qed.

Lemma rsum_both n f u v : (forall i, (i < n)%nat -> 0 <= f i) -> (u < n)%nat -> (v < n)%nat -> u <> v -> f u + f v <= rsum n f.
Proof.
  induction n as [|n IH]; intros H Hu Hv N; cbn [rsum]; [lia|]. pose proof (H n ltac:(lia)) as Hn.
  assert (H' : forall i, (i < n)%nat -> 0 <= f i) by (intros; apply H; lia).
  destruct (Nat.eq_dec u n) as [->|Nu]; [pose proof (rsum_one n f v H' ltac:(lia)); lra|].
  destruct (Nat.eq_dec v n) as [->|Nv]; [pose proof (rsum_one n f u H' ltac:(lia)); lra|].
  pose proof (IH H' ltac:(lia) ltac:(lia) N). lra.
Qed.

Lemma rsum2_both N M f u v u' v' : (forall i j, (i < N)%nat -> (j < M)%nat -> 0 <= f i j) ->
  (u < N)%nat -> (v < M)%nat -> (u' < N)%nat -> (v' < M)%nat -> (u, v) <> (u', v') ->
  f u v + f u' v' <= rsum2 N M f.
Proof.
  intros H Hu Hv Hu' Hv' D. unfold rsum2.
  assert (R : forall i, (i < N)%nat -> 0 <= rsum M (fun j => f i j)) by (intros i Hi; apply rsum_0_le; intros; now apply H).
  destruct (Nat.eq_dec u u') as [<-|Nu].
  - eapply Rle_trans; [apply (rsum_both M (fun j => f u j) v v')|apply (rsum_one N (fun i => rsum M (fun j => f i j)) u R Hu)]; auto.
  - eapply Rle_trans; [|apply (rsum_both N (fun i => rsum M (fun j => f i j)) u u' R Hu Hu' Nu)].
    apply Rplus_le_compat; [apply (rsum_one M (fun j => f u j))|apply (rsum_one M (fun j => f u' j))]; auto.
Qed.

(** The single element of a KL basis sums to one. *)
Lemma single_sums NI FT IM (L : lib NI FT IM) sh l f k ek : psf_for L sh l = Ok (f, [k]) -> is_stamp k ek ->
  rsum2 (nr ek) (nc ek) (px ek) = 1 \/ (nr ek * nc ek = 0)%nat.
Proof.
  intros Ep [S V]. unfold psf_for in Ep. destruct (stamps_of _ _ _ L sh) as [[stamps p]|] eqn:Es; [|discriminate]. cbn [bind] in Ep.
  set (size := (_, _)) in Ep.
  destruct (KL.kl_basis (eigh L) (smooth L) size stamps l) as [b|] eqn:Eb; [|discriminate]. cbn [bind] in Ep.
  assert (B : b = [k]).
  { destruct (Nat.eqb (length b) 1); [congruence|]. destruct (Nat.eqb (length p) 0); [discriminate|].
    destruct (KL.eigenv _ _ _); [|discriminate]. cbn [bind] in Ep. congruence. }
  subst b.
  assert (U : unit_total k = k).
  { unfold KL.kl_basis in Eb. destruct (KL.eigenv _ _ _) as [[valh vech]|]; [|discriminate].
    cbn [bind] in Eb. cbn zeta in Eb.
    match type of Eb with bind ?x _ = _ => destruct x as [b0|]; [|discriminate] end. cbn [bind] in Eb.
    set (b1 := match smooth L with Some g => _ | None => rev b0 end) in Eb. clearbody b1.
    destruct b1 as [|q1 [|q2 t]]; try discriminate. injection Eb as <-. apply unit_total_idem. }
  destruct (unit_total_spec k) as [Q|Q]; rewrite U in Q.
  - left. destruct Q as (q & [Sq E] & T). unfold shape in S, Sq, T. injection S as S1 S2. cbn [nr nc pmap] in Sq. injection Sq as Q1 Q2.
    cbn [fst snd] in T. rewrite S1, S2, Q1, Q2, <- T. 
    change (KL.sum2 (nr q, nc q) (px q)) with (rsum2 (nr q) (nc q) (px q)). apply rsum2_ext. intros i j Hi Hj.
    assert (W := V i j ltac:(lia) ltac:(lia)). rewrite (E i j) in W by lia. cbn [px pmap] in W. congruence.
  - right. unfold shape in S. injection S as S1 S2. destruct (nr ek) as [|n] eqn:En; [reflexivity|]. destruct (nc ek) as [|m] eqn:Em; [lia|].
    assert (W := V 0%nat 0%nat ltac:(lia) ltac:(lia)). rewrite Q in W by lia. discriminate.
Qed.

(** psf_hat_sqnorm of an image whose KL basis has one element is, at frequency zero, that of a
    PSF of unit sum, while the PSF of the matched filter has a sum greater than one: the two do
    not belong together. *)
Lemma C121_mismatch_refuted_lm : forall W fuel o d x cs fitter stats render stamps p G e k ek u v u' v',
  (forall n c, length (fst (l_eigh W n c)) = n) -> build W fuel o d = Some (Ok x) ->
  stamps_of _ _ _ (bu_lib x) (stamp_shape (bu_attr x)) = Ok (stamps, p) ->
  gaussian_of fitter stats render stamps G -> Forall g_plain cs ->
  psf_for (bu_lib x) (stamp_shape (bu_attr x)) (g_last_loss cs) = Ok (NoField, [k]) ->
  let sh := shape (m_dat (bu_data x)) in
  is_stamp k ek -> fits sh ek -> is_stamp G e -> fits sh e -> (0 < nr ek)%nat -> (0 < nc ek)%nat ->
  (forall i j, (i < nr e)%nat -> (j < nc e)%nat -> 0 <= px e i j) ->
  (u < nr e)%nat -> (v < nc e)%nat -> px e u v = 1 ->
  (u' < nr e)%nat -> (v' < nc e)%nat -> (u', v') <> (u, v) -> 0 < px e u' v' ->
  exists q, sqnorm_of (g_after fitter stats render cs x) = Ok q /\
    px q 0%nat 0%nat = RtoC (1 / cells_of sh) /\
    px (psf_hat_sqnorm sh None [e]) 0%nat 0%nat = RtoC (rsum2 (nr e) (nc e) (px e) ^ 2 / cells_of sh) /\
    1 < rsum2 (nr e) (nc e) (px e) /\ px q 0%nat 0%nat <> px (psf_hat_sqnorm sh None [e]) 0%nat 0%nat.
Proof.
  intros W fuel o d x cs fitter stats render stamps p G e k ek u v u' v' EL Bx St Hg F Ep sh Hk Fk He Fe Nk Mk Pos Hu Hv E1 Hu' Hv' D E2.
  destruct (C121_squared_lm W fuel o d x cs fitter stats render stamps p G NoField [k] EL Bx St Hg F Ep) as (q & Eq & Sq).
  exists q. split; [exact Eq|].
  assert (P0 : (0 < fst sh)%nat /\ (0 < snd sh)%nat) by (destruct Fk; lia). destruct P0 as [P1 P2].
  assert (T1 : 1 < rsum2 (nr e) (nc e) (px e)).
  { pose proof (rsum2_both (nr e) (nc e) (px e) u v u' v' Pos Hu Hv Hu' Hv' ltac:(congruence)). lra. }
  destruct Sq as (a & b & fs & es & Ep' & _ & Ees & ->). rewrite Ep' in Ep. injection Ep as -> ->.
  inversion Ees as [|? ek' ? ? [Sk Vk] Et]; subst. inversion Et; subst. clear Ees Et.
  assert (Q1 : px (psf_hat_sqnorm sh fs [ek']) 0%nat 0%nat = RtoC (1 / cells_of sh)).
  { assert (Sh' : nr ek' = nr ek /\ nc ek' = nc ek).
    { destruct Hk as [Hs _]. unfold shape in Hs, Sk. injection Hs as A B. injection Sk as A' B'. split; congruence. }
    destruct Sh' as [S1 S2].
    rewrite C88_zero_frequency_lm; [|assumption|assumption|constructor; [unfold fits in *; rewrite S1, S2; exact Fk|constructor]].
    f_equal. f_equal. cbn [map total_of fold_right].
    replace (rsum2 (nr ek') (nc ek') (px ek')) with 1; [ring|]. symmetry.
    destruct (single_sums _ _ _ (bu_lib x) _ _ _ k ek Ep' Hk) as [R|R]; [|lia]. rewrite <- R, S1, S2. apply rsum2_ext.
    intros i j Hi Hj. apply Vk. apply Hk; assumption. }
  split; [exact Q1|].
  assert (Q2 : px (psf_hat_sqnorm sh None [e]) 0%nat 0%nat = RtoC (rsum2 (nr e) (nc e) (px e) ^ 2 / cells_of sh)).
  { rewrite C88_zero_frequency_lm; [|assumption|assumption|constructor; [exact Fe|constructor]]. cbn [map total_of fold_right].
    f_equal. f_equal. ring. }
  split; [exact Q2|]. split; [exact T1|]. fold sh. rewrite Q1, Q2. intros K. apply RtoC_inj in K.
  assert (0 < cells_of sh) as Pc by (unfold cells_of; apply Rmult_lt_0_compat; now apply lt_0_INR).
  assert (1 = rsum2 (nr e) (nc e) (px e) ^ 2) as K'.
  { apply (Rmult_eq_reg_r (/ cells_of sh)); [exact K|]. apply Rinv_neq_0_compat. lra. }
  nra.
Qed.
