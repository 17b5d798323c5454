(** The matched-filtered image of an image built from pixels. *)
From Coq Require Import ZArith List Bool Arith Reals Lia Lra Permutation.
From Coquelicot Require Import Complex.
From Verif.Model Require Import Py Plane Ma Coadd.
From Verif.Spec Require Import Coadd.
From Verif.Model Require Import Filter.
From Verif.Spec Require Import Filter.
From Verif.Proof Require Import Filter FilterMain.
From Verif.Model Require Import Interp Subtract Sources Stamps Transparency KL Session Chain ChainCoadd.
From Verif.Spec Require Import Session Uses UsesCoadd.
From Verif.Proof Require Import Interp Session SessionLm Chain ChainUnits Uses UsesCoadd UsesCoaddMain.
Import ListNotations.
Local Open Scope R_scope.
Set Bullet Behavior "Strict Subproofs".

(** What s_component answers is the arithmetic of Model/Filter.v. *)
Lemma component_is W fuel o d x cs S :
  (forall n c, length (fst (l_eigh W n c)) = n) -> build W fuel o d = Some (Ok x) ->
  Forall plain cs -> first_component (2 / 10) cs <> Some (last_loss cs) ->
  fst (s_component (bu_lib x) (bu_attr (after cs x))) = Ok (Ok S) ->
  let m := need_filt (history cs) in
  exists a b a' b',
    psf_for (bu_lib x) (stamp_shape (bu_attr x)) (last_loss cs) = Ok (a, b) /\
    psf_for (bu_lib x) (stamp_shape (bu_attr x)) (norm_loss m) = Ok (a', b') /\
    Filter.s_component (mkfimg (shape (m_dat (bu_data x))) (px (bu_clean x)) (var (bu_back x)) (snd (made_of m)))
      (px (l_normal W (shape (m_dat (bu_data x))) a' b')) (on_pixels a) (map numbers b) = Ok S.
Proof.
  intros EL Bx F N E m. destruct (build_lib _ _ _ _ _ Bx) as (Dx & Lx & sh & Nw & Sh).
  assert (O : lib_ok (bu_lib x)) by (rewrite Lx; now apply lib_of_ok).
  change (bu_attr (after cs x)) with (exec_all (bu_lib x) cs (bu_attr x)) in E.
  rewrite (C41_current_lm _ _ _ (bu_lib x) sh (bu_attr x) cs O Nw F N) in E.
  rewrite (C40_history_lm _ _ _ (bu_lib x) sh (bu_attr x) cs O Nw F) in E. fold m in E. cbv zeta in E.
  unfold filt_for in E. destruct (psf_for (bu_lib x) sh (last_loss cs)) as [[a b]|] eqn:Ep; [|discriminate]. cbn [bind] in E.
  unfold norm_for in E. destruct (psf_for (bu_lib x) sh (norm_loss m)) as [[a' b']|] eqn:En; [|discriminate]. cbn [bind fst snd] in E.
  rewrite Lx in E. unfold lib_of in E. cbn [shat_of normal_of ifft_real] in E.
  exists a, b, a', b'. rewrite <- Sh. split; [exact Ep|]. split; [exact En|].
  unfold Filter.s_component. rewrite Dx. injection E as E. exact E.
Qed.

(** What s_component answers, made for the loss in force. *)
Lemma C120_component_lm : forall W fuel o d x cs S,
  (forall n c, length (fst (l_eigh W n c)) = n) -> build W fuel o d = Some (Ok x) ->
  Forall plain cs -> first_component (2 / 10) cs <> Some (last_loss cs) ->
  fst (s_component (bu_lib x) (bu_attr (after cs x))) = Ok (Ok S) ->
  let m := need_filt (history cs) in
  exists h, filtered W x (bu_lib x) (last_loss cs) (snd (made_of m)) (norm_loss m) h /\
    shape S = shape (m_dat (bu_data x)) /\
    forall i j, px S i j = fst (px (ifft2_ortho h) i j).
Proof.
  intros W fuel o d x cs S EL Bx F N E m.
  destruct (component_is W fuel o d x cs S EL Bx F N E) as (a & b & a' & b' & Ep & En & Ec). fold m in En, Ec.
  unfold Filter.s_component in Ec. destruct (Filter.s_hat _ _ _ _) as [h|] eqn:Eh; [|discriminate].
  cbn [bind] in Ec. injection Ec as <-.
  exists h. split.
  - exists a, b, a', b', (on_pixels a), (map numbers b). split; [exact Ep|]. split; [exact En|].
    split; [apply on_pixels_at|]. split; [apply numbers_are|exact Eh].
  - apply s_hat_shape in Eh. cbn [f_shape] in Eh. split; [|reflexivity]. unfold shape in *. cbn. exact Eh.
Qed.

Lemma com_ext e e' : shape e = shape e' -> (forall i j, (i < nr e)%nat -> (j < nc e)%nat -> px e i j = px e' i j) ->
  center_of_mass e = center_of_mass e'.
Proof.
  unfold shape. intros [= Sr Sc] H. unfold center_of_mass, psumR. cbn [nr nc px]. rewrite <- Sr, <- Sc.
  pose proof (rsum2_ext (nr e) (nc e) (fun i j => px e i j) (fun i j => px e' i j) H) as H1. unfold rsum2 in H1. rewrite H1.
  pose proof (rsum2_ext (nr e) (nc e) (fun i j => px e i j * INR i) (fun i j => px e' i j * INR i)) as H2. unfold rsum2 in H2.
  rewrite H2 by (intros; now rewrite H).
  pose proof (rsum2_ext (nr e) (nc e) (fun i j => px e i j * INR j) (fun i j => px e' i j * INR j)) as H3. unfold rsum2 in H3.
  now rewrite H3 by (intros; now rewrite H).
Qed.

Lemma seen_is_ext sh f e e' a c x y : shape e = shape e' ->
  (forall i j, (i < nr e)%nat -> (j < nc e)%nat -> px e i j = px e' i j) ->
  Filter.seen sh f e a c x y = Filter.seen sh f e' a c x y.
Proof.
  unfold shape. intros [= Sr Sc] H. unfold Filter.seen. rewrite <- Sr, <- Sc. apply rsum2_ext. intros. now rewrite H.
Qed.

Lemma stamp_numbers p e : is_stamp p e -> shape e = shape (numbers p) /\
  forall i j, (i < nr e)%nat -> (j < nc e)%nat -> px e i j = px (numbers p) i j.
Proof.
  intros [Sp V]. split; [exact Sp|]. intros i j Hi Hj. cbn. now rewrite V.
Qed.

(** Each pixel of s_component, of an image with one PSF. *)
Lemma C120_constant_lm : forall W fuel o d x cs S p t e a c i j,
  (forall n c, length (fst (l_eigh W n c)) = n) -> build W fuel o d = Some (Ok x) ->
  Forall plain cs -> first_component (2 / 10) cs <> Some (last_loss cs) ->
  fst (s_component (bu_lib x) (bu_attr (after cs x))) = Ok (Ok S) ->
  psf_for (bu_lib x) (stamp_shape (bu_attr x)) (last_loss cs) = Ok (NoField, p :: t) ->
  is_stamp p e -> center_of_mass e = (IZR a, IZR c) ->
  let sh := shape (m_dat (bu_data x)) in
  fits sh e -> (i < fst sh)%nat -> (j < snd sh)%nat -> var (bu_back x) <> 0 ->
  px S i j = snd (made_of (need_filt (history cs))) / var (bu_back x) ^ 2 / sqrt (cells_of sh) *
             Filter.seen sh (px (bu_clean x)) e a c i j.
Proof.
  intros W fuel o d x cs S p t e a c i j EL Bx F N E Ep He Hc sh Hf Hi Hj Hv.
  destruct (component_is W fuel o d x cs S EL Bx F N E) as (fa & b & a' & b' & Ep' & _ & Ec).
  rewrite Ep in Ep'. injection Ep' as <- <-. cbn [on_pixels map] in Ec.
  destruct (stamp_numbers p e He) as [Ss V].
  assert (Hf' : fits sh (numbers p)).
  { unfold shape in Ss. injection Ss as Sr Sc. unfold fits in *. rewrite Sr, Sc in Hf. exact Hf. }
  rewrite (com_ext e (numbers p) Ss V) in Hc.
  set (im := mkfimg _ _ _ _) in Ec.
  destruct (C87_constant_psf_lm im _ (numbers p) (map numbers t) a c S (Nat.le_lt_trans _ _ _ (Nat.le_0_l i) Hi)
    (Nat.le_lt_trans _ _ _ (Nat.le_0_l j) Hj) Hv Hf' Hc Ec) as [_ P].
  rewrite (P i j Hi Hj). unfold im. cbn [f_zp f_var f_shape f_pix]. fold sh.
  now rewrite (seen_is_ext sh (px (bu_clean x)) e (numbers p) a c i j Ss V).
Qed.

(** Each pixel, when the PSF varies. *)
Lemma C120_variable_lm : forall W fuel o d x cs S fs b nf nb e es a c i j,
  (forall n c, length (fst (l_eigh W n c)) = n) -> build W fuel o d = Some (Ok x) ->
  Forall plain cs -> first_component (2 / 10) cs <> Some (last_loss cs) ->
  fst (s_component (bu_lib x) (bu_attr (after cs x))) = Ok (Ok S) ->
  let m := need_filt (history cs) in let sh := shape (m_dat (bu_data x)) in
  psf_for (bu_lib x) (stamp_shape (bu_attr x)) (last_loss cs) = Ok (Fields fs, b) ->
  psf_for (bu_lib x) (stamp_shape (bu_attr x)) (norm_loss m) = Ok (nf, nb) ->
  Forall2 is_stamp b (e :: es) -> center_of_mass e = (IZR a, IZR c) -> Forall (fits sh) (e :: es) ->
  (forall i j, (i < fst sh)%nat -> (j < snd sh)%nat -> px (l_normal W sh nf nb) i j <> 0) ->
  (i < fst sh)%nat -> (j < snd sh)%nat -> var (bu_back x) <> 0 ->
  px S i j = snd (made_of m) / var (bu_back x) ^ 2 / sqrt (cells_of sh) *
    total_of (map (fun fe => Filter.seen sh
        (fun u v => px (bu_clean x) u v * fst fe (INR u) (INR v) / px (l_normal W sh nf nb) u v) (snd fe) a c i j)
      (combine fs (e :: es))).
Proof.
  intros W fuel o d x cs S fs b nf nb e es a c i j EL Bx F N E m sh Ep En He Hc Hf Hn Hi Hj Hv.
  destruct (component_is W fuel o d x cs S EL Bx F N E) as (fa & b1 & a' & b' & Ep' & En' & Ec).
  fold m in En'. rewrite Ep in Ep'. injection Ep' as <- <-. rewrite En in En'. injection En' as <- <-.
  cbn [on_pixels] in Ec. fold m sh in Ec.
  inversion He as [|p ? t ? Hp Ht]; subst b. cbn [map] in Ec.
  assert (FF : Forall (fits sh) (numbers p :: map numbers t)).
  { clear - He Hf. change (numbers p :: map numbers t) with (map numbers (p :: t)). revert He Hf.
    generalize (e :: es) (p :: t). intros l l' H. induction H as [|q r l' l Hq H IH]; cbn [map]; intros Hf; [constructor|].
    inversion Hf as [|? ? Hr Hl]; subst. constructor; [|now apply IH].
    destruct (stamp_numbers q r Hq) as [Ss _]. unfold shape in Ss. injection Ss as Sr Sc. unfold fits in *.
    rewrite Sr, Sc in Hr. exact Hr. }
  destruct (stamp_numbers p e Hp) as [Ss V]. rewrite (com_ext e (numbers p) Ss V) in Hc.
  set (im := mkfimg _ _ _ _) in Ec.
  destruct (C87_variable_psf_lm im _ _ (numbers p) (map numbers t) a c S (Nat.le_lt_trans _ _ _ (Nat.le_0_l i) Hi)
    (Nat.le_lt_trans _ _ _ (Nat.le_0_l j) Hj) Hv FF Hn Hc Ec) as [_ P].
  rewrite (P i j Hi Hj). unfold im. cbn [f_zp f_var f_shape f_pix]. f_equal. f_equal.
  change (numbers p :: map numbers t) with (map numbers (p :: t)). clear - He. revert He. generalize (e :: es) (p :: t).
  intros l l' H. revert fs. induction H as [|q r l' l Hq H IH]; intros [|f fs]; cbn [map combine]; try reflexivity.
  f_equal; [|apply IH]. cbn [fst snd]. destruct (stamp_numbers q r Hq) as [Ss V]. symmetry. now apply seen_is_ext.
Qed.

(** The pixels that are filtered: the good ones are the pixels less the background. *)
Lemma C120_pixels_lm : forall W fuel o d x i j v,
  build W fuel o d = Some (Ok x) -> (i < nr (m_dat d))%nat -> (j < nc (m_dat d))%nat ->
  px (m_msk d) i j = false -> px (m_dat d) i j = Some v ->
  px (bu_clean x) i j = v - px (background (bu_back x)) i j.
Proof.
  intros W fuel o d x i j v. unfold build. destruct (set_bkg W (o_thresh o) d) as [b|]; [|discriminate].
  unfold clean. destruct (Interp.interped _ _ _ _ _) as [r|] eqn:E; [|discriminate]. cbn [option_map].
  intros Bx Hi Hj M V. pose proof (C28_good_pixels_lm _ _ _ _ _ _ i j v E M V) as G.
  destruct (C28_no_nan_lm _ _ _ _ _ _ E) as [Sr _]. unfold shape in Sr. injection Sr as Hr Hc.
  assert (H : px (bu_clean x) i j = v - px (b_back (bu_back x)) i j); [|exact H].
  assert (K : forall s L, x = mkbuilt d b (tidy 0 (pmap (fun x => match x with Some x => x | None => 0 end) r)) L s ->
    px (bu_clean x) i j = v - px (b_back (bu_back x)) i j).
  { intros s L ->. cbn [bu_clean bu_back tidy pmap px nr nc].
    rewrite (proj2 (Nat.ltb_lt i (nr r))), (proj2 (Nat.ltb_lt j (nc r))) by lia. cbn [andb]. now rewrite G. }
  destruct (o_stamp o) as [s|]; [injection Bx as <-; eapply K; reflexivity|].
  destruct (select _) as [srcs|]; [|discriminate]. cbn [bind] in Bx. injection Bx as <-. eapply K. reflexivity.
Qed.

(** What psf_hat_sqnorm() answers: the PSF for the loss in force. *)
Lemma C120_squared_lm : forall W fuel o d x cs a b,
  (forall n c, length (fst (l_eigh W n c)) = n) -> build W fuel o d = Some (Ok x) -> Forall plain cs ->
  psf_for (bu_lib x) (stamp_shape (bu_attr x)) (last_loss cs) = Ok (a, b) ->
  exists q, sqnorm_of (after cs x) = Ok q /\ squared x (bu_lib x) (last_loss cs) q.
Proof.
  intros W fuel o d x cs a b EL Bx F Ep. destruct (build_lib _ _ _ _ _ Bx) as (Dx & Lx & sh & Nw & Sh). rewrite <- Sh in Ep.
  assert (O : lib_ok (bu_lib x)) by (rewrite Lx; now apply lib_of_ok).
  pose proof (SessionMain.reached_history _ _ _ (bu_lib x) sh (bu_attr x) cs O Nw F) as Rd.
  destruct (reached_loss _ _ _ _ _ _ _ Rd) as (Lo & Lo0 & _). rewrite (proj1 (SessionMain.history_loss cs)) in Lo, Lo0.
  destruct Rd as (J & mode & (Js & I2) & H1 & H2 & H3 & H4 & H5 & H6 & H7 & H8 & H9 & H10 & H11 & H12).
  destruct (H11 _ (a, b) Js) as [K1 K2]; [rewrite Lo; exact Lo0|rewrite Lo; exact Ep|]. cbn [fst snd] in K1, K2.
  unfold sqnorm_of. change (bu_lib (after cs x)) with (bu_lib x).
  change (bu_attr (after cs x)) with (exec_all (bu_lib x) cs (bu_attr x)).
  destruct (Session.kl_basis _ _ _ (bu_lib x) (exec_all (bu_lib x) cs (bu_attr x))) as [rb s2]. cbn [fst snd] in K1, K2.
  rewrite K1. cbn [bind]. rewrite K2. cbn [bind]. eexists. split; [reflexivity|].
  exists a, b, (on_pixels a), (map numbers b). rewrite <- Sh. split; [exact Ep|].
  split; [apply on_pixels_at|]. split; [apply numbers_are|reflexivity].
Qed.
