(** C125: what a subtraction works on. *)
From Coq Require Import ZArith List Bool Arith String Reals Lia Lra.
From Coq Require Import SpecFloat.
From Flocq Require Import Core.Core IEEE754.BinarySingleNaN.
From Coquelicot Require Import Complex.
From Verif.Model Require Import Py Plane Ma Image Interp Sources Stamps KL Session Filter Transparency Subtract Chain Gauss GaussSub Rebuild.
From Verif.Spec Require Import Image ImageExample Float32 Coadd Subtract Rebuild.
From Verif.Proof Require Import Image ImageMask ImageGrow ImageBorder ImageBuild ImageStore ImageSum ImageMain Float32 Float32Main SubtractFit Rebuild.
Import ListNotations.
Set Bullet Behavior "Strict Subproofs".
Local Open Scope R_scope.

Lemma other_fails fs nsum : construct fs nsum (plain_args Image.Other) = Raise AttributeError.
Proof. reflexivity. Qed.

Lemma range_of p p' : in_single p p' -> non_finite p' \/ out_of_range p' -> non_finite p \/ out_of_range p.
Proof. exact (single_bad p p'). Qed.

(** An image of the other class: same pixels, in single precision; the mask, with the pixels that
    are not numbers, is enlarged once more. *)
Lemma C125_class_lm : forall fs nsum im, wf (im_data im) -> range_masked im -> fs "MaskedArray"%string = None ->
  exists im', converted fs nsum (Differs im) = Ok im' /\ shape (pixels im') = shape (pixels im) /\
    (forall i j, (i < nr (pixels im))%nat -> (j < nc (pixels im))%nat -> in_single (px (pixels im) i j) (px (pixels im') i j)) /\
    mask_from (fun i j => is_masked im i j \/ non_finite (px (pixels im) i j)) im'.
Proof.
  intros fs nsum im Wf Rm Nf. cbn [converted]. rewrite other_fails. cbn [bind].
  assert (H : exists im', construct fs nsum (plain_args (MaskedArr (im_data im))) = Ok im')
    by exact (C73_outcome_lm fs nsum (plain_args (MaskedArr (im_data im))) Wf eq_refl).
  destruct H as [im' E]. exists im'. split; [exact E|].
  pose proof (gain_one fs nsum (MaskedArr (im_data im)) MNone None true im' E eq_refl) as G1.
  destruct (C20_pixels_lm fs nsum (plain_args (MaskedArr (im_data im))) im' (pixels im) Wf eq_refl eq_refl eq_refl E) as [Sh V].
  cbn [plain_args a_img a_mask a_guess reloads] in Sh, V. rewrite G1 in V.
  injection Sh as Sr Sc. cbn [scaled nr nc] in Sr, Sc.
  assert (P : forall i j, (i < nr (pixels im))%nat -> (j < nc (pixels im))%nat -> in_single (px (pixels im) i j) (px (pixels im') i j)).
  { intros i j Hi Hj. rewrite V by lia. cbn [scaled px]. destruct (user_masked _ i j); [apply single_to|apply single_mul]. }
  split; [unfold shape; now rewrite Sr, Sc|]. split; [exact P|].
  destruct (C23_construct_mask_lm fs nsum (plain_args (MaskedArr (im_data im))) im' Wf E) as (_ & a0 & d & flag & S & K & F).
  cbn [plain_args a_img a_mask a_guess a_borders a_crop a_thresh] in S, K.
  assert (M0 : forall i j, masked_at (msk a0) i j = masked_at (msk (im_data im)) i j).
  { unfold set_data in S. cbn [load_data bind cut_borders] in S. injection S as <-. intros i j. reflexivity. }
  inversion K; subst; try discriminate.
  - (* no file *)
    eapply mask_from_final; [exact F|]. intros i j Hi Hj. cbn beta. rewrite M0.
    assert (D : px (dat a0) i j = px (pixels im') i j).
    { destruct F as [[Sd Vd] _]. injection Sd as Sdr Sdc. symmetry. now apply Vd. }
    rewrite D. pose proof (P i j ltac:(lia) ltac:(lia)) as Q. unfold is_masked. split.
    + intros [[M|N]|O].
      * now left.
      * destruct (range_of _ _ Q (or_introl N)) as [N'|O]; [now right|left]. apply Rm; trivial; lia.
      * destruct (range_of _ _ Q (or_intror O)) as [N'|O']; [now right|left]. apply Rm; trivial; lia.
    + intros [M|N]; [left; now left|left; right]. eapply single_non_finite; eassumption.
  - exfalso. cbn [attached_to] in *. congruence.
  - exfalso. cbn [attached_to] in *. congruence.
  - exfalso. cbn [attached_to] in *. congruence.
Qed.

(** The registered image: the registered values, in single precision, cut to the size of the
    reference; its mask comes from the footprint and from the values out of range. *)
Lemma C125_aligned_lm : forall fs nsum register ref new d m,
  register (im_data new) (im_data ref) = Ok (d, m) -> shape m = shape d ->
  exists im, aligned fs nsum register ref new = Ok im /\
    shape (pixels im) = (Nat.min (nr d) (nr (pixels ref)), Nat.min (nc d) (nc (pixels ref))) /\
    (forall i j, (i < nr (pixels im))%nat -> (j < nc (pixels im))%nat -> in_single (px d i j) (px (pixels im) i j)) /\
    mask_from (fun i j => px m i j = true \/ out_of_range (px (pixels im) i j)) im.
Proof.
  intros fs nsum register ref new d m Rg Sm. unfold aligned. rewrite Rg. cbn [bind]. cbv zeta. fold (pixels ref).
  set (r := nr (pixels ref)). set (c := nc (pixels ref)).
  assert (SP : forall A (p : plane A), shape p = shape d ->
            slice_plane p 0 (Z.of_nat r) 0 (Z.of_nat c) =
            mkplane (Nat.min (nr d) r) (Nat.min (nc d) c) (fun i j => px p i j)).
  { intros A p Sp. injection Sp as Spr Spc. unfold slice_plane. cbv zeta. rewrite Spr, Spc.
    assert (X : forall n : nat, slice_bound (Z.of_nat n) 0 = 0%Z) by (intros n; unfold slice_bound; cbn [Z.ltb Z.compare]; lia).
    assert (Y : forall n k : nat, Z.to_nat (slice_bound (Z.of_nat n) (Z.of_nat k) - 0) = Nat.min n k).
    { intros n k. unfold slice_bound. destruct (Z.ltb_spec (Z.of_nat k) 0); lia. }
    rewrite !X, !Y. reflexivity. }
  rewrite (SP _ d eq_refl), (SP _ m Sm).
  set (dd := mkplane (Nat.min (nr d) r) (Nat.min (nc d) c) (fun i j => px d i j)).
  set (mm := mkplane (Nat.min (nr d) r) (Nat.min (nc d) c) (fun i j => px m i j)).
  set (a := mkargs (Ndarray dd) (MArray mm) None true false ((0, 0), (0, 0))%Z None).
  assert (Wf : wf_source (a_img a)) by exact I.
  assert (H : exists im, construct fs nsum a = Ok im) by exact (C73_outcome_lm fs nsum a Wf eq_refl).
  destruct H as [im E]. exists im. split; [exact E|].
  pose proof (gain_one fs nsum (Ndarray dd) (MArray mm) None true im E eq_refl) as G1.
  destruct (C20_pixels_lm fs nsum a im dd Wf eq_refl eq_refl eq_refl E) as [Sh V].
  cbn [a a_img a_mask a_guess reloads] in Sh, V. rewrite G1 in V.
  injection Sh as Sr Sc. cbn [scaled dd nr nc] in Sr, Sc.
  split; [unfold shape; now rewrite Sr, Sc|]. split.
  { intros i j Hi Hj. rewrite V by lia. cbn [scaled px user_masked]. apply single_mul. }
  destruct (C23_construct_mask_lm fs nsum a im Wf E) as (_ & a0 & d0 & flag & S & K & F).
  cbn [a a_img a_mask a_guess a_borders a_crop a_thresh] in S, K.
  inversion K; subst.
  eapply mask_from_final; [exact F|]. intros i j Hi Hj. cbn beta.
  assert (Z : shape (dat a0) = shape dd).
  { unfold set_data in S. cbn [load_data bind cut_borders] in S. injection S as <-. reflexivity. }
  injection Z as Zr Zc. cbn [dd nr nc] in Zr, Zc.
  assert (Y : set_by mm a0 i j <-> px m i j = true).
  { unfold set_by, cyclic. cbn [mm nr nc]. destruct (Nat.eqb_spec (Nat.min (nr d) r * Nat.min (nc d) c) 0) as [Z0|Z0].
    - exfalso. rewrite Sr in Hi. rewrite Sc in Hj. destruct (Nat.min (nr d) r); [lia|]. destruct (Nat.min (nc d) c); [lia|]. cbn in Z0. lia.
    - rewrite Zc, Sr, Sc in *. set (w := Nat.min (nc d) c) in *. set (h := Nat.min (nr d) r) in *.
      rewrite Nat.mod_small by nia.
      replace ((i * w + j) / w)%nat with i by (rewrite Nat.add_comm, Nat.div_add by lia; rewrite Nat.div_small by lia; reflexivity).
      replace ((i * w + j) mod w)%nat with j by (rewrite Nat.add_comm, Nat.mod_add by lia; now rewrite Nat.mod_small by lia).
      reflexivity. }
  rewrite Y. reflexivity.
Qed.

Lemma no_flags im flag : mask_from flag im ->
  (forall i j, (i < nr (pixels im))%nat -> (j < nc (pixels im))%nat -> ~ flag i j) ->
  forall i j, (i < nr (pixels im))%nat -> (j < nc (pixels im))%nat -> ~ is_masked im i j.
Proof.
  intros (init & I0 & G) N i j Hi Hj M. rewrite G in M by assumption.
  rewrite (grown_ext _ 7 init (fun _ _ => false)) in M; [now rewrite grown_false in M| |exact Hi|exact Hj].
  intros x y Hx Hy. destruct (init x y) eqn:E; [|reflexivity]. exfalso. apply (N x y Hx Hy). now apply I0.
Qed.

(** The mask of the caller's new image is not used: if the registration changes nothing and its
    footprint has no flag, no pixel of the registered image is masked, whatever the mask of the new
    image was. *)
Lemma C125_mask_forgotten_refuted_lm : forall fs nsum register ref new m im,
  register (im_data new) (im_data ref) = Ok (pixels new, m) -> shape m = shape (pixels new) ->
  (forall i j, (i < nr m)%nat -> (j < nc m)%nat -> px m i j = false) ->
  (forall i j, (i < nr m)%nat -> (j < nc m)%nat ->
     ~ non_finite (px (pixels new) i j) /\ ~ out_of_range (px (pixels new) i j)) ->
  aligned fs nsum register ref new = Ok im ->
  forall i j, (i < nr (pixels im))%nat -> (j < nc (pixels im))%nat -> ~ is_masked im i j.
Proof.
  intros fs nsum register ref new m im Rg Sm Nm Ok_ E.
  destruct (C125_aligned_lm fs nsum register ref new _ m Rg Sm) as (im' & E' & Sh & P & F).
  rewrite E in E'. injection E' as <-. apply (no_flags _ _ F). intros i j Hi Hj.
  injection Sm as Smr Smc. injection Sh as Sr Sc.
  assert (Hi' : (i < nr m)%nat) by lia. assert (Hj' : (j < nc m)%nat) by lia.
  intros [M|O].
  - rewrite Nm in M by assumption. discriminate.
  - destruct (Ok_ i j Hi' Hj') as [A B].
    destruct (single_bad _ _ (P i j Hi Hj) (or_intror O)); contradiction.
Qed.

(** A CCDData: its values as they are; its mask is not used. *)
Lemma C125_ccd_lm : forall fs nsum d m, exists im, converted fs nsum (Ccd d m) = Ok im /\
  plane_eq (pixels im) d /\
  mask_from (fun i j => non_finite (px d i j) \/ out_of_range (px d i j)) im.
Proof.
  intros fs nsum d m. cbn [converted]. rewrite other_fails. cbn [bind].
  set (a := plain_args (Ndarray d)). assert (Wf : wf_source (a_img a)) by exact I.
  assert (H : exists im', construct fs nsum a = Ok im') by exact (C73_outcome_lm fs nsum a Wf eq_refl).
  destruct H as [im E]. exists im. split; [exact E|].
  pose proof (C20_pixels_lm fs nsum a im d Wf eq_refl eq_refl eq_refl E) as Pe. cbn [a plain_args a_img a_mask a_guess reloads] in Pe.
  split; [exact Pe|].
  destruct (C23_construct_mask_lm fs nsum a im Wf E) as (_ & a0 & d0 & flag & S & K & F).
  cbn [a plain_args a_img a_mask a_guess a_borders a_crop a_thresh] in S, K.
  inversion K; subst; try discriminate.
  - match goal with H : Ndarray _ = Ndarray _ |- _ => injection H as <- end.
    eapply mask_from_final; [exact F|]. intros i j Hi Hj. destruct Pe as [_ V]. now rewrite V by assumption.
  - exfalso. now destruct H0 as [[? [[=] _]]|[[? [=]]|[=]]].
  - exfalso. now destruct H0 as [[? [[=] _]]|[[? [=]]|[=]]].
  - exfalso. now destruct H0 as [[? [[=] _]]|[[? [=]]|[=]]].
  - exfalso. now destruct H0 as [[? [[=] _]]|[[? [=]]|[=]]].
Qed.

Lemma C125_ccd_mask_refuted_lm : forall fs nsum d m im,
  (forall i j, (i < nr d)%nat -> (j < nc d)%nat -> ~ non_finite (px d i j) /\ ~ out_of_range (px d i j)) ->
  converted fs nsum (Ccd d m) = Ok im ->
  forall i j, (i < nr d)%nat -> (j < nc d)%nat -> ~ is_masked im i j.
Proof.
  intros fs nsum d m im G E. destruct (C125_ccd_lm fs nsum d m) as (im' & E' & [Sh V] & F).
  rewrite E in E'. injection E' as <-. injection Sh as Sr Sc. intros i j Hi Hj.
  apply (no_flags _ _ F); [|lia|lia]. intros x y Hx Hy. destruct (G x y ltac:(lia) ltac:(lia)). tauto.
Qed.

(** Anything else: what the constructor makes of it with its defaults, and AttributeError,
    whatever was wrong, if it makes nothing. *)
Lemma C125_source_lm : forall fs nsum s, wf_source s ->
  match build_error fs (plain_args s) with
  | None => exists im, construct fs nsum (plain_args s) = Ok im /\ converted fs nsum (Raw s) = Ok im
  | Some _ => converted fs nsum (Raw s) = Raise AttributeError
  end.
Proof.
  intros fs nsum s Wf. pose proof (C73_outcome_lm fs nsum (plain_args s) Wf eq_refl) as H.
  cbn [converted]. destruct (build_error fs (plain_args s)) as [e|] eqn:B.
  - rewrite H. destruct s as [n|d|a|l|h|]; cbn [dot_data bind]; try reflexivity; exfalso; discriminate B.
  - destruct H as [im E]. exists im. now rewrite E.
Qed.

(** * The result *)

Lemma masked_mdata im i j : (i < nr (pixels im))%nat -> (j < nc (pixels im))%nat ->
  px (m_msk (mdata im)) i j = masked_at (msk (im_data im)) i j.
Proof.
  intros Hi Hj. unfold mdata, tidy. cbn [m_msk px nr nc]. fold (pixels im).
  apply Nat.ltb_lt in Hi, Hj. now rewrite Hi, Hj.
Qed.

Lemma build_data W fuel o d x : build W fuel o d = Some (Ok x) -> bu_data x = d.
Proof.
  unfold build. destruct (set_bkg _ _ _) as [b|e]; [|discriminate]. destruct (clean _ _ _ _) as [img|]; [|discriminate].
  destruct (o_stamp o) as [sh|].
  - intros [= <-]. reflexivity.
  - destruct (Session.select _ _ _ _) as [srcs|e]; cbn [bind]; [|discriminate]. intros [= <-]. reflexivity.
Qed.

Lemma union_seen W md beta shift iterative x y D P S m :
  match md with
  | Rebuild.Stamps l => subtract_built W l beta shift iterative x y
  | Gaussians fitter stats => subtract_gauss W fitter stats beta shift iterative x y
  end = Ok (D, P, S, m) ->
  shape (m_msk (bu_data x)) = shape (m_dat (bu_data x)) -> shape (m_msk (bu_data y)) = shape (m_dat (bu_data y)) ->
  shape (m_dat (bu_data y)) = shape (m_dat (bu_data x)) /\
  is_union (fun z => Full (m_msk (bu_data z))) [x; y] (shape (m_dat (bu_data x))) m.
Proof.
  intros H Sx Sy.
  assert (G : shape (m_dat (bu_data y)) = shape (m_dat (bu_data x)) /\
    exists e u v fitted, d_mask u = Full (m_msk (bu_data x)) /\ d_mask v = Full (m_msk (bu_data y)) /\
      d_shape u = shape (m_dat (bu_data x)) /\ d_shape v = shape (m_dat (bu_data y)) /\
      subtract e (Is u) (Is v) false beta shift iterative fitted = Ok (D, P, S, m)).
  { destruct md as [l|fitter stats].
    - unfold subtract_built in H. destruct (shape_eqb _ _) eqn:E; cbn [negb] in H; [|discriminate].
      apply andb_prop in E. destruct E as [E1 E2]. apply Nat.eqb_eq in E1, E2.
      split; [unfold shape in *; cbn [fst snd] in *; congruence|].
      destruct (fst (Session.best_sources _ _ _ (bu_lib x) _)) as [cr|]; cbn [bind] in H; [|discriminate].
      destruct (fst (Session.best_sources _ _ _ (bu_lib y) _)) as [cn|]; cbn [bind] in H; [|discriminate].
      destruct (transparency _ _ _ _ _) as [t|]; cbn [bind] in H; [|discriminate].
      destruct (first_element _ _) as [pr|]; cbn [bind] in H; [|discriminate].
      destruct (first_element _ _) as [pn|]; cbn [bind] in H; [|discriminate].
      do 4 eexists. split; [|split; [|split; [|split; [|exact H]]]]; reflexivity.
    - unfold subtract_gauss in H. destruct (shape_eqb _ _) eqn:E; cbn [negb] in H; [|discriminate].
      apply andb_prop in E. destruct E as [E1 E2]. apply Nat.eqb_eq in E1, E2.
      split; [unfold shape in *; cbn [fst snd] in *; congruence|].
      destruct (fst (Session.best_sources _ _ _ (bu_lib x) _)) as [cr|]; cbn [bind] in H; [|discriminate].
      destruct (fst (Session.best_sources _ _ _ (bu_lib y) _)) as [cn|]; cbn [bind] in H; [|discriminate].
      destruct (transparency _ _ _ _ _) as [t|]; cbn [bind] in H; [|discriminate].
      destruct (fst (gauss_model _ _ _ _ _ _ _)) as [[[a b] th]|]; cbn [bind] in H; [|discriminate].
      destruct (fst (gauss_model _ _ _ _ _ _ _)) as [[[a' b'] th']|]; cbn [bind] in H; [|discriminate].
      do 4 eexists. split; [|split; [|split; [|split; [|exact H]]]]; reflexivity. }
  destruct G as (Sh & e & u & v & fitted & Mu & Mv & Su & Sv & Sub). split; [exact Sh|].
  assert (U : is_union d_mask [u; v] (d_shape u) m).
  { refine (mask_union e u v beta shift iterative fitted D P S m _ _ Sub); unfold Verif.Spec.Subtract.mask_fits.
    - rewrite Mu, Su. exact Sx.
    - rewrite Mv, Sv. exact Sy. }
  destruct U as (U1 & U2 & U3). rewrite Su in *. split; [|split; [|exact U3]].
  - intros i j Hi Hj. rewrite U1 by assumption. split.
    + intros (z & [<-|[<-|[]]] & M); [exists x|exists y]; (split; [cbn; tauto|]); congruence.
    + intros (z & [<-|[<-|[]]] & M); [exists u|exists v]; (split; [cbn; tauto|]); congruence.
  - rewrite U2. split.
    + intros N z i j [<-|[<-|[]]] Hi Hj; [rewrite <- Mu|rewrite <- Mv]; apply N; cbn; tauto.
    + intros N z i j [<-|[<-|[]]] Hi Hj; [rewrite Mu; apply (N x)|rewrite Mv; apply (N y)]; cbn; tauto.
Qed.

(** The mask of the result is the union of the masks of the images that were subtracted. *)
Lemma C125_mask_lm : forall fs nsum register W fuel o o' md beta shift iterative ref new align D P S m,
  subtract_call fs nsum register W fuel o o' md beta shift iterative ref new align = Some (Ok (D, P, S, m)) ->
  exists r n, operands fs nsum register ref new align = Ok (r, n) /\ shape (pixels n) = shape (pixels r) /\
    is_union (fun im => msk (im_data im)) [r; n] (shape (pixels r)) m.
Proof.
  intros fs nsum register W fuel o o' md beta shift iterative ref new align D P S m H. unfold subtract_call in H.
  destruct (operands _ _ _ _ _ _) as [[r n]|e]; [|discriminate]. exists r, n. split; [reflexivity|].
  destruct (build W fuel _ (mdata r)) as [x|] eqn:Bx; [|discriminate].
  destruct (build W fuel _ (mdata n)) as [y|] eqn:By; [|discriminate].
  injection H as H. destruct x as [x|]; cbn [bind] in H; [|discriminate]. destruct y as [y|]; cbn [bind] in H; [|discriminate].
  apply build_data in Bx, By. apply union_seen in H; [|rewrite Bx; reflexivity|rewrite By; reflexivity].
  destruct H as (Sh & U1 & U2 & U3). rewrite Bx, By in *. change (shape (m_dat (mdata n))) with (shape (pixels n)) in *.
  change (shape (m_dat (mdata r))) with (shape (pixels r)) in *. split; [exact Sh|].
  assert (Er : forall i j, (i < fst (shape (pixels r)))%nat -> (j < snd (shape (pixels r)))%nat ->
     masked_at (Full (m_msk (bu_data x))) i j = masked_at (msk (im_data r)) i j).
  { intros i j Hi Hj. rewrite Bx. now apply masked_mdata. }
  assert (En : forall i j, (i < fst (shape (pixels r)))%nat -> (j < snd (shape (pixels r)))%nat ->
     masked_at (Full (m_msk (bu_data y))) i j = masked_at (msk (im_data n)) i j).
  { intros i j Hi Hj. rewrite By. rewrite <- Sh in Hi, Hj. now apply masked_mdata. }
  split; [|split; [|exact U3]].
  - intros i j Hi Hj. rewrite U1 by assumption. split.
    + intros (z & [<-|[<-|[]]] & M); [exists r|exists n]; (split; [cbn; tauto|]);
        [rewrite <- (Er i j Hi Hj)|rewrite <- (En i j Hi Hj)]; exact M.
    + intros (z & [<-|[<-|[]]] & M); [exists x|exists y]; (split; [cbn; tauto|]);
        [rewrite (Er i j Hi Hj)|rewrite (En i j Hi Hj)]; exact M.
  - rewrite U2. split.
    + intros N z i j [<-|[<-|[]]] Hi Hj; [rewrite <- Er by assumption; apply (N x)|rewrite <- En by assumption; apply (N y)]; cbn [In]; tauto.
    + intros N z i j [<-|[<-|[]]] Hi Hj; [rewrite Er by assumption; apply N|rewrite En by assumption; apply N]; cbn [In]; tauto.
Qed.

(** Images of different sizes, also after the registration. *)
Lemma C125_sizes_lm : forall fs nsum register W fuel o o' md beta shift iterative ref new align r n x y,
  operands fs nsum register ref new align = Ok (r, n) -> shape (pixels n) <> shape (pixels r) ->
  build W fuel (choices_for ref o) (mdata r) = Some (Ok x) ->
  build W fuel (if align then plain_choices o' else choices_for new o') (mdata n) = Some (Ok y) ->
  subtract_call fs nsum register W fuel o o' md beta shift iterative ref new align = Some (Raise ValueError).
Proof.
  intros fs nsum register W fuel o o' md beta shift iterative ref new align r n x y Op Sh Bx By.
  unfold subtract_call. rewrite Op, Bx, By. cbn [bind]. apply build_data in Bx, By.
  assert (Q : shape_eqb (shape (m_dat (bu_data y))) (shape (m_dat (bu_data x))) = false).
  { rewrite Bx, By. change (shape (m_dat (mdata n))) with (shape (pixels n)). change (shape (m_dat (mdata r))) with (shape (pixels r)).
    apply not_true_is_false. intros T. apply andb_prop in T. destruct T as [A B]. apply Nat.eqb_eq in A, B.
    apply Sh. unfold shape in *. cbn [fst snd] in *. congruence. }
  destruct md; cbn; [unfold subtract_built|unfold subtract_gauss]; rewrite Q; reflexivity.
Qed.

(** Options that the caller chose have no effect on images that are made anew. *)
Lemma C125_options_lm : forall fs nsum register W fuel o o' p p' md beta shift iterative ref new align,
  (ready ref -> p = o) -> (ready new -> align = false -> p' = o') -> o_stack p = o_stack o -> o_stack p' = o_stack o' ->
  subtract_call fs nsum register W fuel p p' md beta shift iterative ref new align =
  subtract_call fs nsum register W fuel o o' md beta shift iterative ref new align.
Proof.
  intros fs nsum register W fuel o o' p p' md beta shift iterative ref new align Hr Hn So So'. unfold subtract_call.
  assert (A : choices_for ref p = choices_for ref o).
  { destruct ref; cbn in *; [now apply Hr| | |]; unfold plain_choices; now rewrite So. }
  assert (B : (if align then plain_choices p' else choices_for new p') = (if align then plain_choices o' else choices_for new o')).
  { destruct align; [unfold plain_choices; now rewrite So'|].
    destruct new; cbn in *; [now apply Hn| | |]; unfold plain_choices; now rewrite So'. }
  now rewrite A, B.
Qed.

(** Of the image that is aligned only the pixels and the mask matter, for the registration. *)
Lemma C125_only_pixels_lm : forall fs nsum register W fuel o o' md beta shift iterative ref im im',
  im_data im' = im_data im ->
  subtract_call fs nsum register W fuel o o' md beta shift iterative ref (Suits im') true =
  subtract_call fs nsum register W fuel o o' md beta shift iterative ref (Suits im) true.
Proof.
  intros fs nsum register W fuel o o' md beta shift iterative ref im im' E. unfold subtract_call, operands.
  destruct (converted fs nsum ref) as [r|]; cbn [bind converted]; [|reflexivity]. unfold aligned. now rewrite E.
Qed.

(** The result is the one for images that the caller builds with the defaults (no stamp shape, at
    least 20 sources, no strict picking, no mask threshold). *)
Lemma C125_same_lm : forall fs nsum register W fuel o o' md beta shift iterative ref new r n,
  converted fs nsum ref = Ok r -> converted fs nsum new = Ok n ->
  let chosen x o := match x with Suits _ => o | _ => mkchoices None 20 false None (o_stack o) end in
  subtract_call fs nsum register W fuel o o' md beta shift iterative ref new false =
  subtract_call fs nsum register W fuel (chosen ref o) (chosen new o') md beta shift iterative (Suits r) (Suits n) false.
Proof.
  intros fs nsum register W fuel o o' md beta shift iterative ref new r n Hr Hn. cbv zeta.
  unfold subtract_call, operands. rewrite Hr, Hn. reflexivity.
Qed.

(** The same with align=True, for the registered image. *)
Lemma C125_same_aligned_lm : forall fs nsum register W fuel o o' md beta shift iterative ref new r n n',
  converted fs nsum ref = Ok r -> converted fs nsum new = Ok n -> aligned fs nsum register r n = Ok n' ->
  subtract_call fs nsum register W fuel o o' md beta shift iterative ref new true =
  subtract_call fs nsum register W fuel (match ref with Suits _ => o | _ => mkchoices None 20 false None (o_stack o) end)
    (mkchoices None 20 false None (o_stack o')) md beta shift iterative (Suits r) (Suits n') false.
Proof.
  intros fs nsum register W fuel o o' md beta shift iterative ref new r n n' Hr Hn Ha.
  unfold subtract_call, operands. rewrite Hr, Hn. cbn [bind]. rewrite Ha. reflexivity.
Qed.
