(** The transform of the interpolated image: main lemmas. *)
From Coq Require Import ZArith List Bool Arith Reals Lia Lra.
From Coquelicot Require Import Complex.
From Verif.Model Require Import Py Plane Sources FindS Stamps Interp Cut Hat.
From Verif.Spec Require Import FindS Stamps Cut Hat.
From Verif.Proof Require Import Fourier Dft Stamps StampsLoop StampsMain StampsExample Cut CutIntact CutLoop CutMain CutLeft CutEx.
Import ListNotations.
Set Bullet Behavior "Strict Subproofs".
Local Open Scope R_scope.

Lemma kept_hat stats label cs : forall im h,
  steps_exec stats label cs (mkspectrum im (Some h)) = mkspectrum (left_after stats label cs im) (Some h).
Proof.
  induction cs as [|[|pk rms sh sources] t IH]; intros im h; [reflexivity| |]; cbn [steps_exec fold_left left_after step_exec].
  - apply IH.
  - apply IH.
Qed.

(** The interpolated image is what all extractions left; its transform is that of the image at
    the time interped_hat was first read. *)
Lemma C134_first_read_lm : forall stats label image cs,
  let s := steps_exec stats label cs (mkspectrum (intact image) None) in
  sp_interped s = left_after stats label cs (intact image) /\
  fst (interped_hat s) = transform (left_after stats label (until_asked cs) (intact image)).
Proof.
  intros stats label image cs. generalize (intact image). cbv zeta.
  induction cs as [|[|pk rms sh sources] t IH]; intros im.
  - split; reflexivity.
  - cbn [until_asked left_after]. change (steps_exec stats label (AskHat :: t) (mkspectrum im None))
      with (steps_exec stats label t (mkspectrum im (Some (transform im)))).
    rewrite kept_hat. split; reflexivity.
  - cbn [until_asked left_after]. change (steps_exec stats label (Extract pk rms sh sources :: t) (mkspectrum im None))
      with (steps_exec stats label t (mkspectrum (fst (cut_stamps stats label pk im rms sh sources)) None)). apply IH.
Qed.

Lemma left_app stats label c1 c2 : forall im, left_after stats label (c1 ++ c2) im = left_after stats label c2 (left_after stats label c1 im).
Proof. induction c1 as [|[|] t IH]; intros im; cbn [app left_after]; auto. Qed.

Lemma no_nan_whole im : no_nan im -> exists p, whole im = Some p /\ nr p = nr im /\ nc p = nc im /\
  forall i j, (i < nr im)%nat -> (j < nc im)%nat -> px im i j = Some (px p i j).
Proof.
  intros N. unfold whole.
  assert (A : any_nan im = false).
  { destruct (any_nan im) eqn:E; [|reflexivity]. exfalso. unfold any_nan in E. apply existsb_exists in E.
    destruct E as (i & Hi & E). apply existsb_exists in E. destruct E as (j & Hj & E). apply in_seq in Hi, Hj.
    destruct (px im i j) eqn:P; [discriminate|]. apply (N i j); [lia|lia|exact P]. }
  rewrite A. eexists. split; [reflexivity|]. split; [reflexivity|]. split; [reflexivity|].
  intros i j Hi Hj. cbn [px pmap]. specialize (N i j Hi Hj). destruct (px im i j); [reflexivity|contradiction].
Qed.

Lemma transform_inj a b : (0 < nr a)%nat -> (0 < nc a)%nat -> no_nan a -> no_nan b ->
  plane_eq (transform a) (transform b) -> plane_eq a b.
Proof.
  intros Hr Hc Na Nb. destruct (no_nan_whole a Na) as (p & Wa & Pr & Pc & Pa), (no_nan_whole b Nb) as (q & Wb & Qr & Qc & Qb).
  unfold transform. rewrite Wa, Wb. intros [S E]. unfold shape in S. cbn [nr nc pmap fft2_ortho dft_raw] in S, E. injection S as Sr Sc.
  split; [unfold shape; congruence|]. intros i j Hi Hj.
  cbn [pmap nr nc fft2_ortho] in Sr, Sc, E. rewrite (Pa i j Hi Hj), (Qb i j) by lia. f_equal.
  destruct (fft_inverse (pmap RtoC p)) as [_ Fp]; [cbn; lia|cbn; lia|].
  destruct (fft_inverse (pmap RtoC q)) as [_ Fq]; [cbn; lia|cbn; lia|].
  assert (X : px (ifft2_ortho (fft2_ortho (pmap RtoC p))) i j = px (ifft2_ortho (fft2_ortho (pmap RtoC q))) i j).
  { rewrite !ifft_px. change (nr (fft2_ortho (pmap RtoC p))) with (nr p). change (nc (fft2_ortho (pmap RtoC p))) with (nc p).
    change (nr (fft2_ortho (pmap RtoC q))) with (nr q). change (nc (fft2_ortho (pmap RtoC q))) with (nc q).
    rewrite <- Sr, <- Sc. f_equal. apply sum2_ext. intros u v Hu Hv. f_equal.
    pose proof (f_equal (fun o => match o with Some z => z | None => RtoC 0 end) (E u v Hu Hv)) as Y. exact Y. }
  rewrite Fp, Fq in X by (cbn; lia). cbn [px pmap] in X. now injection X.
Qed.

Lemma transform_ext a b : plane_eq a b -> no_nan a -> no_nan b -> plane_eq (transform a) (transform b).
Proof.
  intros [S E] Na Nb. destruct (no_nan_whole a Na) as (p & Wa & Pr & Pc & Pa), (no_nan_whole b Nb) as (q & Wb & Qr & Qc & Qb).
  unfold shape in S. injection S as Sr Sc. unfold transform. rewrite Wa, Wb.
  split; [unfold shape; cbn; congruence|]. intros u v _ _. cbn [px pmap]. f_equal. rewrite !fft_px, !dft_har.
  cbn [nr nc pmap]. rewrite Pr, Pc, Qr, Qc, <- Sr, <- Sc. f_equal. apply sum2_ext. intros i j Hi Hj. cbn [px pmap].
  f_equal. f_equal. specialize (E i j Hi Hj). rewrite (Pa i j Hi Hj), (Qb i j) in E by lia. now injection E.
Qed.

(** Once read, interped_hat is the transform of interped exactly as long as the extractions
    that followed changed no pixel (for images without nan). *)
Lemma C134_stale_lm : forall stats label image before after,
  (0 < nr image)%nat -> (0 < nc image)%nat ->
  (forall c, In c before -> c <> AskHat) ->
  (forall pk rms sh sources, In (Extract pk rms sh sources) (before ++ after) -> (0 < fst sh)%nat /\ (0 < snd sh)%nat) ->
  let s := steps_exec stats label (before ++ AskHat :: after) (mkspectrum (intact image) None) in
  let old := left_after stats label before (intact image) in
  no_nan old -> no_nan (sp_interped s) ->
  (plane_eq (fst (interped_hat s)) (transform (sp_interped s)) <-> plane_eq (sp_interped s) old).
Proof.
  intros stats label image before after Hr Hc NA Sh s old No Ns.
  destruct (C134_first_read_lm stats label image (before ++ AskHat :: after)) as [A B]. fold s in A, B.
  assert (U : until_asked (before ++ AskHat :: after) = before).
  { clear - NA. induction before as [|c t IH]; [reflexivity|]. destruct c as [|pk rms sh sources].
    - exfalso. apply (NA AskHat); [now left|reflexivity].
    - cbn [app until_asked]. f_equal. apply IH. intros c I. apply NA. now right. }
  rewrite U in B. fold old in B.
  assert (D : forall cs im, (forall pk rms sh sources, In (Extract pk rms sh sources) cs -> (0 < fst sh)%nat /\ (0 < snd sh)%nat) ->
     shape (left_after stats label cs im) = shape im).
  { induction cs as [|[|pk rms sh sources] t IH]; intros im H; cbn [left_after]; [reflexivity| |].
    - apply IH. intros. eapply H. right. eassumption.
    - rewrite IH by (intros; eapply H; right; eassumption).
      destruct (H pk rms sh sources (or_introl eq_refl)) as [H1 H2].
      destruct (cut_stamps stats label pk im rms sh sources) as [l r] eqn:E.
      exact (proj1 (C132_untouched_lm _ _ _ _ _ _ _ _ _ H1 H2 E)). }
  assert (So : shape old = shape image).
  { unfold old. rewrite D; [reflexivity|]. intros. eapply Sh. apply in_app_iff. left. eassumption. }
  assert (Ss : shape (sp_interped s) = shape image).
  { rewrite A, left_app. cbn [left_after]. rewrite D.
    - exact So.
    - intros. eapply Sh. apply in_app_iff. right. eassumption. }
  unfold shape in So, Ss. injection So as So1 So2. injection Ss as Ss1 Ss2. rewrite B. split.
  - intros H. assert (X : plane_eq old (sp_interped s)) by (apply transform_inj; [congruence|congruence|exact No|exact Ns|exact H]).
    destruct X as [X1 X2]. split; [now symmetry|]. intros i j Hi Hj. symmetry. apply X2; congruence.
  - intros [X1 X2]. apply transform_ext; [|exact No|exact Ns]. split; [now symmetry|]. intros i j Hi Hj. symmetry. apply X2; congruence.
Qed.

(** Reading interped_hat before the stamps are extracted changes what it is afterwards. *)
Lemma C134_no_matter_when_refuted_lm : ~ (forall stats label image pk rms sh sources,
  let cut := Extract pk rms sh sources in
  plane_eq (fst (interped_hat (steps_exec stats label [AskHat; cut] (mkspectrum (intact image) None))))
           (fst (interped_hat (steps_exec stats label [cut] (mkspectrum (intact image) None))))).
Proof.
  intros H.
  set (stats := fun _ : plane R => (0, 0, 0)). set (label := fun p : plane bool => (pmap (fun _ => 0%nat) p, 0%nat)).
  destruct (one_cut stats label None raised mid good_raised_mid) as (last & ex & E & _ & L).
  specialize (H stats label raised (mkpicks false None) 1 one [mid]). cbv zeta in H.
  destruct (C134_first_read_lm stats label raised [AskHat; Extract (mkpicks false None) 1 one [mid]]) as [_ A].
  destruct (C134_first_read_lm stats label raised [Extract (mkpicks false None) 1 one [mid]]) as [_ B].
  rewrite A, B in H. cbn [until_asked left_after] in H. rewrite E in H. cbn [fst] in H.
  assert (Nl : no_nan last).
  { destruct (C132_untouched_lm stats label (mkpicks false None) (intact raised) 1 one [mid] last (Ok ex)) as [S _]; [cbn; lia|cbn; lia|exact E|].
    unfold shape in S. injection S as S1 S2. intros i j Hi Hj. rewrite L, cut_raised; [discriminate| |].
    - rewrite S1 in Hi. exact Hi.
    - rewrite S2 in Hj. exact Hj. }
  apply transform_inj in H; [|cbn; lia|cbn; lia|intros i j _ _; discriminate|exact Nl].
  destruct H as [_ H]. specialize (H 10%nat 10%nat). rewrite L, cut_raised in H by lia.
  assert (X : px (intact raised) 10 10 = Some (px mixed 10 10)) by (apply H; cbn; lia).
  cbn in X. injection X. lra.
Qed.

(** One extraction from an image with even rows 2 and odd rows 1. *)
Lemma hat_raised : forall stats label,
  let cut := Extract (mkpicks false None) 1 (1, 1)%nat [mid] in
  let s := steps_exec stats label ([] ++ [AskHat; cut]) (mkspectrum (intact raised) None) in
  no_nan (left_after stats label [] (intact raised)) /\ no_nan (sp_interped s) /\
  px (sp_interped s) 10 10 = Some 1 /\ px (intact raised) 10 10 = Some 2.
Proof.
  intros stats label cut s.
  destruct (one_cut stats label None raised mid good_raised_mid) as (last & ex & E & _ & L).
  destruct (C134_first_read_lm stats label raised [AskHat; cut]) as [A _].
  cbn [left_after cut] in A. change (1, 1)%nat with one in A. rewrite E in A. cbn [fst] in A. fold s in A.
  destruct (C132_untouched_lm stats label (mkpicks false None) (intact raised) 1 one [mid] last (Ok ex)) as [S _]; [cbn; lia|cbn; lia|exact E|].
  unfold shape in S. injection S as S1 S2.
  split; [intros i j _ _; discriminate|]. split.
  - change (sp_interped s) with (sp_interped (steps_exec stats label [AskHat; cut] (mkspectrum (intact raised) None))). rewrite A.
    intros i j Hi Hj. rewrite L, cut_raised; [discriminate| |].
    + rewrite S1 in Hi. exact Hi.
    + rewrite S2 in Hj. exact Hj.
  - change (sp_interped s) with (sp_interped (steps_exec stats label [AskHat; cut] (mkspectrum (intact raised) None))). rewrite A, L, cut_raised by lia.
    cbn. split; f_equal; lra.
Qed.
