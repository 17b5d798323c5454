(** What any history leaves alone in the interpolated image of the Gaussian class. *)
From Coq Require Import ZArith List Bool Arith Reals Lia.
From Coquelicot Require Import Complex.
From Verif.Model Require Import Py Plane Ma Interp FindS Sources Stamps Cut KL Session Filter Chain CutChain Gauss GaussImage Live LiveGauss.
From Verif.Spec Require Import Stamps Chain Session Cut CutCoadd Live LiveFar LiveGauss.
From Verif.Proof Require Import Session SessionLm Chain ChainMain ChainUnits GaussImage Cut CutMain CutLeft CutChain CutChainLeft Live LiveKeeps LiveMain LiveFar LiveGauss.
Import ListNotations.
Set Bullet Behavior "Strict Subproofs".
Local Open Scope R_scope.

Section Keeps.
Variables PIC NI FT IM : Type.
Variable L : llib PIC NI FT IM.
Variables (pinv : PIC -> Prop) (shape_ok : nat * nat -> Prop) (src_ok : src -> Prop).
Hypothesis Hsel : forall c, select (base L) = Ok c -> Forall src_ok c.
Hypothesis HC : forall p sh c p' st r, pinv p -> shape_ok sh -> Forall src_ok c ->
  cutting L p sh c = (p', (st, r)) -> pinv p' /\ forall ps kept, r = Ok (ps, kept) -> Forall src_ok kept.
Hypothesis HF : forall p z a b n, pinv p -> pinv (fst (filtering L p z a b n)).
Variables (fitter : Gauss.start -> plane R -> gaussian) (stats : list R -> R * R * R) (render : R -> R -> R -> R -> plane (option R)).

Notation K := (keeps PIC NI FT IM pinv shape_ok src_ok).
Notation kbind := (k_bind PIC NI FT IM pinv shape_ok src_ok).
Notation kget := (k_get PIC NI FT IM pinv shape_ok src_ok).
Notation kret := (k_ret PIC NI FT IM pinv shape_ok src_ok).
Ltac kupd := apply k_upd; intros; cbn; repeat split; auto.

Lemma gk_psf l sh : K (lg_psf L fitter stats render l sh).
Proof.
  intros x H. unfold lg_psf. pose proof (k_n PIC NI FT IM L pinv shape_ok src_ok Hsel HC x H) as N.
  destruct (l_n_sources PIC NI FT IM L x) as [[n|e] x1]; exact N.
Qed.
Lemma gk_normal : K (lg_normal_image L fitter stats render).
Proof.
  intros x H. unfold lg_normal_image. destruct (normal (snd x)); [exact H|].
  refine (kbind _ _ _ _ (gk_psf _ _) _ x H). intros a. cbv zeta. apply kbind; [kupd|intros _; apply kret].
Qed.
Lemma gk_shat : K (lg_s_hat_comp L fitter stats render).
Proof.
  intros x H. unfold lg_s_hat_comp. destruct (match shat (snd x) with None => _ | Some _ => _ end).
  - refine (kbind _ _ _ _ (gk_psf _ _) _ x H). intros psf. apply kbind; [exact gk_normal|]. intros nrm.
    apply kget. intros s. apply kbind; [|intros h; apply kbind; [kupd|intros _; apply kret]].
    intros [p t] (A & B & C & D). cbn [fst snd] in *.
    pose proof (HF p (get_zp _ _ _ s) (fst psf) (snd psf) nrm A) as F. destruct (filtering L p _ _ _ _) as [p' h]. cbn [fst snd] in *.
    now repeat split.
  - destruct (shat (snd x)) as [[h l]|]; exact H.
Qed.
Lemma gk_scomp : K (lg_s_component L fitter stats render).
Proof.
  intros x H. unfold lg_s_component. refine (kbind _ _ _ _ _ _ x H).
  - destruct (scomp (snd x)); [apply kret|]. apply kbind; [exact gk_shat|]. intros h. apply kget. intros s. kupd.
  - intros _. apply kget. intros s. destruct (scomp s) as [[c l]|]; [|apply k_raise].
    destruct (Req_EM_T _ _); [apply kret|]. apply kbind; [exact gk_shat|]. intros h. cbv zeta. apply kbind; [kupd|intros _; apply kret].
Qed.

Lemma gk_exec c : (forall q, In q (g_asks_shape c) -> shape_ok q) -> (forall s, In s (brings c) -> src_ok s) ->
  forall x, holds PIC NI FT IM pinv shape_ok src_ok x -> holds PIC NI FT IM pinv shape_ok src_ok (lg_exec L fitter stats render c x).
Proof.
  intros Q B x H.
  assert (E : (forall q, In q (asks_shape c) -> shape_ok q) -> holds PIC NI FT IM pinv shape_ok src_ok (l_exec L c x)).
  { intros Q'. now apply (k_exec PIC NI FT IM L pinv shape_ok src_ok Hsel HC HF c). }
  destruct c; cbn [lg_exec g_asks_shape asks_shape] in *; try (now apply E); unfold lvoid.
  - now apply gk_psf.
  - now apply gk_normal.
  - now apply gk_shat.
  - now apply gk_scomp.
Qed.

Lemma gk_all cs : (forall q, In q (flat_map g_asks_shape cs) -> shape_ok q) -> (forall s, In s (flat_map brings cs) -> src_ok s) ->
  forall x, holds PIC NI FT IM pinv shape_ok src_ok x -> holds PIC NI FT IM pinv shape_ok src_ok (lg_exec_all L fitter stats render cs x).
Proof.
  induction cs as [|c cs IH]; intros Q B x H; [exact H|]. unfold lg_exec_all. cbn [fold_left flat_map] in *.
  apply IH; [intros; apply Q, in_app_iff; auto|intros; apply B, in_app_iff; auto|].
  apply gk_exec; [intros; apply Q, in_app_iff; auto|intros; apply B, in_app_iff; auto|exact H].
Qed.
End Keeps.

(** Whatever is called on an image of this class, in whatever order, whatever raises: a pixel that
    is in no stamp of the shapes that were set, around the sources of the image and those given to it, is what the
    constructor made; so it is where the matched filter reads it. *)
Lemma C139_far_lm : forall W fitter stats render fuel o d x cs,
  build W fuel o d = Some (Ok x) ->
  let shapes := stamp_shape (bu_attr x) :: flat_map g_asks_shape cs in
  (forall q, In q shapes -> (0 < fst q)%nat /\ (0 < snd q)%nat) ->
  let p := fst (lg_lived W fitter stats render o cs x) in
  shape (pic_now p) = shape (bu_clean x) /\
  forall i j,
  (forall q s, In q shapes -> In s (own_sources x ++ flat_map brings cs) -> ~ in_stamp q s (Z.of_nat i) (Z.of_nat j)) ->
  px (pic_now p) i j = Some (px (bu_clean x) i j) /\
  forall h, pic_hat p = Some h -> px h i j = Some (px (bu_clean x) i j).
Proof.
  intros W fitter stats render fuel o d x cs E shapes Pos p. destruct (own_build _ _ _ _ _ E) as (O1 & O2 & O3).
  pose (src_ok := fun s => In s (own_sources x ++ flat_map brings cs)).
  pose (far := fun i j => forall q s, In q shapes -> src_ok s -> ~ in_stamp q s (Z.of_nat i) (Z.of_nat j)).
  pose (same := fun im : plane (option R) => forall i j, far i j -> px im i j = Some (px (bu_clean x) i j)).
  pose (pinv := fun p => nr (pic_now p) = nr (bu_clean x) /\ nc (pic_now p) = nc (bu_clean x) /\ same (pic_now p) /\
    forall h, pic_hat p = Some h -> same h).
  assert (Own : Forall src_ok (own_sources x)) by (apply Forall_forall; intros s I; apply in_app_iff; now left).
  assert (H : holds _ _ _ _ pinv (fun q => In q shapes) src_ok (lg_lived W fitter stats render o cs x)).
  { apply (gk_all _ _ _ _ (live_lib W o x)).
    - intros c S. now rewrite (O1 c S).
    - intros p0 sh c p' st r (A & B & Sm & Hh) Hq Hc. cbn [live_lib cutting].
      destruct (Pos sh Hq) as [Hr Hc'].
      destruct (dump_out W (mkpicks (o_pick o) None) (b_rms (bu_back x)) sh Hr Hc' c (pic_now p0) 0) as (A' & B' & O').
      destruct (cut_dump W _ _ _ sh c 0) as [now [sts rr]]. cbn [fst] in A', B', O'. intros [= <- <- <-]. split.
      + split; [cbn; congruence|]. split; [cbn; congruence|]. split; [|exact Hh]. intros i j F. cbn [pic_now].
        rewrite O'; [now apply Sm|]. intros s I. apply (F sh s Hq). now apply (proj1 (Forall_forall _ _) Hc).
      + intros ps kept. destruct rr as [[pos' del]|e]; cbn [bind]; [|discriminate]. intros [= <- <-].
        match goal with |- Forall _ (if ?b then _ else _) => destruct b end; [|exact Hc].
        apply Forall_forall. intros s I. apply (proj1 (Forall_forall _ _) Hc). exact (delete_in _ _ _ _ I).
    - intros p0 z a b n (A & B & Sm & Hh). cbn [live_lib filtering]. destruct a; [|now repeat split]. cbn [fst].
      split; [exact A|]. split; [exact B|]. split; [exact Sm|]. intros h. cbn [pic_hat]. intros [= <-].
      destruct (pic_hat p0) as [h0|] eqn:P; [now apply Hh|exact Sm].
    - intros q I. now right.
    - intros s I. apply in_app_iff. now right.
    - unfold holds. cbn [fst snd untouched pic_now pic_hat]. split; [|split; [|split]].
      + unfold pinv. cbn. repeat split; auto. discriminate.
      + intros c B. now rewrite (O2 c B).
      + intros q. rewrite O3. discriminate.
      + intros _. now left. }
  destruct H as ((A & B & Sm & Hh) & _). split; [unfold shape, p; now rewrite A, B|]. intros i j F. split; [now apply Sm|].
  intros h Hp. now apply (Hh h Hp).
Qed.

