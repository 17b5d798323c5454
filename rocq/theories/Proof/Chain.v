(** Values under the mask are not used; the level of the sky does not matter. *)
From Coq Require Import ZArith List Bool Arith Reals Lia Lra FunctionalExtensionality SpecFloat.
From Flocq Require Import Core.Core IEEE754.BinarySingleNaN.
From Coquelicot Require Import Complex.
From Verif.Model Require Import Py Plane Ma Image Interp Sources Stamps KL Session Filter Transparency Subtract Chain.
From Verif.Spec Require Import Image Chain.
Import ListNotations.
Set Bullet Behavior "Strict Subproofs".
Local Open Scope R_scope.

Lemma plane_ext {A} (p q : plane A) : shape p = shape q ->
  (forall i j, px p i j = px q i j) -> p = q.
Proof.
  destruct p as [a b f], q as [a' b' f']. unfold shape. cbn. intros E H. injection E as -> ->.
  f_equal. extensionality i. extensionality j. apply H.
Qed.

Lemma in_range (a b i j : nat) : (i <? a)%nat && (j <? b)%nat = true <-> (i < a /\ j < b)%nat.
Proof. rewrite andb_true_iff, !Nat.ltb_lt. reflexivity. Qed.

Definition sane (d : mimg) : Prop :=
  shape (m_msk d) = shape (m_dat d) /\
  (forall i j, ~ (i < nr (m_dat d) /\ j < nc (m_dat d))%nat ->
     px (m_dat d) i j = None /\ px (m_msk d) i j = false).

Lemma mdata_sane im : sane (mdata im).
Proof.
  split; [reflexivity|]. intros i j H. unfold mdata. cbn [m_dat m_msk tidy px pmap nr nc] in *.
  destruct ((i <? nr (dat (im_data im)))%nat && (j <? nc (dat (im_data im)))%nat) eqn:E.
  - apply in_range in E. contradiction.
  - auto.
Qed.

(** Same mask; same values, up to [f], where nothing is masked. *)
Definition tied (f : R -> R) (d d' : mimg) : Prop :=
  m_msk d = m_msk d' /\ shape (m_dat d) = shape (m_dat d') /\
  forall i j, px (m_msk d) i j = false -> px (m_dat d') i j = option_map f (px (m_dat d) i j).

Lemma mdata_tied f im im' : shape (pixels im) = shape (pixels im') ->
  (forall i j, (i < nr (pixels im))%nat -> (j < nc (pixels im))%nat ->
    (is_masked im i j <-> is_masked im' i j) /\
    (~ is_masked im i j ->
     to_real (px (pixels im') i j) = option_map f (to_real (px (pixels im) i j)))) ->
  tied f (mdata im) (mdata im').
Proof.
  unfold pixels, is_masked. intros S H. pose proof S as S'. unfold shape in S'. injection S' as Sr Sc.
  split.
  - unfold mdata. cbn [m_msk]. apply plane_ext; [unfold tidy, shape; cbn [nr nc]; now rewrite Sr, Sc|].
    intros i j. unfold tidy. cbn [px nr nc]. rewrite <- Sr, <- Sc.
    destruct ((i <? nr (dat (im_data im)))%nat && (j <? nc (dat (im_data im)))%nat) eqn:E; [|reflexivity].
    apply in_range in E. destruct (H i j (proj1 E) (proj2 E)) as [A _].
    apply Bool.eq_iff_eq_true. exact A.
  - split; [unfold mdata, tidy, shape; cbn [m_dat nr nc pmap]; now rewrite Sr, Sc|].
    intros i j. unfold mdata, tidy. cbn [m_msk m_dat px nr nc pmap]. rewrite <- Sr, <- Sc.
    destruct ((i <? nr (dat (im_data im)))%nat && (j <? nc (dat (im_data im)))%nat) eqn:E; [|reflexivity].
    intros M. apply in_range in E. destruct (H i j (proj1 E) (proj2 E)) as [_ B]. apply B. congruence.
Qed.

Lemma alike_tied im im' : alike im im' -> tied (fun x => x) (mdata im) (mdata im').
Proof.
  intros [S H]. apply mdata_tied; [exact S|]. intros i j Hi Hj. destruct (H i j Hi Hj) as [A B].
  split; [exact A|]. intros N. rewrite <- (B N). now destruct (to_real (px (pixels im) i j)).
Qed.

Lemma raised_tied c im im' : raised_by c im im' -> tied (fun x => x + c) (mdata im) (mdata im').
Proof. intros [S H]. apply mdata_tied; [exact S|exact H]. Qed.

Lemma anyb_px m : anyb m = false -> forall i j, (i < nr m)%nat -> (j < nc m)%nat -> px m i j = false.
Proof.
  unfold anyb. intros H i j Hi Hj. apply not_true_is_false. intros T.
  assert (X : existsb (fun i => existsb (fun j => px m i j) (seq 0 (nc m))) (seq 0 (nr m)) = true).
  { apply existsb_exists. exists i. split; [apply in_seq; lia|].
    apply existsb_exists. exists j. split; [apply in_seq; lia|exact T]. }
  congruence.
Qed.

Lemma option_map_id {A} (x : option A) : option_map (fun x => x) x = x.
Proof. now destruct x. Qed.

Section W.
Variable W : libs.
Hypothesis blind : sep_skips_masked W.

(** The background of tied images, when sep's answer to [f] applied everywhere is known. *)
Lemma set_bkg_tied (f : R -> R) (g : backobj -> backobj) o d d' :
  sane d -> sane d' -> tied f d d' ->
  (forall p m, l_background W (pmap (option_map f) p) m =
     match l_background W p m with Ok b => Ok (g b) | Raise e => Raise e end) ->
  set_bkg W o d' = match set_bkg W o d with Ok b => Ok (g b) | Raise e => Raise e end.
Proof.
  intros [S1 O1] [S2 O2] (M & S & V) F. unfold set_bkg. rewrite <- M.
  destruct (anyb (m_msk d)) eqn:E.
  - assert (X : l_background W (m_dat d') (Some (m_msk d)) =
                match l_background W (m_dat d) (Some (m_msk d)) with Ok b => Ok (g b) | Raise e => Raise e end).
    { rewrite <- F. apply (proj1 blind). split; [now rewrite <- S|]. intros i j _ _ N. now apply V. }
    now destruct o.
  - rewrite <- F. f_equal. apply plane_ext; [now rewrite <- S|]. intros i j. cbn [px pmap]. apply V.
    unfold shape in S1. injection S1 as Sr Sc.
    destruct (le_lt_dec (nr (m_dat d)) i) as [Hi|Hi]; [apply O1; lia|].
    destruct (le_lt_dec (nc (m_dat d)) j) as [Hj|Hj]; [apply O1; lia|].
    apply anyb_px; [exact E|rewrite Sr; exact Hi|rewrite Sc; exact Hj].
Qed.

(** What is left after the background is subtracted. *)
Definition level (f : R -> R) (b b' : backobj) : Prop :=
  b_rms b' = b_rms b /\ forall x i j, f x - px (b_back b') i j = x - px (b_back b) i j.

Lemma sub_data_tied f d d' b b' : tied f d d' -> level f b b' ->
  same_off (m_msk d) (sub_data d b) (sub_data d' b').
Proof.
  intros (M & S & V) [_ Lv]. unfold shape in S. injection S as Sr Sc. split.
  - unfold sub_data, tidy, shape. cbn. now rewrite Sr, Sc.
  - intros i j _ _ N. unfold sub_data, tidy. cbn [px nr nc]. rewrite <- Sr, <- Sc, <- M, N, (V i j N).
    destruct ((i <? nr (m_dat d))%nat && (j <? nc (m_dat d))%nat); [|reflexivity].
    destruct (px (m_dat d) i j) as [x|]; [|reflexivity]. cbn. now rewrite Lv.
Qed.

Lemma attempts_tied f st d d' b b' : tied f d d' -> level f b b' ->
  attempts_of W st d' b' = attempts_of W st d b.
Proof.
  intros T Lv. pose proof (sub_data_tied _ _ _ _ _ T Lv) as E. destruct T as (M & _), Lv as [Rm _].
  unfold attempts_of. rewrite Rm, <- M.
  rewrite !(fun s t n => eq_sym (proj2 blind s (m_msk d) _ _ t n E)). reflexivity.
Qed.

Lemma interped_only_filled fuel conv cos cos' d d' b b' :
  filled_nan (bkg_sub_img d b) = filled_nan (bkg_sub_img d' b') ->
  Interp.interped fuel conv cos d b = Interp.interped fuel conv cos' d' b'.
Proof. intros E. unfold Interp.interped. now rewrite E. Qed.

Lemma clean_tied f fuel d d' b b' : tied f d d' -> level f b b' ->
  clean W fuel d' b' = clean W fuel d b.
Proof.
  intros (M & S & V) [_ Lv]. unfold clean. f_equal. apply interped_only_filled.
  apply plane_ext.
  - unfold filled_nan, bkg_sub_img, pmap2, shape. cbn. unfold shape in S. now injection S as -> ->.
  - intros i j. unfold filled_nan, bkg_sub_img, pmap2. cbn [px m_dat m_msk]. rewrite <- M.
    destruct (px (m_msk d) i j) eqn:N; [reflexivity|]. rewrite (V i j N).
    destruct (px (m_dat d) i j) as [x|]; [|reflexivity]. cbn. now rewrite Lv.
Qed.

Lemma lib_tied f st mn pk d d' b b' img : tied f d d' -> level f b b' ->
  lib_of W st mn pk d' b' img = lib_of W st mn pk d b img.
Proof.
  intros T Lv. pose proof T as (M & S & V). pose proof Lv as [Rm _].
  unfold lib_of, catalogue. rewrite (attempts_tied _ _ _ _ _ _ T Lv), Rm, S. reflexivity.
Qed.

(** The second image after its constructor, given the first. *)
Definition moved (d' : mimg) (g : backobj -> backobj) (x : built) : built :=
  mkbuilt d' (g (bu_back x)) (bu_clean x) (bu_lib x) (bu_attr x).

Lemma build_data fuel o d x : build W fuel o d = Some (Ok x) -> bu_data x = d.
Proof.
  unfold build. destruct (set_bkg W (o_thresh o) d); [|discriminate].
  destruct (clean W fuel d a) as [img|]; [|discriminate].
  destruct (o_stamp o); [intros [= <-]; reflexivity|].
  destruct (Session.select _ _ _ _); cbn; [intros [= <-]; reflexivity|discriminate].
Qed.

Lemma build_tied f g fuel o d d' : sane d -> sane d' -> tied f d d' ->
  (forall p m, l_background W (pmap (option_map f) p) m =
     match l_background W p m with Ok b => Ok (g b) | Raise e => Raise e end) ->
  (forall b, level f b (g b)) ->
  build W fuel o d' = match build W fuel o d with
                      | Some (Ok x) => Some (Ok (moved d' g x))
                      | r => r
                      end.
Proof.
  intros I I' T F Lv. unfold build.
  rewrite (set_bkg_tied f g (o_thresh o) d d' I I' T F).
  destruct (set_bkg W (o_thresh o) d) as [b|e]; [|reflexivity].
  rewrite (clean_tied f fuel d d' b (g b) T (Lv b)).
  destruct (clean W fuel d b) as [img|]; [|reflexivity].
  rewrite (lib_tied f _ _ _ d d' b (g b) img T (Lv b)).
  destruct (o_stamp o); [reflexivity|].
  now destruct (Session.select _ _ _ _).
Qed.
End W.
