(** The interpolated image. *)
From Coq Require Import ZArith List Bool Arith Reals Lia Lra.
From Verif.Model Require Import Py Plane Interp.
From Verif.Spec Require Import Interp.
Import ListNotations.
Local Open Scope R_scope.

Lemma any_nan_false a : any_nan a = false <->
  forall i j, (i < nr a)%nat -> (j < nc a)%nat -> px a i j <> None.
Proof.
  unfold any_nan. split.
  - intros H i j Hi Hj E.
    assert (T : existsb (fun i => existsb (fun j => is_nan (px a i j)) (seq 0 (nc a))) (seq 0 (nr a)) = true).
    { apply existsb_exists. exists i. split; [apply in_seq; lia|].
      apply existsb_exists. exists j. split; [apply in_seq; lia|]. now rewrite E. }
    congruence.
  - intros H. apply not_true_is_false. intros T. apply existsb_exists in T. destruct T as (i & Hi & T).
    apply existsb_exists in T. destruct T as (j & Hj & T). apply in_seq in Hi, Hj.
    destruct (px a i j) eqn:E; [discriminate|]. apply (H i j); [lia|lia|exact E].
Qed.

Lemma replace_shape conv a : shape (replace_nans conv a) = shape a.
Proof. unfold replace_nans. now destruct (any_nan a). Qed.

Lemma replace_keeps conv a i j x : px a i j = Some x -> px (replace_nans conv a) i j = Some x.
Proof.
  intros H. unfold replace_nans. destruct (any_nan a); [|exact H]. cbn [px]. now rewrite H.
Qed.

Lemma replace_fills conv a i j : (i < nr a)%nat -> (j < nc a)%nat -> px a i j = None ->
  px (replace_nans conv a) i j = px (conv a) i j.
Proof.
  intros Hi Hj H. unfold replace_nans. destruct (any_nan a) eqn:E.
  - cbn [px]. now rewrite H.
  - apply any_nan_false with (i := i) (j := j) in E; congruence.
Qed.

Lemma loop_inv conv fuel a r : replace_loop fuel conv a = Some r ->
  shape r = shape a /\ any_nan r = false /\
  (forall i j x, px a i j = Some x -> px r i j = Some x).
Proof.
  revert a. induction fuel as [|fuel IH]; intros a H; [discriminate|]. cbn in H.
  destruct (any_nan a) eqn:E.
  - destruct (IH _ H) as (S & N & K). split; [rewrite S; apply replace_shape|]. split; [exact N|].
    intros i j x Hx. apply K. now apply replace_keeps.
  - injection H as <-. auto.
Qed.

(** There is no nan in the result, which has the shape of the image. *)
Lemma C28_no_nan_lm : forall fuel conv cosmics data bkg r,
  interped fuel conv cosmics data bkg = Some r ->
  shape r = shape (m_dat data) /\
  forall i j, (i < nr r)%nat -> (j < nc r)%nat -> px r i j <> None.
Proof.
  intros fuel conv cosmics data bkg r H. apply loop_inv in H. destruct H as (S & N & _). split.
  - rewrite S, replace_shape. reflexivity.
  - now apply any_nan_false.
Qed.

(** Good pixels keep their value (less the background), whatever the cosmic ray detector
    says; nothing else depends on that detector either. *)
Lemma C28_good_pixels_lm : forall fuel conv cosmics data bkg r i j x,
  interped fuel conv cosmics data bkg = Some r ->
  px (m_msk data) i j = false -> px (m_dat data) i j = Some x ->
  px r i j = Some (x - px bkg i j).
Proof.
  intros fuel conv cosmics data bkg r i j x H M D. apply loop_inv in H. destruct H as (_ & _ & K).
  apply K, replace_keeps. unfold filled_nan, bkg_sub_img, pmap2. cbn [px m_dat m_msk].
  now rewrite M, D.
Qed.

Lemma C28_cosmic_rays_refuted_lm : forall fuel conv cosmics cosmics' data bkg,
  interped fuel conv cosmics data bkg = interped fuel conv cosmics' data bkg.
Proof. reflexivity. Qed.

(** A bad pixel gets the value of the smoothed image, if there is one. *)
Lemma C28_bad_pixels_lm : forall fuel conv cosmics data bkg r i j v,
  interped fuel conv cosmics data bkg = Some r ->
  (i < nr r)%nat -> (j < nc r)%nat -> ~ good data i j ->
  px (conv (mkplane (nr (m_dat data)) (nc (m_dat data)) (fun i j =>
        if px (m_msk data) i j then None
        else option_map (fun x => x - px bkg i j) (px (m_dat data) i j)))) i j = Some v ->
  px r i j = Some v.
Proof.
  intros fuel conv cosmics data bkg r i j v H Hi Hj G V.
  pose proof (C28_no_nan_lm _ _ _ _ _ _ H) as [S _]. unfold shape in S. injection S as Sr Sc.
  apply loop_inv in H. destruct H as (_ & _ & K). apply K.
  assert (N : px (filled_nan (bkg_sub_img data bkg)) i j = None).
  { unfold filled_nan, bkg_sub_img, pmap2. cbn [px m_dat m_msk].
    destruct (px (m_msk data) i j) eqn:M; [reflexivity|].
    destruct (px (m_dat data) i j) eqn:D; [|reflexivity].
    exfalso. apply G. unfold good. rewrite <- Sr, <- Sc, M, D. repeat split; try assumption. discriminate. }
  rewrite replace_fills; [exact V| | |exact N]; cbn [nr nc filled_nan pmap2 bkg_sub_img m_dat]; lia.
Qed.

Fixpoint rounds (k : nat) (conv : plane (option R) -> plane (option R)) a :=
  match k with O => a | S k => replace_nans conv (rounds k conv a) end.

Lemma rounds_in k conv a : rounds k conv (replace_nans conv a) = rounds (S k) conv a.
Proof. induction k as [|k IH]; [reflexivity|]. cbn in *. now rewrite IH. Qed.

Lemma rounds_shape k conv a : shape (rounds k conv a) = shape a.
Proof. induction k as [|k IH]; [reflexivity|]. cbn. now rewrite replace_shape. Qed.

Lemma loop_terminates conv k : forall a, any_nan (rounds k conv a) = false ->
  exists r, replace_loop (S k) conv a = Some r.
Proof.
  induction k as [|k IH]; intros a H.
  - cbn in *. rewrite H. eauto.
  - change (replace_loop (S (S k)) conv a) with
      (if any_nan a then replace_loop (S k) conv (replace_nans conv a) else Some a).
    destruct (any_nan a); [|eauto]. apply IH. now rewrite rounds_in.
Qed.

(** After [k] rounds all the cells within [k] steps of a number are numbers. *)
Lemma rounds_reach conv a k gi gj : spreads conv ->
  (gi < nr a)%nat -> (gj < nc a)%nat -> px a gi gj <> None ->
  forall i j, (i < nr a)%nat -> (j < nc a)%nat ->
  (i <= gi + k /\ gi <= i + k /\ j <= gj + k /\ gj <= j + k)%nat -> px (rounds k conv a) i j <> None.
Proof.
  intros Sp Hgi Hgj G. induction k as [|k IH]; intros i j Hi Hj D.
  - replace i with gi by lia. replace j with gj by lia. exact G.
  - cbn [rounds]. set (b := rounds k conv a) in *.
    assert (Sb : shape b = shape a) by apply rounds_shape. unfold shape in Sb. injection Sb as Sr Sc.
    destruct (px b i j) as [x|] eqn:E; [rewrite (replace_keeps conv b i j x E); discriminate|].
    rewrite replace_fills by (rewrite ?Sr, ?Sc; assumption).
    (* a cell one step closer *)
    set (i' := if Nat.ltb gi i then (i - 1)%nat else if Nat.ltb i gi then S i else i).
    set (j' := if Nat.ltb gj j then (j - 1)%nat else if Nat.ltb j gj then S j else j).
    assert (Bi : (i' < nr a)%nat /\ (i <= S i')%nat /\ (i' <= S i)%nat /\ (i' <= gi + k)%nat /\ (gi <= i' + k)%nat).
    { unfold i'. destruct (Nat.ltb_spec gi i); [lia|]. destruct (Nat.ltb_spec i gi); lia. }
    assert (Bj : (j' < nc a)%nat /\ (j <= S j')%nat /\ (j' <= S j)%nat /\ (j' <= gj + k)%nat /\ (gj <= j' + k)%nat).
    { unfold j'. destruct (Nat.ltb_spec gj j); [lia|]. destruct (Nat.ltb_spec j gj); lia. }
    destruct (Sp b) as [_ F]. apply (F i j i' j'); try (rewrite ?Sr, ?Sc; tauto).
    + unfold touching. tauto.
    + apply IH; tauto.
Qed.

(** With one good pixel the loop ends, after at most as many rounds as the longer side. *)
Lemma C28_terminates_lm : forall conv cosmics data bkg gi gj,
  spreads conv -> good data gi gj ->
  exists r, interped (S (Nat.max (nr (m_dat data)) (nc (m_dat data)))) conv cosmics data bkg = Some r.
Proof.
  intros conv cosmics data bkg gi gj Sp (Hi & Hj & M & D).
  unfold interped. set (img := filled_nan (bkg_sub_img data bkg)).
  apply loop_terminates. rewrite rounds_in. apply any_nan_false.
  rewrite (f_equal fst (rounds_shape (S (Nat.max (nr (m_dat data)) (nc (m_dat data)))) conv img) :
             nr (rounds _ conv img) = nr img).
  rewrite (f_equal snd (rounds_shape (S (Nat.max (nr (m_dat data)) (nc (m_dat data)))) conv img) :
             nc (rounds _ conv img) = nc img).
  change (nr img) with (nr (m_dat data)). change (nc img) with (nc (m_dat data)).
  intros i j Hi' Hj'. apply (rounds_reach conv img _ gi gj); try assumption; [|lia].
  unfold img, filled_nan, bkg_sub_img, pmap2. cbn [px m_dat m_msk]. rewrite M.
  destruct (px (m_dat data) gi gj); [discriminate|congruence].
Qed.

(** Without any good pixel it never ends. *)
Lemma C28_never_returns_lm : forall fuel conv cosmics data bkg,
  keeps_nothing conv -> (1 <= nr (m_dat data))%nat -> (1 <= nc (m_dat data))%nat ->
  (forall i j, ~ good data i j) ->
  interped fuel conv cosmics data bkg = None.
Proof.
  intros fuel conv cosmics data bkg K H1 H2 G. unfold interped.
  set (img := filled_nan (bkg_sub_img data bkg)).
  assert (N : forall a, shape a = shape img ->
     (forall i j, (i < nr a)%nat -> (j < nc a)%nat -> px a i j = None) ->
     shape (replace_nans conv a) = shape img /\
     (forall i j, (i < nr a)%nat -> (j < nc a)%nat -> px (replace_nans conv a) i j = None)).
  { intros a Sa A. split; [now rewrite replace_shape|]. intros i j Hi Hj.
    rewrite replace_fills by auto. now apply K. }
  assert (L : forall fuel a, shape a = shape img ->
     (forall i j, (i < nr a)%nat -> (j < nc a)%nat -> px a i j = None) -> replace_loop fuel conv a = None).
  { intros f. induction f as [|f IH]; intros a Sa A; [reflexivity|]. cbn.
    assert (E : any_nan a = true).
    { destruct (any_nan a) eqn:E; [reflexivity|]. exfalso. unfold shape in Sa. injection Sa as Sr Sc.
      apply any_nan_false with (i := 0%nat) (j := 0%nat) in E;
        [apply E, A| |]; rewrite ?Sr, ?Sc; assumption. }
    rewrite E. destruct (N a Sa A) as [Sn An]. apply IH; [exact Sn|].
    intros i j Hi Hj. apply An.
    - rewrite <- Sn in Sa. unfold shape in Sa. injection Sa as -> _. exact Hi.
    - rewrite <- Sn in Sa. unfold shape in Sa. injection Sa as _ ->. exact Hj. }
  assert (A0 : forall i j, (i < nr img)%nat -> (j < nc img)%nat -> px img i j = None).
  { intros i j Hi Hj. unfold img, filled_nan, bkg_sub_img, pmap2. cbn [px m_dat m_msk].
    destruct (px (m_msk data) i j) eqn:M; [reflexivity|].
    destruct (px (m_dat data) i j) eqn:D; [|reflexivity].
    exfalso. apply (G i j). unfold good. rewrite M, D. repeat split; try assumption. discriminate. }
  destruct (N img eq_refl A0) as [Sn An]. apply L; [exact Sn|].
  intros i j Hi Hj. unfold shape in Sn. injection Sn as Sr Sc.
  rewrite Sr in Hi. rewrite Sc in Hj. now apply An.
Qed.
