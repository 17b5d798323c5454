(** The interpolated image that cutting leaves, and cutting a second time. *)
From Coq Require Import ZArith List Bool Arith Reals Lia Lra Sorting.Sorted.
From Flocq Require Import Core.Raux.
From Verif.Model Require Import Py Plane Sources FindS Stamps Interp Cut.
From Verif.Spec Require Import FindS Stamps Cut.
From Verif.Proof Require Import FindSMain SourcesMain Stamps StampsLoop StampsMain Cut CutIntact CutLoop CutMain.
Import ListNotations.
Local Open Scope R_scope.

Lemma has_level_dec image rms sh s : has_level image rms sh s \/ ~ has_level image rms sh s.
Proof. unfold has_level. destruct (faint _); [right; intros H; now apply H|left; discriminate]. Qed.

Lemma inner_dec image sh s : inner image sh s \/ ~ inner image sh s.
Proof.
  assert (E : inner image sh s <->
    (3 <= start (s_y s) (fst sh) /\ start (s_y s) (fst sh) + Z.of_nat (fst sh) + 3 <= Z.of_nat (nr image) /\
     3 <= start (s_x s) (snd sh) /\ start (s_x s) (snd sh) + Z.of_nat (snd sh) + 3 <= Z.of_nat (nc image))%Z).
  { unfold inner, interior. split; [intros H; apply H; now left|intros H t [<-|[]]; exact H]. }
  rewrite E. lia.
Qed.

(** The image afterwards, when no two stamps overlap: a stamp that is inside the frame lost its
    level there, or became nan when it has none; nothing else changed. *)
Lemma C132_left_lm : forall stats label pk image rms sh sources left ex,
  (0 < fst sh)%nat -> (0 < snd sh)%nat -> apart sh sources ->
  cut_stamps stats label pk (intact image) rms sh sources = (left, Ok ex) ->
  forall i j, (i < nr image)%nat -> (j < nc image)%nat ->
  (forall s, In s sources -> in_stamp sh s (Z.of_nat i) (Z.of_nat j) -> inner image sh s ->
     (has_level image rms sh s -> px left i j = Some (px image i j - level_of image rms sh s)) /\
     (~ has_level image rms sh s -> px left i j = None)) /\
  ((forall s, In s sources -> in_stamp sh s (Z.of_nat i) (Z.of_nat j) -> ~ inner image sh s) ->
     px left i j = Some (px image i j)).
Proof.
  intros stats label pk image rms sh sources left ex Hr Hc Ap H i j Hi Hj.
  apply cut_ok in H. destruct H as (v & T & _).
  pose proof (turns_apart _ _ _ _ _ Hr Hc (intact image) _ _ _ _ Ap (fun s _ => agree_refl sh s _) T) as F.
  pose proof (turns_in _ _ _ _ _ Hr Hc (intact image) _ _ _ _ Ap (fun s _ => agree_refl sh s _) T) as G.
  destruct (turns_out _ _ _ _ _ Hr Hc _ _ _ _ T) as (_ & _ & U).
  assert (C : forall s, In s sources -> in_stamp sh s (Z.of_nat i) (Z.of_nat j) ->
     (inner image sh s -> (has_level image rms sh s -> px left i j = Some (px image i j - level_of image rms sh s)) /\
                          (~ has_level image rms sh s -> px left i j = None)) /\
     (~ inner image sh s -> px left i j = Some (px image i j))).
  { intros s I J. rewrite (G s i j I Hi Hj J). apply In_nth_error in I. destruct I as [k K].
    destruct (F2_nth_r _ _ _ F _ _ K) as (o & _ & O). destruct (cut_one_ok _ _ _ _ _ _ Hr Hc _ _ O) as (A & B & D & _).
    exact (cut_writes stats label pk image rms sh Hr Hc s A B D i j Hi Hj J). }
  split.
  - intros s I J. exact (proj1 (C s I J)).
  - intros N. assert (X : (exists s, In s sources /\ in_stamp sh s (Z.of_nat i) (Z.of_nat j)) \/
      forall s, In s sources -> ~ in_stamp sh s (Z.of_nat i) (Z.of_nat j)).
    { clear. induction sources as [|a l [(s & I & J)|IH]].
      - right. intros s [].
      - left. exists s. split; [now right|exact J].
      - assert (in_stamp sh a (Z.of_nat i) (Z.of_nat j) \/ ~ in_stamp sh a (Z.of_nat i) (Z.of_nat j)) as [J|J] by (unfold in_stamp; lia).
        + left. exists a. split; [now left|exact J].
        + right. intros s [<-|I]; auto. }
    destruct X as [(s & I & J)|X]; [|exact (U i j X)]. exact (proj2 (C s I J) (N s I J)).
Qed.

(** A pixel that is in no stamp does not change, and the shape does not change, whatever
    happens. *)
Lemma C132_untouched_lm : forall stats label pk image rms sh sources left r,
  (0 < fst sh)%nat -> (0 < snd sh)%nat ->
  cut_stamps stats label pk image rms sh sources = (left, r) ->
  shape left = shape image /\
  forall i j, (forall s, In s sources -> ~ in_stamp sh s (Z.of_nat i) (Z.of_nat j)) -> px left i j = px image i j.
Proof.
  intros stats label pk image rms sh sources left r Hr Hc H. destruct r as [ex|e].
  - apply cut_ok in H. destruct H as (v & T & _). destruct (turns_out _ _ _ _ _ Hr Hc _ _ _ _ T) as (A & B & U).
    split; [unfold shape; congruence|exact U].
  - apply cut_raise in H. destruct H as (pre & s & post & v & mid & -> & T & X).
    destruct (turns_out _ _ _ _ _ Hr Hc _ _ _ _ T) as (A & B & U).
    destruct (cut_dims stats label pk rms sh Hr Hc mid s) as [A' B']. rewrite X in A', B'. cbn [fst] in A', B'.
    split; [unfold shape; congruence|]. intros i j N.
    pose proof (cut_out stats label pk rms sh Hr Hc mid s i j) as Y. rewrite X in Y. cbn [fst] in Y.
    rewrite Y, U; [reflexivity| |].
    + intros t I. apply N. apply in_app_iff. now left.
    + apply N. apply in_app_iff. right. now left.
Qed.

(** The sources are taken one after the other, each from the image the ones before it left. *)
Lemma C132_in_turn_lm : forall stats label pk image rms sh before s after left ex,
  cut_stamps stats label pk image rms sh (before ++ s :: after) = (left, Ok ex) ->
  exists mid1 mid2 ex1 ex2 ex3,
    cut_stamps stats label pk image rms sh before = (mid1, Ok ex1) /\
    cut_stamps stats label pk mid1 rms sh [s] = (mid2, Ok ex2) /\
    cut_stamps stats label pk mid2 rms sh after = (left, Ok ex3) /\
    ex_stamps ex = ex_stamps ex1 ++ ex_stamps ex2 ++ ex_stamps ex3 /\
    ex_pos ex = ex_pos ex1 ++ ex_pos ex2 ++ ex_pos ex3.
Proof.
  intros stats label pk image rms sh before s after left ex H.
  apply cut_ok in H. destruct H as (v & T & ->). pose proof (turns_app _ _ _ _ _ _ _ _ _ _ T) as (v1 & v2 & mid1 & -> & T1 & T2).
  pose proof (turns_len _ _ _ _ _ _ _ _ _ T1) as L1.
  inversion T2 as [|? ? o mid2 ? v3 ? E T3]; subst.
  exists mid1, mid2, (result sh pk before v1), (result sh pk [s] [o]), (result sh pk after v3).
  split; [apply cut_ok; eauto|].
  split; [apply cut_ok; exists [o]; split; [econstructor; [exact E|constructor]|reflexivity]|].
  split; [apply cut_ok; eauto|]. cbn [result ex_stamps ex_pos].
  assert (S : somes (v1 ++ o :: v3) = somes v1 ++ somes [o] ++ somes v3).
  { clear. induction v1 as [|[a|] v1 IH]; cbn; [destruct o; reflexivity|now rewrite IH|exact IH]. }
  assert (P : pick (before ++ s :: after) (v1 ++ o :: v3) = pick before v1 ++ pick [s] [o] ++ pick after v3).
  { clear - L1. revert v1 L1. induction before as [|a l IH]; intros [|b v1] L1; try discriminate; cbn [app pick].
    - destruct o; reflexivity.
    - injection L1 as L1. rewrite (IH _ L1). destruct b; reflexivity. }
  rewrite S, P, !map_app. auto.
Qed.

(** * A second time *)
Lemma stamp_finite_level image rms sh s :
  (0 < fst sh)%nat -> (0 < snd sh)%nat ->
  (forall i j, (i < nr (tstamp image rms sh (s_y s, s_x s)))%nat -> (j < nc (tstamp image rms sh (s_y s, s_x s)))%nat ->
     px (tstamp image rms sh (s_y s, s_x s)) i j <> None) -> has_level image rms sh s.
Proof.
  intros Hr Hc H. destruct (has_level_dec image rms sh s) as [Y|N]; [exact Y|]. exfalso.
  unfold tstamp in H. rewrite (proj2 (tlev_level image rms sh s) N) in H.
  apply (H 0%nat 0%nat); cbn; try lia. reflexivity.
Qed.

Section Again.
Variables (image : plane R) (rms : R) (sh : nat * nat) (s : src).
Hypothesis Hr : (0 < fst sh)%nat.
Hypothesis Hc : (0 < snd sh)%nat.
Hypothesis Hi : inner image sh s.
Hypothesis Hl : has_level image rms sh s.
Let c := level_of image rms sh s.
Let image' := pmap (fun x => x - c) image.

Lemma again_window : plane_eq (stamp_window image' rms sh s) (pmap (fun x => 1 * x + - c) (stamp_window image rms sh s)).
Proof.
  unfold stamp_window. apply plane_eq_trans with (window (pmap (fun x => 1 * x + - c) image) rms sh (s_y s, s_x s) 3).
  - split; [reflexivity|]. intros i j _ _. cbn [window px]. unfold frame. cbn [image' nr nc pmap px].
    destruct (_ && _ && _); [lra|reflexivity].
  - apply (window_affine 1 (- c) image rms rms sh s [s] Hi). now left.
Qed.

Lemma again_faint : faint (values (stamp_window image' rms sh s)) = map (fun x => 1 * x + - c) (faint (values (stamp_window image rms sh s))).
Proof.
  rewrite (values_ext _ _ again_window), values_pmap. apply faint_affine. lra.
Qed.

Lemma again_level : has_level image' rms sh s /\ level_of image' rms sh s = 0.
Proof.
  unfold has_level, level_of. rewrite again_faint. unfold has_level in Hl.
  destruct (faint (values (stamp_window image rms sh s))) as [|y l] eqn:F; [contradiction|].
  split; [discriminate|]. rewrite (median_affine 1 (- c)) by (lra || discriminate).
  unfold c, level_of. rewrite F. lra.
Qed.

Lemma again_tlev : tlev image' rms sh (s_y s, s_x s) = tlev image rms sh (s_y s, s_x s).
Proof.
  destruct again_level as [L Z]. destruct (proj1 (tlev_level image' rms sh s) L) as (q' & -> & P').
  destruct (proj1 (tlev_level image rms sh s) Hl) as (q & -> & P). f_equal. apply tidy_ext.
  rewrite Z in P'. eapply plane_eq_trans; [exact P'|]. eapply plane_eq_trans; [|apply plane_eq_sym; exact P].
  destruct again_window as [S E]. split; [reflexivity|]. intros i j Hi' Hj'. cbn [px pmap].
  fold (stamp_window image' rms sh s). fold (stamp_window image rms sh s). rewrite E; [cbn [px pmap]; unfold c; lra|exact Hi'|exact Hj'].
Qed.

Lemma again_stamp : tstamp image' rms sh (s_y s, s_x s) = tstamp image rms sh (s_y s, s_x s).
Proof.
  unfold tstamp. rewrite again_tlev. destruct (proj1 (tlev_level image rms sh s) Hl) as (q & -> & _). reflexivity.
Qed.

Lemma again_one stats label pk o o' :
  snd (cut_one stats label pk (intact image) rms sh s) = Ok o ->
  snd (cut_one stats label pk (intact image') rms sh s) = Ok o' -> o' = o.
Proof.
  intros O O'. destruct (cut_one_ok _ _ _ _ _ _ Hr Hc _ _ O) as (A & B & C & _).
  destruct (cut_one_ok _ _ _ _ _ _ Hr Hc _ _ O') as (A' & B' & C' & _).
  rewrite cut_normal in O by assumption. rewrite cut_normal in O' by assumption. cbn [snd] in O, O'.
  rewrite again_tlev, again_stamp in O'. congruence.
Qed.

Lemma again_image stats label pk o' i j : snd (cut_one stats label pk (intact image') rms sh s) = Ok o' ->
  (i < nr image)%nat -> (j < nc image)%nat -> in_stamp sh s (Z.of_nat i) (Z.of_nat j) ->
  px (fst (cut_one stats label pk (intact image') rms sh s)) i j = Some (px image i j - c).
Proof.
  intros O' I J S. destruct (cut_one_ok _ _ _ _ _ _ Hr Hc _ _ O') as (A' & B' & C' & _).
  destruct (cut_writes stats label pk image' rms sh Hr Hc s A' B' C' i j I J S) as [W _].
  destruct again_level as [L Z]. destruct (W Hi) as [W1 _]. rewrite (W1 L), Z. cbn [image' px pmap]. f_equal. lra.
Qed.
End Again.

Lemma pick_in {A} (l : list src) (v : list (option A)) (s : src) : In s (pick l v) -> In s l.
Proof.
  revert v. induction l as [|a l IH]; intros [|[b|] v] I; cbn in I; try contradiction.
  - destruct I as [->|I]; [now left|right; eauto].
  - right. eauto.
Qed.

Lemma apart_pick {A} sh (l : list src) : forall (v : list (option A)), apart sh l -> apart sh (pick l v).
Proof.
  induction l as [|a l IH]; intros [|[b|] v] H; cbn; try constructor; apply apart_cons in H; destruct H as [H1 H2].
  - apply Forall_forall. intros t I. apply H1. eapply pick_in; eauto.
  - now apply IH.
  - now apply IH.
Qed.

(** Cutting again from the image and the catalogue that were left, when no two stamps overlap,
    the first stamps are finite and the second cutting returns, gives the same positions, stamps
    and catalogue, and leaves the image as it is. *)
Lemma C33_repeatable_lm : forall stats label pk image rms sh sources left ex left' ex',
  (0 < fst sh)%nat -> (0 < snd sh)%nat -> apart sh sources ->
  cut_stamps stats label pk (intact image) rms sh sources = (left, Ok ex) -> all_finite ex ->
  cut_stamps stats label (ex_picks ex) left rms sh (ex_sources ex) = (left', Ok ex') ->
  ex_pos ex' = ex_pos ex /\ ex_stamps ex' = ex_stamps ex /\ ex_sources ex' = ex_sources ex /\
  ex_n ex' = ex_n ex /\ ex_shape ex' = ex_shape ex /\ plane_eq left' left.
Proof.
  intros stats label pk image rms sh sources left ex left' ex' Hr Hc Ap H Fin H'.
  pose proof (C132_left_lm _ _ _ _ _ _ _ _ _ Hr Hc Ap H) as LF.
  destruct (C132_untouched_lm _ _ _ _ _ _ _ _ _ Hr Hc H) as [SL _]. unfold shape in SL. injection SL as SLr SLc. cbn [intact pmap nr nc] in SLr, SLc.
  apply cut_ok in H. destruct H as (v & T & Ex).
  pose proof (turns_len _ _ _ _ _ _ _ _ _ T) as L.
  pose proof (turns_apart _ _ _ _ _ Hr Hc (intact image) _ _ _ _ Ap (fun s _ => agree_refl sh s _) T) as F.
  (* every source has a level or sticks out *)
  assert (Lev : forall k s o, nth_error sources k = Some s -> nth_error v k = Some o -> has_level image rms sh s).
  { intros k s o K V. pose proof (nth_F2 _ _ _ F _ _ _ K V) as O.
    destruct (cut_one_ok _ _ _ _ _ _ Hr Hc _ _ O) as (A & B & C & [X|X]).
    - subst o. apply (stamp_finite_level image rms sh s Hr Hc). intros i j. apply Fin. rewrite Ex. cbn [result ex_stamps].
      clear - V. revert k V. induction v as [|[a|] v IH]; intros [|k] V; cbn in *; try discriminate; [|right; eauto|eauto].
      left. congruence.
    - subst o. rewrite cut_normal in O by assumption. cbn [snd] in O.
      destruct (private_pick pk); [|discriminate]. destruct (has_level_dec image rms sh s) as [Y|N]; [exact Y|].
      rewrite (proj2 (tlev_level image rms sh s) N) in O. discriminate. }
  (* what the image left is on each stamp *)
  assert (AgI : forall s, In s sources -> inner image sh s ->
     agree sh s left (intact (pmap (fun x => x - level_of image rms sh s) image))).
  { intros s I Y. split; [exact SLr|]. split; [exact SLc|]. intros i j Hi Hj J. rewrite SLr in Hi. rewrite SLc in Hj.
    destruct (LF i j Hi Hj) as [G _]. destruct (G s I J Y) as [G1 _]. cbn [intact pmap px]. apply G1.
    apply In_nth_error in I. destruct I as [k K]. destruct (F2_nth_r _ _ _ F _ _ K) as (o & V & _). eauto. }
  assert (AgO : forall s, In s sources -> ~ inner image sh s -> agree sh s left (intact image)).
  { intros s I Y. split; [exact SLr|]. split; [exact SLc|]. intros i j Hi Hj J. rewrite SLr in Hi. rewrite SLc in Hj.
    destruct (LF i j Hi Hj) as [_ G]. cbn [intact pmap px]. apply G. intros t It Jt.
    destruct (in_split s sources I) as (l1 & l2 & E). rewrite E in Ap, It.
    apply apart_app in Ap. destruct Ap as (_ & A2 & A3). apply apart_cons in A2. destruct A2 as [A2 _].
    apply in_app_iff in It. destruct It as [It|[<-|It]]; [|exact Y|].
    - exfalso. exact (A3 t s It (or_introl eq_refl) _ _ Jt J).
    - exfalso. exact (A2 t It _ _ J Jt). }
  assert (Again : forall s o o', In s sources -> has_level image rms sh s ->
     snd (cut_one stats label pk (intact image) rms sh s) = Ok o ->
     snd (cut_one stats label pk left rms sh s) = Ok o' ->
     o' = o /\ agree sh s (fst (cut_one stats label pk left rms sh s)) left).
  { intros s o o' I Hl O O'. destruct (inner_dec image sh s) as [Y|N].
    - destruct (cut_agree stats label pk rms sh Hr Hc s _ _ (AgI s I Y)) as [E (B1 & B2 & B3)]. rewrite E in O'. split.
      + exact (again_one image rms sh s Hr Hc Y Hl _ _ _ _ _ O O').
      + destruct (cut_dims stats label pk rms sh Hr Hc left s) as [D1 D2].
        split; [exact D1|]. split; [exact D2|]. intros i j Hi Hj J.
        assert (Hi' : (i < nr image)%nat) by congruence. assert (Hj' : (j < nc image)%nat) by congruence.
        rewrite (B3 i j Hi Hj J), (again_image image rms sh s Hr Hc Y Hl _ _ _ _ i j O' Hi' Hj' J).
        destruct (AgI s I Y) as (_ & _ & G). rewrite G by (congruence || exact J). reflexivity.
    - destruct (cut_agree stats label pk rms sh Hr Hc s _ _ (AgO s I N)) as [E (B1 & B2 & B3)]. rewrite E in O'. split; [congruence|].
      destruct (cut_dims stats label pk rms sh Hr Hc left s) as [D1 D2].
      split; [exact D1|]. split; [exact D2|]. intros i j Hi Hj J.
      assert (Hi' : (i < nr image)%nat) by congruence. assert (Hj' : (j < nc image)%nat) by congruence.
      rewrite (B3 i j Hi Hj J). destruct (cut_one_ok _ _ _ _ _ _ Hr Hc _ _ O) as (A & B & C & _).
      destruct (cut_writes stats label pk image rms sh Hr Hc s A B C i j Hi' Hj' J) as [_ W]. rewrite (W N).
      destruct (AgO s I N) as (_ & _ & G). rewrite G by (congruence || exact J). reflexivity. }
  (* the second catalogue *)
  apply cut_ok in H'. destruct H' as (v' & T' & ->).
  assert (Pk : private_pick (ex_picks ex) = private_pick pk) by (rewrite Ex; apply same_pick_eq).
  apply (turns_pick _ _ _ pk _ _ _ _ _ _ Pk) in T'.
  assert (G : exists u, Forall2 (fun s o => snd (cut_one stats label pk (intact image) rms sh s) = Ok o) (ex_sources ex) u /\
     somes u = somes v /\ pick (ex_sources ex) u = pick sources v).
  { rewrite Ex. cbn [result ex_sources]. destruct (Nat.leb 15 _); [now apply pick_again|]. exists v. auto. }
  destruct G as (u & Fu & Su & Pu).
  assert (Sub : forall s, In s (ex_sources ex) -> In s sources).
  { rewrite Ex. cbn [result ex_sources]. destruct (Nat.leb 15 _); [apply pick_in|auto]. }
  assert (Ap2 : apart sh (ex_sources ex)).
  { rewrite Ex. cbn [result ex_sources]. destruct (Nat.leb 15 _); [now apply apart_pick|exact Ap]. }
  pose proof (turns_apart _ _ _ _ _ Hr Hc left _ _ _ _ Ap2 (fun s _ => agree_refl sh s _) T') as F'.
  assert (LevIn : forall s, In s sources -> has_level image rms sh s).
  { intros s I. apply In_nth_error in I. destruct I as [k K]. destruct (F2_nth_r _ _ _ F _ _ K) as (o & V & _). eauto. }
  assert (Ev : v' = u).
  { clear - F' Fu Again Sub LevIn. revert v' F'. induction Fu as [|s o l u O Fu IH]; intros v' F'; inversion F'; subst; [reflexivity|].
    f_equal; [|apply IH; [intros; apply Sub; now right|assumption]].
    destruct (Again s o y) as [X _]; auto. apply Sub. now left. apply LevIn, Sub. now left. }
  subst v'. cbn [result ex_pos ex_stamps ex_sources ex_n ex_shape]. rewrite Su, Pu.
  rewrite Ex. cbn [result ex_pos ex_stamps ex_sources ex_n ex_shape].
  split; [reflexivity|]. split; [reflexivity|].
  split; [destruct (Nat.leb 15 _); reflexivity|]. split; [reflexivity|]. split; [reflexivity|].
  destruct (turns_out _ _ _ _ _ Hr Hc _ _ _ _ T') as (D1 & D2 & U).
  split; [unfold shape; congruence|]. intros i j Hi Hj. rewrite D1 in Hi. rewrite D2 in Hj.
  assert (X : (exists s, In s (ex_sources ex) /\ in_stamp sh s (Z.of_nat i) (Z.of_nat j)) \/
      forall s, In s (ex_sources ex) -> ~ in_stamp sh s (Z.of_nat i) (Z.of_nat j)).
  { clear. induction (ex_sources ex) as [|a l [(s & I & J)|IH]].
    - right. intros s [].
    - left. exists s. split; [now right|exact J].
    - assert (in_stamp sh a (Z.of_nat i) (Z.of_nat j) \/ ~ in_stamp sh a (Z.of_nat i) (Z.of_nat j)) as [J|J] by (unfold in_stamp; lia).
      + left. exists a. split; [now left|exact J].
      + right. intros s [<-|I]; auto. }
  destruct X as [(s & I & J)|X]; [|exact (U i j X)].
  rewrite (turns_in _ _ _ _ _ Hr Hc left _ _ _ _ Ap2 (fun s _ => agree_refl sh s _) T' s i j I Hi Hj J).
  apply In_nth_error in I. destruct I as [k K].
  destruct (F2_nth_r _ _ _ F' _ _ K) as (o' & V' & O'). destruct (F2_nth_r _ _ _ Fu _ _ K) as (o & V & O).
  apply nth_error_In in K. destruct (Again s o o') as [_ (_ & _ & B)]; auto.
  destruct (cut_dims stats label pk rms sh Hr Hc left s) as [E1 E2]. apply B; congruence.
Qed.
