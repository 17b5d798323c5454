(** Two stars, one of them where the image is constant. *)
From Coq Require Import ZArith List Bool Arith Reals Lia Lra.
From Flocq Require Import Core.Raux.
From Coquelicot Require Import Complex.
From Verif.Model Require Import Py Plane Ma Interp FindS Sources Stamps Cut KL Session Filter Subtract Chain CutChain Live.
From Verif.Spec Require Import FindS Stamps Chain Session Cut CutCoadd Live Retry.
From Verif.Proof Require Import SourcesMain Stamps StampsLoop StampsMain StampsExample Session SessionLm ChainStack Chain ChainMain ChainUnits ChainExample UsesEx Cut CutIntact CutLoop CutMain CutLeft CutEx CutChain CutChainLeft Live LiveMain LiveNanEx Retry RetryLive StarEx.
Import ListNotations.
Set Bullet Behavior "Strict Subproofs".
Local Open Scope R_scope.

(** [starry], and 1 around [side]. *)
Definition spent : plane R := mkplane 20 20 (fun i j => if (j <=? 6)%nat then 1 else px starry i j).
Definition is_side (s : src) : bool := if Rlt_dec (s_x s) 5 then true else false.

Section Spent.
Variable p : plane R.
Hypothesis Er : nr p = 20%nat.
Hypothesis Ec : nc p = 20%nat.
Hypothesis Ep : forall i j, (i < 20)%nat -> (j < 20)%nat -> px p i j = px spent i j.
Hypothesis Sm : forall i j, px p i j <= 2.

Lemma spent_good_side : good p side.
Proof. apply (good_at _ _ 3); auto; try (cbn; lia). exact start_side. Qed.

Lemma spent_level : ~ has_level p 1 one side.
Proof.
  unfold has_level. set (l := values _).
  assert (A : forall x, In x l -> 1 <= x <= 1).
  { intros x. unfold l, values. rewrite in_map_iff. intros ([i j] & <- & I). cbn [fst snd].
    unfold all_cells in I. apply in_prod_iff in I. rewrite !in_seq in I. cbn [stamp_window window nr nc fst snd] in I. unfold stamp_window. cbn [side s_x s_y].
    rewrite (win_px p 3 3 3) by (try assumption; try exact start_side; try lia). rewrite Ep by lia. cbn [spent px].
    destruct (Nat.leb_spec (3 - 3 + j) 6); [lra|lia]. }
  assert (N : l <> []) by discriminate.
  intros F. apply F. unfold Verif.Spec.Stamps.faint. pose proof (percentile_between 70 l 1 1 N ltac:(lra) A) as P.
  revert P. generalize (percentile 70 l). intros q P. clear F N. clearbody l. induction l as [|x l IH]; [reflexivity|]. cbn [filter].
  pose proof (A x (or_introl eq_refl)) as X. destruct (Rlt_dec x q); [lra|]. apply IH. intros y I. apply A. now right.
Qed.

Lemma spent_inner : inner p one side.
Proof. intros s [<-|[]]. rewrite Er, Ec. cbn [side s_x s_y fst snd]. rewrite start_side, start_mid. cbn. lia. Qed.

Lemma spent_bad stats label public : inner p one side /\ ~ has_level p 1 one side /\
  snd (cut_stamps stats label (mkpicks true public) (intact p) 1 one [side]) = Raise IndexError.
Proof.
  split; [exact spent_inner|]. split; [exact spent_level|].
  assert (X : snd (cut_one stats label (mkpicks true public) (intact p) 1 one side) = Raise IndexError).
  { destruct spent_good_side as (A & B & C). rewrite cut_normal by (try assumption; cbn; lia). cbn [snd private_pick].
    rewrite (proj2 (tlev_level p 1 one side) spent_level). reflexivity. }
  destruct (cut_one stats label (mkpicks true public) (intact p) 1 one side) as [im r] eqn:Q. cbn [snd] in X. subst r.
  now rewrite (single_raise _ _ _ _ _ _ _ _ _ Q).
Qed.

Lemma star_one public : snd (cut_one quiet none (mkpicks true public) (intact starry) 1 one mid) =
  Ok (Some (tstamp starry 1 one (s_y mid, s_x mid))).
Proof.
  destruct good_starry as (A & B & C). rewrite cut_normal by (try assumption; cbn; lia). cbn [snd private_pick].
  destruct (proj1 (tlev_level starry 1 one mid) (proj1 starry_level)) as (q & -> & P).
  rewrite (proj2 starry_level) in P. rewrite (starry_strict (Cut.tidy q)); [reflexivity|].
  eapply plane_eq_trans; [apply tidy_eq|exact P].
Qed.

Lemma spent_fine public : exists left ex ex',
  cut_stamps quiet none (mkpicks true public) (intact p) 1 one [mid] = (left, Ok ex) /\ length (ex_stamps ex) = 1%nat /\
  snd (cut_stamps quiet none (mkpicks true public) left 1 one [mid]) = Ok ex'.
Proof.
  assert (Ag : Cut.agree one mid (intact p) (intact starry)).
  { split; [exact Er|]. split; [exact Ec|]. intros i j Hi Hj J. cbn [intact pmap nr nc] in Hi, Hj. rewrite Er in Hi. rewrite Ec in Hj.
    cbn [intact pmap px]. rewrite Ep by assumption. cbn [spent px]. apply in_mid in J.
    rewrite !andb_true_iff, !Nat.leb_le in J. destruct (Nat.leb_spec j 6); [lia|reflexivity]. }
  destruct (cut_agree quiet none (mkpicks true public) 1 one ltac:(cbn; lia) ltac:(cbn; lia) mid _ _ Ag) as [F1 F2].
  rewrite star_one in F1.
  destruct (cut_one quiet none (mkpicks true public) (intact p) 1 one mid) as [left r] eqn:X. cbn [fst snd] in F1, F2. subst r.
  destruct (single_turn _ _ _ _ _ _ _ _ _ X) as (ex & Y & _ & S). exists left, ex.
  assert (Ag2 : Cut.agree one mid left (intact starry)).
  { apply (agree_trans _ _ _ _ _ F2).
    destruct (cut_dims quiet none (mkpicks true public) 1 one ltac:(cbn; lia) ltac:(cbn; lia) (intact starry) mid) as [D1 D2].
    split; [exact D1|]. split; [exact D2|]. intros i j Hi Hj J. rewrite D1 in Hi. rewrite D2 in Hj. cbn [intact pmap nr nc] in Hi, Hj.
    destruct good_starry as (A & B & C).
    destruct (cut_writes quiet none (mkpicks true public) starry 1 one ltac:(cbn; lia) ltac:(cbn; lia) mid A B C i j Hi Hj J) as [V _].
    destruct (V (inner_mid starry eq_refl eq_refl)) as [V1 _]. rewrite (V1 (proj1 starry_level)), (proj2 starry_level).
    cbn [intact pmap px]. f_equal. lra. }
  destruct (cut_agree quiet none (mkpicks true public) 1 one ltac:(cbn; lia) ltac:(cbn; lia) mid _ _ Ag2) as [G1 _].
  rewrite star_one in G1.
  destruct (cut_one quiet none (mkpicks true public) left 1 one mid) as [left2 r] eqn:X2. cbn [snd] in G1. subst r.
  destruct (single_turn _ _ _ _ _ _ _ _ _ X2) as (ex' & Y' & _). exists ex'. split; [exact Y|]. split; [now rewrite S|]. now rewrite Y'.
Qed.
End Spent.

Lemma side_first : is_side side = true /\ is_side mid = false.
Proof. unfold is_side. cbn [side mid s_x]. split; destruct (Rlt_dec _ _); auto; lra. Qed.

Lemma sides_apart : apart one [side; mid].
Proof.
  apply apart_cons. split; [|apply apart_single]. intros t [<-|[]] r c (_ & A) (_ & B).
  cbn [mid side s_x s_y fst snd] in A, B. rewrite start_mid in B. rewrite start_side in A. cbn in A, B. lia.
Qed.

Lemma spent_small i j : px spent i j <= 2.
Proof. cbn [spent px]. destruct (j <=? 6)%nat; [lra|apply starry_small]. Qed.

Lemma spent_case public :
  apart one [side; mid] /\
  (forall s, In s [side; mid] -> is_side s = true -> inner spent one s /\ ~ has_level spent 1 one s /\
     snd (cut_stamps quiet none (mkpicks true public) (intact spent) 1 one [s]) = Raise IndexError) /\
  (forall s, In s [side; mid] -> is_side s = false -> exists left ex ex',
     cut_stamps quiet none (mkpicks true public) (intact spent) 1 one [s] = (left, Ok ex) /\
     snd (cut_stamps quiet none (mkpicks true public) left 1 one [s]) = Ok ex') /\
  length (filter is_side [side; mid]) = 1%nat.
Proof.
  destruct side_first as [S1 S2]. split; [exact sides_apart|]. split; [|split].
  - intros s [<-|[<-|[]]] B; [|congruence]. apply spent_bad; auto using spent_small.
  - intros s [<-|[<-|[]]] B; [congruence|].
    destruct (spent_fine spent eq_refl eq_refl ltac:(auto) public) as (left & ex & ex' & A & _ & C). eauto.
  - cbn [filter]. rewrite S1, S2. reflexivity.
Qed.

(** The same as a new image. *)
Definition calm : libs :=
  mklibs (fun p _ => Ok (mkbackobj (mkplane (nr p) (nc p) (fun _ _ => 0)) 1)) (fun _ _ _ _ _ => Ok [side; mid])
    (fun p => p) (fun d => m_msk d) (fun _ => []) quiet none
    two_eigh None (fun _ _ _ _ => 0) (fun sh _ _ => mkplane (fst sh) (snd sh) (fun _ _ => 1))
    (fun _ _ _ => []) (fun l => l) (fun _ _ _ _ => []) (fun p => p)
    (mksolvers (fun _ _ _ _ => Raise ValueError) (fun _ lo _ => (false, lo))).
Definition cdata : mimg := mkmimg (pmap Some spent) (mkplane 20 20 (fun _ _ => false)).
Definition cchosen : choices := mkchoices (Some (1, 1)%nat) 2 true None 300000.
Definition cimg : plane R := tidy 0 (pmap (fun x => x - 0) spent).
Definition cbuilt : built :=
  let b := mkbackobj (mkplane 20 20 (fun _ _ => 0)) 1 in
  mkbuilt cdata b cimg (lib_of calm 300000 2 (mkpicks true None) cdata b cimg) (Session.fresh _ _ _ (1, 1)%nat None).

Lemma calm_build : build calm 1 cchosen cdata = Some (Ok cbuilt).
Proof. reflexivity. Qed.
Lemma calm_cat : fst (best_sources (bu_lib cbuilt) (bu_attr cbuilt)) = Ok [side; mid].
Proof.
  assert (S : select (bu_lib cbuilt) = Ok [side; mid]).
  { change (Ok (Sources.select (l_choice calm) [side; mid]) = Ok [side; mid]). now rewrite select_few by (cbn; lia). }
  unfold best_sources. cbn [bu_attr cbuilt Session.fresh best]. now rewrite S.
Qed.
Lemma cimg_px i j : (i < 20)%nat -> (j < 20)%nat -> px cimg i j = px spent i j.
Proof.
  intros Hi Hj. unfold cimg, tidy. cbn [px pmap]. change (nr (pmap (fun x => x - 0) spent)) with 20%nat.
  change (nc (pmap (fun x => x - 0) spent)) with 20%nat.
  destruct (Nat.ltb_spec i 20); [|lia]. destruct (Nat.ltb_spec j 20); [|lia]. cbn -[spent]. lra.
Qed.
Lemma cimg_small i j : px cimg i j <= 2.
Proof. unfold cimg, tidy. cbn [px pmap]. destruct (_ && _); [|lra]. pose proof (spent_small i j). lra. Qed.

Lemma calm_case : let sh := stamp_shape (bu_attr cbuilt) in
  let cut im l := cut_stamps (l_stats calm) (l_label calm) (mkpicks true None) im (var (bu_back cbuilt)) sh l in
  build calm 1 cchosen cdata = Some (Ok cbuilt) /\ fst (best_sources (bu_lib cbuilt) (bu_attr cbuilt)) = Ok [side; mid] /\
  o_pick cchosen = true /\ (0 < fst sh)%nat /\ (0 < snd sh)%nat /\ apart sh [side; mid] /\
  (forall s, In s [side; mid] -> is_side s = true -> inner (bu_clean cbuilt) sh s /\
     ~ has_level (bu_clean cbuilt) (var (bu_back cbuilt)) sh s /\ snd (cut (intact (bu_clean cbuilt)) [s]) = Raise IndexError) /\
  (forall s, In s [side; mid] -> is_side s = false -> exists left ex ex',
     cut (intact (bu_clean cbuilt)) [s] = (left, Ok ex) /\ snd (cut left [s]) = Ok ex') /\
  length (filter is_side [side; mid]) = 1%nat.
Proof.
  destruct side_first as [S1 S2]. cbv zeta. split; [exact calm_build|]. split; [exact calm_cat|]. split; [reflexivity|].
  split; [cbn; lia|]. split; [cbn; lia|]. split; [exact sides_apart|]. split; [|split].
  - intros s [<-|[<-|[]]] B; [|congruence]. exact (spent_bad cimg eq_refl eq_refl cimg_px cimg_small quiet none None).
  - intros s [<-|[<-|[]]] B; [congruence|].
    destruct (spent_fine cimg eq_refl eq_refl cimg_px None) as (left & ex & ex' & A & _ & C). exists left, ex, ex'. split; [exact A|exact C].
  - cbn [filter]. rewrite S1, S2. reflexivity.
Qed.
