(** A history that leaves nan in the interpolated image. *)
From Coq Require Import ZArith List Bool Arith Reals Lia Lra.
From Coquelicot Require Import Complex.
From Verif.Model Require Import Py Plane Ma Interp FindS Sources Stamps Cut KL Session Filter Subtract Chain CutChain Live.
From Verif.Spec Require Import Stamps Chain Session Cut CutCoadd Live.
From Verif.Proof Require Import ChainStack Stamps StampsExample SourcesMain Session SessionLm Chain ChainMain ChainUnits ChainExample UsesEx UsesCoaddEx Cut CutIntact CutEx CutLoop CutMain CutChain CutChainLeft CutCoaddEx Live LiveMain HatNan.
Import ListNotations.
Set Bullet Behavior "Strict Subproofs".
Local Open Scope R_scope.

(** The libraries of Proof/UsesEx.v with two stars far apart, an image that is 1 everywhere. *)
Definition lone : libs :=
  mklibs (fun p _ => Ok (mkbackobj (mkplane (nr p) (nc p) (fun _ _ => 0)) 1)) (fun _ _ _ _ _ => Ok [mid; side])
    (fun p => p) (fun d => m_msk d) (fun _ => []) (fun _ => (0, 0, 0))
    (fun p => (pmap (fun _ => 0%nat) p, 0%nat))
    two_eigh None (fun _ _ _ _ => 0) (fun sh _ _ => mkplane (fst sh) (snd sh) (fun _ _ => 1))
    (fun _ _ _ => []) (fun l => l) (fun _ _ _ _ => []) (fun p => p)
    (mksolvers (fun _ _ _ _ => Raise ValueError) (fun _ lo _ => (false, lo))).
Definition edata : mimg := mkmimg (pmap Some even_sky) (mkplane 20 20 (fun _ _ => false)).
Definition echosen : choices := mkchoices (Some (1, 1)%nat) 2 false None 300000.
Definition eimg : plane R := tidy 0 (pmap (fun x => x - 0) even_sky).
Definition ebuilt : built :=
  let b := mkbackobj (mkplane 20 20 (fun _ _ => 0)) 1 in
  mkbuilt edata b eimg (lib_of lone 300000 2 (mkpicks false None) edata b eimg) (fresh _ _ _ (1, 1)%nat None).

Lemma lone_build : build lone 1 echosen edata = Some (Ok ebuilt).
Proof. reflexivity. Qed.
Lemma lone_cat : fst (best_sources (bu_lib ebuilt) (bu_attr ebuilt)) = Ok [mid; side].
Proof.
  assert (S : select (bu_lib ebuilt) = Ok [mid; side]).
  { change (Ok (Sources.select (l_choice lone) [mid; side]) = Ok [mid; side]). now rewrite select_few by (cbn; lia). }
  unfold best_sources. cbn [bu_attr ebuilt fresh best]. now rewrite S.
Qed.

Lemma eimg_px i j : (i < 20)%nat -> (j < 20)%nat -> px eimg i j = 1.
Proof.
  intros Hi Hj. unfold eimg, tidy. cbn [px pmap]. change (nr (pmap (fun x => x - 0) even_sky)) with 20%nat.
  change (nc (pmap (fun x => x - 0) even_sky)) with 20%nat.
  destruct (Nat.ltb_spec i 20); [|lia]. destruct (Nat.ltb_spec j 20); [|lia]. cbn. lra.
Qed.
Lemma eimg_good : good eimg mid.
Proof.
  apply (good_at _ _ 10); auto; try (cbn; lia); [exact start_mid|]. intros i j. unfold eimg, tidy. cbn [px pmap].
  destruct (_ && _); cbn; lra.
Qed.
Lemma eimg_good_side : good eimg side.
Proof.
  apply (good_at _ _ 3); auto; try (cbn; lia); [exact start_side|]. intros i j. unfold eimg, tidy. cbn [px pmap].
  destruct (_ && _); cbn; lra.
Qed.
Lemma eimg_level : ~ has_level eimg 1 (1, 1)%nat mid.
Proof.
  intros H. apply even_level. unfold has_level, stamp_window in *. intros E. apply H. rewrite <- E. f_equal. apply values_ext.
  split; [reflexivity|]. intros i j Hi Hj. cbn [window nr nc fst snd] in Hi, Hj. cbn [mid s_x s_y].
  rewrite !(win_px _ 10 10 3) by (try reflexivity; try exact start_mid; lia). rewrite eimg_px by lia. reflexivity.
Qed.

Lemma live_nan : exists ex,
  build lone 1 echosen edata = Some (Ok ebuilt) /\
  fst (best_sources (bu_lib ebuilt) (bu_attr ebuilt)) = Ok [mid; side] /\
  snd (first_cut lone echosen ebuilt [mid; side]) = Ok ex /\
  apart (stamp_shape (bu_attr ebuilt)) [mid; side] /\ Forall same_stamps [CStampsPos] /\
  pos (snd (lived lone echosen [CStampsPos] ebuilt)) <> None /\
  in_stamp (1, 1)%nat mid 10 10 /\ inner (bu_clean ebuilt) (1, 1)%nat mid /\
  ~ has_level (bu_clean ebuilt) (var (bu_back ebuilt)) (1, 1)%nat mid.
Proof.
  destruct (C32_extraction_succeeds_lm (l_stats lone) (l_label lone) (mkpicks false None) eimg 1 (1, 1)%nat [mid; side]
    ltac:(cbn; lia) ltac:(cbn; lia) eq_refl pair_apart) as (left & ex & E & _).
  { intros s [<-|[<-|[]]]; [exact eimg_good|exact eimg_good_side]. }
  assert (F : snd (first_cut lone echosen ebuilt [mid; side]) = Ok ex).
  { change (snd (cut_stamps (l_stats lone) (l_label lone) (mkpicks false None) (intact eimg) 1 (1, 1)%nat [mid; side]) = Ok ex). now rewrite E. }
  assert (S : Forall same_stamps [CStampsPos]) by now repeat constructor.
  exists ex. split; [exact lone_build|]. split; [exact lone_cat|]. split; [exact F|]. split; [exact pair_apart|]. split; [exact S|].
  split; [|split; [now apply (in_mid 10 10)|split; [now apply inner_mid|exact eimg_level]]].
  destruct (build_catalogue _ _ _ _ _ _ lone_build lone_cat) as [Sel New].
  change (lived lone echosen [CStampsPos] ebuilt) with (snd (l_stamps_pos (live_lib lone echosen ebuilt) (untouched ebuilt, bu_attr ebuilt))).
  destruct (live_start lone echosen ebuilt [mid; side] ex Sel New) as [(_ & P & _)|[_ P]]; [discriminate|]; cbn [snd] in P.
  destruct (stamps_A _ _ _ _ (live_lib lone echosen ebuilt) (untouched ebuilt) (pic1 lone echosen ebuilt [mid; side]) (stamp_shape (bu_attr ebuilt)) [mid; side] _ _ _
    (goodpic lone echosen ebuilt [mid; side]) Sel (first_cutting lone echosen ebuilt [mid; side] ex F) (live_good1 lone echosen ebuilt [mid; side]) _ P) as (r & p' & s' & A & _ & B).
  rewrite A. cbn [snd]. destruct B as (_ & B & _). rewrite B. discriminate.
Qed.
