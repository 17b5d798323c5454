(** Images whose stamps are cut in place: two stars, and another shape. *)
From Coq Require Import ZArith List Bool Arith Reals Lia Lra.
From Coquelicot Require Import Complex.
From Verif.Model Require Import Py Plane Ma Interp FindS Sources Stamps Cut KL Session Filter Chain CutChain Live.
From Verif.Spec Require Import Stamps Chain Session Cut CutCoadd Live.
From Verif.Proof Require Import Stamps StampsExample Session SessionLm Chain ChainMain ChainUnits ChainExample UsesEx UsesCoaddEx CutEx CutLoop CutMain CutChain CutChainLeft CutCoaddEx Live LiveMain.
Import ListNotations.
Set Bullet Behavior "Strict Subproofs".
Local Open Scope R_scope.

Lemma live_stripes : exists ex,
  build striped 1 schosen sdata = Some (Ok sbuilt) /\
  fst (best_sources (bu_lib sbuilt) (bu_attr sbuilt)) = Ok [mid'; mid] /\
  snd (first_cut striped schosen sbuilt [mid'; mid]) = Ok ex /\ length (ex_stamps ex) = 2%nat.
Proof.
  destruct (simg_cut (l_stats striped) (l_label striped) None mid' mid) as (last & ex & E & _ & pa & pb & S & _); [split; cbn; auto|split; cbn; auto|].
  exists ex. split; [exact striped_build|]. split; [exact new_cat|].
  split; [|now rewrite S]. change (snd (cut_stamps (l_stats striped) (l_label striped) (mkpicks false None) (intact simg) 1 (1, 1)%nat [mid'; mid]) = Ok ex).
  now rewrite E.
Qed.

(** The image of Proof/CutChainLeft.v, which the first extraction changes, once a shape was
    asked for. *)
Definition asked_shape : si (plane R) (res (plane C)) (res (plane R)) :=
  set_req_shape (Some (1, 1)%nat) (fresh _ _ _ (1, 1)%nat (Some [mid])).
Lemma live_again : exists last ex last' ex',
  apart (1, 1)%nat [mid] /\ req_shape asked_shape = Some (1, 1)%nat /\ pos asked_shape = None /\
  fst (best_sources (bu_lib bright_one) asked_shape) = Ok [mid] /\
  cut_stamps (l_stats small) (l_label small) (mkpicks (o_pick plainly) None) (intact raised) (var (bu_back bright_one)) (1, 1)%nat [mid] = (last, Ok ex) /\
  all_finite ex /\
  cut_stamps (l_stats small) (l_label small) (ex_picks ex) last (var (bu_back bright_one)) (1, 1)%nat (ex_sources ex) = (last', Ok ex').
Proof.
  destruct (raised_again (l_stats small) (l_label small)) as (last & ex & last' & ex' & A & B & C).
  exists last, ex, last', ex'. repeat split; auto. apply apart_single.
Qed.
