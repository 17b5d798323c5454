(** A coadd of two images of stripes, one of which was asked for a PSF before. *)
From Coq Require Import ZArith List Bool Arith Reals Lia Lra Permutation.
From Coquelicot Require Import Complex.
From Verif.Model Require Import Py Plane Ma Coadd.
From Verif.Spec Require Import Coadd.
From Verif.Model Require Import Image Interp Subtract Filter FindS Sources Stamps Cut KL Session Transparency Chain ChainCoadd CutChain CutCoadd Live LiveSub LiveCoadd.
From Verif.Spec Require Import Image Stamps Chain Session Uses UsesCoadd Cut CutCoadd Live LiveFar LiveCoadd.
From Verif.Proof Require Import Stamps StampsExample Session SessionLm Chain ChainMain ChainUnits ChainExample UsesEx UsesCoadd UsesCoaddMain UsesCoaddEx CutIntact CutEx CutChain CutChainLeft CutCoadd CutCoaddMain CutCoaddEx Live LiveMain LiveSub LiveSubEx LiveCoadd LiveCoaddWorks.
Import ListNotations.
Set Bullet Behavior "Strict Subproofs".
Local Open Scope R_scope.

Definition seen_once : Verif.Spec.LiveCoadd.used := ((schosen, sbuilt), [CBestSources]).
Definition psf_asked : Verif.Spec.LiveCoadd.used := ((schosen, sbuilt), [CBestSources; CGetPSF (Some (1 / 2)) None]).

Lemma used_fit : Forall (fit_for striped 1 (20, 20)%nat) [seen_once; psf_asked].
Proof.
  pose proof two_can as T. inversion T as [|? ? X _]; subst.
  constructor; [split; [exact X|now repeat constructor]|]. constructor; [|constructor]. split; [exact X|repeat constructor; lra].
Qed.

Lemma stripes_own : own_sources sbuilt = [mid'; mid].
Proof. unfold own_sources. now rewrite new_cat. Qed.

Lemma C141_case_lm : exists cs t r,
  Forall (fit_for striped 1 (20, 20)%nat) [seen_once; psf_asked] /\
  (forall r, Permutation (l_sort striped r) r) /\ (forall n c, length (fst (l_eigh striped n c)) = n) /\
  stamps_read (looked_at (bu_attr (snd (fst seen_once)))) (snd seen_once) = false /\
  stamps_read (looked_at (bu_attr (snd (fst psf_asked)))) (snd psf_asked) = true /\
  Forall2 (fun h c => l_looked striped (live_of striped h) = Ok c) [seen_once; psf_asked] cs /\
  transparency (l_query striped) (l_sort striped) (l_lsqr striped) (map (fun c => mkcat false false (map row_of c)) cs) None = Ok t /\
  length (zps t) = 2%nat /\
  Forall2 (fun h c => let '(o, x, calls) := h in forall left, Permutation (map spot left) (map spot c) ->
    exists q, psf_for (stars_for (opened striped o (cut_of x calls left) x) calls left) (stamp_shape (bu_attr x)) (2 / 10) = Ok q /\
      snd q <> []) [seen_once; psf_asked] cs /\
  run_limits 0 (seq 0 2) 1 /\
  coadd_live striped 0 [] (2 / 10) 1 (map (live_of striped) [seen_once; psf_asked]) = Some (Ok r).
Proof.
  assert (B1 : l_looked striped (live_of striped seen_once) = Ok [mid'; mid]).
  { unfold l_looked, live_of, l_of, seen_once. cbn [fst snd]. unfold lived, l_exec_all. cbn [fold_left l_exec].
    unfold lvoid, l_best_sources, best_sources. cbn [fst snd live_lib base untouched].
    cbn [bu_attr sbuilt fresh best]. rewrite striped_cat. reflexivity. }
  assert (B2 : exists c, l_looked striped (live_of striped psf_asked) = Ok c).
  { unfold l_looked, live_of, l_of, psf_asked. cbn [fst snd].
    generalize (lived striped schosen [CBestSources; CGetPSF (Some (1 / 2)) None] sbuilt). intros s. unfold l_best_sources, best_sources.
    destruct (best (snd s)) as [cn|]; [eexists; reflexivity|]. cbn [live_lib base]. rewrite striped_cat. eexists. reflexivity. }
  destruct B2 as (c & B2). destruct (striped_nothing c) as (t & Et & Lz).
  assert (A1 : Forall2 (fun h c => l_looked striped (live_of striped h) = Ok c) [seen_once; psf_asked] [[mid'; mid]; c]).
  { constructor; [exact B1|]. constructor; [exact B2|constructor]. }
  assert (A2 : Forall2 (fun h c => let '(o, x, calls) := h in forall left, Permutation (map spot left) (map spot c) ->
    exists q, psf_for (stars_for (opened striped o (cut_of x calls left) x) calls left) (stamp_shape (bu_attr x)) (2 / 10) = Ok q /\
      snd q <> []) [seen_once; psf_asked] [[mid'; mid]; c]).
  { constructor; [|constructor; [|constructor]].
    - unfold seen_once. intros left P. unfold stars_for, cut_of. cbn [opened bu_attr].
      change (stamps_read (looked_at (bu_attr sbuilt)) [CBestSources]) with false. cbv iota.
      pose proof (Permutation_length P) as Ln. rewrite !map_length in Ln. destruct left as [|a [|b [|]]]; try discriminate.
      assert (H : forall x, In x [a; b] -> starry_at x).
      { intros x Ix. apply (in_map spot) in Ix. apply (Permutation_in _ P) in Ix.
        destruct Ix as [Ix|[Ix|[]]]; injection Ix; intros; split; cbn in *; auto. }
      apply stripes_cut_any; apply H; [now left|right; now left].
    - unfold psf_asked. intros left _. unfold stars_for, cut_of. cbn [opened bu_attr].
      change (stamps_read (looked_at (bu_attr sbuilt)) [CBestSources; CGetPSF (Some (1 / 2)) None]) with true. cbv iota. rewrite stripes_own.
      destruct (stripes_cut_any mid' mid) as (q & Eq & Nq); [split; cbn; auto|split; cbn; auto|]. exists q. split; [|exact Nq].
      rewrite <- Eq. unfold psf_for, stamps_of.
      change (select (bu_lib (opened striped schosen [mid'; mid] sbuilt))) with (select (bu_lib sbuilt)). rewrite striped_cat. reflexivity. }
  destruct (C141_works_lm striped 1 0 [] (2 / 10) 1 (20, 20)%nat [seen_once; psf_asked] [[mid'; mid]; c] t striped_eigh
              (fun r => Permutation_refl r)) as (r & Er); auto; try lra; try lia; try discriminate; [exact used_fit|].
  exists [[mid'; mid]; c], t, r. split; [exact used_fit|]. split; [intros; apply Permutation_refl|].
  split; [exact striped_eigh|]. split; [reflexivity|]. split; [reflexivity|]. split; [exact A1|]. split; [exact Et|]. split; [exact Lz|].
  split; [exact A2|]. split; [|exact Er]. unfold run_limits. try (left; lia).
Qed.
