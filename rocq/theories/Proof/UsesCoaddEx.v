(** Two images of stripes that can be coadded. *)
From Coq Require Import ZArith List Bool Arith Reals Lia Lra Permutation.
From Coquelicot Require Import Complex.
From Verif.Model Require Import Py Plane Ma Coadd.
From Verif.Spec Require Import Coadd.
From Verif.Model Require Import Interp Subtract FindS Sources Stamps Filter Transparency KL Session Chain ChainCoadd.
From Verif.Spec Require Import Stamps KL Session Transparency Uses UsesCoadd.
From Verif.Proof Require Import Stamps StampsLoop StampsExample KL Session SessionLm SessionExample Chain ChainStack ChainUnits Uses UsesEx UsesCoadd UsesCoaddMain.
Import ListNotations.
Local Open Scope R_scope.
Set Bullet Behavior "Strict Subproofs".

Lemma star_stamp (s : src) : s_y s = 10 -> s_x s = 10 \/ s_x s = 12 -> exists p,
  one_stamp (l_stats striped) (l_label striped) (mkpicks false None) simg 1 (1, 1)%nat s = Ok (Some p) /\
  shape p = (7, 7)%nat.
Proof.
  intros Hy [Hx|Hx]; [|now apply side_stamp]. destruct (mid_stamp s Hy Hx) as (p & E & S & _). eauto.
Qed.

Lemma stripes_any (a b : src) : s_y a = 10 -> s_x a = 10 \/ s_x a = 12 -> s_y b = 10 -> s_x b = 10 \/ s_x b = 12 ->
  exists q, psf_for (given (bu_lib sbuilt) [a; b]) (1, 1)%nat (2 / 10) = Ok q /\ snd q <> [].
Proof.
  intros Ay Ax By Bx.
  destruct (star_stamp a Ay Ax) as (pa & Ea & Sa). destruct (star_stamp b By Bx) as (pb & Eb & Sb).
  assert (E : extract_for striped (mkpicks false None) simg 1 (1, 1)%nat [a; b] =
              ([numbers pa; numbers pb], Ok ([(s_y a, s_x a); (s_y b, s_x b)], [a; b]))).
  { unfold extract_for. cbn [dump_loop]. rewrite Ea, Eb. reflexivity. }
  assert (St : stamps_of _ _ _ (given (bu_lib sbuilt) [a; b]) (1, 1)%nat =
               Ok ([numbers pa; numbers pb], [(s_y a, s_x a); (s_y b, s_x b)])).
  { unfold stamps_of. cbn [given Session.select Session.extract bu_lib sbuilt lib_of b_rms]. now rewrite E. }
  unfold psf_for. rewrite St. cbn [bind fst snd Nat.add].
  destruct (two_basis (numbers pa) (numbers pb) Sa Sb) as (q & q' & Eq & Sq & Vq).
  change (eigh (given (bu_lib sbuilt) [a; b])) with two_eigh.
  change (smooth (given (bu_lib sbuilt) [a; b])) with (@None (plane (option R) -> plane (option R))).
  rewrite Eq. cbn [bind length Nat.eqb].
  assert (He : exists v, KL.eigenv two_eigh (7, 7)%nat [numbers pa; numbers pb] = Ok v).
  { unfold KL.eigenv, KL.cov_matrix. unfold shape in Sa, Sb. injection Sa as Sa1 Sa2. injection Sb as Sb1 Sb2.
    cbn [forallb fst snd numbers pmap nr nc]. rewrite Sa1, Sa2, Sb1, Sb2. cbn [Nat.eqb andb negb bind length]. eauto. }
  destruct He as (v & ->). cbn [bind]. eexists. split; [reflexivity|]. discriminate.
Qed.

Lemma striped_nothing c : exists t,
  transparency (l_query striped) (l_sort striped) (l_lsqr striped)
    (map (fun c => mkcat false false (map row_of c)) [[mid'; mid]; c]) None = Ok t /\ length (zps t) = 2%nat.
Proof.
  cbn [map].
  assert (N : forall k, (0 <= k)%Z -> forall l, existsb (Z.eqb k) (map (match_one [0; 1]%Z [] []) l) = false).
  { intros k Hk l. induction l as [|i l IH]; [reflexivity|]. cbn [map existsb]. rewrite IH, orb_false_r.
    unfold match_one. destruct i; cbn [nth]; apply Z.eqb_neq; unfold sentinel; lia. }
  set (b := map row_of c). unfold transparency, transparency_of. cbn [map].
  match goal with |- context [process_image ?q ?s ?m ?c] => set (pi := process_image q s m c) end.
  assert (I : fst pi = map (match_one [0; 1]%Z [] []) (seq 0 (length b))).
  { unfold pi. cbn. now rewrite map_length. }
  cbn [with_source_ids append_ids has_id rows map row_of set_ids combine seq length append_dets has_det forallb set_dets filter r_id r_det].
  rewrite I.
  rewrite (N (Z.of_nat 0)), (N (Z.of_nat 1)) by lia.
  eexists. split; reflexivity.
Qed.

Definition looked_only : built * list call := (sbuilt, [CBestSources]).
Definition asked_psf : built * list call := (sbuilt, [CBestSources; CGetPSF (Some (1 / 2)) None]).

Lemma looked_cat : fst (best_sources (bu_lib sbuilt) (bu_attr (after [CBestSources] sbuilt))) = Ok [mid'; mid].
Proof.
  assert (E : exec_all (bu_lib sbuilt) [CBestSources] (bu_attr sbuilt) = set_best (Some [mid'; mid]) (bu_attr sbuilt)).
  { rewrite exec_cons. cbn [exec]. unfold void, best_sources. cbn [bu_attr sbuilt fresh best]. rewrite striped_cat. reflexivity. }
  unfold after. cbn [bu_attr]. rewrite E. reflexivity.
Qed.

Lemma asked_cat : exists c, fst (best_sources (bu_lib sbuilt) (bu_attr (after [CBestSources; CGetPSF (Some (1 / 2)) None] sbuilt))) = Ok c.
Proof.
  unfold after. cbn [bu_attr]. rewrite exec_cons.
  assert (B : best (exec (bu_lib sbuilt) CBestSources (bu_attr sbuilt)) <> None).
  { cbn [exec]. unfold void, best_sources. cbn [bu_attr sbuilt fresh best]. rewrite striped_cat. discriminate. }
  revert B. generalize (exec (bu_lib sbuilt) CBestSources (bu_attr sbuilt)). intros s B.
  assert (F : Forall no_new_sources [CGetPSF (Some (1 / 2)) None]) by now repeat constructor.
  pose proof (proj2 (same_exec_all _ _ _ (bu_lib sbuilt) [] [CGetPSF (Some (1 / 2)) None] s F B)) as B3.
  revert B3. generalize (exec_all (bu_lib sbuilt) [CGetPSF (Some (1 / 2)) None] s). intros s' B3.
  unfold best_sources. destruct (best s') as [c|]; [exists c; reflexivity|now elim B3].
Qed.

Lemma stripes_in_use : Forall (in_use striped 1 (20, 20)%nat) [looked_only; asked_psf].
Proof.
  assert (B : exists o d, build striped 1 o d = Some (Ok sbuilt)) by (exists schosen, sdata; exact striped_build).
  repeat constructor; cbn [fst snd looked_only asked_psf]; try exact B; try exact striped_stamps; lra.
Qed.

Lemma striped_perm c left : Permutation (map spot left) (map spot [mid'; mid]) -> stamps_read (looked_at (bu_attr sbuilt)) c = false ->
  exists q, psf_for (stars_for sbuilt c left) (1, 1)%nat (2 / 10) = Ok q /\ snd q <> [].
Proof.
  intros P S. unfold stars_for. rewrite S.
  pose proof (Permutation_length P) as Ln. rewrite !map_length in Ln. destruct left as [|a [|b [|]]]; try discriminate.
  assert (H : forall x, In x [a; b] -> s_y x = 10 /\ (s_x x = 10 \/ s_x x = 12)).
  { intros x Ix. apply (in_map spot) in Ix. apply (Permutation_in _ P) in Ix.
    destruct Ix as [Ix|[Ix|[]]]; injection Ix; intros; cbn in *; auto. }
  destruct (H a) as [A1 A2]; [now left|]. destruct (H b) as [B1 B2]; [right; now left|]. now apply stripes_any.
Qed.

(** One image whose sources were looked at, one whose PSF was asked for. *)
Lemma C118_coadd_case_lm : exists cs t r,
  Forall (in_use striped 1 (20, 20)%nat) [looked_only; asked_psf] /\
  (forall r, Permutation (l_sort striped r) r) /\ (forall n c, length (fst (l_eigh striped n c)) = n) /\
  Forall2 (fun u c => fst (best_sources (bu_lib (fst u)) (bu_attr (after (snd u) (fst u)))) = Ok c) [looked_only; asked_psf] cs /\
  transparency (l_query striped) (l_sort striped) (l_lsqr striped) (map (fun c => mkcat false false (map row_of c)) cs) None = Ok t /\
  length (zps t) = 2%nat /\
  Forall2 (fun u c => forall left, Permutation (map spot left) (map spot c) ->
    exists q, psf_for (stars_for (fst u) (snd u) left) (stamp_shape (bu_attr (fst u))) (2 / 10) = Ok q /\ snd q <> [])
    [looked_only; asked_psf] cs /\
  coadd_built striped 0 [] (2 / 10) 1 (map (fun u => after (snd u) (fst u)) [looked_only; asked_psf]) = Some (Ok r).
Proof.
  destruct asked_cat as (c & Ec). destruct (striped_nothing c) as (t & Et & Lz).
  assert (A1 : Forall2 (fun u c => fst (best_sources (bu_lib (fst u)) (bu_attr (after (snd u) (fst u)))) = Ok c) [looked_only; asked_psf] [[mid'; mid]; c]).
  { constructor; [exact looked_cat|]. constructor; [exact Ec|constructor]. }
  assert (A2 : Forall2 (fun u c => forall left, Permutation (map spot left) (map spot c) ->
    exists q, psf_for (stars_for (fst u) (snd u) left) (stamp_shape (bu_attr (fst u))) (2 / 10) = Ok q /\ snd q <> [])
    [looked_only; asked_psf] [[mid'; mid]; c]).
  { constructor; [intros left P; apply (striped_perm [CBestSources] left P); reflexivity|].
    constructor; [|constructor]. intros left _. unfold stars_for. cbn [fst snd asked_psf].
    change (stamps_read (looked_at (bu_attr sbuilt)) [CBestSources; CGetPSF (Some (1 / 2)) None]) with true. cbv iota.
    rewrite <- striped_given. apply stripes_any; cbn; auto. }
  destruct (C118_works_lm striped 1 0 [] (2 / 10) 1 (20, 20)%nat [looked_only; asked_psf] [[mid'; mid]; c] t striped_eigh
              (fun r => Permutation_refl r)) as (r & Er); auto; try lra; try lia; try discriminate; [exact stripes_in_use|].
  exists [[mid'; mid]; c], t, r. split; [exact stripes_in_use|]. split; [intros; apply Permutation_refl|].
  split; [exact striped_eigh|]. auto.
Qed.
