(** Two images of stripes that are coadded again and again. *)
From Coq Require Import ZArith List Bool Arith Reals Lia Lra Permutation.
From Coquelicot Require Import Complex.
From Verif.Model Require Import Py Plane Ma Coadd.
From Verif.Spec Require Import Coadd.
From Verif.Model Require Import Interp Subtract FindS Sources Stamps Filter Transparency KL Session Chain ChainCoadd Again.
From Verif.Spec Require Import Stamps KL Session Transparency Uses UsesCoadd Again.
From Verif.Proof Require Import Transparency TransparencyMain Nearest TransparencyAgain.
From Verif.Proof Require Import Stamps StampsLoop StampsExample KL Session SessionLm SessionExample Chain ChainStack ChainUnits Uses UsesEx UsesCoadd UsesCoaddMain UsesCoaddEx Again AgainMain.
Import ListNotations.
Local Open Scope R_scope.
Set Bullet Behavior "Strict Subproofs".

(** The library of the stripes, with a search that finds the nearest point. *)
Definition seeing : libs :=
  mklibs (l_background striped) (l_extract striped) (l_conv striped) (l_cosmics striped) (l_choice striped) (l_stats striped)
    (l_label striped) two_eigh None (l_fit striped) (l_normal striped)
    nn_query (fun l => l) (fun _ n _ _ => repeat 1 n) (fun p => p) (l_solve striped).

Lemma zps_length query sort_cat (lsqr : nat -> nat -> (nat -> nat -> R) -> list R -> list R) a bs t :
  (forall m n A b, length (lsqr m n A b) = n) ->
  transparency query sort_cat lsqr (a :: bs) None = Ok t -> length (zps t) = S (length bs).
Proof.
  intros H. change (transparency_of query sort_cat lsqr a bs = Ok t -> length (zps t) = S (length bs)).
  rewrite transparency_unfold. cbv zeta. destruct (_ =? 0)%nat.
  - intros X. injection X as <-. cbn [zps length]. now rewrite repeat_length.
  - destruct (mapM _ _) as [mm|]; [|discriminate]. cbn [bind]. intros X.
    apply (f_equal (fun r => match r with Ok o => zps o | _ => [] end)) in X. cbv beta iota in X. rewrite <- X. cbn [zps].
    rewrite firstn_length, H. lia.
Qed.

Definition both : list (built * list call) := [(sbuilt, []); looked_only].

Lemma both_in_use : Forall (in_use seeing 1 (20, 20)%nat) both.
Proof.
  assert (B : exists o d, build seeing 1 o d = Some (Ok sbuilt)) by (exists schosen, sdata; exact striped_build).
  repeat constructor; cbn [fst snd looked_only]; try exact B; exact striped_stamps.
Qed.

Lemma both_cats : Forall2 (fun u c => fst (best_sources (bu_lib (fst u)) (bu_attr (after (snd u) (fst u)))) = Ok c) both [[mid'; mid]; [mid'; mid]].
Proof.
  constructor; [|constructor; [exact looked_cat|constructor]]. cbn [fst snd]. unfold after. cbn [bu_attr exec_all fold_left].
  unfold best_sources. cbn [bu_attr sbuilt fresh best]. now rewrite striped_cat.
Qed.

Notation first_of := (map (fun u : built * list call => mkheld (after (snd u) (fst u)) None)).

Lemma both_catalogues : mapM catalogue_of (first_of both) =
  Ok (map (fun c => mkcat false false (map row_of c)) [[mid'; mid]; [mid'; mid]]).
Proof.
  pose proof both_cats as F. inversion F as [|? ? ? ? E1 F1]; subst. inversion F1 as [|? ? ? ? E2 _]; subst.
  change (first_of both) with [mkheld (after [] sbuilt) None; mkheld (after [CBestSources] sbuilt) None].
  cbn [fst snd looked_only] in E1, E2. cbn [mapM]. unfold catalogue_of. cbn [h_cat h_img].
  change (bu_lib (after [] sbuilt)) with (bu_lib sbuilt). change (bu_lib (after [CBestSources] sbuilt)) with (bu_lib sbuilt).
  rewrite E1. cbn [bind]. rewrite E2. reflexivity.
Qed.

Lemma both_coadd : exists r hs1, coadd_run seeing 0 [] (2 / 10) 1 (first_of both) = Some (Ok (r, hs1)).
Proof.
  destruct (C48_total_lm (l_query seeing) (l_sort seeing) (l_lsqr seeing)
     (map (fun c => mkcat false false (map row_of c)) [[mid'; mid]; [mid'; mid]]) None (fun r => Permutation_refl r)) as [(t & Et)|(X & _)]; [|discriminate].
  assert (Lz : length (zps t) = length both).
  { exact (zps_length _ _ _ _ _ _ (fun _ n _ _ => repeat_length 1 n) Et). }
  destruct (C118_works_lm seeing 1 0 [] (2 / 10) 1 (20, 20)%nat both [[mid'; mid]; [mid'; mid]] t striped_eigh
              (fun r => Permutation_refl r)) as (r & Er); auto; try lra; try lia; try discriminate.
  - exact both_in_use.
  - exact both_cats.
  - constructor; [intros left P; exact (striped_perm [] left P eq_refl)|].
    constructor; [intros left P; exact (striped_perm [CBestSources] left P eq_refl)|constructor].
  - rewrite <- C119_first_lm, map_map in Er. revert Er. generalize (coadd_run seeing 0 [] (2 / 10) 1 (first_of both)).
    intros [[[r' hs1]|]|]; cbn [answer]; intros; try discriminate. eauto.
Qed.

Lemma both_clear : clear_first (map (fun c => mkcat false false (map row_of c)) [[mid'; mid]; [mid'; mid]]).
Proof.
  assert (N : no_ties [(12, 10); (10, 10)] [(12, 10); (10, 10)] 2).
  { assert (D0 : forall a, dist a a = 0).
    { intros a. unfold dist. replace (_ + _) with 0 by ring. apply sqrt_0. }
    assert (D2 : dist (12, 10) (10, 10) = 2).
    { unfold dist. cbn [fst snd]. replace (_ + _) with (2 * 2) by ring. apply sqrt_square. lra. }
    assert (D2' : dist (10, 10) (12, 10) = 2).
    { unfold dist. cbn [fst snd]. replace (_ + _) with (2 * 2) by ring. apply sqrt_square. lra. }
    intros a j j' b b' Ia Ej Ej' Lt E.
    destruct j as [|[|[|j]]], j' as [|[|[|j']]]; try discriminate; try reflexivity; exfalso;
      cbn in Ej, Ej'; injection Ej as <-; injection Ej' as <-;
      (destruct Ia as [<-|[<-|[]]]; rewrite ?D0, ?D2, ?D2' in *; lra). }
  cbn [map clear_first]. constructor; [|constructor]. split; exact N.
Qed.

(** Images of stripes: nothing was coadded before, and they are coadded twice. *)
Lemma C119_coadds_case_lm : exists r hs1 cs r' hs2,
  Forall (in_use seeing 1 (20, 20)%nat) both /\ nearest (l_query seeing) /\ (forall r, Permutation (l_sort seeing r) r) /\
  (forall n c, length (fst (l_eigh seeing n c)) = n) /\
  mapM catalogue_of (first_of both) = Ok cs /\ clear_first cs /\ Forall (fun c => (stars c < 15)%nat) cs /\
  coadd_run seeing 0 [] (2 / 10) 1 (first_of both) = Some (Ok (r, hs1)) /\
  coadd_run seeing 0 [] (2 / 10) 1 hs1 = Some (Ok (r', hs2)) /\ r' = r.
Proof.
  destruct both_coadd as (r & hs1 & E).
  assert (A : answer (coadd_run seeing 0 [] (2 / 10) 1 hs1) = answer (coadd_run seeing 0 [] (2 / 10) 1 (first_of both))).
  { apply (C119_coadds_lm seeing 1 (20, 20)%nat both [] (first_of both) (map (fun c => mkcat false false (map row_of c)) [[mid'; mid]; [mid'; mid]])
      (2 / 10) [(0%nat, [], 2 / 10, 1%Z)] hs1 0 [] 1 striped_eigh nn_nearest (fun r => Permutation_refl r) both_in_use).
    - constructor.
    - lra.
    - reflexivity.
    - exact both_catalogues.
    - exact both_clear.
    - right. repeat constructor; unfold stars; cbn; lia.
    - now repeat constructor.
    - cbn [coadds]. now rewrite E. }
  rewrite E in A. cbn [answer] in A.
  destruct (coadd_run seeing 0 [] (2 / 10) 1 hs1) as [[[r' hs2]|]|] eqn:E2; try discriminate. injection A as ->.
  exists r, hs1, (map (fun c => mkcat false false (map row_of c)) [[mid'; mid]; [mid'; mid]]), r, hs2.
  split; [exact both_in_use|]. split; [exact nn_nearest|]. split; [intros; apply Permutation_refl|]. split; [exact striped_eigh|].
  split; [exact both_catalogues|]. split; [exact both_clear|]. split; [repeat constructor; unfold stars; cbn; lia|]. auto.
Qed.

(** The catalogues of two stars, which meet the conditions on transparency. *)
Lemma C119_zero_points_case_lm : exists a b t,
  nearest nn_query /\ good_ids a /\ clear_match a b /\ same_sources b (mkcat false false (rev (rows b))) /\
  transparency nn_query (fun l => l) (fun _ n _ _ => repeat 1 n) [a; b] None = Ok t.
Proof.
  pose proof both_clear as F. cbn [map clear_first] in F. inversion F as [|? ? C _]; subst.
  exists (mkcat false false (map row_of [mid'; mid])), (mkcat false false (map row_of [mid'; mid])). destruct (C48_total_lm nn_query (fun l => l) (fun _ n _ _ => repeat 1 n)
    (map (fun c => mkcat false false (map row_of c)) [[mid'; mid]; [mid'; mid]]) None (fun r => Permutation_refl r)) as [(t & Et)|(X & _)]; [|discriminate].
  exists t. split; [exact nn_nearest|]. split; [left; reflexivity|]. split; [exact C|]. split; [|exact Et].
  unfold same_sources. cbn [rows rev app map row_of]. apply perm_swap.
Qed.
