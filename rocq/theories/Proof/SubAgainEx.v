(** Two images of stripes that are subtracted and coadded again and again. *)
From Coq Require Import ZArith List Bool Arith Reals Lia Lra Permutation.
From Coquelicot Require Import Complex.
From Verif.Model Require Import Py Plane Ma Coadd.
From Verif.Spec Require Import Coadd.
From Verif.Model Require Import Interp Subtract FindS Sources Stamps Filter Transparency KL Session Chain ChainCoadd Again SubAgain.
From Verif.Spec Require Import Stamps KL Session Transparency Uses UsesCoadd Again SubAgain.
From Verif.Proof Require Import Transparency TransparencyMain Nearest TransparencyAgain.
From Verif.Proof Require Import Stamps StampsLoop StampsExample KL Session SessionLm SessionExample Chain ChainStack ChainUnits Uses UsesEx UsesCoadd UsesCoaddMain UsesCoaddEx Again AgainMain AgainEx SubAgain SubAgainMain SubAgainPair.
Import ListNotations.
Local Open Scope R_scope.
Set Bullet Behavior "Strict Subproofs".

Lemma looked_in_use : in_use seeing 1 (20, 20)%nat looked_only.
Proof. pose proof both_in_use as F. now inversion F as [|? ? _ F1]; inversion F1. Qed.

Lemma asked_in_use : in_use seeing 1 (20, 20)%nat asked_psf.
Proof.
  assert (B : exists o d, build seeing 1 o d = Some (Ok sbuilt)) by (exists schosen, sdata; exact striped_build).
  repeat constructor; cbn [fst snd asked_psf]; try exact B; try exact striped_stamps; lra.
Qed.

Lemma asked_stars : fst (best_sources (bu_lib sbuilt) (bu_attr (after (snd asked_psf) sbuilt))) = Ok [mid'; mid].
Proof.
  assert (E : exec (bu_lib sbuilt) CBestSources (bu_attr sbuilt) = set_best (Some [mid'; mid]) (bu_attr sbuilt)).
  { cbn [exec]. unfold void, best_sources. cbn [bu_attr sbuilt fresh best]. rewrite striped_cat. reflexivity. }
  change (bu_attr (after (snd asked_psf) sbuilt)) with (exec (bu_lib sbuilt) (CGetPSF (Some (1 / 2)) None) (exec (bu_lib sbuilt) CBestSources (bu_attr sbuilt))).
  rewrite E. assert (S : settled _ _ _ (bu_lib sbuilt) [mid'; mid] (set_best (Some [mid'; mid]) (bu_attr sbuilt))).
  { split; [reflexivity|]. left. exact (few_loyal seeing 1 (20, 20)%nat asked_psf [mid'; mid] asked_in_use ltac:(cbn; lia)). }
  destruct (st_psf _ _ _ _ _ (Some (1 / 2)) _ S) as [B _]. unfold best_sources. cbn [exec]. unfold void. now rewrite B.
Qed.

Definition two_rows : cat := mkcat false false (map row_of [mid'; mid]).
Notation stripes_pair := (start_with looked_only asked_psf).

Lemma pair_catalogues : catalogues stripes_pair = Ok (two_rows, two_rows).
Proof.
  unfold catalogues, catalogue_of, start_with. cbn [h_cat h_img fst snd].
  change (bu_lib (after ?c ?x)) with (bu_lib x). change (fst looked_only) with sbuilt. change (fst asked_psf) with sbuilt.
  change (snd looked_only) with [CBestSources]. rewrite looked_cat. cbn [bind]. rewrite asked_stars. reflexivity.
Qed.

Lemma pair_clear : clear_match two_rows two_rows.
Proof. pose proof both_clear as F. cbn [map clear_first] in F. now inversion F. Qed.

Lemma pair_coadd : exists p1, do_task seeing (Add 0 [] (2 / 10) 1) stripes_pair = Some (Ok p1).
Proof.
  destruct (C48_total_lm (l_query seeing) (l_sort seeing) (l_lsqr seeing)
     (map (fun c => mkcat false false (map row_of c)) [[mid'; mid]; [mid'; mid]]) None (fun r => Permutation_refl r)) as [(t & Et)|(X & _)]; [|discriminate].
  assert (Lz : length (zps t) = 2%nat).
  { exact (zps_length _ _ _ _ _ _ (fun _ n _ _ => repeat_length 1 n) Et). }
  assert (Fu : Forall (in_use seeing 1 (20, 20)%nat) [looked_only; asked_psf]) by (constructor; [exact looked_in_use|constructor; [exact asked_in_use|constructor]]).
  destruct (C118_works_lm seeing 1 0 [] (2 / 10) 1 (20, 20)%nat [looked_only; asked_psf] [[mid'; mid]; [mid'; mid]] t striped_eigh
              (fun r => Permutation_refl r)) as (r & Er); auto; try lra; try lia; try discriminate.
  - constructor; [exact looked_cat|]. constructor; [exact asked_stars|constructor].
  - constructor; [intros left P; exact (striped_perm [CBestSources] left P eq_refl)|].
    constructor; [|constructor]. intros left _. change (exists q, psf_for (bu_lib sbuilt) (1, 1)%nat (2 / 10) = Ok q /\ snd q <> []).
    rewrite <- striped_given. apply stripes_any; cbn; auto.
  - rewrite <- C119_first_lm, map_map in Er. cbn [do_task].
    change (map _ [looked_only; asked_psf]) with [fst stripes_pair; snd stripes_pair] in Er.
    destruct (coadd_run seeing 0 [] (2 / 10) 1 [fst stripes_pair; snd stripes_pair]) as [[[r' hs1]|]|] eqn:Ec; cbn [answer] in Er; try discriminate.
    destruct (run_parts _ _ _ _ _ _ _ _ Ec) as (_ & cs & t' & ws & vs & Pa & _).
    assert (L1 : length hs1 = 2%nat).
    { pose proof (start_ok looked_only asked_psf) as Po. destruct (parts_at seeing 1 (20, 20)%nat [looked_only; asked_psf] (2 / 10) [fst stripes_pair; snd stripes_pair] cs t' ws vs hs1 striped_eigh (fun r => Permutation_refl r) Fu ltac:(lra)) as (_ & _ & _ & L1 & _); auto; destruct Po; auto. }
    destruct hs1 as [|x [|y [|? ?]]]; try discriminate. eauto.
Qed.

Lemma pair_subtract : exists r, subtract_built seeing (2 / 10) false false false (after (snd looked_only) sbuilt) (after (snd asked_psf) sbuilt) = Ok r.
Proof.
  assert (F1 : Forall plain [CBestSources]) by now repeat constructor.
  assert (F2 : Forall plain (snd asked_psf)) by (repeat constructor; lra).
  destruct (C48_total_lm (l_query seeing) (l_sort seeing) (l_lsqr seeing) [two_rows; two_rows] None (fun r => Permutation_refl r)) as [(t & Et)|(X & _)]; [|discriminate].
  destruct (matched_spots _ _ _ _ _ t (fun r => Permutation_refl r) Et) as (Rt & kn & Ek & _).
  assert (Rt' : map (fun s => (s_y s, s_x s)) (map src_of (rows (mcat t))) = [(10, 12); (10, 10)]).
  { destruct (rows (mcat t)) as [|a [|b [|]]]; try discriminate. cbn in Rt |- *. unfold rspot in Rt. injection Rt as A1 A2 A3 B1 B2 B3. cbn in *. now rewrite A1, A2, B1, B2. }
  set (x1 := after [CBestSources] sbuilt) in *. set (x2 := after (snd asked_psf) sbuilt) in *.
  destruct (striped_first [CBestSources] (map src_of (rows (mcat t))) F1) as (pr & Er & _); [now right|].
  destruct (striped_first (snd asked_psf) (map src_of (rows kn)) F2) as (pn & En & Vn); [now left|].
  fold x1 in Er. fold x2 in En. destruct (com_pos pn Vn) as [C1 C2].
  change (after (snd looked_only) sbuilt) with x1.
  unfold subtract_built. change (negb _) with false. cbv iota.
  change (bu_lib x1) with (bu_lib sbuilt). change (bu_lib x2) with (bu_lib sbuilt).
  unfold x1 at 1. rewrite looked_cat. cbn [bind]. unfold x2 at 1. rewrite asked_stars. cbn [bind]. fold two_rows. rewrite Et. cbn [bind]. rewrite Ek. fold x1 x2. rewrite Er. cbn [bind]. rewrite En. cbn [bind].
  unfold subtract, setup. cbn [as_image bind].
  change (d_shape (seen (with_best ?a x1) pr)) with (20, 20)%nat. change (d_shape (seen (with_best ?a x2) pn)) with (20, 20)%nat.
  cbn [fst snd]. change ((20 =? 20)%nat && (20 =? 20)%nat)%bool with true. cbv iota.
  change (mask_or (d_mask (seen (with_best ?a x2) pn)) (d_mask (seen (with_best ?b x1) pr)))
    with (mask_or (Full (m_msk sdata)) (Full (m_msk sdata))).
  destruct (mask_or (Full (m_msk sdata)) (Full (m_msk sdata))) as [mix|] eqn:Mx; [|discriminate]. cbn [bind e_transp].
  unfold prepare. cbv zeta. change (d_stamp (seen (with_best ?a x2) pn)) with pn.
  destruct (center_of_mass (d_stamp _)) as [d1 d2]. destruct (center_of_mass pn) as [c1 c2]. cbn [fst snd] in C1, C2.
  destruct (Rlt_dec c1 0) as [H|_]; [lra|]. destruct (Rlt_dec c2 0) as [H|_]; [lra|]. cbn [negb andb bind fit].
  eexists. reflexivity.
Qed.

(** One image whose sources were looked at and one whose PSF was asked for: they are subtracted
    and coadded, and the answers stay. *)
Lemma C123_tasks_case_lm : exists a b r p1 p2,
  in_use seeing 1 (20, 20)%nat looked_only /\ in_use seeing 1 (20, 20)%nat asked_psf /\
  nearest (l_query seeing) /\ (forall r, Permutation (l_sort seeing r) r) /\ (forall n c, length (fst (l_eigh seeing n c)) = n) /\
  catalogues stripes_pair = Ok (a, b) /\ clear_match a b /\ (stars a < 15 /\ stars b < 15)%nat /\
  subtract_run seeing (2 / 10) false false false (fst stripes_pair) (snd stripes_pair) = Ok (r, p1) /\
  tasks seeing [Sub (2 / 10) false false false; Add 0 [] (2 / 10) 1] stripes_pair = Some (Ok p2) /\
  result (subtract_run seeing (2 / 10) false false false (fst p2) (snd p2)) = Ok r.
Proof.
  destruct pair_subtract as [r Es]. rewrite <- (C123_first_lm seeing _ _ _ _ _ _ (fun r => Permutation_refl r)) in Es.
  change (result (subtract_run seeing (2 / 10) false false false (fst stripes_pair) (snd stripes_pair)) = Ok r) in Es.
  destruct (subtract_run seeing (2 / 10) false false false (fst stripes_pair) (snd stripes_pair)) as [[r' p1]|] eqn:Er; [|discriminate].
  cbn [result] in Es. injection Es as ->.
  assert (Few : (stars two_rows < 15 /\ stars two_rows < 15)%nat) by (split; cbn; lia).
  assert (Ek : do_task seeing (Sub (2 / 10) false false false) stripes_pair = Some (Ok p1)) by (cbn [do_task]; now rewrite Er).
  destruct pair_coadd as [pc Ec].
  assert (Pok : pair_ok looked_only asked_psf stripes_pair) by apply start_ok.
  assert (Hl : 0 <= 2 / 10) by lra.
  assert (A : forall f s n, answer (coadd_run seeing f s (2 / 10) n [fst p1; snd p1]) = answer (coadd_run seeing f s (2 / 10) n [fst stripes_pair; snd stripes_pair])).
  { intros f s n. apply (C123_coadds_lm seeing 1 (20, 20)%nat looked_only asked_psf [] stripes_pair two_rows two_rows [Sub (2 / 10) false false false] p1 0 [] (2 / 10) 1 pc);
      auto; try exact striped_eigh; try exact nn_nearest; try exact looked_in_use; try exact asked_in_use; try exact pair_catalogues; try exact pair_clear; try (intros; apply Permutation_refl).
    - constructor; [exact Hl|constructor].
    - cbn [tasks]. now rewrite Ek. }
  assert (exists p2, do_task seeing (Add 0 [] (2 / 10) 1) p1 = Some (Ok p2)) as [p2 Ep2].
  { specialize (A 0%nat [] 1%Z). cbn [do_task] in Ec |- *. destruct (coadd_run seeing 0 [] (2 / 10) 1 [fst stripes_pair; snd stripes_pair]) as [[[rc hs]|]|]; try discriminate. cbn [answer] in A.
    destruct (coadd_run seeing 0 [] (2 / 10) 1 [fst p1; snd p1]) as [[[rc' hs']|]|] eqn:E3; try discriminate.
    destruct (tasks_ok seeing 1 (20, 20)%nat looked_only asked_psf [Sub (2 / 10) false false false] stripes_pair p1 striped_eigh (fun r => Permutation_refl r) looked_in_use asked_in_use Pok) as [Pok1 _];
      [constructor; [exact Hl|constructor]|cbn [tasks]; now rewrite Ek|].
    destruct (run_parts _ _ _ _ _ _ _ _ E3) as (_ & cs & t & ws & vs & Pa3 & _).
    assert (Fu : Forall (in_use seeing 1 (20, 20)%nat) [looked_only; asked_psf]) by (constructor; [exact looked_in_use|constructor; [exact asked_in_use|constructor]]).
    assert (L1 : length hs' = 2%nat).
    { destruct (parts_at seeing 1 (20, 20)%nat [looked_only; asked_psf] (2 / 10) [fst p1; snd p1] cs t ws vs hs' striped_eigh (fun r => Permutation_refl r) Fu Hl) as (_ & _ & _ & L1 & _); auto; destruct Pok1; auto. }
    destruct hs' as [|x [|y [|? ?]]]; try discriminate. eauto. }
  assert (Et : tasks seeing [Sub (2 / 10) false false false; Add 0 [] (2 / 10) 1] stripes_pair = Some (Ok p2)) by (cbn [tasks]; rewrite Ek; now rewrite Ep2).
  exists two_rows, two_rows, r, p1, p2.
  split; [exact looked_in_use|]. split; [exact asked_in_use|]. split; [exact nn_nearest|]. split; [intros; apply Permutation_refl|]. split; [exact striped_eigh|].
  split; [exact pair_catalogues|]. split; [exact pair_clear|]. split; [exact Few|]. split; [reflexivity|]. split; [exact Et|].
  rewrite (C123_subtracts_lm seeing 1 (20, 20)%nat looked_only asked_psf [] stripes_pair two_rows two_rows [Sub (2 / 10) false false false; Add 0 [] (2 / 10) 1] p2 (2 / 10) false false false);
    auto; try exact striped_eigh; try exact nn_nearest; try exact looked_in_use; try exact asked_in_use; try exact pair_catalogues; try exact pair_clear; try (intros; apply Permutation_refl).
  - now rewrite Er.
  - constructor; [exact Hl|constructor; [exact Hl|constructor]].
Qed.
