(** Two images of stripes, and operations on them that stopped. *)
From Coq Require Import ZArith List Bool Arith Reals Lia Lra Permutation.
From Coquelicot Require Import Complex.
From Verif.Model Require Import Py Plane Ma Coadd.
From Verif.Spec Require Import Coadd.
From Verif.Model Require Import Interp Subtract FindS Sources Stamps Filter Transparency KL Session Chain ChainCoadd Again SubAgain Stopped.
From Verif.Spec Require Import Stamps KL Session Transparency Uses UsesCoadd Again SubAgain Stopped.
From Verif.Proof Require Import Transparency TransparencyMain Nearest TransparencyAgain.
From Verif.Proof Require Import Stamps StampsLoop StampsExample KL Session SessionLm SessionExample Chain ChainStack ChainUnits Uses UsesEx UsesCoadd UsesCoaddMain UsesCoaddEx Again AgainMain AgainEx SubAgain SubAgainMain SubAgainPair SubAgainEx RowSort StoppedMatch StoppedMain.
Import ListNotations.
Local Open Scope R_scope.
Set Bullet Behavior "Strict Subproofs".

Notation stripes_pair := (start_with looked_only asked_psf).

(** The library of the stripes, with a sort that does not depend on the order. *)
Definition sorting : libs :=
  mklibs (l_background striped) (l_extract striped) (l_conv striped) (l_cosmics striped) (l_choice striped) (l_stats striped)
    (l_label striped) two_eigh None (l_fit striped) (l_normal striped)
    nn_query row_sort (fun _ n _ _ => repeat 1 n) (fun p => p) (l_solve striped).

Lemma sort_looked : in_use sorting 1 (20, 20)%nat looked_only.
Proof.
  assert (B : exists o d, build sorting 1 o d = Some (Ok sbuilt)) by (exists schosen, sdata; exact striped_build).
  repeat constructor; cbn [fst snd looked_only]; try exact B; try exact striped_stamps; lra.
Qed.

Lemma sort_asked : in_use sorting 1 (20, 20)%nat asked_psf.
Proof.
  assert (B : exists o d, build sorting 1 o d = Some (Ok sbuilt)) by (exists schosen, sdata; exact striped_build).
  repeat constructor; cbn [fst snd asked_psf]; try exact B; try exact striped_stamps; lra.
Qed.

Lemma sort_subtract : exists r, subtract_built sorting (2 / 10) false false false (after (snd looked_only) sbuilt) (after (snd asked_psf) sbuilt) = Ok r.
Proof.
  assert (F1 : Forall plain [CBestSources]) by now repeat constructor.
  assert (F2 : Forall plain (snd asked_psf)) by (repeat constructor; lra).
  destruct (C48_total_lm (l_query sorting) (l_sort sorting) (l_lsqr sorting) [two_rows; two_rows] None row_sort_perm) as [(t & Et)|(X & _)]; [|discriminate].
  destruct (matched_spots _ _ _ _ _ t row_sort_perm Et) as (Rt & kn & Ek & _).
  assert (Rt' : map (fun s => (s_y s, s_x s)) (map src_of (rows (mcat t))) = [(10, 12); (10, 10)]).
  { destruct (rows (mcat t)) as [|a [|b [|]]]; try discriminate. cbn in Rt |- *. unfold rspot in Rt. injection Rt as A1 A2 A3 B1 B2 B3. cbn in *. now rewrite A1, A2, B1, B2. }
  set (x1 := after [CBestSources] sbuilt) in *. set (x2 := after (snd asked_psf) sbuilt) in *.
  destruct (striped_first [CBestSources] (map src_of (rows (mcat t))) F1) as (pr & Er & _); [now right|].
  destruct (striped_first (snd asked_psf) (map src_of (rows kn)) F2) as (pn & En & Vn); [now left|].
  fold x1 in Er. fold x2 in En. destruct (com_pos pn Vn) as [C1 C2].
  change (after (snd looked_only) sbuilt) with x1.
  unfold subtract_built. change (negb _) with false. cbv iota.
  change (bu_lib x1) with (bu_lib sbuilt). change (bu_lib x2) with (bu_lib sbuilt).
  unfold x1 at 1. rewrite looked_cat. cbn [bind]. unfold x2 at 1. rewrite asked_stars. cbn [bind]. fold two_rows. rewrite Et. cbn [bind]. rewrite Ek. fold x1 x2. rewrite Er. cbn [bind]. rewrite En. cbn [bind].
  unfold subtract, setup. cbn [as_image bind].
  change (d_shape (seen (with_best ?a x1) pr)) with (20, 20)%nat. change (d_shape (seen (with_best ?a x2) pn)) with (20, 20)%nat.
  cbn [fst snd]. change ((20 =? 20)%nat && (20 =? 20)%nat)%bool with true. cbv iota.
  change (mask_or (d_mask (seen (with_best ?a x2) pn)) (d_mask (seen (with_best ?b x1) pr)))
    with (mask_or (Full (m_msk sdata)) (Full (m_msk sdata))).
  destruct (mask_or (Full (m_msk sdata)) (Full (m_msk sdata))) as [mix|] eqn:Mx; [|discriminate]. cbn [bind e_transp].
  unfold prepare. cbv zeta. change (d_stamp (seen (with_best ?a x2) pn)) with pn.
  destruct (center_of_mass (d_stamp _)) as [d1 d2]. destruct (center_of_mass pn) as [c1 c2]. cbn [fst snd] in C1, C2.
  destruct (Rlt_dec c1 0) as [H|_]; [lra|]. destruct (Rlt_dec c2 0) as [H|_]; [lra|]. cbn [negb andb bind fit].
  eexists. reflexivity.
Qed.


(** A subtraction that stopped when the reference had its PSF and the new image its zero point,
    and is then repeated: it gives what it gives when it does not stop. *)
Lemma C128_stopped_case_lm : exists a b r p1 p2,
  in_use sorting 1 (20, 20)%nat looked_only /\ in_use sorting 1 (20, 20)%nat asked_psf /\
  nearest (l_query sorting) /\ (forall r, Permutation (l_sort sorting r) r) /\ canonical (l_sort sorting) /\
  (forall n c, length (fst (l_eigh sorting n c)) = n) /\
  catalogues stripes_pair = Ok (a, b) /\ clear_match a b /\ (stars a < 15 /\ stars b < 15)%nat /\
  subtract_run sorting (2 / 10) false false false (fst stripes_pair) (snd stripes_pair) = Ok (r, p1) /\
  attempts sorting [(Sub (2 / 10) false false false, 4%nat, 3%nat)] stripes_pair = Ok p2 /\
  result (subtract_run sorting (2 / 10) false false false (fst p2) (snd p2)) = Ok r.
Proof.
  destruct sort_subtract as [r Es]. rewrite <- (C123_first_lm sorting _ _ _ _ _ _ row_sort_perm) in Es.
  change (result (subtract_run sorting (2 / 10) false false false (fst stripes_pair) (snd stripes_pair)) = Ok r) in Es.
  destruct (subtract_run sorting (2 / 10) false false false (fst stripes_pair) (snd stripes_pair)) as [[r' p1]|] eqn:Er; [|discriminate].
  cbn [result] in Es. injection Es as ->.
  assert (Few : (stars two_rows < 15 /\ stars two_rows < 15)%nat) by (split; cbn; lia).
  assert (Ek : do_task sorting (Sub (2 / 10) false false false) stripes_pair = Some (Ok p1)) by (cbn [do_task]; now rewrite Er).
  destruct (C128_anywhere_lm sorting _ _ _ 4 3 Ek) as [p2 E2].
  assert (Ea : attempts sorting [(Sub (2 / 10) false false false, 4%nat, 3%nat)] stripes_pair = Ok p2) by (cbn [attempts]; now rewrite E2).
  assert (Hl : 0 <= 2 / 10) by lra.
  exists two_rows, two_rows, r, p1, p2.
  split; [exact sort_looked|]. split; [exact sort_asked|]. split; [exact nn_nearest|]. split; [exact row_sort_perm|]. split; [exact row_sort_canonical|]. split; [exact striped_eigh|].
  split; [exact pair_catalogues|]. split; [exact pair_clear|]. split; [exact Few|]. split; [reflexivity|]. split; [exact Ea|].
  rewrite (C128_attempts_lm sorting 1 (20, 20)%nat looked_only asked_psf [] stripes_pair two_rows two_rows [(Sub (2 / 10) false false false, 4%nat, 3%nat)] p2 (2 / 10) false false false);
    auto; try exact striped_eigh; try exact nn_nearest; try exact sort_looked; try exact sort_asked; try exact pair_catalogues; try exact pair_clear; try exact row_sort_perm; try exact row_sort_canonical.
  - now rewrite Er.
  - constructor; [exact Hl|constructor].
Qed.

Notation fresh_pair := (start_with (sbuilt, []) looked_only).

Lemma sort_fresh : in_use sorting 1 (20, 20)%nat (sbuilt, []).
Proof.
  assert (B : exists o d, build sorting 1 o d = Some (Ok sbuilt)) by (exists schosen, sdata; exact striped_build).
  repeat constructor; cbn [fst snd]; try exact B; try exact striped_stamps; lra.
Qed.

Lemma fresh_catalogues : catalogues fresh_pair = Ok (two_rows, two_rows).
Proof.
  pose proof both_catalogues as E. change (first_of both) with [fst fresh_pair; snd fresh_pair] in E. unfold catalogues.
  revert E. generalize (fst fresh_pair), (snd fresh_pair). intros x y. cbn [mapM].
  destruct (catalogue_of x) as [c|]; [|discriminate]. cbn [bind]. destruct (catalogue_of y) as [d|]; [|discriminate]. cbn [bind].
  intros E. injection E as -> ->. reflexivity.
Qed.

Lemma fresh_coadd : exists r x y, coadd_run sorting 0 [] (2 / 10) 1 [fst fresh_pair; snd fresh_pair] = Some (Ok (r, [x; y])).
Proof.
  destruct (C48_total_lm (l_query sorting) (l_sort sorting) (l_lsqr sorting)
     (map (fun c => mkcat false false (map row_of c)) [[mid'; mid]; [mid'; mid]]) None row_sort_perm) as [(t & Et)|(X & _)]; [|discriminate].
  assert (Lz : length (zps t) = length both).
  { exact (zps_length _ _ _ _ _ _ (fun _ n _ _ => repeat_length 1 n) Et). }
  assert (Fu : Forall (in_use sorting 1 (20, 20)%nat) both) by (constructor; [exact sort_fresh|constructor; [exact sort_looked|constructor]]).
  destruct (C118_works_lm sorting 1 0 [] (2 / 10) 1 (20, 20)%nat both [[mid'; mid]; [mid'; mid]] t striped_eigh
              row_sort_perm) as (r & Er); auto; try lra; try lia; try discriminate.
  - exact both_cats.
  - constructor; [intros left P; exact (striped_perm [] left P eq_refl)|].
    constructor; [intros left P; exact (striped_perm [CBestSources] left P eq_refl)|constructor].
  - rewrite <- C119_first_lm, map_map in Er. change (map _ both) with [fst fresh_pair; snd fresh_pair] in Er.
    destruct (coadd_run sorting 0 [] (2 / 10) 1 [fst fresh_pair; snd fresh_pair]) as [[[r' hs1]|]|] eqn:Ec; cbn [answer] in Er; try discriminate.
    destruct (run_parts _ _ _ _ _ _ _ _ Ec) as (_ & cs & t' & ws & vs & Pa & _).
    assert (L1 : length hs1 = 2%nat).
    { pose proof (start_ok (sbuilt, []) looked_only) as Po. destruct (parts_at sorting 1 (20, 20)%nat both (2 / 10) [fst fresh_pair; snd fresh_pair] cs t' ws vs hs1 striped_eigh row_sort_perm Fu ltac:(lra)) as (_ & _ & _ & L1 & _); auto; destruct Po; try constructor; auto. }
    destruct hs1 as [|x [|y [|? ?]]]; try discriminate. eauto.
Qed.

(** A coadd that stopped when a worker had read the PSF of the first image and the second one had
    its catalogue only, and is then repeated. *)
Lemma C128_coadd_case_lm : exists a b r p2,
  in_use sorting 1 (20, 20)%nat (sbuilt, []) /\ in_use sorting 1 (20, 20)%nat looked_only /\
  nearest (l_query sorting) /\ (forall r, Permutation (l_sort sorting r) r) /\ canonical (l_sort sorting) /\
  (forall n c, length (fst (l_eigh sorting n c)) = n) /\
  catalogues fresh_pair = Ok (a, b) /\ clear_match a b /\ (stars a < 15 /\ stars b < 15)%nat /\
  answer (coadd_run sorting 0 [] (2 / 10) 1 [fst fresh_pair; snd fresh_pair]) = Some (Ok r) /\
  attempts sorting [(Add 0 [] (2 / 10) 1, 6%nat, 2%nat)] fresh_pair = Ok p2 /\
  answer (coadd_run sorting 0 [] (2 / 10) 1 [fst p2; snd p2]) = Some (Ok r).
Proof.
  destruct fresh_coadd as (r & x & y & Ec).
  assert (Few : (stars two_rows < 15 /\ stars two_rows < 15)%nat) by (split; cbn; lia).
  assert (Ek : do_task sorting (Add 0 [] (2 / 10) 1) fresh_pair = Some (Ok (x, y))) by (cbn [do_task]; now rewrite Ec).
  destruct (C128_anywhere_lm sorting _ _ _ 6 2 Ek) as [p2 E2].
  assert (Ea : attempts sorting [(Add 0 [] (2 / 10) 1, 6%nat, 2%nat)] fresh_pair = Ok p2) by (cbn [attempts]; now rewrite E2).
  assert (Hl : 0 <= 2 / 10) by lra.
  exists two_rows, two_rows, r, p2.
  split; [exact sort_fresh|]. split; [exact sort_looked|]. split; [exact nn_nearest|]. split; [exact row_sort_perm|]. split; [exact row_sort_canonical|]. split; [exact striped_eigh|].
  split; [exact fresh_catalogues|]. split; [exact pair_clear|]. split; [exact Few|]. split; [now rewrite Ec|]. split; [exact Ea|].
  rewrite (C128_coadds_lm sorting 1 (20, 20)%nat (sbuilt, []) looked_only [] fresh_pair two_rows two_rows [(Add 0 [] (2 / 10) 1, 6%nat, 2%nat)] p2 0 [] (2 / 10) 1 r 0 [] 1);
    auto; try exact striped_eigh; try exact nn_nearest; try exact sort_fresh; try exact sort_looked; try exact fresh_catalogues; try exact pair_clear; try exact row_sort_perm; try exact row_sort_canonical.
  - now rewrite Ec.
  - constructor; [exact Hl|constructor].
  - now rewrite Ec.
Qed.
