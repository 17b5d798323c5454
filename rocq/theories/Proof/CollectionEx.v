(** Three images of stripes, and operations on them that stopped. *)
From Coq Require Import ZArith List Bool Arith Reals Lia Lra Permutation.
From Coquelicot Require Import Complex.
From Verif.Model Require Import Py Plane Ma Coadd.
From Verif.Spec Require Import Coadd.
From Verif.Model Require Import Interp Subtract FindS Sources Stamps Filter Transparency KL Session Chain ChainCoadd Again SubAgain Stopped Collection.
From Verif.Spec Require Import Stamps KL Session Transparency Uses UsesCoadd Again SubAgain Stopped Collection.
From Verif.Proof Require Import Transparency TransparencyMain Nearest TransparencyAgain.
From Verif.Proof Require Import Stamps StampsLoop StampsExample KL Session SessionLm SessionExample Chain ChainStack ChainUnits Uses UsesEx UsesCoadd UsesCoaddMain UsesCoaddEx Again AgainMain AgainEx SubAgain SubAgainMain SubAgainPair SubAgainEx RowSort StoppedMatch StoppedMain StoppedEx Collection CollectionMain.
Import ListNotations.
Local Open Scope R_scope.
Local Open Scope R_scope.
Set Bullet Behavior "Strict Subproofs".

(** The reference was asked for its best sources, the first image for its PSF. *)
Definition three (k : nat) : built * list call := match k with 0 => looked_only | 1 => asked_psf | _ => (sbuilt, []) end%nat.

(** The reference was asked nothing. *)
Definition three' (k : nat) : built * list call := match k with 0 => (sbuilt, []) | 1 => looked_only | _ => asked_psf end%nat.

Lemma three_used k : (k < 3)%nat -> in_use sorting 1 (20, 20)%nat (three k).
Proof. intros _. destruct k as [|[|k]]; [exact sort_looked|exact sort_asked|exact sort_fresh]. Qed.

Lemma three_used' k : (k < 3)%nat -> in_use sorting 1 (20, 20)%nat (three' k).
Proof. intros _. destruct k as [|[|k]]; [exact sort_fresh|exact sort_looked|exact sort_asked]. Qed.

Lemma held_cats : catalogue_of (mkheld (after (snd looked_only) sbuilt) None) = Ok two_rows /\ catalogue_of (mkheld (after (snd asked_psf) sbuilt) None) = Ok two_rows /\
  catalogue_of (mkheld (after [] sbuilt) None) = Ok two_rows.
Proof.
  pose proof pair_catalogues as E. pose proof fresh_catalogues as F. unfold catalogues in E, F.
  change (fst (start_with looked_only asked_psf)) with (mkheld (after (snd looked_only) sbuilt) None) in E.
  change (snd (start_with looked_only asked_psf)) with (mkheld (after (snd asked_psf) sbuilt) None) in E.
  change (fst fresh_pair) with (mkheld (after [] sbuilt) None) in F.
  change (snd fresh_pair) with (mkheld (after (snd looked_only) sbuilt) None) in F.
  revert E F. generalize (mkheld (after [] sbuilt) None), (mkheld (after (snd looked_only) sbuilt) None), (mkheld (after (snd asked_psf) sbuilt) None). intros x y z.
  destruct (catalogue_of y) as [c|]; [|discriminate]. cbn [bind]. destruct (catalogue_of z) as [d|]; [|discriminate]. cbn [bind].
  destruct (catalogue_of x) as [e|]; [|discriminate]. cbn [bind]. intros E F. injection E as -> ->. injection F as ->. auto.
Qed.

Lemma three_cats k : catalogue_of (untouched three k) = Ok two_rows.
Proof. destruct held_cats as (A & B & D). destruct k as [|[|k]]; [exact A|exact B|exact D]. Qed.

Lemma three_cats' k : catalogue_of (untouched three' k) = Ok two_rows.
Proof. destruct held_cats as (A & B & D). destruct k as [|[|k]]; [exact D|exact A|exact B]. Qed.

Lemma part3 op n c z h : (n < 4)%nat -> exists h1, partway op n c z h = Ok h1.
Proof. intros H. destruct n as [|[|[|[|n]]]]; try lia; eexists; reflexivity. Qed.

(** Operations that stop before a PSF is computed always come there. *)
Lemma stop_early W op i js st : (forall r, Permutation (l_sort W r) r) -> NoDup (map fst js) -> (i < 4)%nat -> Forall (fun j => (snd j < 4)%nat) js ->
  (exists c, catalogue_of (st 0%nat) = Ok c) -> Forall (fun j => exists c, catalogue_of (st (fst j)) = Ok c) js ->
  exists st1, begun W (mkattempt op i js) st = Ok st1.
Proof.
  intros SP Nd Hi Fj [c Ec] Fc. unfold begun. cbn [at_op at_ref at_others]. rewrite Ec. cbn [bind].
  assert (exists bs, mapM (fun j => catalogue_of (st (fst j))) js = Ok bs) as [bs Eb].
  { clear - Fc. induction Fc as [|j js [c Ec] _ [bs IH]]; [eexists; reflexivity|]. cbn [mapM]. rewrite Ec. cbn [bind]. rewrite IH. cbn [bind]. eauto. }
  rewrite Eb. cbn [bind]. destruct (C48_total_lm (l_query W) (l_sort W) (l_lsqr W) (c :: bs) None SP) as [(t & Et)|(X & _)]; [|discriminate].
  rewrite Et. cbn [bind]. destruct (part3 op i (mcat t) (hd 0 (zps t)) (st 0%nat) Hi) as [r ->]. cbn [bind].
  destruct (partways_ok op js (cats t) (tl (zps t)) st Nd) as [st1 ->]; [| |cbn [bind]; eauto].
  - rewrite (cats_are (l_query W) (l_sort W) (l_lsqr W) c bs t Et), map_length. exact (proj1 (mapM_nth _ _ _ Eb)).
  - intros p k n b Kp _. apply part3. rewrite Forall_forall in Fj. apply nth_error_In in Kp. exact (Fj _ Kp).
Qed.

Definition sub_stopped : attempt := mkattempt (Sub (2 / 10) false false false) 4 [(1, 3)]%nat.
Definition add_stopped : attempt := mkattempt (Add 0 [] (2 / 10) 1) 3 [(2, 3); (1, 2)]%nat.

Lemma both_proper : Forall (proper 3) [sub_stopped; add_stopped].
Proof.
  assert (Hl : 0 <= 2 / 10) by lra.
  constructor; [|constructor; [|constructor]]; unfold proper; cbn [sub_stopped add_stopped at_others at_op map fst loss_asked is_sub].
  - split; [repeat constructor; cbn; intuition discriminate|]. split; [repeat (constructor; [lia|]); constructor|]. split; [exact Hl|]. intros _; eauto.
  - split; [repeat constructor; cbn; intuition discriminate|]. split; [repeat (constructor; [lia|]); constructor|]. split; [exact Hl|]. intros [].
Qed.

Lemma three_begun : exists st1, begun_all sorting [sub_stopped; add_stopped] (untouched three) = Ok st1.
Proof.
  destruct sort_subtract as [r Es]. rewrite <- (C123_first_lm sorting _ _ _ _ _ _ row_sort_perm) in Es.
  destruct (subtract_run sorting (2 / 10) false false false (mkheld (after (snd looked_only) sbuilt) None) (mkheld (after (snd asked_psf) sbuilt) None)) as [[r' p1]|] eqn:Er; [|discriminate].
  destruct (C130_subtract_done_lm sorting (2 / 10) false false false (untouched three) 1 r' p1) as (st7 & E7 & _); [discriminate|exact Er|].
  destruct (C130_anywhere_lm sorting (Sub (2 / 10) false false false) [1%nat] (untouched three) st7 4 [(1, 3)]%nat) as [st2 E2]; [repeat constructor; intros []|intros [X|[]]; discriminate|exact E7|reflexivity|].
  assert (Pa : proper 3 sub_stopped) by (pose proof both_proper as F; now inversion F).
  assert (Ct : forall k, (k < 3)%nat -> exists c, catalogue_of (st2 k) = Ok c).
  { intros k Hk. destruct (few_step sorting 1 (20, 20)%nat three 3 sub_stopped (untouched three) st2 striped_eigh row_sort_perm ltac:(lia) three_used Pa
      (well_start sorting 1 (20, 20)%nat three 3) E2 k two_rows Hk (three_cats k)) as (c1 & E1 & _); [cbn; lia|eauto]. }
  destruct (stop_early sorting (Add 0 [] (2 / 10) 1) 3 [(2, 3); (1, 2)]%nat st2 row_sort_perm) as [st1 E1].
  - repeat constructor; cbn; intuition discriminate.
  - lia.
  - repeat constructor; cbn; lia.
  - apply Ct. lia.
  - repeat constructor; apply Ct; cbn; lia.
  - exists st1. cbn [begun_all]. change (begun sorting sub_stopped (untouched three)) with (begun sorting (mkattempt (Sub (2 / 10) false false false) 4 [(1, 3)]%nat) (untouched three)).
    rewrite E2. cbn [bind]. change add_stopped with (mkattempt (Add 0 [] (2 / 10) 1) 3 [(2, 3); (1, 2)]%nat). rewrite E1. reflexivity.
Qed.

(** A subtraction, one that stopped when the reference had its PSF and the new image its zero
    point, a coadd of all three images that stopped when it gave them their zero points, and the
    subtraction again. *)
Lemma C130_case_lm : exists r st1,
  (forall k, (k < 3)%nat -> in_use sorting 1 (20, 20)%nat (three k)) /\ Forall (proper 3) [sub_stopped; add_stopped] /\
  nearest (l_query sorting) /\ (forall r, Permutation (l_sort sorting r) r) /\ canonical (l_sort sorting) /\
  (forall n c, length (fst (l_eigh sorting n c)) = n) /\
  begun_all sorting [sub_stopped; add_stopped] (untouched three) = Ok st1 /\
  clear_all 3 (untouched three) /\ none_lost sorting 3 [sub_stopped; add_stopped] (untouched three) /\
  result (subtract_run sorting (2 / 10) false false false (untouched three 0%nat) (untouched three 1%nat)) = Ok r /\
  result (subtract_run sorting (2 / 10) false false false (st1 0%nat) (st1 1%nat)) = Ok r.
Proof.
  destruct three_begun as [st1 E1]. destruct sort_subtract as [r Es]. rewrite <- (C123_first_lm sorting _ _ _ _ _ _ row_sort_perm) in Es.
  assert (Cl : clear_all 3 (untouched three)).
  { intros k c b _ Ec Eb. rewrite three_cats in Ec, Eb. injection Ec as <-. injection Eb as <-. exact pair_clear. }
  assert (Nl : none_lost sorting 3 [sub_stopped; add_stopped] (untouched three)).
  { apply (C130_few_lm sorting 1 (20, 20)%nat three 3 [] _ _ striped_eigh row_sort_perm three_used); [exact both_proper|reflexivity|].
    intros k c _ Ec. rewrite three_cats in Ec. injection Ec as <-. cbn. lia. }
  exists r, st1. split; [exact three_used|]. split; [exact both_proper|]. split; [exact nn_nearest|]. split; [exact row_sort_perm|]. split; [exact row_sort_canonical|]. split; [exact striped_eigh|].
  split; [exact E1|]. split; [exact Cl|]. split; [exact Nl|]. split; [exact Es|].
  rewrite (C130_subtract_lm sorting 1 (20, 20)%nat three 3 [] (untouched three) [sub_stopped; add_stopped] st1 1); auto; try exact striped_eigh; try exact row_sort_perm; try exact row_sort_canonical; try exact nn_nearest; try exact three_used.
  - exact both_proper.
  - lra.
Qed.

Definition pair_stopped : attempt := mkattempt (Add 0 [] (2 / 10) 1) 6 [(1, 2)]%nat.
Definition third_stopped : attempt := mkattempt (Sub (2 / 10) false false false) 3 [(2, 1)]%nat.

Lemma pair_proper : Forall (proper 3) [pair_stopped; third_stopped].
Proof.
  assert (Hl : 0 <= 2 / 10) by lra.
  constructor; [|constructor; [|constructor]]; unfold proper; cbn [pair_stopped third_stopped at_others at_op map fst loss_asked is_sub].
  - split; [repeat constructor; cbn; intuition discriminate|]. split; [repeat (constructor; [lia|]); constructor|]. split; [exact Hl|]. intros [].
  - split; [repeat constructor; cbn; intuition discriminate|]. split; [repeat (constructor; [lia|]); constructor|]. split; [exact Hl|]. intros _; eauto.
Qed.

(** A coadd, one that stopped when a worker had read the PSF of the reference, a subtraction of a
    third image that stopped when the reference had its zero point, and the coadd again. *)
Lemma C130_coadd_case_lm : exists r st1,
  (forall k, (k < 3)%nat -> in_use sorting 1 (20, 20)%nat (three' k)) /\ Forall (proper 3) [pair_stopped; third_stopped] /\
  Forall (between_coadds [1%nat] (2 / 10)) [pair_stopped; third_stopped] /\
  begun_all sorting [pair_stopped; third_stopped] (untouched three') = Ok st1 /\
  clear_all 3 (untouched three') /\ none_lost sorting 3 [pair_stopped; third_stopped] (untouched three') /\
  answer (coadd_run sorting 0 [] (2 / 10) 1 (map (untouched three') [0; 1]%nat)) = Some (Ok r) /\
  answer (coadd_run sorting 0 [] (2 / 10) 1 (map st1 [0; 1]%nat)) = Some (Ok r).
Proof.
  destruct fresh_coadd as (r & x & y & Ec).
  change [fst fresh_pair; snd fresh_pair] with (map (untouched three') (0%nat :: [1%nat])) in Ec.
  destruct (C130_coadd_done_lm sorting 0 [] (2 / 10) 1 (untouched three') [1%nat] r [x; y]) as (st7 & E7 & _); [repeat constructor; intros []|intros [X|[]]; discriminate|exact Ec|].
  destruct (C130_anywhere_lm sorting (Add 0 [] (2 / 10) 1) [1%nat] (untouched three') st7 6 [(1, 2)]%nat) as [st2 E2]; [repeat constructor; intros []|intros [X|[]]; discriminate|exact E7|reflexivity|].
  assert (Pa : proper 3 pair_stopped) by (pose proof pair_proper as F; now inversion F).
  assert (Ct : forall k, (k < 3)%nat -> exists c, catalogue_of (st2 k) = Ok c).
  { intros k Hk. destruct (few_step sorting 1 (20, 20)%nat three' 3 pair_stopped (untouched three') st2 striped_eigh row_sort_perm ltac:(lia) three_used' Pa
      (well_start sorting 1 (20, 20)%nat three' 3) E2 k two_rows Hk (three_cats' k)) as (c1 & E1 & _); [cbn; lia|eauto]. }
  destruct (stop_early sorting (Sub (2 / 10) false false false) 3 [(2, 1)]%nat st2 row_sort_perm) as [st1 E1].
  { repeat constructor; cbn; intuition discriminate. } { lia. } { repeat constructor; cbn; lia. } { apply Ct. lia. } { repeat constructor; apply Ct; cbn; lia. }
  assert (Ea : begun_all sorting [pair_stopped; third_stopped] (untouched three') = Ok st1).
  { cbn [begun_all]. change pair_stopped with (mkattempt (Add 0 [] (2 / 10) 1) 6 [(1, 2)]%nat). rewrite E2. cbn [bind].
    change third_stopped with (mkattempt (Sub (2 / 10) false false false) 3 [(2, 1)]%nat). rewrite E1. reflexivity. }
  assert (Cl : clear_all 3 (untouched three')).
  { intros k c b _ E Eb. rewrite three_cats' in E, Eb. injection E as <-. injection Eb as <-. exact pair_clear. }
  assert (Nl : none_lost sorting 3 [pair_stopped; third_stopped] (untouched three')).
  { apply (C130_few_lm sorting 1 (20, 20)%nat three' 3 [] _ _ striped_eigh row_sort_perm three_used'); [exact pair_proper|reflexivity|].
    intros k c _ E. rewrite three_cats' in E. injection E as <-. cbn. lia. }
  assert (Bt : Forall (between_coadds [1%nat] (2 / 10)) [pair_stopped; third_stopped]).
  { constructor; [right; split; reflexivity|constructor; [left; exact I|constructor]]. }
  assert (Ea' : answer (coadd_run sorting 0 [] (2 / 10) 1 (map (untouched three') [0; 1]%nat)) = Some (Ok r)) by (rewrite Ec; reflexivity).
  exists r, st1. split; [exact three_used'|]. split; [exact pair_proper|]. split; [exact Bt|]. split; [exact Ea|]. split; [exact Cl|]. split; [exact Nl|]. split; [exact Ea'|].
  rewrite (C130_coadd_lm sorting 1 (20, 20)%nat three' 3 [] (untouched three') [pair_stopped; third_stopped] st1 [1%nat] 0 [] (2 / 10) 1 r 0 [] 1); auto; try exact striped_eigh; try exact row_sort_perm; try exact row_sort_canonical; try exact nn_nearest; try exact three_used'.
  - exact pair_proper.
  - lra.
  - repeat constructor. intros [].
Qed.
