(** The stripes of Proof/UsesEx.v, filtered. *)
From Coq Require Import ZArith List Bool Arith Reals Lia Lra Permutation.
From Coquelicot Require Import Complex.
From Verif.Model Require Import Py Plane Ma Coadd.
From Verif.Spec Require Import Coadd.
From Verif.Model Require Import Filter.
From Verif.Spec Require Import Filter.
From Verif.Proof Require Import Filter FilterMain.
From Verif.Model Require Import Interp Subtract FindS Sources Stamps Transparency KL Session Chain ChainCoadd.
From Verif.Spec Require Import Stamps KL Session Uses UsesCoadd.
From Verif.Proof Require Import Interp Stamps StampsLoop StampsExample KL KLMain Session SessionLm SessionExample Chain ChainUnits Uses UsesEx UsesCoadd UsesCoaddMain UsesCoaddEx Filtered.
Import ListNotations.
Local Open Scope R_scope.
Set Bullet Behavior "Strict Subproofs".

Lemma unflat (p : plane R) i j : nc p = 7%nat -> (j < 7)%nat -> flat p (i * 7 + j) = px p i j.
Proof.
  intros E Hj. unfold flat. rewrite E.
  replace ((i * 7 + j) / 7)%nat with i by (rewrite Nat.add_comm, Nat.div_add, (Nat.div_small j) by lia; lia).
  now replace ((i * 7 + j) mod 7)%nat with j by (rewrite Nat.add_comm, Nat.mod_add, Nat.mod_small by lia; lia).
Qed.

Lemma two_full (p q : plane R) : shape p = (7, 7)%nat -> shape q = (7, 7)%nat ->
  exists b c, KL.kl_basis two_eigh None (7, 7)%nat [p; q] (2 / 10) = Ok [b; c] /\ is_stamp b q /\ is_stamp c p.
Proof.
  unfold shape. intros [= Pr Pc] [= Qr Qc]. unfold KL.kl_basis, KL.eigenv, KL.cov_matrix.
  cbn [forallb fst snd]. rewrite Pr, Pc, Qr, Qc. cbn [Nat.eqb andb negb length Nat.leb bind].
  unfold two_eigh at 1. cbn [map seq]. rewrite cut_02. cbn [Nat.sub seq map bind rev app].
  do 2 eexists. split; [reflexivity|]. split; (split; [unfold shape; cbn; congruence|]); intros i j Hi Hj;
    unfold KL.reshape; cbn [px fst snd]; f_equal; unfold combination, columns; cbn [KL.sumn nth Nat.add];
    rewrite !unflat by lia; unfold delta; cbn [Nat.eqb]; ring.
Qed.

Lemma cut_05 : kl_cut (1 / 2) [INR 1; INR 2] = 1%nat.
Proof.
  unfold kl_cut, sum_abs. cbn [fold_right rev app map]. rewrite INR1, INR2.
  rewrite (Rabs_right 1), (Rabs_right 2) by lra. destruct (Req_EM_T _ 0); [lra|]. cbn [cut_loop].
  destruct (Rlt_dec _ _) as [H|N]; [exfalso; lra|reflexivity].
Qed.

Lemma one_full (p q : plane R) : shape p = (7, 7)%nat -> shape q = (7, 7)%nat ->
  exists b, KL.kl_basis two_eigh None (7, 7)%nat [p; q] (1 / 2) = Ok [unit_total b] /\ is_stamp b q.
Proof.
  unfold shape. intros [= Pr Pc] [= Qr Qc]. unfold KL.kl_basis, KL.eigenv, KL.cov_matrix.
  cbn [forallb fst snd]. rewrite Pr, Pc, Qr, Qc. cbn [Nat.eqb andb negb length Nat.leb bind].
  unfold two_eigh at 1. cbn [map seq]. rewrite cut_05. cbn [Nat.sub seq map bind rev app].
  eexists. split; [reflexivity|]. (split; [unfold shape; cbn; congruence|]); intros i j Hi Hj;
    unfold KL.reshape; cbn [px fst snd]; f_equal; unfold combination, columns; cbn [KL.sumn nth Nat.add];
    rewrite !unflat by lia; unfold delta; cbn [Nat.eqb]; ring.
Qed.

(** The stamp of the middle star. *)
Definition comb : plane R := mkplane 7 7 (fun i _ => b2r (Nat.odd i) / 21).

Lemma comb_center : center_of_mass comb = (IZR 3, IZR 3).
Proof. unfold center_of_mass, psumR, comb. cbn. f_equal; field. Qed.

Lemma stamp_trans b q e : is_stamp b q -> shape e = shape q ->
  (forall i j, (i < nr e)%nat -> (j < nc e)%nat -> px q i j = px e i j) -> is_stamp b e.
Proof.
  unfold is_stamp, shape. intros [S1 V] S2 K. injection S1 as A B. injection S2 as A' B'. split; [congruence|]. intros i j Hi Hj.
  rewrite V by lia. f_equal. apply K; lia.
Qed.

Lemma stripe_stamps : exists pa pb,
  stamps_of _ _ _ (bu_lib sbuilt) (1, 1)%nat = Ok ([numbers pa; numbers pb], [(10, 12); (10, 10)]) /\
  shape pa = (7, 7)%nat /\ shape pb = (7, 7)%nat /\
  forall i j, (i < 7)%nat -> (j < 7)%nat -> px (numbers pb) i j = px comb i j.
Proof.
  destruct (side_stamp mid' eq_refl eq_refl) as (pa & Ea & Sa). destruct (mid_stamp mid eq_refl eq_refl) as (pb & Eb & Sb & Vb).
  exists pa, pb. rewrite <- striped_given.
  assert (E : extract_for striped (mkpicks false None) simg 1 (1, 1)%nat [mid'; mid] =
              ([numbers pa; numbers pb], Ok ([(s_y mid', s_x mid'); (s_y mid, s_x mid)], [mid'; mid]))).
  { unfold extract_for. cbn [dump_loop]. rewrite Ea, Eb. reflexivity. }
  split; [|split; [exact Sa|split; [exact Sb|]]].
  - unfold stamps_of. cbn [given Session.select Session.extract bu_lib sbuilt lib_of b_rms]. rewrite E. reflexivity.
  - intros i j Hi Hj. cbn [numbers pmap px]. rewrite Vb by assumption. reflexivity.
Qed.

Lemma stripe_two : exists fs b c e, psf_for (bu_lib sbuilt) (1, 1)%nat (2 / 10) = Ok (Fields fs, [b; c]) /\
  is_stamp b comb /\ is_stamp c e /\ shape e = (7, 7)%nat.
Proof.
  destruct stripe_stamps as (pa & pb & St & Sa & Sb & V). unfold psf_for. rewrite St. cbn [bind fst snd Nat.add].
  destruct (two_full (numbers pa) (numbers pb) Sa Sb) as (b & c & Eq & Hb & Hc).
  change (eigh (bu_lib sbuilt)) with two_eigh. change (smooth (bu_lib sbuilt)) with (@None (plane (option R) -> plane (option R))).
  rewrite Eq. cbn [bind length Nat.eqb].
  assert (He : exists v, KL.eigenv two_eigh (7, 7)%nat [numbers pa; numbers pb] = Ok v).
  { unfold KL.eigenv, KL.cov_matrix. unfold shape in Sa, Sb. injection Sa as Sa1 Sa2. injection Sb as Sb1 Sb2.
    cbn [forallb fst snd numbers pmap nr nc]. rewrite Sa1, Sa2, Sb1, Sb2. cbn [Nat.eqb andb negb bind length]. eauto. }
  destruct He as (v & ->). cbn [bind]. do 4 eexists. split; [reflexivity|].
  split; [apply (stamp_trans b (numbers pb) comb Hb); [now symmetry|exact V]|]. split; [exact Hc|exact Sa].
Qed.

Lemma stripe_one : exists p, psf_for (bu_lib sbuilt) (1, 1)%nat (1 / 2) = Ok (NoField, [p]) /\ is_stamp p comb.
Proof.
  destruct stripe_stamps as (pa & pb & St & Sa & Sb & V). unfold psf_for. rewrite St. cbn [bind fst snd Nat.add].
  destruct (one_full (numbers pa) (numbers pb) Sa Sb) as (b & Eq & Hb).
  change (eigh (bu_lib sbuilt)) with two_eigh. change (smooth (bu_lib sbuilt)) with (@None (plane (option R) -> plane (option R))).
  rewrite Eq. cbn [bind length Nat.eqb]. eexists. split; [reflexivity|].
  assert (Hc : is_stamp b comb) by (apply (stamp_trans b (numbers pb) comb Hb); [now symmetry|exact V]).
  assert (T : total_opt b = Some 1).
  { apply total_opt_some. exists comb. destruct Hc as [S W]. split; [split; [symmetry; exact S|]|].
    - unfold shape in S. injection S as Sr Sc. intros i j Hi Hj. rewrite W by (cbn; cbn in Sr, Sc; lia). reflexivity.
    - unfold sum2. cbn. field. }
  unfold unit_total. rewrite T. destruct (Req_EM_T 1 0); [lra|]. destruct Hc as [S W]. split; [exact S|].
  intros i j Hi Hj. cbn [pmap px]. rewrite W by assumption. cbn [option_map]. f_equal. field.
Qed.

(** A new image of stripes, whose PSF varies. *)
Lemma C120_variable_case_lm : exists S fs b nf nb e es,
  build striped 1 schosen sdata = Some (Ok sbuilt) /\ (forall n c, length (fst (l_eigh striped n c)) = n) /\
  fst (s_component (bu_lib sbuilt) (bu_attr (after [] sbuilt))) = Ok (Ok S) /\
  first_component (2 / 10) [] <> Some (last_loss []) /\
  psf_for (bu_lib sbuilt) (stamp_shape (bu_attr sbuilt)) (last_loss []) = Ok (Fields fs, b) /\
  psf_for (bu_lib sbuilt) (stamp_shape (bu_attr sbuilt)) (norm_loss (need_filt (history []))) = Ok (nf, nb) /\
  Forall2 is_stamp b (e :: es) /\ es <> [] /\ center_of_mass e = (IZR 3, IZR 3) /\ Forall (fits (20, 20)%nat) (e :: es) /\
  (forall i j, px (l_normal striped (20, 20)%nat nf nb) i j <> 0) /\ var (bu_back sbuilt) <> 0 /\
  shape (m_dat (bu_data sbuilt)) = (20, 20)%nat.
Proof.
  destruct stripe_two as (fs & b & c & e & Ep & Hb & Hc & Se).
  assert (O : lib_ok (bu_lib sbuilt)) by (apply lib_of_ok; exact striped_eigh).
  assert (Nw : new_image (bu_lib sbuilt) (1, 1)%nat (bu_attr sbuilt)) by (left; reflexivity).
  assert (C : exists S, fst (s_component (bu_lib sbuilt) (bu_attr (after [] sbuilt))) = Ok (Ok S)).
  { change (bu_attr (after [] sbuilt)) with (exec_all (bu_lib sbuilt) [] (bu_attr sbuilt)).
    rewrite (C41_current_lm _ _ _ (bu_lib sbuilt) (1, 1)%nat (bu_attr sbuilt) [] O Nw (Forall_nil _)) by discriminate.
    rewrite (C40_history_lm _ _ _ (bu_lib sbuilt) (1, 1)%nat (bu_attr sbuilt) [] O Nw (Forall_nil _)).
    unfold filt_for, norm_for. cbn [history fold_left need_filt m_filt need_norm m_norm norm_loss made_of snd].
    change (last_loss []) with (2 / 10). cbn [m_loss]. rewrite Ep. cbn [bind]. eexists. reflexivity. }
  destruct C as (S & ES). exists S, fs, [b; c], (Fields fs), [b; c], comb, [e].
  split; [exact striped_build|]. split; [exact striped_eigh|]. split; [exact ES|]. split; [discriminate|].
  split; [exact Ep|]. split; [exact Ep|]. split; [repeat constructor; try apply Hb; try apply Hc|]. split; [discriminate|].
  split; [exact comb_center|]. split.
  { unfold shape in Se. injection Se as E1 E2. constructor; [split; cbn; lia|]. constructor; [split; cbn; lia|constructor]. }
  split; [intros i j; cbn; lra|]. split; [cbn; lra|reflexivity].
Qed.

(** The same image after a PSF for the loss 1/2, which has one element, was asked for. *)
Lemma C120_constant_case_lm : exists S p,
  build striped 1 schosen sdata = Some (Ok sbuilt) /\ (forall n c, length (fst (l_eigh striped n c)) = n) /\
  let cs := [CGetPSF (Some (1 / 2)) None; CSetZp 3] in
  Forall plain cs /\ first_component (2 / 10) cs <> Some (last_loss cs) /\
  fst (s_component (bu_lib sbuilt) (bu_attr (after cs sbuilt))) = Ok (Ok S) /\
  psf_for (bu_lib sbuilt) (stamp_shape (bu_attr sbuilt)) (last_loss cs) = Ok (NoField, [p]) /\
  is_stamp p comb /\ center_of_mass comb = (IZR 3, IZR 3) /\ fits (20, 20)%nat comb /\
  snd (made_of (need_filt (history cs))) = 3 /\ shape (m_dat (bu_data sbuilt)) = (20, 20)%nat.
Proof.
  destruct stripe_one as (p & Ep & Hp).
  assert (O : lib_ok (bu_lib sbuilt)) by (apply lib_of_ok; exact striped_eigh).
  assert (Nw : new_image (bu_lib sbuilt) (1, 1)%nat (bu_attr sbuilt)) by (left; reflexivity).
  set (cs := [CGetPSF (Some (1 / 2)) None; CSetZp 3]).
  assert (F : Forall plain cs) by (repeat constructor; lra).
  assert (C : exists S, fst (s_component (bu_lib sbuilt) (bu_attr (after cs sbuilt))) = Ok (Ok S)).
  { change (bu_attr (after cs sbuilt)) with (exec_all (bu_lib sbuilt) cs (bu_attr sbuilt)).
    rewrite (C41_current_lm _ _ _ (bu_lib sbuilt) (1, 1)%nat (bu_attr sbuilt) cs O Nw F) by discriminate.
    rewrite (C40_history_lm _ _ _ (bu_lib sbuilt) (1, 1)%nat (bu_attr sbuilt) cs O Nw F).
    unfold filt_for, norm_for. change (norm_loss (need_filt (history cs))) with (1 / 2).
    change (last_loss cs) with (1 / 2). rewrite Ep. cbn [bind]. eexists. reflexivity. }
  destruct C as (S & ES). exists S, p. split; [exact striped_build|]. split; [exact striped_eigh|]. cbv zeta. fold cs.
  split; [exact F|]. split; [discriminate|]. split; [exact ES|]. split; [exact Ep|]. split; [exact Hp|].
  split; [exact comb_center|]. split; [unfold fits; cbn; lia|]. split; reflexivity.
Qed.
