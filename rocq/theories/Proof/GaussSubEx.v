(** Cases of subtractions with Gaussian PSFs. *)
From Coq Require Import ZArith List Bool Arith Reals Lia Lra Permutation.
From Coquelicot Require Import Complex.
From Verif.Model Require Import Py Plane Ma Coadd.
From Verif.Spec Require Import Coadd Subtract.
From Verif.Model Require Import Filter.
From Verif.Spec Require Import Filter.
From Verif.Proof Require Import Filter FilterMain.
From Verif.Model Require Import Interp Subtract FindS Sources Stamps Transparency KL Session Chain ChainCoadd Gauss GaussImage GaussSub.
From Verif.Spec Require Import Stamps KL Session Uses UsesCoadd GaussImage GaussSub.
From Verif.Proof Require Import Interp Stamps StampsLoop StampsExample KL KLMain Session SessionLm SessionExample GaussMain Chain ChainUnits Uses UsesEx UsesCoadd UsesCoaddMain UsesCoaddEx Filtered FilteredEx GaussImage GaussFiltered GaussImageEx GaussSub.
Import ListNotations.
Local Open Scope R_scope.
Set Bullet Behavior "Strict Subproofs".

Lemma ex_params pa pb : shape pa = (7, 7)%nat -> shape pb = (7, 7)%nat ->
  params_of ex_fitter ex_stats [numbers pa; numbers pb] (1, 2, 0).
Proof.
  intros Sa Sb. exists [mkgauss 1 2 0 5; mkgauss 1 2 0 5]. split.
  - assert (K : forall q : plane _, shape q = (7, 7)%nat -> fit_gaussian2d ex_fitter (numbers q) = Ok (mkgauss 1 2 0 5)).
    { intros q Sq. unfold shape in Sq. injection Sq as Q1 Q2. unfold fit_gaussian2d, cells. cbn [numbers pmap nr nc].
      rewrite Q1, Q2. reflexivity. }
    constructor; [now apply K|]. constructor; [now apply K|constructor].
  - cbv zeta. unfold ex_stats. cbn [map fst total_of fold_right length INR xw yw th].
    f_equal; [f_equal|]; field.
Qed.

Lemma stripes_given (stars : list src) : map (fun s => (s_y s, s_x s)) stars = [(10, 12); (10, 10)] ->
  exists pa pb p, stamps_of _ _ _ (given (bu_lib sbuilt) stars) (1, 1)%nat = Ok ([numbers pa; numbers pb], p) /\
    shape pa = (7, 7)%nat /\ shape pb = (7, 7)%nat.
Proof.
  destruct stars as [|a [|b [|]]]; try discriminate. intros [= Ay Ax By Bx].
  destruct (side_stamp a Ay Ax) as (pa & Ea & Sa). destruct (mid_stamp b By Bx) as (pb & Eb & Sb & Vb).
  assert (E : extract_for striped (mkpicks false None) simg 1 (1, 1)%nat [a; b] =
              ([numbers pa; numbers pb], Ok ([(s_y a, s_x a); (s_y b, s_x b)], [a; b]))).
  { unfold extract_for. cbn [dump_loop]. rewrite Ea, Eb. reflexivity. }
  exists pa, pb. eexists. split; [|now split].
  unfold stamps_of. cbn [given Session.select Session.extract bu_lib sbuilt lib_of b_rms]. rewrite E. reflexivity.
Qed.

Definition looked : list call := [CBestSources].
Definition used : list call := [CBestSources; CSHat].

Lemma striped_model cs stars : Forall g_plain cs ->
  stamps_read false cs = true \/ map (fun s => (s_y s, s_x s)) stars = [(10, 12); (10, 10)] ->
  fst (gauss_model (bu_lib sbuilt) ex_fitter ex_stats (bu_attr (with_best stars (g_after ex_fitter ex_stats ex_render cs sbuilt)))) = Ok (1, 2, 0).
Proof.
  intros F Hs. destruct stripe_stamps as (pa & pb & St & Sa & Sb & _).
  assert (X : exists pa pb p, stamps_of _ _ _ (if stamps_read false cs then bu_lib sbuilt else given (bu_lib sbuilt) stars) (1, 1)%nat =
     Ok ([numbers pa; numbers pb], p) /\ shape pa = (7, 7)%nat /\ shape pb = (7, 7)%nat).
  { destruct (stamps_read false cs); [exists pa, pb; eauto|]. destruct Hs as [|Hs]; [discriminate|]. now apply stripes_given. }
  destruct X as (pa' & pb' & p' & St' & Sa' & Sb').
  exact (model_given _ _ _ (bu_lib sbuilt) ex_fitter ex_stats ex_render (1, 1)%nat (bu_attr sbuilt) cs _ _ (1, 2, 0) stars _ _ (1, 2, 0)
    stripe_ok (or_introl eq_refl) St (ex_params pa pb Sa Sb) F St' (ex_params pa' pb' Sa' Sb')).
Qed.

Lemma C122_subtract_case_lm : exists x sp D P S m,
  build striped 1 schosen sdata = Some (Ok x) /\ (forall n c, length (fst (l_eigh striped n c)) = n) /\
  (forall r, Permutation (l_sort striped r) r) /\
  stamps_of _ _ _ (bu_lib x) (stamp_shape (bu_attr x)) = Ok sp /\ params_of ex_fitter ex_stats (fst sp) (1, 2, 0) /\
  Forall g_plain looked /\ Forall g_plain used /\
  subtract_gauss striped ex_fitter ex_stats false false false
    (g_after ex_fitter ex_stats ex_render looked x) (g_after ex_fitter ex_stats ex_render used x) = Ok (D, P, S, m) /\
  stamps_read (looked_at (bu_attr x)) looked = false /\ stamps_read (looked_at (bu_attr x)) used = true.
Proof.
  assert (F1 : Forall g_plain looked) by now repeat constructor.
  assert (F2 : Forall g_plain used) by (repeat constructor).
  destruct stripe_stamps as (pa & pb & St & Sa & Sb & _).
  set (x1 := g_after ex_fitter ex_stats ex_render looked sbuilt).
  set (x2 := g_after ex_fitter ex_stats ex_render used sbuilt).
  set (s1 := g_exec (bu_lib sbuilt) ex_fitter ex_stats ex_render CBestSources (bu_attr sbuilt)).
  assert (E1 : s1 = set_best (Some [mid'; mid]) (bu_attr sbuilt)).
  { unfold s1. cbn [g_exec exec]. unfold void, best_sources. cbn [bu_attr sbuilt fresh best].
    rewrite striped_cat. reflexivity. }
  assert (B1 : fst (best_sources (bu_lib sbuilt) (bu_attr x1)) = Ok [mid'; mid]).
  { change (bu_attr x1) with s1. rewrite E1. reflexivity. }
  assert (B2 : exists c, fst (best_sources (bu_lib sbuilt) (bu_attr x2)) = Ok c).
  { unfold best_sources. destruct (best (bu_attr x2)) as [c|]; [exists c; reflexivity|]. rewrite striped_cat. eexists. reflexivity. }
  destruct B2 as (cn & B2).
  destruct (striped_unmatched (map row_of cn)) as (t & Et & Rt).
  pose proof (striped_model looked (map src_of (rows (mcat t))) F1 (or_intror Rt)) as M1.
  pose proof (striped_model used (match cats t with c :: _ => map src_of (rows c) | [] => cn end) F2 (or_introl eq_refl)) as M2.
  fold x1 in M1. fold x2 in M2.
  assert (Sub : exists D P S m, subtract_gauss striped ex_fitter ex_stats false false false x1 x2 = Ok (D, P, S, m)).
  { unfold subtract_gauss. change (negb _) with false. cbv iota.
    change (bu_lib x1) with (bu_lib sbuilt). change (bu_lib x2) with (bu_lib sbuilt).
    rewrite B1. cbn [bind]. rewrite B2. cbn [bind]. rewrite Et. cbn [bind].
    change (bu_lib (with_best ?a x1)) with (bu_lib sbuilt). change (bu_lib (with_best ?a x2)) with (bu_lib sbuilt).
    rewrite M1. cbn [bind]. rewrite M2. cbn [bind].
    unfold subtract, setup. cbn [as_image bind].
    change (d_shape (seen_gauss (with_best ?a x1) ?g)) with (20, 20)%nat. change (d_shape (seen_gauss (with_best ?a x2) ?g)) with (20, 20)%nat.
    cbn [fst snd]. change ((20 =? 20)%nat && (20 =? 20)%nat)%bool with true. cbv iota.
    change (mask_or (d_mask (seen_gauss (with_best ?a x2) ?g)) (d_mask (seen_gauss (with_best ?b x1) ?g)))
      with (mask_or (Full (m_msk sdata)) (Full (m_msk sdata))).
    destruct (mask_or (Full (m_msk sdata)) (Full (m_msk sdata))) as [mix|] eqn:Mx; [|discriminate]. cbn [bind e_transp].
    unfold prepare. cbv zeta.
    match goal with |- context [center_of_mass ?p] => destruct (center_of_mass p) as [c1 c2] end.
    match goal with |- context [center_of_mass ?p] => try destruct (center_of_mass p) as [c3 c4] end.
    cbn [negb andb bind fit]. do 4 eexists. reflexivity. }
  destruct Sub as (D & P & S & m & Sub).
  exists sbuilt. eexists. exists D, P, S, m. split; [exact striped_build|]. split; [exact striped_eigh|].
  split; [intros r; apply Permutation_refl|]. split; [exact St|]. split; [exact (ex_params pa pb Sa Sb)|].
  split; [exact F1|]. split; [exact F2|]. split; [exact Sub|]. split; reflexivity.
Qed.

(** A flat frame seen with Gaussians of width [w]. *)
Definition misty (sh : nat * nat) (w : R) : dimg :=
  mkdimg sh (fun _ _ => 1) Nomask (fun _ _ => 1) 1 (mkplane 1 1 (fun _ _ => 1)) (render_frame sh w w 0).
Definition calm : env :=
  mkenv (fun _ => Raise TypeError) (fun _ => Raise TypeError) (fun _ _ => Raise ValueError) (fun _ _ => Ok (1, 1))
    (fun p => pmap (fun _ => 0) p) ex_lost.

Lemma misty_gauss sh w : w <> 0 ->
  gaussian_at (d_render (misty sh w)) sh w w 0 (INR (snd sh) / 2) (INR (fst sh) / 2).
Proof. intros H i j _ _. cbn. now apply gauss2d_rotated. Qed.

Lemma C122_seeing_case_lm : let u := misty (2, 2)%nat 1 in let v := misty (2, 2)%nat 2 in exists r dx dy D P S m,
  gaussian_at (d_render u) (d_shape u) 1 1 0 1 1 /\ gaussian_at (d_render v) (d_shape v) 2 2 0 1 1 /\ 0 < d_var v /\
  ratio_and_shift calm (Is u) (Is v) false false false false true = Ok (r, dx, dy) /\
  subtract calm (Is u) (Is v) false false false false true = Ok (D, P, S, m) /\
  flux v = r * flux u /\ 0 < flux v.
Proof.
  intros u v.
  assert (G : forall w, w <> 0 -> gaussian_at (d_render (misty (2, 2)%nat w)) (2, 2)%nat w w 0 1 1).
  { intros w Hw. pose proof (misty_gauss (2, 2)%nat w Hw) as K. cbn [fst snd] in K. replace (INR 2 / 2) with 1 in K by (cbn; field). exact K. }
  do 7 eexists. split; [apply G; lra|]. split; [apply G; lra|]. split; [cbn; lra|].
  split; [reflexivity|]. split; [reflexivity|]. cbn. split; lra.
Qed.

Lemma C122_axes_case_lm : let u := misty (3, 6)%nat 1 in
  gaussian_at (d_render u) (d_shape u) 1 1 0 (INR (snd (d_shape u)) / 2) (INR (fst (d_shape u)) / 2) /\
  (2 * fst (d_shape u) <= snd (d_shape u))%nat /\ d_render u 0 0 < d_render u 1 0.
Proof.
  intros u. split; [apply misty_gauss; lra|]. split; [cbn; lia|].
  cbn. unfold render_frame, gauss2d. cbn. rewrite cos_0, sin_0. rewrite !Rmult_1_l. apply exp_increasing. rewrite Rmult_0_r, sin_0. lra.
Qed.
