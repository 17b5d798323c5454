(** A subtraction of two images with stripes, one of which was used before. *)
From Coq Require Import ZArith List Bool Arith Reals Lia Lra Permutation.
From Coquelicot Require Import Complex.
From Verif.Model Require Import Py Plane Ma Image Interp FindS Sources Stamps Cut KL Session Filter Transparency Subtract Chain CutChain Live LiveSub.
From Verif.Spec Require Import Image Stamps Chain Session Uses Cut CutCoadd Live.
From Verif.Proof Require Import Coadd Stamps StampsExample Session SessionLm Chain ChainMain ChainUnits ChainExample Uses UsesEx UsesCoaddEx CutIntact CutEx CutChain CutChainLeft CutCoaddEx CutUses CutUsesEx Live LiveMain LiveSub.
Import ListNotations.
Set Bullet Behavior "Strict Subproofs".
Local Open Scope R_scope.

Lemma stripes_used (asked : bool) stars : (asked = false -> Permutation (map spot stars) (map spot [mid'; mid])) ->
  exists p, used striped schosen sbuilt [mid'; mid] (2 / 10) stars asked = Ok p /\
    forall i j, (i < nr p)%nat -> (j < nc p)%nat -> 0 <= px p i j.
Proof.
  intros H. set (k := if asked then [mid'; mid] else stars).
  assert (P : Permutation (map spot k) (map spot [mid'; mid])) by (unfold k; destruct asked; [apply Permutation_refl|now apply H]).
  assert (Fe : exists p, first_element (2 / 10) (opened striped schosen k (with_best k sbuilt)) = Ok p /\
    forall i j, (i < nr p)%nat -> (j < nc p)%nat -> 0 <= px p i j).
  { clearbody k. pose proof (Permutation_length P) as Ln. rewrite !map_length in Ln. destruct k as [|a [|b [|]]]; try discriminate.
    assert (Q : forall x, In x [a; b] -> starry_at x).
    { intros x Ix. apply (in_map spot) in Ix. apply (Permutation_in _ P) in Ix.
      destruct Ix as [Ix|[Ix|[]]]; injection Ix; intros; split; cbn in *; auto. }
    apply stripes_cut_first; apply Q; [now left|right; now left]. }
  destruct Fe as (p & E & V).
  destruct (opened_reads striped 1 schosen sdata sbuilt k (2 / 10) p striped_eigh striped_build ltac:(lra) E) as ((f & q & t & A & B1 & B2) & _).
  cbn [stamps_read] in A. cbn [seen d_stamp] in B1, B2. exists (numbers q). split.
  - unfold used, head. assert (A' : (if asked then psf_for (bu_lib (opened striped schosen [mid'; mid] sbuilt)) (stamp_shape (bu_attr sbuilt)) (2 / 10)
      else psf_for (given (bu_lib (opened striped schosen stars sbuilt)) stars) (stamp_shape (bu_attr sbuilt)) (2 / 10)) = Ok (f, q :: t)).
    { revert A. unfold k. destruct asked; [|exact (fun e => e)]. intros A. rewrite <- A. unfold psf_for, stamps_of.
      change (select (bu_lib (opened striped schosen [mid'; mid] sbuilt))) with (select (bu_lib sbuilt)). rewrite striped_cat. reflexivity. }
    rewrite A'. reflexivity.
  - unfold shape in B1. injection B1 as Q1 Q2. intros i j Hi Hj. cbn [numbers pmap nr nc px] in *.
    specialize (B2 i j). destruct (px q i j) as [v|]; [|lra]. rewrite <- (B2 v eq_refl). apply V; congruence.
Qed.

(** The reference was only looked at, a PSF of the new image was asked for. *)
Lemma C140_case_lm : exists x c ex D P S m s' t',
  build striped 1 schosen sdata = Some (Ok x) /\ fst (best_sources (bu_lib x) (bu_attr x)) = Ok c /\
  snd (first_cut striped schosen x c) = Ok ex /\ (forall r, Permutation (l_sort striped r) r) /\
  (forall n c, length (fst (l_eigh striped n c)) = n) /\
  Forall plain [CBestSources] /\ Forall plain [CBestSources; CGetPSF (Some (1 / 2)) None] /\
  stamps_read (looked_at (bu_attr x)) [CBestSources] = false /\
  stamps_read (looked_at (bu_attr x)) [CBestSources; CGetPSF (Some (1 / 2)) None] = true /\
  subtract_live striped schosen schosen (2 / 10) false false false x x (lived striped schosen [CBestSources] x)
    (lived striped schosen [CBestSources; CGetPSF (Some (1 / 2)) None] x) = Ok ((D, P, S, m), (s', t')).
Proof.
  assert (F1 : Forall plain [CBestSources]) by now repeat constructor.
  assert (F2 : Forall plain [CBestSources; CGetPSF (Some (1 / 2)) None]) by (repeat constructor; lra).
  destruct (simg_cut (l_stats striped) (l_label striped) None mid' mid) as (last & ex & E & _); [split; cbn; auto|split; cbn; auto|].
  assert (First : snd (first_cut striped schosen sbuilt [mid'; mid]) = Ok ex).
  { change (snd (cut_stamps (l_stats striped) (l_label striped) (mkpicks false None) (intact simg) 1 (1, 1)%nat [mid'; mid]) = Ok ex).
    now rewrite E. }
  assert (B1 : exists s1, l_best_sources (live_lib striped schosen sbuilt) (lived striped schosen [CBestSources] sbuilt) = (Ok [mid'; mid], s1)).
  { unfold lived, l_exec_all. cbn [fold_left l_exec]. unfold lvoid, l_best_sources, best_sources. cbn [fst snd live_lib base untouched].
    cbn [bu_attr sbuilt fresh best]. rewrite striped_cat. cbn [snd]. eexists. reflexivity. }
  destruct B1 as (s1 & B1).
  assert (B2 : exists cn t1, l_best_sources (live_lib striped schosen sbuilt) (lived striped schosen [CBestSources; CGetPSF (Some (1 / 2)) None] sbuilt) = (Ok cn, t1)).
  { generalize (lived striped schosen [CBestSources; CGetPSF (Some (1 / 2)) None] sbuilt). intros s. unfold l_best_sources, best_sources.
    destruct (best (snd s)) as [cn|]; [do 2 eexists; reflexivity|]. cbn [live_lib base]. rewrite striped_cat. do 2 eexists. reflexivity. }
  destruct B2 as (cn & t1 & B2).
  destruct (striped_unmatched (map row_of cn)) as (t & Et & _).
  assert (Sub : exists D P S m s' t', subtract_live striped schosen schosen (2 / 10) false false false sbuilt sbuilt
    (lived striped schosen [CBestSources] sbuilt) (lived striped schosen [CBestSources; CGetPSF (Some (1 / 2)) None] sbuilt) = Ok ((D, P, S, m), (s', t'))).
  { unfold subtract_live. change (negb _) with false. cbv iota. rewrite B1, B2. cbn [bind]. rewrite Et. cbn [bind].
    set (kr := map src_of (rows (mcat t))) in *. set (kn := match cats t with k :: _ => map src_of (rows k) | [] => cn end).
    set (z := nth 0 (zps t) 0). set (z' := nth 1 (zps t) 0).
    destruct (turn_value striped 1 schosen sdata sbuilt [CBestSources] [mid'; mid] (2 / 10) kr z _ s1 striped_eigh striped_build F1 new_cat ltac:(lra)
      ltac:(discriminate) B1) as [A1 _].
    destruct (turn_value striped 1 schosen sdata sbuilt [CBestSources; CGetPSF (Some (1 / 2)) None] [mid'; mid] (2 / 10) kn z' _ t1 striped_eigh striped_build F2 new_cat ltac:(lra)
      (fun _ => ex_intro _ ex First) B2) as [A2 _].
    change (stamps_read (looked_at (bu_attr sbuilt)) [CBestSources]) with false in A1.
    change (stamps_read (looked_at (bu_attr sbuilt)) [CBestSources; CGetPSF (Some (1 / 2)) None]) with true in A2.
    destruct (stripes_used false kr) as (pr & Er & _).
    { intros _. destruct (matched_spots _ _ _ _ _ _ (fun r => Permutation_refl r : Permutation (l_sort striped r) r) Et) as (Sr & _).
      unfold kr. replace (map spot (map src_of (rows (mcat t)))) with (map rspot (rows (mcat t))) by (rewrite map_map; reflexivity).
      rewrite Sr. apply Permutation_refl. }
    destruct (stripes_used true kn) as (pn & En & Vn); [discriminate|].
    rewrite Er in A1. rewrite En in A2.
    destruct (l_turn striped schosen sbuilt (2 / 10) kr z s1) as [r1 s2]. destruct (l_turn striped schosen sbuilt (2 / 10) kn z' t1) as [r2 t2].
    cbn [fst] in A1, A2. subst r1 r2. cbn [bind].
    destruct (com_pos pn Vn) as [C1 C2].
    unfold subtract, setup. cbn [as_image bind].
    set (u := l_seen sbuilt (fst s2) pr). set (v := l_seen sbuilt (fst t2) pn).
    change (d_shape u) with (20, 20)%nat. change (d_shape v) with (20, 20)%nat.
    cbn [fst snd]. change ((20 =? 20)%nat && (20 =? 20)%nat)%bool with true. cbv iota.
    change (mask_or (d_mask v) (d_mask u)) with (mask_or (Full (m_msk sdata)) (Full (m_msk sdata))).
    destruct (mask_or (Full (m_msk sdata)) (Full (m_msk sdata))) as [mix|] eqn:Mx; [|discriminate]. cbn [bind e_transp].
    unfold prepare. cbv zeta. change (d_stamp v) with pn.
    destruct (center_of_mass (d_stamp _)) as [d1 d2]. destruct (center_of_mass pn) as [c1 c2]. cbn [fst snd] in C1, C2.
    destruct (Rlt_dec c1 0) as [H|_]; [lra|]. destruct (Rlt_dec c2 0) as [H|_]; [lra|]. cbn [negb andb bind fit].
    do 6 eexists. reflexivity. }
  destruct Sub as (D & P & S & m & s' & t' & Sub).
  exists sbuilt, [mid'; mid], ex, D, P, S, m, s', t'.
  split; [exact striped_build|]. split; [exact new_cat|]. split; [exact First|]. split; [intros r; apply Permutation_refl|].
  split; [exact striped_eigh|]. split; [exact F1|]. split; [exact F2|]. split; [reflexivity|]. split; [reflexivity|exact Sub].
Qed.

(** Histories of the two kinds that know the same sources. *)
Lemma C140_history_case_lm : exists x c ex kept,
  build striped 1 schosen sdata = Some (Ok x) /\ fst (best_sources (bu_lib x) (bu_attr x)) = Ok c /\
  snd (first_cut striped schosen x c) = Ok ex /\ (forall n c, length (fst (l_eigh striped n c)) = n) /\
  let asked := stamps_read (looked_at (bu_attr x)) in
  let known cs := fst (l_best_sources (live_lib striped schosen x) (lived striped schosen cs x)) in
  Forall plain [CSetZp 3] /\ Forall plain [CBestSources] /\ asked [CSetZp 3] = false /\ asked [CBestSources] = false /\
  known [CSetZp 3] = Ok c /\ known [CBestSources] = Ok c /\
  Forall plain [CStampsPos] /\ Forall plain [CBestSources; CStampsPos; CSetZp 3] /\ asked [CStampsPos] = true /\
  asked [CBestSources; CStampsPos; CSetZp 3] = true /\
  known [CStampsPos] = Ok kept /\ known [CBestSources; CStampsPos; CSetZp 3] = Ok kept.
Proof.
  destruct C140_case_lm as (x & c & ex & _ & _ & _ & _ & _ & _ & Bx & Bs & First & _ & EL & _).
  destruct (build_catalogue _ _ _ _ _ _ Bx Bs) as [Hsel _].
  assert (Ex : x = sbuilt) by (pose proof striped_build as Q; congruence). subst x.
  pose proof (first_cutting striped schosen sbuilt c ex First) as Cu.
  eexists sbuilt, c, ex, _. split; [exact Bx|]. split; [exact Bs|]. split; [exact First|]. split; [exact EL|]. cbv zeta.
  split; [now repeat constructor|]. split; [now repeat constructor|]. split; [reflexivity|]. split; [reflexivity|].
  assert (A0 : bu_attr sbuilt = fresh _ _ _ (1, 1)%nat None) by reflexivity.
  split; [|split; [|split; [now repeat constructor|split; [now repeat constructor|split; [reflexivity|split; [reflexivity|]]]]]].
  - unfold lived, l_exec_all. cbn [fold_left l_exec]. unfold l_best_sources, best_sources. cbn [fst snd]. rewrite A0. cbn [fresh best set_zp].
    cbn [live_lib base]. rewrite Hsel. reflexivity.
  - unfold lived, l_exec_all. cbn [fold_left l_exec]. unfold lvoid, l_best_sources, best_sources. cbn [fst snd]. rewrite A0. cbn [fresh best].
    cbn [live_lib base]. rewrite Hsel. reflexivity.
  - unfold lived. rewrite A0 in Cu |- *. cbn [fresh stamp_shape] in Cu.
    change (select (bu_lib sbuilt)) with (select (base (live_lib striped schosen sbuilt))) in Hsel.
    revert Hsel Cu. generalize (live_lib striped schosen sbuilt), (untouched sbuilt), (pic1 striped schosen sbuilt c).
    intros L u v Hsel Cu. split.
    + unfold l_exec_all. cbn [fold_left l_exec]. unfold lvoid, l_stamps_pos, lbind, l_best_sources, best_sources, lget, lupd, lret.
      cbn. rewrite Hsel. cbn. rewrite Cu. cbn. reflexivity.
    + unfold l_exec_all. cbn [fold_left l_exec]. unfold lvoid, l_stamps_pos, lbind, l_best_sources, best_sources, lget, lupd, lret.
      cbn. rewrite Hsel. cbn. rewrite Cu. cbn. reflexivity.
Qed.
