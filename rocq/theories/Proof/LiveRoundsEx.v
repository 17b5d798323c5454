(** Two subtractions of the images with stripes. *)
From Coq Require Import ZArith List Bool Arith Reals Lia Lra Permutation.
From Coquelicot Require Import Complex.
From Verif.Model Require Import Py Plane Ma Image Interp FindS Sources Stamps Cut KL Session Filter Transparency Subtract Chain Again CutChain Live LiveSub LiveRounds.
From Verif.Spec Require Import Image Stamps Chain Session Uses Cut CutCoadd Live LiveMore LiveRounds.
From Verif.Proof Require Import Coadd Stamps StampsExample Session SessionLm Chain ChainMain ChainUnits ChainExample Uses UsesEx UsesCoaddEx CutIntact CutEx CutChain CutChainLeft CutCoaddEx CutUses CutUsesEx Live LiveMain LiveSub LiveSubEx LiveMore LiveRounds.
Import ListNotations.
Set Bullet Behavior "Strict Subproofs".
Local Open Scope R_scope.

Lemma stripes_unmatched a c : exists t,
  transparency (l_query striped) (l_sort striped) (l_lsqr striped) [mkcat false false a; c] None = Ok t /\
  mcat t = mkcat false false a.
Proof.
  unfold transparency, transparency_of. cbn [map].
  match goal with |- context [process_image ?q ?s ?m ?c] => set (pi := process_image q s m c) end.
  assert (I : exists ids n, fst pi = map (match_one ids [] []) (seq 0 n)) by (do 2 eexists; reflexivity).
  destruct I as (ids & n & I).
  assert (N : forall k, (0 <= k)%Z -> existsb (Z.eqb k) (fst pi) = false).
  { intros k Hk. rewrite I. generalize (seq 0 n). intros l. induction l as [|i l IH]; [reflexivity|]. cbn [map existsb]. rewrite IH, orb_false_r.
    unfold match_one. destruct i; cbn [nth]; apply Z.eqb_neq; unfold sentinel; lia. }
  clearbody pi. cbn [with_source_ids append_ids has_id has_det rows append_dets].
  match goal with |- context [filter r_det (set_dets ?D ?R)] => assert (F : filter r_det (set_dets D R) = []) end.
  { assert (G : forall l, (forall r, In r l -> (0 <= r_id r)%Z) ->
      filter r_det (set_dets (map (fun r => forallb (fun d : list Z * cat => existsb (Z.eqb (r_id r)) (fst d)) [pi]) l) l) = []).
    { induction l as [|r l IH]; intros P; [reflexivity|]. unfold set_dets. cbn [map combine filter with_det r_det fst snd forallb].
      rewrite (N (r_id r)) by (apply P; now left). cbn [andb]. apply IH. intros; apply P; now right. }
    apply G. intros r Ir. unfold set_ids in Ir. apply in_map_iff in Ir. destruct Ir as ([z q] & <- & Iz). apply in_combine_l in Iz.
    apply in_map_iff in Iz. destruct Iz as (m & <- & _). cbn. lia. }
  cbn [rows]. rewrite F. cbn [length Nat.eqb andb]. eexists. split; reflexivity.
Qed.

(** A subtraction returns once the catalogues match and the PSFs are there. *)
Lemma held_ok l hs cr cn s1 t1 t p q s2 t2 :
  l_catalogue striped schosen sbuilt (fst hs) = (Ok cr, s1) -> l_catalogue striped schosen sbuilt (snd hs) = (Ok cn, t1) ->
  transparency (l_query striped) (l_sort striped) (l_lsqr striped) [cr; cn] None = Ok t ->
  l_turn striped schosen sbuilt l (map src_of (rows (mcat t))) (nth 0 (zps t) 0) s1 = (Ok p, s2) ->
  l_turn striped schosen sbuilt l (map src_of (rows (match cats t with c :: _ => c | [] => cn end))) (nth 1 (zps t) 0) t1 = (Ok q, t2) ->
  (forall i j, (i < nr q)%nat -> (j < nc q)%nat -> 0 <= px q i j) ->
  exists D hs', subtract_held striped schosen schosen l false false false sbuilt sbuilt hs = Ok (D, hs').
Proof.
  intros A1 A2 A3 A4 A5 V. unfold subtract_held. change (negb _) with false. cbv iota. rewrite A1, A2. cbn [bind]. rewrite A3. cbn [bind].
  rewrite A4, A5. cbn [bind]. destruct (com_pos q V) as [C1 C2].
  unfold subtract, setup. cbn [as_image bind].
  set (u := l_seen sbuilt (fst s2) p). set (v := l_seen sbuilt (fst t2) q).
  change (d_shape u) with (20, 20)%nat. change (d_shape v) with (20, 20)%nat.
  cbn [fst snd]. change ((20 =? 20)%nat && (20 =? 20)%nat)%bool with true. cbv iota.
  change (mask_or (d_mask v) (d_mask u)) with (mask_or (Full (m_msk sdata)) (Full (m_msk sdata))).
  destruct (mask_or (Full (m_msk sdata)) (Full (m_msk sdata))) as [mix|] eqn:Mx; [|discriminate]. cbn [bind e_transp].
  unfold prepare. cbv zeta. change (d_stamp v) with q.
  destruct (center_of_mass (d_stamp _)) as [d1 d2]. destruct (center_of_mass q) as [c1 c2]. cbn [fst snd] in C1, C2.
  destruct (Rlt_dec c1 0) as [H|_]; [lra|]. destruct (Rlt_dec c2 0) as [H|_]; [lra|]. cbn [negb andb bind fit].
  do 2 eexists. reflexivity.
Qed.

(** The turn of an image with stripes whose stamps are settled. *)
Lemma stripes_turn k ps (h : lheld) stars z : settled striped schosen sbuilt k ps (fst h) -> Permutation (map spot k) (map spot [mid'; mid]) ->
  exists p s2, l_turn striped schosen sbuilt (2 / 10) stars z (fst h) = (Ok p, s2) /\
    forall i j, (i < nr p)%nat -> (j < nc p)%nat -> 0 <= px p i j.
Proof.
  intros H P. destruct (settled_look _ _ _ _ _ _ H) as [_ (l & L)].
  rewrite (turn_eq striped schosen sbuilt (2 / 10) stars z l (fst h) (fst h) L).
  apply (settled_best striped schosen sbuilt k ps stars) in H.
  assert (Sel : select (bu_lib sbuilt) = Ok [mid'; mid]) by exact striped_cat.
  apply (settled_step striped schosen sbuilt _ k ps Sel (CSetZp z) _ I) in H. cbn [l_exec fst snd] in H.
  destruct (settled_psf striped schosen sbuilt _ k ps Sel _ (2 / 10) H ltac:(lra)) as (A & _).
  destruct (stripes_used false k (fun _ => P)) as (p & E & V). unfold used in E.
  destruct (l_get_variable_psf (live_lib striped schosen sbuilt) (Some (2 / 10)) None _) as [r s3]. cbn [fst snd] in *. subst r.
  exists p, s3. split; [|exact V]. now rewrite E.
Qed.

(** The reference was only looked at before the first subtraction, a PSF of the new image was
    asked for. *)
Lemma C142_subtract_case_lm : exists x c ex A hs hs1 D hs2,
  let rs := [Calls [CSHat; CUpdateSources (Some [mid])] [CStampsPos]] in
  let pre := [CBestSources] in
  let pre' := [CBestSources; CGetPSF (Some (1 / 2)) None] in
  build striped 1 schosen sdata = Some (Ok x) /\ fst (best_sources (bu_lib x) (bu_attr x)) = Ok c /\
  snd (first_cut striped schosen x c) = Ok ex /\ (forall r, Permutation (l_sort striped r) r) /\
  (forall n c, length (fst (l_eigh striped n c)) = n) /\ Forall plain pre /\ Forall plain pre' /\
  stamps_read (looked_at (bu_attr x)) pre = false /\ stamps_read (looked_at (bu_attr x)) pre' = true /\
  subtract_held striped schosen schosen (2 / 10) false false false x x
    ((lived striped schosen pre x, None), (lived striped schosen pre' x, None)) = Ok (A, hs) /\
  Forall usual rs /\ play_all striped schosen schosen x x rs hs = Ok hs1 /\
  subtract_held striped schosen schosen (2 / 10) false false false x x hs1 = Ok (D, hs2).
Proof.
  destruct C140_case_lm as (x & c & ex & D0 & P0 & S0 & m0 & s0 & t0 & Bx & Bs & First & SP & EL & F1 & F2 & R1 & R2 & Sub0).
  assert (Ex : x = sbuilt) by (pose proof striped_build as Q; congruence). subst x.
  assert (Ec : c = [mid'; mid]) by (pose proof new_cat as Q; congruence). subst c.
  assert (Sel : select (bu_lib sbuilt) = Ok [mid'; mid]) by exact striped_cat.
  assert (Fst : exists A hs, subtract_held striped schosen schosen (2 / 10) false false false sbuilt sbuilt
    ((lived striped schosen [CBestSources] sbuilt, None), (lived striped schosen [CBestSources; CGetPSF (Some (1 / 2)) None] sbuilt, None)) = Ok (A, hs)).
  { revert Sub0. unfold subtract_live, subtract_held, l_catalogue. cbn [fst snd].
    destruct (negb _); [discriminate|].
    destruct (l_best_sources (live_lib striped schosen sbuilt) (lived striped schosen [CBestSources] sbuilt)) as [[cr|] s1].
    2:{ destruct (l_best_sources (live_lib striped schosen sbuilt) (lived striped schosen _ sbuilt)). discriminate. }
    destruct (l_best_sources (live_lib striped schosen sbuilt) (lived striped schosen _ sbuilt)) as [[cn|] t1]; [|discriminate]. cbn [bind].
    destruct (transparency _ _ _ _ _) as [t|] eqn:Et; [|discriminate]. cbn [bind].
    destruct (matched_spots _ _ _ _ _ _ SP Et) as (_ & kc & Ec & _). rewrite Ec.
    destruct (l_turn _ _ _ _ _ _ s1) as [[pr|] s2].
    2:{ destruct (l_turn _ _ _ _ _ _ t1). discriminate. }
    destruct (l_turn _ _ _ _ _ _ t1) as [[pn|] t2]; [|discriminate]. cbn [bind].
    destruct (subtract _ _ _ _ _ _ _ _) as [r|]; [|discriminate]. intros _. do 2 eexists. reflexivity. }
  destruct Fst as (A & hs & Fst).
  assert (Fr : Forall usual [Calls [CSHat; CUpdateSources (Some [mid])] [CStampsPos]]).
  { constructor; [|constructor]. split; repeat constructor. }
  destruct (held_steps _ _ _ _ _ _ _ _ _ _ _ _ Fst) as (cr & cn & s1 & t1 & t & p & q & s2 & t2 & A1 & A2 & A3 & A4 & A5 & _ & A7).
  cbn [fst snd] in A1, A2. unfold l_catalogue in A1, A2. cbn [fst snd] in A1, A2.
  destruct (l_best_sources (live_lib striped schosen sbuilt) (lived striped schosen [CBestSources] sbuilt)) as [[kr|] s1'] eqn:Er; [|discriminate].
  cbn [bind] in A1. injection A1 as <- <-.
  destruct (l_best_sources (live_lib striped schosen sbuilt) (lived striped schosen [CBestSources; CGetPSF (Some (1 / 2)) None] sbuilt)) as [[kn|] t1'] eqn:En; [|discriminate].
  cbn [bind] in A2. injection A2 as <- <-.
  assert (Kr : kr = [mid'; mid]).
  { revert Er. unfold lived, l_exec_all. cbn [fold_left l_exec]. unfold lvoid, l_best_sources, best_sources. cbn [fst snd live_lib base untouched].
    cbn [bu_attr sbuilt fresh best]. rewrite striped_cat. cbn. congruence. }
  subst kr. destruct (stripes_unmatched (map row_of [mid'; mid]) (mkcat false false (map row_of kn))) as (t' & Et' & Mt).
  assert (t' = t) by congruence. subst t'. clear Et'.
  destruct (settle_turn striped 1 schosen sdata sbuilt [CBestSources] _ _ _ (2 / 10) _ s1' p s2 striped_eigh striped_build F1 new_cat ltac:(lra)
    ltac:(rewrite R1; discriminate) Er A4) as (ps & H & Th).
  destruct (settle_turn striped 1 schosen sdata sbuilt _ _ _ _ (2 / 10) _ t1' q t2 striped_eigh striped_build F2 new_cat ltac:(lra)
    (fun _ => ex_intro _ ex First) En A5) as (ps' & H' & Th').
  rewrite R1 in H. rewrite R2 in H'. cbv iota in H, H'.
  assert (B : both striped schosen schosen sbuilt sbuilt (map src_of (rows (mcat t))) [mid'; mid] ps ps' hs).
  { subst hs. split; cbn [fst snd]; (split; [now apply settled_keep|now apply tied_kept]). }
  set (hs1 := (l_calls striped schosen sbuilt [CSHat; CUpdateSources (Some [mid])] (fst hs), l_calls striped schosen sbuilt [CStampsPos] (snd hs))).
  assert (Pl : play_all striped schosen schosen sbuilt sbuilt [Calls [CSHat; CUpdateSources (Some [mid])] [CStampsPos]] hs = Ok hs1) by reflexivity.
  destruct (both_rounds striped schosen schosen sbuilt sbuilt _ _ _ _ ps ps' Sel Sel _ hs hs1 Fr B Pl) as [[B1 _] [B2 _]].
  assert (C1 : exists a, l_catalogue striped schosen sbuilt (fst hs1) = (Ok (mkcat false false a), fst (fst hs1))).
  { destruct (settled_look _ _ _ _ _ _ B1) as [_ (l & L)]. unfold l_catalogue. change (snd (fst hs1)) with (@None cat). cbv iota.
    rewrite L. eexists. reflexivity. }
  assert (C2 : exists b, l_catalogue striped schosen sbuilt (snd hs1) = (Ok b, fst (snd hs1))).
  { subst hs hs1. cbn [fst snd l_calls option_map]. unfold l_catalogue. cbn [fst snd]. eexists. reflexivity. }
  destruct C1 as (a & C1). destruct C2 as (b & C2). destruct (stripes_unmatched a b) as (t3 & E3 & _).
  destruct (stripes_turn _ ps (fst hs1) (map src_of (rows (mcat t3))) (nth 0 (zps t3) 0) B1) as (p3 & s3 & T1 & _).
  { rewrite Mt. apply Permutation_refl. }
  destruct (stripes_turn _ ps' (snd hs1) (map src_of (rows (match cats t3 with c :: _ => c | [] => b end))) (nth 1 (zps t3) 0) B2) as (q3 & u3 & T2 & V3).
  { apply Permutation_refl. }
  destruct (held_ok (2 / 10) hs1 _ _ _ _ t3 p3 q3 s3 u3 C1 C2 E3 T1 T2 V3) as (D & hs2 & Snd).
  exists sbuilt, [mid'; mid], ex, A, hs, hs1, D, hs2. cbv zeta.
  split; [exact striped_build|]. split; [exact new_cat|]. split; [exact First|]. split; [exact SP|]. split; [exact EL|].
  split; [exact F1|]. split; [exact F2|]. split; [exact R1|]. split; [exact R2|]. split; [exact Fst|]. split; [exact Fr|]. split; [exact Pl|exact Snd].
Qed.

(** A use of the PSF after other sources were put into the image, and after they were looked for
    again. *)
Lemma C142_psf_case_lm : exists x c ex,
  build striped 1 schosen sdata = Some (Ok x) /\ fst (best_sources (bu_lib x) (bu_attr x)) = Ok c /\
  (forall n c, length (fst (l_eigh striped n c)) = n) /\ Forall plain [CBestSources] /\
  Forall later [CUpdateSources (Some [mid]); CGetPSF (Some (1 / 2)) None; CUpdateSources None; CSHat] /\
  stamps_read (looked_at (bu_attr x)) [CBestSources] = false /\
  snd (first_cut striped schosen x (if stamps_read (looked_at (bu_attr x)) [CBestSources] then c else [mid'; mid])) = Ok ex /\
  exists f q t, psf_for (given (bu_lib (opened striped schosen [mid'; mid] x)) [mid'; mid]) (stamp_shape (bu_attr x)) (2 / 10) = Ok (f, q :: t).
Proof.
  destruct C140_case_lm as (x & c & ex & D0 & P0 & S0 & m0 & s0 & t0 & Bx & Bs & First & SP & EL & F1 & _ & R1 & _).
  assert (Ex : x = sbuilt) by (pose proof striped_build as Q; congruence). subst x.
  assert (Ec : c = [mid'; mid]) by (pose proof new_cat as Q; congruence). subst c.
  exists sbuilt, [mid'; mid], ex. split; [exact Bx|]. split; [exact Bs|]. split; [exact EL|]. split; [exact F1|].
  split; [repeat constructor; lra|]. split; [exact R1|]. split; [rewrite R1; exact First|].
  destruct (stripes_used false [mid'; mid] (fun _ => Permutation_refl _)) as (p & E & _). unfold used, head in E.
  destruct (psf_for _ _ _) as [[f [|q t]]|]; try discriminate. exists f, q, t. reflexivity.
Qed.
