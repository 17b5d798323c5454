(** Two images of stripes that are registered and coadded. *)
From Coq Require Import ZArith List Bool Arith Reals Lia Lra Permutation SpecFloat.
From Flocq Require Import Core.Raux.
From Coquelicot Require Import Complex.
From Verif.Model Require Import Py Plane Ma Coadd.
From Verif.Spec Require Import Coadd.
From Verif.Model Require Import Image Interp Subtract FindS Sources Stamps Filter Transparency KL Session Chain ChainCoadd Gauss GaussSub Rebuild CoaddCall.
From Verif.Spec Require Import Image ImageExample Stamps KL Session Transparency Uses UsesCoadd Rebuild CoaddCall.
From Verif.Proof Require Import Image ImageBuild ImageMain ImageSum Stamps StampsLoop StampsExample KL Session SessionLm SessionExample Chain ChainExample ChainStack ChainUnits Uses UsesEx UsesCoadd UsesCoaddMain UsesCoaddEx Rebuild RebuildMain RebuildEx CoaddCallMain.
Import ListNotations.
Local Open Scope R_scope.
Set Bullet Behavior "Strict Subproofs".

Definition usual : choices := mkchoices None 20 false None 300000.

Lemma f1 : to_real (f4_mul (to_f4 (pix_of_Z 1)) (to_f4 fone)) = Some 1.
Proof. real_of. Qed.
Lemma f0 : to_real (f4_mul (to_f4 (pix_of_Z 0)) (to_f4 fone)) = Some 0.
Proof. vm_compute. reflexivity. Qed.

(** What the registration makes of an image of stripes. *)
Lemma stripes_frame : exists f, registered nofs seq_sum in_place (streaked 19 19) (streaked 0 0) = Ok f /\
  shape (pixels f) = (20, 20)%nat /\ mdata f = mdata (streaked 99 99).
Proof.
  destruct (C126_frame_lm nofs seq_sum in_place (streaked 19 19) (streaked 0 0) streaks (pconst (20, 20)%nat false) eq_refl eq_refl)
    as (f & E & Sh & _). exists f. split; [exact E|]. split; [exact Sh|].
  destruct C125_forgotten_case_lm as (_ & _ & Fin & _).
  pose proof (C126_mask_forgotten_refuted_lm nofs seq_sum in_place (streaked 19 19) (streaked 0 0) (pconst (20, 20)%nat false) f eq_refl eq_refl
    (fun _ _ _ _ => eq_refl) (fun i j _ _ => Fin i j) E) as M.
  assert (V : forall i j, (i < 20)%nat -> (j < 20)%nat -> to_real (px (pixels f) i j) = to_real (px streaks i j)).
  { intros i j Hi Hj. unfold registered, in_place in E. cbn [bind im_data streaked dat] in E.
    set (a := mkargs _ _ _ _ _ _ _) in E.
    pose proof (gain_one nofs seq_sum (Ndarray streaks) (MArray (pconst (shape streaks) false)) None true f E eq_refl) as G1.
    destruct (C20_pixels_lm nofs seq_sum a f streaks I eq_refl eq_refl eq_refl E) as [_ V].
    cbn [a a_img a_mask a_guess reloads] in V. rewrite G1 in V. injection Sh as Sr Sc.
    rewrite V by lia. cbn [scaled px user_masked streaks]. destruct (Nat.even i).
    - now rewrite r1, f1.
    - now rewrite r0, f0. }
  unfold shape in Sh. injection Sh as Sr Sc.
  unfold mdata. cbv zeta. fold (pixels f). fold (pixels (streaked 99 99)). f_equal; apply plane_ext.
  - unfold shape, tidy. cbn [nr nc pmap]. rewrite Sr, Sc. reflexivity.
  - intros i j. unfold tidy. cbn [px nr nc pmap]. rewrite Sr, Sc.
    change (nr (pixels (streaked 99 99))) with 20%nat. change (nc (pixels (streaked 99 99))) with 20%nat.
    destruct (Nat.ltb_spec i 20) as [Hi|Hi]; cbn [andb]; [|reflexivity].
    destruct (Nat.ltb_spec j 20) as [Hj|Hj]; [|reflexivity]. now apply V.
  - unfold shape, tidy. cbn [nr nc]. rewrite Sr, Sc. reflexivity.
  - intros i j. unfold tidy. cbn [px nr nc]. rewrite Sr, Sc.
    change (nr (pixels (streaked 99 99))) with 20%nat. change (nc (pixels (streaked 99 99))) with 20%nat.
    destruct (Nat.ltb_spec i 20) as [Hi|Hi]; cbn [andb]; [|reflexivity].
    destruct (Nat.ltb_spec j 20) as [Hj|Hj]; [|reflexivity].
    assert (M1 : masked_at (msk (im_data f)) i j = false) by (apply not_true_is_false; apply M; lia).
    rewrite M1. cbn [streaked im_data msk masked_at px]. destruct (Nat.eqb_spec i 99); [lia|reflexivity].
Qed.

Lemma usual_side : default_side [mid'; mid] = 9%Z.
Proof.
  assert (S : percentile 65 (map (fun t => INR (s_npix t)) [mid'; mid]) = 9).
  { cbn [map mid' mid s_npix]. unfold percentile. cbn [length].
    replace (65 / 100 * INR (2 - 1)) with (65 / 100) by (cbn; lra).
    replace (Zfloor (65 / 100)) with 0%Z by (symmetry; apply Zfloor_imp; cbn; lra).
    cbn [Z.to_nat sortR fold_right insertR]. destruct (Rle_dec _ _); cbn; lra. }
  unfold default_side. rewrite S. replace (sqrt 9) with 3 by (symmetry; replace 9 with (3 * 3) by lra; apply sqrt_square; lra).
  destruct (Rlt_dec 5 (3 * 3)); [|lra].
  replace (Ztrunc (3 * 3)) with 9%Z; [reflexivity|]. replace (3 * 3) with (IZR 9) by lra. now rewrite Ztrunc_IZR.
Qed.

Definition frame_lib := lib_of mended 300000 20 (mkpicks false None) (mdata (streaked 99 99)) flat_sky simg.
Definition frame_built : Chain.built :=
  mkbuilt (mdata (streaked 99 99)) flat_sky simg frame_lib (fresh _ _ _ (9, 9)%nat (Some [mid'; mid])).

Lemma frame_cat : select frame_lib = Ok [mid'; mid].
Proof.
  change (Ok (Sources.select (l_choice mended) [mid'; mid]) = Ok [mid'; mid]). now rewrite select_few by (cbn; lia).
Qed.

Lemma frame_build : build mended 1 usual (mdata (streaked 99 99)) = Some (Ok frame_built).
Proof.
  unfold build. cbn [usual o_thresh o_stamp o_stack o_min o_pick].
  assert (B : set_bkg mended None (mdata (streaked 99 99)) = Ok flat_sky) by (unfold set_bkg; destruct (anyb _); reflexivity).
  rewrite B, streaked_clean. fold frame_lib. rewrite frame_cat. cbn [bind]. rewrite usual_side. reflexivity.
Qed.

Lemma start_10 : start 10 9 = 6%Z.
Proof. unfold start. apply Zceil_imp. cbn. lra. Qed.
Lemma start_12' : start 12 9 = 8%Z.
Proof. unfold start. apply Zceil_imp. cbn. lra. Qed.

Lemma big_stamp (s : src) : s_y s = 10 -> s_x s = 10 \/ s_x s = 12 -> exists p,
  one_stamp (l_stats mended) (l_label mended) (mkpicks false None) simg 1 (9, 9)%nat s = Ok (Some p) /\
  shape p = (15, 15)%nat.
Proof.
  intros Hy Hx. exists (stamp_of (Verif.Spec.Stamps.window simg 1 (9, 9)%nat (s_y s, s_x s) 3)).
  assert (N : forall k, ~ flat_border (Verif.Spec.Stamps.window simg 1 (9, 9)%nat (s_y s, s_x s) k) (35 / 10 * 1)).
  { intros k F. specialize (F 0%nat 0%nat). cbn [Verif.Spec.Stamps.window nr nc px fst snd] in F.
    unfold frame in F. unfold simg, tidy in F. cbn [px pmap stripes nr nc] in F.
    match type of F with _ -> _ -> _ -> ?v = _ => assert (V : v = 0 \/ v = 1) end.
    { destruct (_ && _ && _)%bool; [|now right]. destruct (_ && _)%bool; [|now left]. destruct (Nat.even _); [right|left]; lra. }
    assert (E := F ltac:(lia) ltac:(lia) ltac:(lia)). destruct V as [V|V]; rewrite V in E; lra. }
  rewrite one_normal; try (cbn; lia); try apply N.
  - cbn [private_pick]. split; [reflexivity|].
    now destruct (stamp_of_normalised (Verif.Spec.Stamps.window simg 1 (9, 9)%nat (s_y s, s_x s) 3)) as [Sh _].
  - unfold overlaps. cbn [fst snd]. rewrite Hy. destruct Hx as [->| ->]; rewrite ?start_10, ?start_12'; cbn; lia.
Qed.

Lemma big_basis (p q : plane R) : shape p = (15, 15)%nat -> shape q = (15, 15)%nat ->
  exists b c, KL.kl_basis two_eigh None (15, 15)%nat [p; q] (2 / 10) = Ok [b; c].
Proof.
  unfold shape. intros [= Pr Pc] [= Qr Qc]. unfold KL.kl_basis, KL.eigenv, KL.cov_matrix.
  cbn [forallb fst snd]. rewrite Pr, Pc, Qr, Qc. cbn [Nat.eqb andb negb length Nat.leb bind].
  unfold two_eigh at 1. cbn [map seq]. rewrite cut_02. cbn [Nat.sub seq map bind rev app]. eauto.
Qed.

Lemma frame_extract : exists pa pb,
  extract frame_lib (9, 9)%nat [mid'; mid] = ([numbers pa; numbers pb], Ok ([(10, 12); (10, 10)], [mid'; mid])) /\
  shape pa = (15, 15)%nat /\ shape pb = (15, 15)%nat.
Proof.
  destruct (big_stamp mid') as (pa & Ea & Sa); [reflexivity|now right|].
  destruct (big_stamp mid) as (pb & Eb & Sb); [reflexivity|now left|].
  exists pa, pb. split; [|auto]. cbn [frame_lib lib_of Session.extract b_rms flat_sky].
  unfold extract_for. cbn [dump_loop]. rewrite Ea, Eb. reflexivity.
Qed.

Lemma frame_stamps : exists sp, stamps_of _ _ _ frame_lib (9, 9)%nat = Ok sp.
Proof. unfold stamps_of. rewrite frame_cat. cbn [bind]. destruct frame_extract as (pa & pb & E & _). rewrite E. eauto. Qed.

Lemma frame_psf : exists q, psf_for frame_lib (9, 9)%nat (2 / 10) = Ok q /\ snd q <> [].
Proof.
  destruct frame_extract as (pa & pb & E & Sa & Sb).
  assert (St : stamps_of _ _ _ frame_lib (9, 9)%nat = Ok ([numbers pa; numbers pb], [(10, 12); (10, 10)])).
  { unfold stamps_of. rewrite frame_cat. cbn [bind]. now rewrite E. }
  unfold psf_for. rewrite St. cbn [bind fst snd Nat.add].
  change (eigh frame_lib) with two_eigh. change (smooth frame_lib) with (@None (plane (option R) -> plane (option R))).
  destruct (big_basis (numbers pa) (numbers pb) Sa Sb) as (q & q' & Eq). rewrite Eq. cbn [bind length Nat.eqb].
  assert (He : exists v, KL.eigenv two_eigh (15, 15)%nat [numbers pa; numbers pb] = Ok v).
  { unfold KL.eigenv, KL.cov_matrix. unfold shape in Sa, Sb. injection Sa as Sa1 Sa2. injection Sb as Sb1 Sb2.
    cbn [forallb fst snd numbers pmap nr nc]. rewrite Sa1, Sa2, Sb1, Sb2. cbn [Nat.eqb andb negb bind length]. eauto. }
  destruct He as (v & ->). cbn [bind]. eexists. split; [reflexivity|]. discriminate.
Qed.

Lemma ref_extract : exists pa pb,
  extract (bu_lib sbuilt) (1, 1)%nat [mid'; mid] = ([numbers pa; numbers pb], Ok ([(10, 12); (10, 10)], [mid'; mid])).
Proof.
  destruct (star_stamp mid') as (pa & Ea & Sa); [reflexivity|now right|].
  destruct (star_stamp mid) as (pb & Eb & Sb); [reflexivity|now left|].
  exists pa, pb. cbn [bu_lib sbuilt lib_of Session.extract b_rms].
  unfold extract_for. cbn [dump_loop]. rewrite Ea, Eb. reflexivity.
Qed.

(** The reference is an image whose sources were looked at; the registration changes nothing but
    forgets the mask of the other image. *)
Lemma C126_coadd_case_lm : exists f Rr P m,
  let news := [(schosen, streaked 0 0, [CGetPSF None None])] in
  Forall2 (fun u f => registered nofs seq_sum in_place (streaked 19 19) (snd (fst u)) = Ok f) news [f] /\
  starry mended 1 schosen (streaked 19 19) [CBestSources] (streaked_built 19 19) /\
  detected [CBestSources] (streaked_built 19 19) /\
  Forall2 (fun f y => starry mended 1 (mkchoices None 20 false None 300000) f [] y) [f] [frame_built] /\
  Forall (fun f => shape (pixels f) = shape (pixels (streaked 19 19))) [f] /\
  (forall n c, length (fst (l_eigh mended n c)) = n) /\ (forall r, Permutation (l_sort mended r) r) /\
  coadd_call nofs seq_sum in_place mended 300000 1 0 [] (2 / 10) 1
    (Made schosen (streaked 19 19) [CBestSources] :: map (fun u => Made (fst (fst u)) (snd (fst u)) (snd u)) news) true =
    Some (Ok (Rr, P, m)) /\
  masked_at m 19%nat 19%nat = true /\ masked_at m 0%nat 0%nat = false /\ is_masked (streaked 0 0) 0 0.
Proof.
  destruct stripes_frame as (f & Ef & Sf & Mf). set (news := [(schosen, streaked 0 0, [CGetPSF None None])]).
  assert (H1 : Forall2 (fun u f => registered nofs seq_sum in_place (streaked 19 19) (snd (fst u)) = Ok f) news [f]).
  { constructor; [exact Ef|constructor]. }
  assert (H2 : starry mended 1 schosen (streaked 19 19) [CBestSources] (streaked_built 19 19)).
  { split; [apply streaked_build|]. split; [exact striped_stamps|repeat constructor]. }
  assert (H3 : detected [CBestSources] (streaked_built 19 19)).
  { unfold detected. change (bu_attr (streaked_built 19 19)) with (bu_attr sbuilt). change (bu_lib (streaked_built 19 19)) with (bu_lib sbuilt).
    rewrite exec_cons. cbn [exec exec_all fold_left]. unfold void, best_sources. cbn [bu_attr sbuilt fresh best]. rewrite striped_cat. discriminate. }
  assert (H4 : Forall2 (fun f y => starry mended 1 (mkchoices None 20 false None 300000) f [] y) [f] [frame_built]).
  { constructor; [|constructor]. split; [rewrite Mf; exact frame_build|]. split; [exact frame_stamps|constructor]. }
  assert (H5 : Forall (fun f => shape (pixels f) = shape (pixels (streaked 19 19))) [f]).
  { constructor; [exact Sf|constructor]. }
  assert (H6 : forall n c, length (fst (l_eigh mended n c)) = n) by exact striped_eigh.
  assert (H7 : forall r, Permutation (l_sort mended r) r) by (intros; apply Permutation_refl).
  assert (Call : exists r, coadd_call nofs seq_sum in_place mended 300000 1 0 [] (2 / 10) 1
    (Made schosen (streaked 19 19) [CBestSources] :: map (fun u => Made (fst (fst u)) (snd (fst u)) (snd u)) news) true = Some (Ok r)).
  { change (map _ news) with (map whole news).
    pose proof (aligned_built nofs seq_sum in_place mended 300000 1 0 [] (2 / 10) 1 schosen (streaked 19 19) [CBestSources] news [f]
      (streaked_built 19 19) [frame_built] H1 H2 H3 H4) as A. rewrite A. clear A.
    set (us := [(streaked_built 19 19, [CBestSources; CUpdateSources None]); (frame_built, [CUpdateSources None])]).
    replace (after ([CBestSources] ++ [CUpdateSources None]) (streaked_built 19 19) :: map (after [CUpdateSources None]) [frame_built])
      with (map (fun u => after (snd u) (fst u)) us) by (unfold us; cbn [map fst snd app]; reflexivity).
    destruct (striped_nothing [mid'; mid]) as (t & Et & Lz).
    destruct ref_extract as (pa & pb & E1). destruct frame_extract as (pc & pd & E2 & _).
    assert (Et' : transparency (l_query mended) (l_sort mended) (l_lsqr mended)
      (map (fun c => mkcat false false (map row_of c)) [[mid'; mid]; [mid'; mid]]) None = Ok t).
    { change (l_query mended) with (l_query striped). change (l_sort mended) with (l_sort striped).
      change (l_lsqr mended) with (l_lsqr striped). exact Et. }
    assert (U : Forall (in_use mended 1 (20, 20)%nat) us).
    { constructor; [|constructor; [|constructor]].
      + destruct H2 as (B & S & F).
        assert (A : starry mended 1 schosen (streaked 19 19) [CBestSources; CUpdateSources None] (streaked_built 19 19)).
        { split; [exact B|]. split; [exact S|]. repeat constructor. }
        exact (starry_use _ _ _ _ _ _ A).
      + split; [exists usual, (mdata (streaked 99 99)); exact frame_build|]. split; [reflexivity|]. split; [reflexivity|].
        split; [exact frame_stamps|repeat constructor]. }
    assert (K : Forall2 (fun u c => fst (best_sources (bu_lib (fst u)) (bu_attr (after (snd u) (fst u)))) = Ok c) us [[mid'; mid]; [mid'; mid]]).
    { constructor; [|constructor; [|constructor]].
      + exact (C126_stars_lm mended 1 schosen _ (streaked_built 19 19) [CBestSources] [mid'; mid] _ _ _ (streaked_build 19 19)
          ltac:(repeat constructor) H3 striped_cat E1).
      + exact (C126_stars_lm mended 1 usual _ frame_built [] [mid'; mid] _ _ _ frame_build
          ltac:(constructor) ltac:(discriminate) frame_cat E2). }
    assert (Q : Forall2 (fun u c => forall left, Permutation (map spot left) (map spot c) ->
      exists q, psf_for (stars_for (fst u) (snd u) left) (stamp_shape (bu_attr (fst u))) (2 / 10) = Ok q /\ snd q <> []) us [[mid'; mid]; [mid'; mid]]).
    { constructor; [|constructor; [|constructor]]; intros left _; unfold stars_for; cbn [fst snd].
      + change (stamps_read (looked_at (bu_attr (streaked_built 19 19))) [CBestSources; CUpdateSources None]) with true. cbv iota.
        change (bu_lib (streaked_built 19 19)) with (bu_lib sbuilt). rewrite <- striped_given. apply stripes_any; cbn; auto.
      + change (stamps_read (looked_at (bu_attr frame_built)) [CUpdateSources None]) with true. cbv iota. exact frame_psf. }
    assert (Ne : us <> []) by discriminate.
    exact (C118_works_lm mended 1 0 [] (2 / 10) 1 (20, 20)%nat us [[mid'; mid]; [mid'; mid]] t H6 H7 ltac:(lra) ltac:(lia) Ne U K Et' Lz Q). }
  destruct Call as ([[Rr P] m] & Call). exists f, Rr, P, m. cbn zeta. fold news. do 8 (split; [assumption|]).
  destruct (C126_coadd_lm nofs seq_sum in_place mended 300000 1 0 [] (2 / 10) 1 schosen (streaked 19 19) [CBestSources]
    (streaked_built 19 19) news [f] [frame_built] Rr P m H6 H7 ltac:(lra) H1 H2 H3 H4 H5 ltac:(left; lia) Call) as ((U & _) & _).
  change (shape (pixels (streaked 19 19))) with (20, 20)%nat in U. cbn [fst snd] in U.
  split; [|split; [|reflexivity]].
  - apply U; [lia|lia|]. exists (streaked 19 19). split; [now left|reflexivity].
  - apply not_true_is_false. rewrite U by lia. intros (z & [<-|[<-|[]]] & M); [discriminate M|].
    unfold shape in Sf. injection Sf as Sr Sc.
    pose proof (masked_mdata f 0 0 ltac:(lia) ltac:(lia)) as Q. rewrite Mf, M in Q. discriminate Q.
Qed.

(** An array in the list, and one that no image can be made of. *)
Lemma C126_built_case_lm :
  (exists im, construct nofs seq_sum (plain_args (Ndarray streaks)) = Ok im) /\
  construct nofs seq_sum (plain_args Image.Other) = Raise AttributeError /\
  Forall (can_be_made nofs seq_sum) [Made schosen (streaked 0 0) []; NotMade (Ndarray streaks)].
Proof.
  assert (H : exists im, construct nofs seq_sum (plain_args (Ndarray streaks)) = Ok im).
  { pose proof (C73_outcome_lm nofs seq_sum (plain_args (Ndarray streaks)) I eq_refl) as H.
    assert (B : build_error nofs (plain_args (Ndarray streaks)) = None) by reflexivity. rewrite B in H. exact H. }
  split; [exact H|]. split; [reflexivity|]. constructor; [exact I|]. constructor; [exact H|constructor].
Qed.

(** A new image that was made with a stamp shape and not looked at. *)
Lemma C126_not_looked_case_lm : exists f,
  Forall2 (fun u f => registered nofs seq_sum in_place (streaked 19 19) (snd (fst u)) = Ok f) [(schosen, streaked 0 0, @nil call)] [f] /\
  build mended 1 schosen (mdata (streaked 19 19)) = Some (Ok (streaked_built 19 19)) /\
  ~ detected [] (streaked_built 19 19) /\
  Forall2 (fun f y => build mended 1 (mkchoices None 20 false None 300000) (mdata f) = Some (Ok y)) [f] [frame_built].
Proof.
  destruct stripes_frame as (f & Ef & Sf & Mf). exists f. split; [constructor; [exact Ef|constructor]|].
  split; [apply streaked_build|]. split; [intros D; now apply D|].
  constructor; [rewrite Mf; exact frame_build|constructor].
Qed.

(** Both cases: nothing was asked before, and stamps were. *)
Lemma C126_stars_case_lm : exists cat st p k,
  build mended 1 usual (mdata (streaked 99 99)) = Some (Ok frame_built) /\
  select (bu_lib frame_built) = Ok cat /\
  extract (bu_lib frame_built) (stamp_shape (bu_attr frame_built)) cat = (st, Ok (p, k)) /\
  detected [] frame_built /\ stamps_read (looked_at (bu_attr frame_built)) [] = false /\
  detected [CStampsPos] frame_built /\ stamps_read (looked_at (bu_attr frame_built)) [CStampsPos] = true.
Proof.
  destruct frame_extract as (pa & pb & E & _).
  exists [mid'; mid], [numbers pa; numbers pb], [(10, 12); (10, 10)], [mid'; mid].
  split; [exact frame_build|]. split; [exact frame_cat|]. split; [exact E|]. split; [discriminate|]. split; [reflexivity|]. split; [|reflexivity].
  unfold detected.
  assert (B : best (bu_attr frame_built) <> None) by discriminate.
  exact (proj2 (same_exec_all _ _ _ (bu_lib frame_built) [] [CStampsPos] (bu_attr frame_built) ltac:(now repeat constructor) B)).
Qed.

(** A registration that changes nothing, and an image with a masked pixel. *)
Lemma C126_forgotten_case_lm : let new := streaked 0 0 in
  in_place (im_data new) (im_data (streaked 19 19)) = Ok (pixels new, pconst (20, 20)%nat false) /\
  shape (pconst (20, 20)%nat false) = shape (pixels new) /\ is_masked new 0 0 /\
  (forall i j, ~ non_finite (px (pixels new) i j) /\ ~ out_of_range (px (pixels new) i j)) /\
  exists im, registered nofs seq_sum in_place (streaked 19 19) new = Ok im.
Proof.
  destruct C125_forgotten_case_lm as (A & B & D & _). destruct stripes_frame as (f & E & _).
  split; [exact A|]. split; [reflexivity|]. split; [exact B|]. split; [exact D|]. exists f. exact E.
Qed.
