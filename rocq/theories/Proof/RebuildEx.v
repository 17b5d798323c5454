(** Two images of stripes with a bad pixel each, that can be subtracted. *)
From Coq Require Import ZArith List Bool Arith Reals Lia Lra Permutation SpecFloat.
From Flocq Require Import Core.Raux.
From Coquelicot Require Import Complex.
From Verif.Model Require Import Py Plane Ma Image Interp Subtract FindS Sources Stamps Filter Transparency KL Session Chain Gauss GaussSub Rebuild.
From Verif.Spec Require Import Image ImageExample Coadd Stamps KL Session Transparency Uses Rebuild.
From Verif.Proof Require Import ImageSum Stamps StampsLoop StampsExample KL Session SessionLm SessionExample Chain ChainExample ChainStack ChainUnits Uses UsesEx RebuildMain.
Import ListNotations.
Local Open Scope R_scope.
Set Bullet Behavior "Strict Subproofs".

(** The world of stripes; what is missing in an image is found again. *)
Definition mended : libs :=
  mklibs (l_background striped) (l_extract striped)
    (fun p => pmap Some stripes) (fun d => m_msk d) (fun _ => []) (fun _ => (0, 0, 0))
    (fun p => (pmap (fun _ => 0%nat) p, 0%nat))
    two_eigh None (fun _ _ _ _ => 0) (fun sh _ _ => mkplane (fst sh) (snd sh) (fun _ _ => 1))
    (fun _ _ _ => []) (fun l => l) (fun _ _ _ _ => []) (fun p => p) (l_solve striped).

Definition streaks : plane pix := mkplane 20 20 (fun i _ => if Nat.even i then pix_of_Z 1 else pix_of_Z 0).
Definition streaked (a b : nat) : image :=
  mkimage (Ndarray streaks) (Some (None, None)) fone true (pix_of_Z 16)
    (mkmarr streaks (Full (mkplane 20 20 (fun i j => (i =? a)%nat && (j =? b)%nat)))).

Definition flat_sky : backobj := mkbackobj (mkplane 20 20 (fun _ _ => 0)) 1.

Lemma r0 : to_real (pix_of_Z 0) = Some 0. Proof. reflexivity. Qed.

Lemma streak_value i : to_real (if Nat.even i then pix_of_Z 1 else pix_of_Z 0) = Some (if Nat.even i then 1 else 0).
Proof. destruct (Nat.even i); [exact r1|exact r0]. Qed.

Lemma streaked_clean a b : clean mended 1 (mdata (streaked a b)) flat_sky = Some simg.
Proof.
  unfold clean, Interp.interped. cbv zeta.
  set (img := filled_nan _).
  assert (V : forall i j, (i < 20)%nat -> (j < 20)%nat ->
    px img i j = if (i =? a)%nat && (j =? b)%nat then None else Some ((if Nat.even i then 1 else 0) - 0)).
  { intros i j Hi Hj. unfold img, filled_nan, bkg_sub_img, mdata, tidy, streaked, streaks, flat_sky.
    cbn [pmap2 px m_dat m_msk im_data dat msk pmap nr nc masked_at b_back].
    apply Nat.ltb_lt in Hi, Hj. rewrite Hi, Hj. cbn [andb]. rewrite streak_value. cbn [option_map].
    reflexivity. }
  assert (Q : replace_nans (l_conv mended) img = replace_nans (l_conv mended) img) by reflexivity.
  set (w := replace_nans (l_conv mended) img) in *.
  assert (Sw : nr w = 20%nat /\ nc w = 20%nat).
  { unfold w, replace_nans. destruct (any_nan img); split; reflexivity. }
  assert (Vw : forall i j, (i < 20)%nat -> (j < 20)%nat -> exists y, px w i j = Some y /\ y = (if Nat.even i then 1 else 0)).
  { intros i j Hi Hj. unfold w, replace_nans. destruct (any_nan img) eqn:N.
    - cbn [px]. rewrite V by assumption. destruct (_ && _); cbn [is_nan].
      + eexists. split; [reflexivity|]. reflexivity.
      + eexists. split; [reflexivity|]. lra.
    - rewrite V by assumption. destruct (_ && _) eqn:M.
      + exfalso. assert (T : any_nan img = true); [|congruence]. unfold any_nan. apply existsb_exists. exists i.
        split; [apply in_seq; cbn; lia|]. apply existsb_exists. exists j. split; [apply in_seq; cbn; lia|].
        rewrite V by assumption. now rewrite M.
      + eexists. split; [reflexivity|]. lra. }
  assert (F : any_nan w = false).
  { apply not_true_is_false. intros H. unfold any_nan in H. destruct Sw as [Sr Sc]. rewrite Sr, Sc in H.
    apply existsb_exists in H. destruct H as (i & Hi & H). apply existsb_exists in H. destruct H as (j & Hj & H).
    apply in_seq in Hi, Hj. destruct (Vw i j ltac:(lia) ltac:(lia)) as (y & E & _). now rewrite E in H. }
  cbn [replace_loop]. rewrite F. cbn [option_map]. f_equal. destruct Sw as [Sr Sc].
  apply plane_ext.
  - unfold shape, tidy. cbn [nr nc pmap]. rewrite Sr, Sc. reflexivity.
  - intros i j. unfold simg, tidy. cbn [px nr nc pmap]. rewrite Sr, Sc.
    change (nr stripes) with 20%nat. change (nc stripes) with 20%nat.
    destruct (Nat.ltb_spec i 20) as [Hi|Hi]; cbn [andb]; [|reflexivity].
    destruct (Nat.ltb_spec j 20) as [Hj|Hj]; [|reflexivity].
    destruct (Vw i j Hi Hj) as (y & E & ->). rewrite E. cbn [stripes px]. lra.
Qed.

Definition streaked_built (a b : nat) : Chain.built := mkbuilt (mdata (streaked a b)) flat_sky simg (bu_lib sbuilt) (bu_attr sbuilt).

Lemma streaked_build a b : build mended 1 schosen (mdata (streaked a b)) = Some (Ok (streaked_built a b)).
Proof.
  unfold build. cbn [schosen o_thresh o_stamp o_stack o_min o_pick].
  assert (B : set_bkg mended None (mdata (streaked a b)) = Ok flat_sky) by (unfold set_bkg; destruct (anyb _); reflexivity).
  rewrite B, streaked_clean. reflexivity.
Qed.

Lemma unmatched_both : exists t,
  transparency (l_query mended) (l_sort mended) (l_lsqr mended)
    [mkcat false false (map row_of [mid'; mid]); mkcat false false (map row_of [mid'; mid])] None = Ok t /\
  map (fun s => (s_y s, s_x s)) (map src_of (rows (mcat t))) = [(10, 12); (10, 10)] /\
  exists c, cats t = [c] /\ map (fun s => (s_y s, s_x s)) (map src_of (rows c)) = [(10, 12); (10, 10)].
Proof. eexists. split; [reflexivity|]. split; [reflexivity|]. eexists. split; reflexivity. Qed.

(** Both bad pixels are flagged in the result. *)
Lemma C125_mask_case_lm : exists D P S m,
  subtract_call nofs seq_sum (fun _ _ => Raise ValueError) mended 1 schosen schosen (Rebuild.Stamps (2 / 10)) false false false
    (Suits (streaked 0 0)) (Suits (streaked 19 19)) false = Some (Ok (D, P, S, m)) /\
  masked_at m 0%nat 0%nat = true /\ masked_at m 19%nat 19%nat = true /\ masked_at m 0%nat 19%nat = false.
Proof.
  set (x1 := streaked_built 0 0). set (x2 := streaked_built 19 19).
  assert (B : forall a b, fst (best_sources (bu_lib (streaked_built a b)) (bu_attr (streaked_built a b))) = Ok [mid'; mid]).
  { intros a b. change (fst (best_sources (bu_lib sbuilt) (bu_attr sbuilt)) = Ok [mid'; mid]).
    unfold best_sources. change (best (bu_attr sbuilt)) with (@None (list src)). cbv iota. rewrite striped_cat. reflexivity. }
  destruct unmatched_both as (t & Et & Rt & c & Ct & Rc).
  destruct (striped_first [] (map src_of (rows (mcat t)))) as (pr & Er & Vr); [constructor|now right|].
  destruct (striped_first [] (map src_of (rows c))) as (pn & En & Vn); [constructor|now right|].
  destruct (com_pos pn Vn) as [C1 C2].
  assert (Er' : first_element (2 / 10) (with_best (map src_of (rows (mcat t))) x1) = Ok pr) by exact Er.
  assert (En' : first_element (2 / 10) (with_best (map src_of (rows c)) x2) = Ok pn) by exact En.
  assert (Sub : exists D P S m, subtract_built mended (2 / 10) false false false x1 x2 = Ok (D, P, S, m)).
  { unfold subtract_built. change (negb _) with false. cbv iota. unfold x1, x2.
    rewrite !B. cbn [bind]. rewrite Et. cbn [bind]. fold x1 x2. rewrite Ct, Er'. cbn [bind]. rewrite En'. cbn [bind].
    unfold subtract, setup. cbn [as_image bind].
    change (d_shape (seen (with_best ?a x1) pr)) with (20, 20)%nat. change (d_shape (seen (with_best ?a x2) pn)) with (20, 20)%nat.
    cbn [fst snd]. change ((20 =? 20)%nat && (20 =? 20)%nat)%bool with true. cbv iota.
    change (mask_or (d_mask (seen (with_best ?a x2) pn)) (d_mask (seen (with_best ?b x1) pr)))
      with (mask_or (Full (m_msk (mdata (streaked 19 19)))) (Full (m_msk (mdata (streaked 0 0))))).
    destruct (mask_or (Full (m_msk (mdata (streaked 19 19)))) (Full (m_msk (mdata (streaked 0 0))))) as [mix|] eqn:Mx; [|discriminate]. cbn [bind e_transp].
    unfold prepare. cbv zeta. change (d_stamp (seen (with_best ?a x2) pn)) with pn.
    destruct (center_of_mass (d_stamp _)) as [d1 d2]. destruct (center_of_mass pn) as [c1 c2]. cbn [fst snd] in C1, C2.
    destruct (Rlt_dec c1 0) as [H|_]; [lra|]. destruct (Rlt_dec c2 0) as [H|_]; [lra|]. cbn [negb andb bind fit].
    do 4 eexists. reflexivity. }
  destruct Sub as (D & P & S & m & Sub).
  assert (Call : subtract_call nofs seq_sum (fun _ _ => Raise ValueError) mended 1 schosen schosen (Rebuild.Stamps (2 / 10)) false false false
    (Suits (streaked 0 0)) (Suits (streaked 19 19)) false = Some (Ok (D, P, S, m))).
  { unfold subtract_call, operands. cbn [converted bind choices_for].
    rewrite !streaked_build. cbn [bind]. fold x1 x2. now rewrite Sub. }
  exists D, P, S, m. split; [exact Call|].
  destruct (C125_mask_lm _ _ _ _ _ _ _ _ _ _ _ _ _ _ _ _ _ _ Call) as (r & n & Op & _ & U & _).
  injection Op as <- <-. change (shape (pixels (streaked 0 0))) with (20, 20)%nat in U. cbn [fst snd] in U.
  split; [|split].
  - apply U; [lia|lia|]. exists (streaked 0 0). split; [now left|reflexivity].
  - apply U; [lia|lia|]. exists (streaked 19 19). split; [right; now left|reflexivity].
  - apply not_true_is_false. rewrite U by lia. intros (z & [<-|[<-|[]]] & M); discriminate M.
Qed.

(** A pixel of an image of the other class that was not masked is masked in the image that is
    subtracted. *)
Lemma C125_grown_refuted_lm : exists im im',
  construct nofs seq_sum (mkargs (Ndarray (zplane [repeat 1%Z 20])) (MArray (bplane [1%Z :: repeat 0%Z 19])) None true false nocrop None) = Ok im /\
  converted nofs seq_sum (Differs im) = Ok im' /\ ~ is_masked im 0 8 /\ is_masked im' 0 8.
Proof.
  assert (H : match construct nofs seq_sum (mkargs (Ndarray (zplane [repeat 1%Z 20])) (MArray (bplane [1%Z :: repeat 0%Z 19])) None true false nocrop None) with
    | Ok im => match converted nofs seq_sum (Differs im) with
               | Ok im' => negb (masked_at (msk (im_data im)) 0 8) && masked_at (msk (im_data im')) 0 8
               | Raise _ => false end
    | Raise _ => false end = true) by (vm_compute; reflexivity).
  destruct (construct nofs seq_sum _) as [im|e]; [|discriminate H]. exists im.
  destruct (converted nofs seq_sum (Differs im)) as [im'|e]; [|discriminate H].
  exists im'. split; [reflexivity|]. split; [reflexivity|]. apply andb_prop in H. destruct H as [A B]. apply negb_true_iff in A.
  unfold is_masked. rewrite A. split; [discriminate|exact B].
Qed.

Definition hot : plane pix := zplane (map (fun r => [1; 2; if Z.eqb r 2 then 70000 else 3; 4; 5])%Z [0; 1; 2; 3; 4]%Z).

Lemma C125_class_case_lm : exists im, construct nofs seq_sum (plain_args (Ndarray hot)) = Ok im /\
  wf (im_data im) /\ range_masked im /\ is_masked im 2 2 /\ ~ is_masked im 0 0.
Proof.
  assert (H : match construct nofs seq_sum (plain_args (Ndarray hot)) with
    | Ok im => masked_at (msk (im_data im)) 2 2 && negb (masked_at (msk (im_data im)) 0 0)
    | Raise _ => false end = true) by (vm_compute; reflexivity).
  destruct (construct nofs seq_sum (plain_args (Ndarray hot))) as [im|e] eqn:E; [|discriminate H].
  exists im. split; [reflexivity|]. destruct (ImageMain.C23_construct_mask_lm nofs seq_sum (plain_args (Ndarray hot)) im I E) as [Wf _].
  split; [exact Wf|]. split.
  { intros i j Hi Hj O. exact (ImageMain.C23_out_of_range_lm nofs seq_sum (plain_args (Ndarray hot)) im im MNone i j I E (or_introl eq_refl) Hi Hj O). }
  apply andb_prop in H. destruct H as [A B]. apply negb_true_iff in B. unfold is_masked. rewrite B. split; [exact A|discriminate].
Qed.

(** A registration that changes nothing. *)
Definition in_place (a b : marr) : res (plane pix * plane bool) := Ok (dat a, pconst (shape (dat a)) false).

Lemma C125_forgotten_case_lm : let new := streaked 0 0 in
  in_place (im_data new) (im_data (streaked 19 19)) = Ok (pixels new, pconst (20, 20)%nat false) /\
  is_masked new 0 0 /\
  (forall i j, ~ non_finite (px (pixels new) i j) /\ ~ out_of_range (px (pixels new) i j)) /\
  exists im, aligned nofs seq_sum in_place (streaked 19 19) new = Ok im /\ shape (pixels im) = (20, 20)%nat.
Proof.
  intros new. split; [reflexivity|]. split; [reflexivity|]. split.
  - intros i j. assert (F : finiteb (px (pixels new) i j) = true).
    { cbn [pixels new streaked im_data dat streaks px]. now destruct (Nat.even i). }
    assert (V : Float32.value (px (pixels new) i j) = if Nat.even i then 1 else 0).
    { cbn [pixels new streaked im_data dat streaks px]. destruct (Nat.even i).
      - pose proof r1 as H. unfold to_real in H. change (finiteb (pix_of_Z 1)) with true in H. cbv iota in H.
        injection H as H. now rewrite Proof.Float32.value_SF2R.
      - reflexivity. }
    split.
    + destruct (px (pixels new) i j); try discriminate F; easy.
    + apply Rebuild.range_finite; [exact F|]. rewrite V. destruct (Nat.even i); lra.
  - destruct (C125_aligned_lm nofs seq_sum in_place (streaked 19 19) new (pixels new) (pconst (20, 20)%nat false) eq_refl eq_refl) as (im & E & Sh & _).
    exists im. split; [exact E|exact Sh].
Qed.
