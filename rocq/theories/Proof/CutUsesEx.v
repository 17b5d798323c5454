(** A subtraction of two new images with stripes. *)
From Coq Require Import ZArith List Bool Arith Reals Lia Lra Permutation.
From Coquelicot Require Import Complex.
From Verif.Model Require Import Py Plane Ma Image Interp FindS Sources Stamps Cut KL Session Filter Transparency Subtract Chain CutChain.
From Verif.Spec Require Import Image Stamps Chain Session Uses Cut.
From Verif.Proof Require Import Coadd Stamps StampsExample Session SessionLm Chain ChainMain ChainUnits ChainExample Uses UsesEx UsesCoaddEx CutIntact CutEx CutChain CutChainLeft CutCoaddEx CutUses.
Import ListNotations.
Set Bullet Behavior "Strict Subproofs".
Local Open Scope R_scope.

Lemma stripes_cut_first (a b : src) : starry_at a -> starry_at b ->
  exists p, first_element (2 / 10) (opened striped schosen [a; b] (with_best [a; b] sbuilt)) = Ok p /\
    forall i j, (i < nr p)%nat -> (j < nc p)%nat -> 0 <= px p i j.
Proof.
  intros Ha Hb. set (L := bu_lib (opened striped schosen [a; b] sbuilt)).
  destruct (two_cuts (l_stats striped) (l_label striped) None simg simg a b (good_simg a Ha) (good_simg b Hb) eq_refl) as (last & ex & E & Ep & S).
  { intros i j Hi Hj. now apply cut_simg. }
  set (pa := tstamp simg 1 (1, 1)%nat (s_y a, s_x a)) in *. set (pb := tstamp simg 1 (1, 1)%nat (s_y b, s_x b)) in *.
  assert (T : forall s, starry_at s -> plane_eq (tstamp simg 1 (1, 1)%nat (s_y s, s_x s)) (normalised swin)).
  { intros s H. eapply plane_eq_trans; [exact (tstamp_normalised simg 1 (1, 1)%nat s)|]. apply normalised_ext, simg_stamp, H. }
  assert (Sa : shape pa = (7, 7)%nat) by (destruct (T a Ha) as [Q _]; unfold pa; rewrite Q; reflexivity).
  assert (Sb : shape pb = (7, 7)%nat) by (destruct (T b Hb) as [Q _]; unfold pb; rewrite Q; reflexivity).
  destruct (cut_dump_stamps _ _ _ _ _ _ _ _ E) as (del & D & _).
  assert (St : stamps_of _ _ _ (given L [a; b]) (1, 1)%nat = Ok ([numbers pa; numbers pb], ex_pos ex)).
  { unfold stamps_of. cbn [given Session.select]. change (extract (given L [a; b])) with
      (cut_for striped (mkpicks false None) simg 1). unfold cut_for. change (pmap Some simg) with (intact simg).
    change one with (1, 1)%nat in D. rewrite D. cbn [bind]. now rewrite S. }
  destruct (two_basis (numbers pa) (numbers pb) Sa Sb) as (q & q' & Eq & Sq & Vq).
  assert (P : exists f, psf_for (given L [a; b]) (1, 1)%nat (2 / 10) = Ok (f, [q; q'])).
  { unfold psf_for. rewrite St. cbn [bind fst snd Nat.add].
    change (eigh (given L [a; b])) with two_eigh.
    change (smooth (given L [a; b])) with (@None (plane (option R) -> plane (option R))).
    rewrite Eq. cbn [bind length Nat.eqb].
    assert (He : exists v, KL.eigenv two_eigh (7, 7)%nat [numbers pa; numbers pb] = Ok v).
    { unfold KL.eigenv, KL.cov_matrix. unfold shape in Sa, Sb. injection Sa as Sa1 Sa2. injection Sb as Sb1 Sb2.
      cbn [forallb fst snd numbers pmap nr nc]. rewrite Sa1, Sa2, Sb1, Sb2. cbn [Nat.eqb andb negb bind length]. eauto. }
    destruct He as (v & ->). rewrite Ep. cbn [bind length Nat.eqb]. eexists. reflexivity. }
  destruct P as (f & P).
  assert (LO : lib_ok (given L [a; b])) by exact (opened_ok striped schosen [a; b] sbuilt striped_eigh).
  assert (NG : new_image (given L [a; b]) (1, 1)%nat (fresh _ _ _ (1, 1)%nat (Some [a; b]))).
  { right. exists [a; b]. split; reflexivity. }
  destruct (C39_history_lm _ _ _ (given L [a; b]) (1, 1)%nat _ [] LO NG (Forall_nil _)) as (A & _).
  specialize (A (2 / 10) ltac:(lra)). cbn [exec_all fold_left] in A.
  destruct (same_psf _ _ _ L [a; b] (Some (2 / 10)) None (fresh _ _ _ (1, 1)%nat (Some [a; b]))) as [Sm _]; [discriminate|].
  exists (numbers q). split.
  - unfold first_element.
    change (bu_lib (opened striped schosen [a; b] (with_best [a; b] sbuilt))) with L.
    change (bu_attr (opened striped schosen [a; b] (with_best [a; b] sbuilt))) with
      (fresh (plane R) (res (plane C)) (res (plane R)) (1, 1)%nat (Some [a; b])).
    rewrite Sm, A, P. reflexivity.
  - unfold shape in Sq. injection Sq as Sq1 Sq2. cbn [numbers pmap nr nc px]. rewrite Sq1, Sq2. intros i j Hi Hj.
    rewrite Vq by assumption. cbn [numbers pmap px]. destruct (T b Hb) as [_ Q].
    unfold shape in Sb. injection Sb as Sb1 Sb2. fold pb in Q. rewrite Q by (rewrite ?Sb1, ?Sb2; assumption). rewrite stripes_stamp by assumption.
    unfold b2r. destruct (Nat.odd i); lra.
Qed.

(** Two new images of stripes can be subtracted. *)
Lemma C133_uses_case_lm : exists D P S m,
  build striped 1 schosen sdata = Some (Ok sbuilt) /\ (forall r, Permutation (l_sort striped r) r) /\
  (forall n c, length (fst (l_eigh striped n c)) = n) /\
  subtract_cut striped schosen schosen (2 / 10) false false false sbuilt sbuilt = Ok (D, P, S, m).
Proof.
  destruct (striped_unmatched (map row_of [mid'; mid])) as (t & Et & _).
  destruct (matched_spots _ _ _ _ _ _ (fun r => Permutation_refl r : Permutation (l_sort striped r) r) Et) as (Sr & c & Ec & Sn).
  assert (Q : forall r, map spot (map src_of r) = map rspot r) by (intros r; rewrite map_map; reflexivity).
  assert (Q' : forall s, map rspot (map row_of s) = map spot s) by (intros s; rewrite map_map; reflexivity).
  assert (X : forall left, Permutation (map spot left) (map spot [mid'; mid]) -> exists p,
    first_element (2 / 10) (opened striped schosen left (with_best left sbuilt)) = Ok p /\
    forall i j, (i < nr p)%nat -> (j < nc p)%nat -> 0 <= px p i j).
  { intros left P. pose proof (Permutation_length P) as Ln. rewrite !map_length in Ln. destruct left as [|a [|b [|]]]; try discriminate.
    assert (H : forall x, In x [a; b] -> starry_at x).
    { intros x Ix. apply (in_map spot) in Ix. apply (Permutation_in _ P) in Ix.
      destruct Ix as [Ix|[Ix|[]]]; injection Ix; intros; split; cbn in *; auto. }
    apply stripes_cut_first; apply H; [now left|right; now left]. }
  destruct (X (map src_of (rows (mcat t)))) as (pr & Er & _); [rewrite Q, Sr, Q'; apply Permutation_refl|].
  destruct (X (map src_of (rows c))) as (pn & En & Vn); [now rewrite Q, <- Q'|].
  destruct (com_pos pn Vn) as [C1 C2].
  assert (Sub : exists D P S m, subtract_cut striped schosen schosen (2 / 10) false false false sbuilt sbuilt = Ok (D, P, S, m)).
  { unfold subtract_cut. change (negb _) with false. cbv iota.
    rewrite new_cat. cbn [bind]. rewrite Et. cbn [bind]. rewrite Ec, Er. cbn [bind]. rewrite En. cbn [bind].
    unfold subtract, setup. cbn [as_image bind].
    set (u := seen (opened striped schosen (map src_of (rows (mcat t))) (with_best (map src_of (rows (mcat t))) sbuilt)) pr).
    set (v := seen (opened striped schosen (map src_of (rows c)) (with_best (map src_of (rows c)) sbuilt)) pn).
    change (d_shape u) with (20, 20)%nat. change (d_shape v) with (20, 20)%nat.
    cbn [fst snd]. change ((20 =? 20)%nat && (20 =? 20)%nat)%bool with true. cbv iota.
    change (mask_or (d_mask v) (d_mask u)) with (mask_or (Full (m_msk sdata)) (Full (m_msk sdata))).
    destruct (mask_or (Full (m_msk sdata)) (Full (m_msk sdata))) as [mix|] eqn:Mx; [|discriminate]. cbn [bind e_transp].
    unfold prepare. cbv zeta. change (d_stamp v) with pn.
    destruct (center_of_mass (d_stamp _)) as [d1 d2]. destruct (center_of_mass pn) as [c1 c2]. cbn [fst snd] in C1, C2.
    destruct (Rlt_dec c1 0) as [H|_]; [lra|]. destruct (Rlt_dec c2 0) as [H|_]; [lra|]. cbn [negb andb bind fit].
    do 4 eexists. reflexivity. }
  destruct Sub as (D & P & S & m & Sub). exists D, P, S, m. split; [exact striped_build|].
  split; [intros r; apply Permutation_refl|]. split; [exact striped_eigh|exact Sub].
Qed.
