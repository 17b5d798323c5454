(** When new images can be coadded; two images of stripes. *)
From Coq Require Import ZArith List Bool Arith Reals Lia Lra Permutation.
From Coquelicot Require Import Complex.
From Verif.Model Require Import Py Plane Ma Coadd.
From Verif.Spec Require Import Coadd.
From Verif.Model Require Import Image Interp Subtract Filter FindS Sources Stamps Cut KL Session Transparency Chain ChainCoadd CutChain CutCoadd.
From Verif.Spec Require Import Image Stamps Chain Session Uses UsesCoadd Cut CutCoadd.
From Verif.Proof Require Import Stamps StampsLoop StampsMain StampsExample Session SessionLm Chain ChainMain ChainUnits ChainExample ChainCoadd UsesEx UsesCoadd UsesCoaddMain UsesCoaddEx CutIntact CutLoop CutEx CutChain CutChainLeft CutCoadd CutCoaddMain.
Import ListNotations.
Set Bullet Behavior "Strict Subproofs".
Local Open Scope R_scope.

(** One after the other, new images whose stars give a PSF can be coadded. *)
Lemma C135_works_lm : forall W fuel fuel' sched loss n sh ous cs t,
  (forall n c, length (fst (l_eigh W n c)) = n) -> (forall r, Permutation (l_sort W r) r) -> 0 <= loss -> (n <= 1)%Z ->
  ous <> [] -> Forall (can_cut W fuel sh) ous ->
  Forall2 (fun u c => fst (best_sources (bu_lib (snd u)) (bu_attr (snd u))) = Ok c) ous cs ->
  transparency (l_query W) (l_sort W) (l_lsqr W) (map (fun c => mkcat false false (map row_of c)) cs) None = Ok t ->
  length (zps t) = length ous ->
  Forall2 (fun u c => forall left, Permutation (map spot left) (map spot c) ->
    exists q, psf_for (given (bu_lib (opened W (fst u) left (snd u))) left) (stamp_shape (bu_attr (snd u))) loss = Ok q /\
      snd q <> []) ous cs ->
  exists r, coadd_cut W fuel' sched loss n ous = Some (Ok r).
Proof.
  intros W fuel fuel' sched loss n sh ous cs t EL SP Hl Hn Ne Hu Fc Et Lz Hq.
  assert (Lc : length ous = length cs) by exact (Forall2_len _ _ _ Fc).
  assert (Ec : mapM (fun x => fst (best_sources (bu_lib x) (bu_attr x))) (map snd ous) = Ok cs).
  { clear - Fc. induction Fc as [|u c us cs E F IH]; [reflexivity|]. cbn [map mapM]. rewrite E. cbn [bind]. rewrite IH. reflexivity. }
  assert (Lk : length (mcat t :: cats t) = length cs).
  { destruct cs as [|c0 cs0]; [destruct ous; [congruence|discriminate]|]. cbn [map] in Et.
    rewrite <- (map_map (map row_of) (mkcat false false)) in Et.
    destruct (matched_all _ _ _ _ _ _ SP Et) as [_ M2]. destruct (Forall2_nth _ _ _ M2) as [Ln _].
    rewrite map_length in Ln. cbn. now rewrite <- Ln. }
  rewrite (cut_built W fuel' sched loss n ous cs t Ec Et Lk).
  set (ls := map (fun c => map src_of (rows c)) (mcat t :: cats t)).
  assert (Ll : length ls = length ous) by (unfold ls; rewrite map_length; congruence).
  clearbody ls.
  set (us := map (fun a => (opened_with W a, @nil call)) (combine ous ls)).
  replace (map (opened_with W) (combine ous ls)) with (map (fun u => after (snd u) (fst u)) us)
    by (unfold us; rewrite map_map; apply map_ext; reflexivity).
  apply (works_gen W fuel' sched loss n sh us cs t SP Hl Hn).
  - unfold us. destruct ous as [|a ous]; [congruence|]. destruct ls; discriminate.
  - apply Forall_forall. intros u Iu. unfold us in Iu. apply in_map_iff in Iu as ([[o x] c] & <- & Ic).
    apply in_combine_l in Ic. pose proof (proj1 (Forall_forall _ _) Hu _ Ic) as ((d & B) & S1 & S2 & cat & last & ex & Es & F).
    cbn [fst snd] in *. unfold ready, opened_with. cbn [fst snd]. split; [now apply (opened_usable W fuel o d)|].
    split; [exact S1|]. split; [exact S2|]. split; [|constructor].
    apply (cut_stamps_of W fuel o d c x _ cat last ex B); [now left|exact Es|exact F].
  - unfold us. clear - Fc Ll. revert ls Ll. induction Fc as [|u c us cs E F IH]; intros [|l ls] Ll; try discriminate; [constructor|].
    cbn [combine map]. constructor; [exact E|apply IH; now injection Ll].
  - exact Et.
  - rewrite Lz. unfold us. rewrite map_length, combine_length, Ll. symmetry. apply Nat.min_id.
  - unfold us. clear - Hq Ll. revert ls Ll. induction Hq as [|u c us cs E F IH]; intros [|l ls] Ll; try discriminate; [constructor|].
    cbn [combine map]. constructor; [|apply IH; now injection Ll].
    intros left P. destruct (E left P) as (q & Eq & Nq). exists q. split; [exact Eq|exact Nq].
Qed.

(** * Stripes *)
Definition starry_at (s : src) : Prop := s_y s = 10 /\ (s_x s = 10 \/ s_x s = 12).

Lemma simg_small i j : px simg i j <= 2.
Proof. unfold simg, Chain.tidy. cbn [px pmap nr nc stripes]. destruct (_ && _); [|lra]. destruct (Nat.even i); lra. Qed.

Lemma good_simg s : starry_at s -> good simg s.
Proof.
  intros (Ey & [Ex|Ex]); [apply (good_at _ _ 10)|apply (good_at _ _ 12)]; auto using simg_small; try lia; rewrite Ex;
    [exact start_mid|exact start_close].
Qed.

Lemma simg_stamp s : starry_at s -> plane_eq (stamp_window simg 1 (1, 1)%nat s) swin.
Proof.
  intros (Ey & [Ex|Ex]); unfold stamp_window; rewrite Ey, Ex, simg_window; [apply plane_eq_refl|exact close_window].
Qed.

Lemma simg_level s : starry_at s -> has_level simg 1 (1, 1)%nat s /\ level_of simg 1 (1, 1)%nat s = 0.
Proof.
  intros H. unfold has_level, level_of. rewrite (values_ext _ _ (simg_stamp s H)).
  change (Verif.Spec.Stamps.faint (values swin)) with (Verif.Spec.Stamps.faint (values (stamp_window stripes 1 (1, 1)%nat mid))). exact stripes_level.
Qed.

Lemma simg_inner s : starry_at s -> inner simg (1, 1)%nat s.
Proof.
  intros (Ey & Ex) s' [<-|[]]. change (nr simg) with 20%nat. change (nc simg) with 20%nat. rewrite Ey. cbn [fst snd].
  rewrite start_mid. destruct Ex as [-> | ->]; rewrite ?start_mid, ?start_close; cbn; lia.
Qed.

Lemma cut_simg stats label pk s i j : starry_at s -> (i < 20)%nat -> (j < 20)%nat ->
  px (fst (cut_one stats label pk (intact simg) 1 (1, 1)%nat s)) i j = Some (px simg i j).
Proof.
  intros H Hi Hj. destruct (good_simg s H) as (A & B & C).
  assert (D : in_stamp (1, 1)%nat s (Z.of_nat i) (Z.of_nat j) \/ ~ in_stamp (1, 1)%nat s (Z.of_nat i) (Z.of_nat j)).
  { unfold in_stamp. lia. }
  destruct D as [D|D].
  - destruct (cut_writes stats label pk simg 1 (1, 1)%nat ltac:(cbn; lia) ltac:(cbn; lia) s A B C i j Hi Hj D) as [W _].
    destruct (W (simg_inner s H)) as [W1 _]. rewrite W1 by apply (simg_level s H). rewrite (proj2 (simg_level s H)). f_equal. lra.
  - rewrite Verif.Proof.Cut.cut_out; [reflexivity|cbn; lia|cbn; lia|exact D].
Qed.

Lemma simg_cut stats label public a b : starry_at a -> starry_at b ->
  exists last ex, cut_stamps stats label (mkpicks false public) (intact simg) 1 (1, 1)%nat [a; b] = (last, Ok ex) /\
    ex_pos ex = [(s_y a, s_x a); (s_y b, s_x b)] /\ exists pa pb, ex_stamps ex = [pa; pb] /\ shape pa = (7, 7)%nat /\ shape pb = (7, 7)%nat.
Proof.
  intros Ha Hb. destruct (two_cuts stats label public simg simg a b (good_simg a Ha) (good_simg b Hb) eq_refl) as (last & ex & E & Ep & S).
  { intros i j Hi Hj. now apply cut_simg. }
  exists last, ex. split; [exact E|]. split; [exact Ep|]. do 2 eexists. split; [exact S|].
  assert (T : forall s, starry_at s -> shape (tstamp simg 1 (1, 1)%nat (s_y s, s_x s)) = (7, 7)%nat).
  { intros s H. destruct (tstamp_normalised simg 1 (1, 1)%nat s) as [Q _]. rewrite Q. destruct (simg_stamp s H) as [Z _].
    reflexivity. }
  split; now apply T.
Qed.

Lemma stripes_cut_any (a b : src) : starry_at a -> starry_at b ->
  exists q, psf_for (given (bu_lib (opened striped schosen [a; b] sbuilt)) [a; b]) (1, 1)%nat (2 / 10) = Ok q /\ snd q <> [].
Proof.
  intros Ha Hb. destruct (simg_cut (l_stats striped) (l_label striped) None a b Ha Hb) as (last & ex & E & Ep & pa & pb & S & Sa & Sb).
  destruct (cut_dump_stamps _ _ _ _ _ _ _ _ E) as (del & D & _).
  assert (St : stamps_of _ _ _ (given (bu_lib (opened striped schosen [a; b] sbuilt)) [a; b]) (1, 1)%nat =
               Ok ([numbers pa; numbers pb], ex_pos ex)).
  { unfold stamps_of. cbn [given Session.select]. change (extract (given (bu_lib (opened striped schosen [a; b] sbuilt)) [a; b])) with
      (cut_for striped (mkpicks false None) simg 1). unfold cut_for. change (pmap Some simg) with (intact simg).
    rewrite D. cbn [bind]. now rewrite S. }
  unfold psf_for. rewrite St. cbn [bind fst snd Nat.add].
  destruct (two_basis (numbers pa) (numbers pb) Sa Sb) as (q & q' & Eq & Sq & Vq).
  change (eigh (given (bu_lib (opened striped schosen [a; b] sbuilt)) [a; b])) with two_eigh.
  change (smooth (given (bu_lib (opened striped schosen [a; b] sbuilt)) [a; b])) with (@None (plane (option R) -> plane (option R))).
  rewrite Eq. cbn [bind length Nat.eqb].
  assert (He : exists v, KL.eigenv two_eigh (7, 7)%nat [numbers pa; numbers pb] = Ok v).
  { unfold KL.eigenv, KL.cov_matrix. unfold shape in Sa, Sb. injection Sa as Sa1 Sa2. injection Sb as Sb1 Sb2.
    cbn [forallb fst snd numbers pmap nr nc]. rewrite Sa1, Sa2, Sb1, Sb2. cbn [Nat.eqb andb negb bind length]. eauto. }
  destruct He as (v & ->). rewrite Ep. cbn [bind length Nat.eqb]. eexists. split; [reflexivity|]. discriminate.
Qed.

Definition two_new : list (choices * built) := [(schosen, sbuilt); (schosen, sbuilt)].

Lemma two_can : Forall (can_cut striped 1 (20, 20)%nat) two_new.
Proof.
  assert (X : can_cut striped 1 (20, 20)%nat (schosen, sbuilt)).
  { split; [exists sdata; exact striped_build|]. split; [reflexivity|]. split; [reflexivity|].
    destruct (simg_cut (l_stats striped) (l_label striped) None mid' mid) as (last & ex & E & _); [split; cbn; auto|split; cbn; auto|].
    exists [mid'; mid], last, ex. split; [exact striped_cat|exact E]. }
  repeat constructor; apply X.
Qed.

Lemma new_cat : fst (best_sources (bu_lib sbuilt) (bu_attr sbuilt)) = Ok [mid'; mid].
Proof. unfold best_sources. cbn [bu_attr sbuilt fresh best]. rewrite striped_cat. reflexivity. Qed.

(** Two new images of stripes. *)
Lemma C135_case_lm : exists cs t r,
  Forall (can_cut striped 1 (20, 20)%nat) two_new /\
  (forall r, Permutation (l_sort striped r) r) /\ (forall n c, length (fst (l_eigh striped n c)) = n) /\
  Forall2 (fun u c => fst (best_sources (bu_lib (snd u)) (bu_attr (snd u))) = Ok c) two_new cs /\
  transparency (l_query striped) (l_sort striped) (l_lsqr striped) (map (fun c => mkcat false false (map row_of c)) cs) None = Ok t /\
  length (zps t) = 2%nat /\
  Forall2 (fun u c => forall left, Permutation (map spot left) (map spot c) ->
    exists q, psf_for (given (bu_lib (opened striped (fst u) left (snd u))) left) (stamp_shape (bu_attr (snd u))) (2 / 10) = Ok q /\
      snd q <> []) two_new cs /\
  coadd_cut striped 0 [] (2 / 10) 1 two_new = Some (Ok r).
Proof.
  destruct (striped_nothing [mid'; mid]) as (t & Et & Lz).
  assert (A1 : Forall2 (fun u c => fst (best_sources (bu_lib (snd u)) (bu_attr (snd u))) = Ok c) two_new [[mid'; mid]; [mid'; mid]]).
  { constructor; [exact new_cat|]. constructor; [exact new_cat|constructor]. }
  assert (X : forall left, Permutation (map spot left) (map spot [mid'; mid]) ->
    exists q, psf_for (given (bu_lib (opened striped schosen left sbuilt)) left) (1, 1)%nat (2 / 10) = Ok q /\ snd q <> []).
  { intros left P. pose proof (Permutation_length P) as Ln. rewrite !map_length in Ln. destruct left as [|a [|b [|]]]; try discriminate.
    assert (H : forall x, In x [a; b] -> starry_at x).
    { intros x Ix. apply (in_map spot) in Ix. apply (Permutation_in _ P) in Ix.
      destruct Ix as [Ix|[Ix|[]]]; injection Ix; intros; split; cbn in *; auto. }
    apply stripes_cut_any; apply H; [now left|right; now left]. }
  assert (A2 : Forall2 (fun u c => forall left, Permutation (map spot left) (map spot c) ->
    exists q, psf_for (given (bu_lib (opened striped (fst u) left (snd u))) left) (stamp_shape (bu_attr (snd u))) (2 / 10) = Ok q /\
      snd q <> []) two_new [[mid'; mid]; [mid'; mid]]).
  { constructor; [exact X|]. constructor; [exact X|constructor]. }
  destruct (C135_works_lm striped 1 0 [] (2 / 10) 1 (20, 20)%nat two_new [[mid'; mid]; [mid'; mid]] t striped_eigh
              (fun r => Permutation_refl r)) as (r & Er); auto; try lra; try lia; try discriminate; [exact two_can|].
  exists [[mid'; mid]; [mid'; mid]], t, r. split; [exact two_can|]. split; [intros; apply Permutation_refl|].
  split; [exact striped_eigh|]. auto.
Qed.
