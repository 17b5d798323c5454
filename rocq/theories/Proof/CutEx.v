(** Worked examples for the stamps that are cut in place. *)
From Coq Require Import ZArith List Bool Arith Reals Lia Lra.
From Flocq Require Import Core.Raux.
From Verif.Model Require Import Py Plane Sources FindS Stamps Interp Cut.
From Verif.Spec Require Import FindS Stamps Cut.
From Verif.Proof Require Import FindSMain SourcesMain Stamps StampsLoop StampsMain StampsExample Cut CutIntact CutLoop.
From Verif.Proof Require Import CutMain CutLeft.
Import ListNotations.
Local Open Scope R_scope.

Notation "'one'" := ((1, 1)%nat) (only parsing).

(** Two more sources in the same rows, one clear of the stamp of [mid] and one not. *)
Definition side : src := mksrc 3 10 9 500 0.
Definition close_ : src := mksrc 12 10 9 500 0.

(** [stripes] one brighter: even rows 2, odd rows 1. *)
Definition raised : plane R := pmap (fun x => 1 * x + 1) stripes.
(** The same after the stamp of [mid] lost its level. *)
Definition mixed : plane R := mkplane 20 20 (fun i j =>
  INR ((if Nat.even i then 1 else 0) +
       (if (7 <=? i)%nat && (i <=? 13)%nat && ((7 <=? j)%nat && (j <=? 13)%nat) then 0 else 1))).

Lemma start_side : start 3 1 = 3%Z.
Proof. unfold start. apply Zceil_imp. cbn. lra. Qed.
Lemma start_close : start 12 1 = 12%Z.
Proof. unfold start. apply Zceil_imp. cbn. lra. Qed.

Lemma pair_apart : apart one [mid; side].
Proof.
  apply apart_cons. split; [|apply apart_single]. intros t [<-|[]] r c (_ & A) (_ & B).
  cbn [mid side s_x s_y fst snd] in A, B. rewrite start_mid in A. rewrite start_side in B. cbn in A, B. lia.
Qed.

Lemma close_not_apart : ~ apart one [mid; close_].
Proof.
  intros A. apply apart_cons in A. destruct A as [A _]. apply (A close_ (or_introl eq_refl) 10%Z 10%Z);
    unfold in_stamp; cbn [mid close_ s_x s_y fst snd]; rewrite ?start_mid, ?start_close; cbn; lia.
Qed.

(** A window of side 1 + 2k in the middle rows, away from the edges. *)
Lemma win_px (im : plane R) x c k i j : nr im = 20%nat -> nc im = 20%nat -> start x 1 = Z.of_nat c ->
  (3 <= c)%nat -> (c <= 16)%nat -> (k <= 3)%nat -> (i < 1 + 2 * k)%nat -> (j < 1 + 2 * k)%nat ->
  px (window im 1 one (10, x) k) i j = px im (10 - k + i) (c - k + j).
Proof.
  intros Er Ec Ex H1 H2 Hk Hi Hj. cbn [window px fst snd]. rewrite start_mid, Ex. unfold frame. rewrite Er, Ec.
  match goal with |- (if ?b then _ else _) = _ => replace b with true; [|symmetry] end.
  - f_equal; lia.
  - rewrite !andb_true_iff, !Z.leb_le, !Z.ltb_lt. lia.
Qed.

Lemma small_not_flat (im : plane R) x c k : nr im = 20%nat -> nc im = 20%nat -> start x 1 = Z.of_nat c ->
  (3 <= c)%nat -> (c <= 16)%nat -> (k <= 1)%nat ->
  (forall i j, px im i j <= 2) -> ~ flat_border (window im 1 one (10, x) k) (35 / 10 * 1).
Proof.
  intros Er Ec Ex H1 H2 Hk Hs F. specialize (F 0%nat 0%nat).
  rewrite (win_px im x c) in F by (auto; lia).
  assert (H : px im (10 - k + 0) (c - k + 0) = 35 / 10 * 1) by (apply F; cbn; lia).
  specialize (Hs (10 - k + 0)%nat (c - k + 0)%nat). lra.
Qed.

Lemma mid_overlaps (im : plane R) x c : nr im = 20%nat -> nc im = 20%nat -> start x 1 = Z.of_nat c -> (c <= 16)%nat ->
  overlaps im one (10, x).
Proof. intros Er Ec Ex H. unfold overlaps. cbn [fst snd]. rewrite start_mid, Ex, Er, Ec. cbn. lia. Qed.

Lemma stripes_small i j : px stripes i j <= 2.
Proof. cbn. destruct (Nat.even i); lra. Qed.
Lemma raised_small i j : px raised i j <= 2.
Proof. cbn. destruct (Nat.even i); lra. Qed.
Lemma mixed_small i j : px mixed i j <= 2.
Proof. cbn [mixed px]. destruct (Nat.even i), (_ && _ && _); cbn; lra. Qed.

Definition good (im : plane R) (s : src) : Prop :=
  overlaps im one (s_y s, s_x s) /\ ~ flat_border (window im 1 one (s_y s, s_x s) 0) (35 / 10 * 1) /\
  ~ flat_border (window im 1 one (s_y s, s_x s) 1) (35 / 10 * 1).

Lemma good_at (im : plane R) s c : nr im = 20%nat -> nc im = 20%nat -> s_y s = 10 -> start (s_x s) 1 = Z.of_nat c ->
  (3 <= c)%nat -> (c <= 16)%nat -> (forall i j, px im i j <= 2) -> good im s.
Proof.
  intros Er Ec Ey Ex H1 H2 Hs. unfold good. rewrite Ey. split; [now apply (mid_overlaps im _ c)|].
  split; apply (small_not_flat im _ c); auto.
Qed.

Lemma good_stripes_mid : good stripes mid.
Proof. apply (good_at _ _ 10); auto using stripes_small; try (cbn; lia). exact start_mid. Qed.
Lemma good_raised_mid : good raised mid.
Proof. apply (good_at _ _ 10); auto using raised_small; try (cbn; lia). exact start_mid. Qed.
Lemma good_stripes_side : good stripes side.
Proof. apply (good_at _ _ 3); auto using stripes_small; try (cbn; lia). exact start_side. Qed.
Lemma good_raised_side : good raised side.
Proof. apply (good_at _ _ 3); auto using raised_small; try (cbn; lia). exact start_side. Qed.
Lemma good_stripes_close : good stripes close_.
Proof. apply (good_at _ _ 12); auto using stripes_small; try (cbn; lia). exact start_close. Qed.
Lemma good_mixed_close : good mixed close_.
Proof. apply (good_at _ _ 12); auto using mixed_small; try (cbn; lia). exact start_close. Qed.

(** Levels. *)
Lemma stripes_window_faint : faint (values (stamp_window stripes 1 one mid)) = repeat 0 28.
Proof. exact stripes_faint. Qed.

Lemma stripes_level : has_level stripes 1 one mid /\ level_of stripes 1 one mid = 0.
Proof.
  unfold has_level, level_of. rewrite stripes_window_faint. split; [discriminate|exact median_zeros].
Qed.

Lemma raised_faint : faint (values (stamp_window raised 1 one mid)) = map (fun x => 1 * x + 1) (repeat 0 28).
Proof.
  unfold stamp_window, raised. rewrite (values_ext _ _ (window_affine 1 1 stripes 1 1 one mid [mid] stripes_interior (or_introl eq_refl))).
  rewrite values_pmap, faint_affine by lra. f_equal. exact stripes_faint.
Qed.

Lemma raised_level : has_level raised 1 one mid /\ level_of raised 1 one mid = 1.
Proof.
  unfold has_level, level_of. rewrite raised_faint. split; [discriminate|].
  rewrite (median_affine 1 1) by (lra || discriminate). rewrite median_zeros. lra.
Qed.

Lemma inner_mid (im : plane R) : nr im = 20%nat -> nc im = 20%nat -> inner im one mid.
Proof. intros Er Ec s [<-|[]]. rewrite Er, Ec. cbn [mid s_x s_y fst snd]. rewrite start_mid. cbn. lia. Qed.

Lemma in_mid i j : in_stamp one mid (Z.of_nat i) (Z.of_nat j) <->
  (7 <=? i)%nat && (i <=? 13)%nat && ((7 <=? j)%nat && (j <=? 13)%nat) = true.
Proof.
  unfold in_stamp. cbn [mid s_x s_y fst snd]. rewrite start_mid. rewrite !andb_true_iff, !Nat.leb_le. cbn. lia.
Qed.

(** What cutting [mid] leaves. *)
Lemma cut_stripes stats label pk i j : (i < 20)%nat -> (j < 20)%nat ->
  px (fst (cut_one stats label pk (intact stripes) 1 one mid)) i j = Some (px stripes i j).
Proof.
  intros Hi Hj. destruct good_stripes_mid as (A & B & C).
  destruct ((7 <=? i)%nat && (i <=? 13)%nat && ((7 <=? j)%nat && (j <=? 13)%nat)) eqn:X.
  - destruct (cut_writes stats label pk stripes 1 one ltac:(cbn; lia) ltac:(cbn; lia) mid A B C i j Hi Hj) as [W _];
      [now apply in_mid|]. destruct (W (inner_mid stripes eq_refl eq_refl)) as [W1 _]. rewrite W1 by apply stripes_level.
    rewrite (proj2 stripes_level). f_equal. lra.
  - rewrite cut_out; [reflexivity|cbn; lia|cbn; lia|]. rewrite in_mid, X. discriminate.
Qed.

Lemma cut_raised stats label pk i j : (i < 20)%nat -> (j < 20)%nat ->
  px (fst (cut_one stats label pk (intact raised) 1 one mid)) i j = Some (px mixed i j).
Proof.
  intros Hi Hj. destruct good_raised_mid as (A & B & C).
  destruct ((7 <=? i)%nat && (i <=? 13)%nat && ((7 <=? j)%nat && (j <=? 13)%nat)) eqn:X.
  - destruct (cut_writes stats label pk raised 1 one ltac:(cbn; lia) ltac:(cbn; lia) mid A B C i j Hi Hj) as [W _];
      [now apply in_mid|]. destruct (W (inner_mid raised eq_refl eq_refl)) as [W1 _]. rewrite W1 by apply raised_level.
    rewrite (proj2 raised_level). f_equal. cbn [raised stripes mixed px pmap]. rewrite X. destruct (Nat.even i); cbn; lra.
  - rewrite cut_out; [|cbn; lia|cbn; lia|rewrite in_mid, X; discriminate].
    cbn [intact raised stripes mixed px pmap]. rewrite X. f_equal. destruct (Nat.even i); cbn; lra.
Qed.

Lemma cut_good stats label public im s : good im s ->
  snd (cut_one stats label (mkpicks false public) (intact im) 1 one s) = Ok (Some (tstamp im 1 one (s_y s, s_x s))).
Proof.
  intros (A & B & C). rewrite cut_normal by (try assumption; cbn; lia). reflexivity.
Qed.

(** One source. *)
Lemma one_cut stats label public im s : good im s ->
  exists left ex, cut_stamps stats label (mkpicks false public) (intact im) 1 one [s] = (left, Ok ex) /\
    ex_stamps ex = [tstamp im 1 one (s_y s, s_x s)] /\
    left = fst (cut_one stats label (mkpicks false public) (intact im) 1 one s).
Proof.
  intros G. pose proof (cut_good stats label public im s G) as E.
  destruct (cut_one stats label (mkpicks false public) (intact im) 1 one s) as [left r] eqn:X. cbn [snd] in E. subst r.
  destruct (single_turn _ _ _ _ _ _ _ _ _ X) as (ex & Y & _ & S). exists left, ex. auto.
Qed.

(** Two sources, the second from the image the first left. *)
Lemma two_cuts stats label public im im2 s t : good im s -> good im2 t -> shape im2 = shape im ->
  (forall i j, (i < nr im)%nat -> (j < nc im)%nat ->
     px (fst (cut_one stats label (mkpicks false public) (intact im) 1 one s)) i j = Some (px im2 i j)) ->
  exists left ex, cut_stamps stats label (mkpicks false public) (intact im) 1 one [s; t] = (left, Ok ex) /\
    ex_pos ex = [(s_y s, s_x s); (s_y t, s_x t)] /\
    ex_stamps ex = [tstamp im 1 one (s_y s, s_x s); tstamp im2 1 one (s_y t, s_x t)].
Proof.
  intros Gs Gt Sh H. pose proof (cut_good stats label public im s Gs) as E. pose proof (cut_good stats label public im2 t Gt) as E2.
  destruct (cut_dims stats label (mkpicks false public) 1 one ltac:(cbn; lia) ltac:(cbn; lia) (intact im) s) as [D1 D2].
  destruct (cut_one stats label (mkpicks false public) (intact im) 1 one s) as [mid1 r] eqn:X. cbn [fst snd] in *. subst r.
  assert (A : agree one t mid1 (intact im2)).
  { unfold shape in Sh. injection Sh as Sr Sc. cbn [intact pmap nr nc] in D1, D2 |- *.
    split; [cbn [intact pmap nr]; congruence|]. split; [cbn [intact pmap nc]; congruence|].
    intros i j Hi Hj _. cbn [intact pmap px]. apply H; congruence. }
  destruct (cut_agree stats label (mkpicks false public) 1 one ltac:(cbn; lia) ltac:(cbn; lia) t _ _ A) as [Y _].
  rewrite E2 in Y. destruct (cut_one stats label (mkpicks false public) mid1 1 one t) as [left r] eqn:Z. cbn [snd] in Y. subst r.
  exists left, (result one (mkpicks false public) [s; t] [Some (tstamp im 1 one (s_y s, s_x s)); Some (tstamp im2 1 one (s_y t, s_x t))]).
  split; [|split; reflexivity]. apply cut_ok. eexists. split; [|reflexivity].
  econstructor; [exact X|]. econstructor; [exact Z|constructor].
Qed.

(** The window of [close_] in [mixed]. *)
Fixpoint ninsert (x : nat) (l : list nat) : list nat :=
  match l with [] => [x] | y :: t => if (x <=? y)%nat then x :: l else y :: ninsert x t end.
Definition nsort (l : list nat) : list nat := fold_right ninsert [] l.

Lemma insert_INR x l : insertR (INR x) (map INR l) = map INR (ninsert x l).
Proof.
  induction l as [|y l IH]; [reflexivity|]. cbn [map insertR ninsert]. destruct (Nat.leb x y) eqn:E.
  - apply Nat.leb_le in E. apply le_INR in E. destruct (Rle_dec (INR x) (INR y)); [reflexivity|contradiction].
  - apply Nat.leb_gt in E. apply lt_INR in E. destruct (Rle_dec (INR x) (INR y)); [lra|]. now rewrite IH.
Qed.

Lemma sort_INR l : sortR (map INR l) = map INR (nsort l).
Proof. induction l as [|x l IH]; [reflexivity|]. unfold sortR, nsort in *. cbn [map fold_right]. rewrite IH. apply insert_INR. Qed.

Lemma sum_INR l : sumR (map INR l) = INR (fold_right Nat.add 0%nat l).
Proof. unfold sumR. induction l as [|x l IH]; [reflexivity|]. cbn [map fold_right]. rewrite IH, plus_INR. reflexivity. Qed.

Definition mwin := window mixed 1 one (10, 12) 3.
Definition cellv (c : nat * nat) : nat := ((if Nat.odd (fst c) then 1 else 0) + (if (5 <=? snd c) then 1 else 0))%nat.
Definition mvals : list nat := map cellv (list_prod (seq 0 7) (seq 0 7)).

Lemma mwin_px i j : (i < 7)%nat -> (j < 7)%nat -> px mwin i j = INR (cellv (i, j)).
Proof.
  intros Hi Hj. unfold mwin. rewrite (win_px mixed 12 12) by (try reflexivity; try exact start_close; cbn; lia).
  cbn [mixed px]. unfold cellv. cbn [fst snd]. f_equal. f_equal.
  - do 7 (destruct i as [|i]; [reflexivity|]). lia.
  - do 7 (destruct i as [|i]; [do 7 (destruct j as [|j]; [reflexivity|]); lia|]). lia.
Qed.

Lemma mwin_values : values mwin = map INR mvals.
Proof.
  unfold values, mvals. rewrite map_map. apply map_ext_in. intros [i j] I. apply in_cells in I.
  cbn in I. cbn [fst snd]. apply mwin_px; lia.
Qed.

Lemma mwin_percentile : percentile 70 (values mwin) = 1.
Proof.
  unfold percentile. rewrite mwin_values, sort_INR, map_length.
  replace (length mvals) with 49%nat by reflexivity.
  replace (nsort mvals) with (repeat 0%nat 20 ++ repeat 1%nat 23 ++ repeat 2%nat 6) by (vm_compute; reflexivity).
  replace (Zfloor (70 / 100 * INR (49 - 1))) with 33%Z.
  - change (Z.to_nat 33) with 33%nat. cbn -[IZR INR]. cbn [INR]. lra.
  - symmetry. apply Zfloor_imp. cbn. lra.
Qed.

Lemma mwin_faint : faint (values mwin) = repeat 0 20.
Proof.
  unfold faint. rewrite mwin_percentile, mwin_values.
  assert (G : forall l, filter (fun x => if Rlt_dec x 1 then true else false) (map INR l) =
                        map INR (filter (fun n => (n =? 0)%nat) l)).
  { induction l as [|x l IH]; [reflexivity|]. cbn [map filter]. rewrite IH. destruct x as [|x].
    - cbn [INR Nat.eqb]. destruct (Rlt_dec 0 1); [reflexivity|lra].
    - cbn [Nat.eqb]. destruct (Rlt_dec (INR (S x)) 1) as [L|]; [|reflexivity].
      exfalso. rewrite S_INR in L. pose proof (pos_INR x). lra. }
  rewrite G. replace (filter (fun n => (n =? 0)%nat) mvals) with (repeat 0%nat 20) by (vm_compute; reflexivity). reflexivity.
Qed.

Lemma mwin_stamp : px (normalised mwin) 0 6 = Some (1 / 35).
Proof.
  unfold normalised. cbn [px pmap]. rewrite mwin_faint.
  assert (M : median (repeat 0 20) = 0).
  { unfold median. change (repeat 0 20) with (map b2r (repeat false 20)). rewrite sort_bits. cbn. lra. }
  rewrite M, values_pmap, mwin_values.
  replace (map (fun x => x - 0) (map INR mvals)) with (map INR mvals).
  - rewrite sum_INR. replace (fold_right Nat.add 0%nat mvals) with 35%nat by (vm_compute; reflexivity).
    cbn [repeat]. destruct (Req_EM_T (INR 35) 0) as [Z|_]; [exfalso; cbn in Z; lra|].
    rewrite mwin_px by lia. f_equal. replace (INR (cellv (0, 6)%nat)) with 1 by reflexivity.
    replace (INR 35) with 35 by (cbn; lra). lra.
  - symmetry. rewrite <- (map_id (map INR mvals)) at 2. apply map_ext. intros; lra.
Qed.

(** The stamp of [close_] in [stripes] is that of [mid]. *)
Lemma close_window : plane_eq (window stripes 1 one (10, 12) 3) swin.
Proof.
  split; [reflexivity|]. intros i j Hi Hj. cbn in Hi, Hj. unfold swin.
  rewrite (win_px stripes 12 12) by (try reflexivity; try exact start_close; cbn; lia).
  rewrite stripes_px by (cbn; lia). reflexivity.
Qed.

Lemma close_raised : plane_eq (normalised (window raised 1 one (10, 12) 3)) (normalised swin).
Proof.
  apply (normalised_affine 1 1); [lra|].
  apply plane_eq_trans with (pmap (fun x => 1 * x + 1) (window stripes 1 one (10, 12) 3)).
  - apply (window_affine 1 1 stripes 1 1 one close_ [close_]); [|now left].
    intros s [<-|[]]. cbn [close_ s_x s_y fst snd]. rewrite start_mid, start_close. cbn. lia.
  - destruct close_window as [S E]. split; [reflexivity|]. intros i j Hi Hj. cbn [px pmap]. rewrite E; [reflexivity|exact Hi|exact Hj].
Qed.

Lemma swin_dark : px (normalised swin) 0 6 = Some 0.
Proof. rewrite stripes_stamp by lia. f_equal. cbn. lra. Qed.

Lemma close_stamp_differs (p : plane (option R)) (q : plane (option R)) :
  plane_eq p (normalised mwin) -> plane_eq q (normalised swin) -> ~ plane_eq p q.
Proof.
  intros [Sp Ep] [Sq Eq] [S E]. unfold shape in *. injection Sp as Pr Pc. injection Sq as Qr Qc.
  assert (X : px p 0 6 = Some (1 / 35)) by (rewrite Ep; [exact mwin_stamp|rewrite Pr; cbn; lia|rewrite Pc; cbn; lia]).
  assert (Y : px q 0 6 = Some 0) by (rewrite Eq; [exact swin_dark|rewrite Qr; cbn; lia|rewrite Qc; cbn; lia]).
  rewrite E in X by (rewrite ?Pr, ?Pc; cbn; lia). rewrite Y in X. injection X as X. lra.
Qed.

(** When stamps overlap the formula fails: the second stamp is cut from pixels the first one
    changed. *)
Lemma C80_overlap_refuted_lm : forall stats label, exists image rms sh sources left ex k pos p,
  (0 < fst sh)%nat /\ (0 < snd sh)%nat /\ interior image sh sources /\
  cut_stamps stats label (mkpicks false None) (intact image) rms sh sources = (left, Ok ex) /\
  nth_error (ex_pos ex) k = Some pos /\ nth_error (ex_stamps ex) k = Some p /\
  ~ plane_eq p (normalised (window image rms sh pos 3)).
Proof.
  intros stats label.
  destruct (two_cuts stats label None raised mixed mid close_ good_raised_mid good_mixed_close eq_refl) as (left & ex & E & P & S).
  { intros i j Hi Hj. now apply cut_raised. }
  exists raised, 1, one, [mid; close_], left, ex, 1%nat, (10, 12), (tstamp mixed 1 one (10, 12)).
  split; [cbn; lia|]. split; [cbn; lia|]. split.
  { intros s [<-|[<-|[]]]; cbn [mid close_ s_x s_y fst snd]; rewrite ?start_mid, ?start_close; cbn; lia. }
  split; [exact E|]. split; [now rewrite P|]. split; [now rewrite S|].
  apply close_stamp_differs; [exact (tstamp_normalised mixed 1 one close_)|exact close_raised].
Qed.

(** And a constant added to the image changes such a stamp. *)
Lemma C81_overlap_refuted_lm : forall stats label, exists image rms sh sources c left left' ex ex',
  (0 < fst sh)%nat /\ (0 < snd sh)%nat /\ interior image sh sources /\
  cut_stamps stats label (mkpicks false None) (intact image) rms sh sources = (left, Ok ex) /\
  cut_stamps stats label (mkpicks false None) (intact (pmap (fun x => 1 * x + c) image)) rms sh sources = (left', Ok ex') /\
  ~ Forall2 plane_eq (ex_stamps ex') (ex_stamps ex).
Proof.
  intros stats label.
  destruct (two_cuts stats label None raised mixed mid close_ good_raised_mid good_mixed_close eq_refl) as (left' & ex' & E' & P' & S').
  { intros i j Hi Hj. now apply cut_raised. }
  destruct (two_cuts stats label None stripes stripes mid close_ good_stripes_mid good_stripes_close eq_refl) as (left & ex & E & P & S).
  { intros i j Hi Hj. now apply cut_stripes. }
  exists stripes, 1, one, [mid; close_], 1, left, left', ex, ex'.
  split; [cbn; lia|]. split; [cbn; lia|]. split.
  { intros s [<-|[<-|[]]]; cbn [mid close_ s_x s_y fst snd]; rewrite ?start_mid, ?start_close; cbn; lia. }
  split; [exact E|]. split; [exact E'|]. rewrite S, S'. intros F.
  inversion F as [|? ? ? ? _ F1]; subst. inversion F1 as [|? ? ? ? X _]; subst. revert X.
  apply close_stamp_differs; [exact (tstamp_normalised mixed 1 one close_)|].
  eapply plane_eq_trans; [exact (tstamp_normalised stripes 1 one close_)|]. apply normalised_ext, close_window.
Qed.

(** The interpolated image does change. *)
Lemma C132_unchanged_refuted_lm : forall stats label, exists image rms sh sources left ex i j,
  (0 < fst sh)%nat /\ (0 < snd sh)%nat /\ apart sh sources /\ (i < nr image)%nat /\ (j < nc image)%nat /\
  cut_stamps stats label (mkpicks false None) (intact image) rms sh sources = (left, Ok ex) /\
  px left i j <> Some (px image i j).
Proof.
  intros stats label. destruct (one_cut stats label None raised mid good_raised_mid) as (left & ex & E & _ & L).
  exists raised, 1, one, [mid], left, ex, 10%nat, 10%nat.
  split; [cbn; lia|]. split; [cbn; lia|]. split; [apply apart_single|]. split; [cbn; lia|]. split; [cbn; lia|].
  split; [exact E|]. rewrite L, cut_raised by lia. cbn. intros X. injection X as X. lra.
Qed.

(** With strict picking the source is rejected: the first brightest cell is (1, 0), far from the
    centre. *)
Lemma stripes_strict stats label p : plane_eq p (pmap (fun x => x - 0) swin) -> strict stats label (Some p) = Ok false.
Proof.
  intros E.
  assert (V : values p = map b2r bits).
  { rewrite (values_ext _ _ E), values_pmap, stripes_values.
    rewrite <- (map_id (map b2r bits)) at 2. apply map_ext. intros; lra. }
  assert (T : sumR (values p) = 21).
  { rewrite V, sum_bits. replace (count true bits) with 21%nat by reflexivity. cbn. lra. }
  pose proof E as [Sh Ep]. unfold shape in Sh. injection Sh as Sr Sc.
  change (nr (pmap (fun x => x - 0) swin)) with 7%nat in Sr.
  change (nc (pmap (fun x => x - 0) swin)) with 7%nat in Sc.
  unfold strict. rewrite T. destruct (Req_EM_T 21 0) as [Z|_]; [lra|].
  set (q := pmap (fun x => x / 21) p).
  assert (Q : forall i j, (i < 7)%nat -> (j < 7)%nat -> px q i j = b2r (Nat.odd i) / 21).
  { intros i j Hi Hj. unfold q. cbn [px pmap]. rewrite Ep by lia. cbn [px pmap]. unfold swin.
    rewrite stripes_px by lia.
    replace (Nat.even (10 - 3 + i)) with (Nat.odd i); [lra|].
    do 7 (destruct i as [|i]; [reflexivity|]). lia. }
  assert (Am : argmax q = (1, 0)%nat).
  { destruct (argmax_spec q) as (A1 & A2 & A3); [unfold q; cbn; lia|unfold q; cbn; lia|].
    change (nr q) with (nr p) in *. change (nc q) with (nc p) in *. rewrite Sr in *. rewrite Sc in *.
    destruct (A3 1%nat 0%nat) as [L Eq]; [lia|lia|].
    rewrite !Q in L, Eq by lia. destruct (argmax q) as [a b]. cbn [fst snd] in *.
    destruct a as [|a].
    - exfalso. cbn in L. lra.
    - assert (Le : b2r (Nat.odd (S a)) <= 1) by (unfold b2r; destruct (Nat.odd (S a)); lra).
      change (Nat.odd 1) with true in *. cbn [b2r] in L, Eq.
      assert (1 / 21 = b2r (Nat.odd (S a)) / 21) by lra. specialize (Eq H).
      f_equal; lia. }
  unfold strict_finite. rewrite Am.
  replace (off_centre (shape q) (INR (fst (1, 0)%nat)) (INR (snd (1, 0)%nat))) with true; [reflexivity|].
  symmetry. unfold off_centre, PSF_CTR_TOL, shape. change (nr q) with (nr p). change (nc q) with (nc p).
  rewrite Sr, Sc. cbn [fst snd].
  destruct (Rlt_dec _ _) as [|N]; [reflexivity|]. exfalso. apply N.
  replace (INR 7 / 5) with (sqrt ((7 / 5) * (7 / 5))) by (rewrite sqrt_square; cbn; lra).
  apply sqrt_lt_1; cbn; nra.
Qed.

Lemma stripes_cut_rejected stats label public :
  exists left ex, cut_stamps stats label (mkpicks true public) (intact stripes) 1 one [mid] = (left, Ok ex) /\
    ex_stamps ex = [] /\ public_pick (ex_picks ex) = Some false.
Proof.
  assert (O : snd (cut_one stats label (mkpicks true public) (intact stripes) 1 one mid) = Ok None).
  { destruct good_stripes_mid as (A & B & C). rewrite cut_normal by (try assumption; cbn; lia). cbn [snd private_pick].
    destruct (proj1 (tlev_level stripes 1 one mid) (proj1 stripes_level)) as (q & -> & P).
    rewrite (proj2 stripes_level) in P. rewrite (stripes_strict stats label (tidy q)); [reflexivity|].
    eapply plane_eq_trans; [apply tidy_eq|exact P]. }
  destruct (cut_one stats label (mkpicks true public) (intact stripes) 1 one mid) as [left r] eqn:X. cbn [snd] in O. subst r.
  destruct (single_turn _ _ _ _ _ _ _ _ _ X) as (ex & Y & -> & S). exists left. eexists. split; [exact Y|]. split; reflexivity.
Qed.

(** The announced disabling for at most 20 candidates does not happen: the attribute
    strict_star_pick becomes False but the source is still rejected by the strict criteria. *)
Lemma C34_disabled_refuted_lm : forall stats label, exists image rms sh sources left left' ex ex',
  (length sources <= 20)%nat /\
  cut_stamps stats label (mkpicks true None) (intact image) rms sh sources = (left, Ok ex) /\
  cut_stamps stats label (mkpicks false None) (intact image) rms sh sources = (left', Ok ex') /\
  public_pick (ex_picks ex) = Some false /\
  length (ex_stamps ex') = length sources /\ ex_stamps ex = [].
Proof.
  intros stats label. destruct (stripes_cut_rejected stats label None) as (left & ex & E & S & P).
  destruct (one_cut stats label None stripes mid good_stripes_mid) as (left' & ex' & E' & S' & _).
  exists stripes, 1, one, [mid], left, left', ex, ex'.
  split; [cbn; lia|]. split; [exact E|]. split; [exact E'|]. split; [exact P|]. split; [now rewrite S'|exact S].
Qed.

(** A constant image at 3.5 times the noise level. *)
Lemma flat_spoils stats label pk : snd (cut_stamps stats label pk (intact (mkplane 20 20 (fun _ _ => 7))) 2 one [mid]) = Raise TypeError.
Proof.
  apply C32_flat_border_lm; [cbn; lia|cbn; lia| |].
  - exact stripes_overlap.
  - left. intros i j Hi Hj _. cbn in Hi, Hj. cbn [window px fst snd s_y s_x mid].
    rewrite start_mid. unfold frame. cbn [nr nc px]. destruct (_ && _)%bool eqn:B; [lra|].
    exfalso. apply andb_false_iff in B. rewrite !andb_false_iff, !Z.leb_gt, !Z.ltb_ge in B. lia.
Qed.

(** Two sources that are apart, and a second cutting. *)
Lemma stripes_pair stats label : exists left ex,
  cut_stamps stats label (mkpicks false None) (intact stripes) 1 one [mid; side] = (left, Ok ex) /\
  length (ex_stamps ex) = 2%nat.
Proof.
  destruct (C32_extraction_succeeds_lm stats label (mkpicks false None) stripes 1 one [mid; side]) as (left & ex & E & _ & _ & L).
  - cbn; lia.
  - cbn; lia.
  - reflexivity.
  - exact pair_apart.
  - intros s [<-|[<-|[]]]; [exact good_stripes_mid|exact good_stripes_side].
  - exists left, ex. auto.
Qed.

Lemma raised_again stats label : exists left ex left' ex',
  cut_stamps stats label (mkpicks false None) (intact raised) 1 one [mid] = (left, Ok ex) /\ all_finite ex /\
  cut_stamps stats label (ex_picks ex) left 1 one (ex_sources ex) = (left', Ok ex').
Proof.
  pose proof (cut_good stats label None raised mid good_raised_mid) as E.
  pose proof (cut_dims stats label (mkpicks false None) 1 one ltac:(cbn; lia) ltac:(cbn; lia) (intact raised) mid) as [D1 D2].
  pose proof (cut_raised stats label (mkpicks false None)) as W.
  destruct (cut_one stats label (mkpicks false None) (intact raised) 1 one mid) as [left r] eqn:X. cbn [fst snd] in *. subst r.
  destruct (single_turn _ _ _ _ _ _ _ _ _ X) as (ex & Y & Ex & S).
  assert (G : good mixed mid) by (apply (good_at _ _ 10); auto using mixed_small; try (cbn; lia); exact start_mid).
  assert (A : agree one mid left (intact mixed)).
  { split; [exact D1|]. split; [exact D2|]. intros i j Hi Hj _. rewrite D1 in Hi. rewrite D2 in Hj. now apply W. }
  destruct (cut_agree stats label (mkpicks false None) 1 one ltac:(cbn; lia) ltac:(cbn; lia) mid _ _ A) as [Z _].
  rewrite (cut_good stats label None mixed mid G) in Z.
  destruct (cut_one stats label (mkpicks false None) left 1 one mid) as [left' r] eqn:Q. cbn [snd] in Z. subst r.
  destruct (single_turn _ _ _ _ _ _ _ _ _ Q) as (ex' & Y' & _ & _).
  exists left, ex, left'. eexists. split; [exact Y|]. split.
  - intros p i j I Hi Hj. rewrite S in I. destruct I as [<-|[]].
    pose proof (tstamp_normalised raised 1 one mid) as [Sh Ne]. cbn [mid s_x s_y] in *.
    rewrite Ne by assumption. unfold shape in Sh. injection Sh as Sr Sc. rewrite Sr in Hi. rewrite Sc in Hj. cbn in Hi, Hj.
    pose proof (window_affine 1 1 stripes 1 1 one mid [mid] stripes_interior (or_introl eq_refl)) as Wa.
    pose proof (normalised_affine 1 1 _ _ ltac:(lra) Wa) as [_ Na].
    fold raised in Na. cbn [mid s_x s_y] in Na. rewrite Na by (cbn; lia).
    change (window stripes 1 one (10, 10) 3) with swin. rewrite stripes_stamp by lia. discriminate.
  - rewrite Ex. cbn [result ex_picks ex_sources length somes Nat.leb].
    assert (CP : cut_stamps stats label (same_pick 1 (mkpicks false None)) left 1 one [mid] =
                 (left', Ok (result one (same_pick 1 (mkpicks false None)) [mid] [Some (tstamp mixed 1 one (s_y mid, s_x mid))]))).
    { apply cut_ok. eexists. split; [|reflexivity]. econstructor; [|constructor].
      rewrite <- Q. apply cut_pick. apply same_pick_eq. }
    exact CP.
Qed.
