(** A worked example: an image of bright and dark rows, and one source in the middle. *)
From Coq Require Import ZArith List Bool Arith Reals Lia Lra.
From Flocq Require Import Core.Raux.
From Verif.Model Require Import Py Plane Sources FindS Stamps.
From Verif.Spec Require Import FindS Stamps.
From Verif.Proof Require Import FindSMain SourcesMain Stamps StampsLoop StampsMain.
Import ListNotations.
Local Open Scope R_scope.

(** Even rows 1, odd rows 0. *)
Definition stripes : plane R := mkplane 20 20 (fun i _ => if Nat.even i then 1 else 0).
Definition mid : src := mksrc 10 10 9 500 0.

Definition b2r (b : bool) : R := if b then 1 else 0.

Fixpoint count (b : bool) (l : list bool) : nat :=
  match l with [] => 0 | x :: t => if Bool.eqb x b then S (count b t) else count b t end.

Lemma insert_zero m n : insertR 0 (repeat 0 m ++ repeat 1 n) = repeat 0 (S m) ++ repeat 1 n.
Proof.
  destruct m; cbn.
  - destruct n; cbn; [reflexivity|]. destruct (Rle_dec 0 1); [reflexivity|lra].
  - destruct (Rle_dec 0 0); [reflexivity|lra].
Qed.

Lemma insert_one m n : insertR 1 (repeat 0 m ++ repeat 1 n) = repeat 0 m ++ repeat 1 (S n).
Proof.
  induction m as [|m IH]; cbn.
  - destruct n; cbn; [reflexivity|]. destruct (Rle_dec 1 1); [reflexivity|lra].
  - destruct (Rle_dec 1 0); [lra|]. now rewrite IH.
Qed.

Lemma sort_bits l : sortR (map b2r l) = repeat 0 (count false l) ++ repeat 1 (count true l).
Proof.
  induction l as [|[] l IH]; [reflexivity| |]; unfold sortR in *; cbn [map fold_right]; rewrite IH; cbn [b2r count Bool.eqb].
  - apply insert_one.
  - apply insert_zero.
Qed.

Lemma sum_bits l : sumR (map b2r l) = INR (count true l).
Proof.
  unfold sumR. induction l as [|[] l IH]; cbn [map fold_right count Bool.eqb]; [reflexivity| |].
  - rewrite IH, S_INR. cbn. lra.
  - rewrite IH. cbn. lra.
Qed.

Lemma start_mid : start 10 1 = 10%Z.
Proof. unfold start. apply Zceil_imp. cbn. lra. Qed.

Definition bits : list bool := map (fun c => Nat.odd (fst c)) (list_prod (seq 0 7) (seq 0 7)).

Lemma stripes_px k i j : (k <= 3)%nat -> (i < 1 + 2 * k)%nat -> (j < 1 + 2 * k)%nat ->
  px (window stripes 1 (1, 1)%nat (10, 10) k) i j = b2r (Nat.even (10 - k + i)).
Proof.
  intros Hk Hi Hj. cbn [window px fst snd]. rewrite start_mid. unfold frame. cbn [stripes nr nc px].
  match goal with |- (if ?b then _ else _) = _ => replace b with true; [|symmetry] end.
  - now replace (Z.to_nat (10 - Z.of_nat k + Z.of_nat i)) with (10 - k + i)%nat by lia.
  - rewrite !andb_true_iff, !Z.leb_le, !Z.ltb_lt. lia.
Qed.

Definition swin := window stripes 1 (1, 1)%nat (10, 10) 3.

Lemma stripes_values : values swin = map b2r bits.
Proof.
  unfold values, bits. rewrite map_map. apply map_ext_in. intros c I. apply in_cells in I.
  cbn in I. unfold swin. rewrite stripes_px by lia.
  f_equal. destruct c as [i j]. cbn in I. cbn [fst].
  do 7 (destruct i as [|i]; [reflexivity|]). lia.
Qed.

Lemma stripes_percentile : percentile 70 (values swin) = 1.
Proof.
  unfold percentile. rewrite stripes_values, sort_bits, map_length.
  replace (length bits) with 49%nat by reflexivity.
  replace (count false bits) with 28%nat by reflexivity.
  replace (count true bits) with 21%nat by reflexivity.
  replace (Zfloor (70 / 100 * INR (49 - 1))) with 33%Z.
  - change (Z.to_nat 33) with 33%nat. cbn -[IZR INR]. lra.
  - symmetry. apply Zfloor_imp. cbn. lra.
Qed.

Lemma faint_bits l : filter (fun x => if Rlt_dec x 1 then true else false) (map b2r l) = repeat 0 (count false l).
Proof.
  induction l as [|[] l IH]; cbn [map b2r filter count Bool.eqb]; [reflexivity| |].
  - destruct (Rlt_dec 1 1); [lra|exact IH].
  - destruct (Rlt_dec 0 1); [|lra]. cbn. now rewrite IH.
Qed.

Lemma stripes_faint : faint (values swin) = repeat 0 28.
Proof.
  unfold faint. rewrite stripes_percentile, stripes_values, faint_bits. reflexivity.
Qed.

Lemma median_zeros : median (repeat 0 28) = 0.
Proof.
  unfold median. change (repeat 0 28) with (map b2r (repeat false 28)). rewrite sort_bits.
  cbn. lra.
Qed.

(** The normalised stamp: 1/21 in the bright rows and 0 elsewhere. *)
Lemma stripes_stamp i j : (i < 7)%nat -> (j < 7)%nat ->
  px (normalised swin) i j = Some (b2r (Nat.odd i) / 21).
Proof.
  intros Hi Hj. unfold normalised. cbn [px pmap]. rewrite stripes_faint, median_zeros.
  rewrite values_pmap, stripes_values.
  replace (sumR (map (fun x => x - 0) (map b2r bits))) with 21.
  - cbn [repeat]. destruct (Req_EM_T 21 0); [lra|].
    unfold swin. rewrite stripes_px by lia. f_equal. f_equal.
    replace (Nat.even (10 - 3 + i)) with (Nat.odd i); [lra|].
    do 7 (destruct i as [|i]; [reflexivity|]). lia.
  - replace (map (fun x => x - 0) (map b2r bits)) with (map b2r bits).
    + rewrite sum_bits. replace (count true bits) with 21%nat by reflexivity. cbn. lra.
    + symmetry. rewrite <- (map_id (map b2r bits)) at 2. apply map_ext. intros; lra.
Qed.

Lemma stripes_overlap : overlaps stripes (1, 1)%nat (10, 10).
Proof. unfold overlaps. cbn [fst snd]. rewrite start_mid. cbn. lia. Qed.

Lemma stripes_interior : interior stripes (1, 1)%nat [mid].
Proof. intros s [<-|[]]. cbn [mid s_x s_y fst snd]. rewrite start_mid. cbn. lia. Qed.

Lemma stripes_not_flat k : (k <= 1)%nat ->
  ~ flat_border (window stripes 1 (1, 1)%nat (10, 10) k) (35 / 10 * 1).
Proof.
  intros Hk F. specialize (F 0%nat 0%nat).
  rewrite stripes_px in F by lia. unfold b2r in F.
  assert (H : (if Nat.even (10 - k + 0) then 1 else 0) = 35 / 10 * 1) by (apply F; cbn; lia).
  destruct (Nat.even _) in H; lra.
Qed.

(** Without strict picking the source is stored. *)
Lemma stripes_stored stats label public :
  exists ex, extract_stamps stats label (mkpicks false public) stripes 1 (1, 1)%nat [mid] = Ok ex /\
    length (ex_stamps ex) = 1%nat.
Proof.
  destruct (C32_extraction_succeeds_lm stats label (mkpicks false public) stripes 1 (1, 1)%nat [mid])
    as (ex & E & _ & _ & L); [cbn; lia|cbn; lia|reflexivity| |].
  - intros s [<-|[]]. split; [exact stripes_overlap|].
    split; apply stripes_not_flat; lia.
  - exists ex. auto.
Qed.

(** With strict picking it is rejected: the first brightest cell is (1, 0), far from the
    centre. *)
Lemma stripes_rejected stats label public :
  exists ex, extract_stamps stats label (mkpicks true public) stripes 1 (1, 1)%nat [mid] = Ok ex /\
    ex_stamps ex = [].
Proof.
  assert (O : one_stamp stats label (mkpicks true public) stripes 1 (1, 1)%nat mid = Ok None).
  { rewrite one_normal; [|cbn; lia|cbn; lia|exact stripes_overlap|apply stripes_not_flat; lia|apply stripes_not_flat; lia].
    cbn [private_pick s_y s_x mid]. fold swin.
    pose proof (subtract_level_spec swin) as Sp. rewrite stripes_faint in Sp.
    change (repeat 0 28) with (0 :: repeat 0 27) in Sp. cbn iota in Sp.
    change (0 :: repeat 0 27) with (repeat 0 28) in Sp.
    destruct Sp as (p & -> & E). rewrite median_zeros in E.
    assert (V : values p = map b2r bits).
    { rewrite (values_ext _ _ E), values_pmap, stripes_values.
      rewrite <- (map_id (map b2r bits)) at 2. apply map_ext. intros; lra. }
    assert (T : sumR (values p) = 21).
    { rewrite V, sum_bits. replace (count true bits) with 21%nat by reflexivity. cbn. lra. }
    pose proof E as [Sh Ep]. unfold shape in Sh. injection Sh as Sr Sc.
    change (nr (pmap (fun x => x - 0) swin)) with 7%nat in Sr.
    change (nc (pmap (fun x => x - 0) swin)) with 7%nat in Sc.
    unfold strict. rewrite T. destruct (Req_EM_T 21 0) as [Z|_]; [lra|].
    set (q := pmap (fun x => x / 21) p).
    assert (Q : forall i j, (i < 7)%nat -> (j < 7)%nat -> px q i j = b2r (Nat.odd i) / 21).
    { intros i j Hi Hj. unfold q. cbn [px pmap]. rewrite Ep by lia. cbn [px pmap]. unfold swin.
      rewrite stripes_px by lia.
      replace (Nat.even (10 - 3 + i)) with (Nat.odd i); [lra|].
      do 7 (destruct i as [|i]; [reflexivity|]). lia. }
    assert (Am : argmax q = (1, 0)%nat).
    { destruct (argmax_spec q) as (A1 & A2 & A3); [unfold q; cbn; lia|unfold q; cbn; lia|].
      change (nr q) with (nr p) in *. change (nc q) with (nc p) in *. rewrite Sr in *. rewrite Sc in *.
      destruct (A3 1%nat 0%nat) as [L Eq]; [lia|lia|].
      rewrite !Q in L, Eq by lia. destruct (argmax q) as [a b]. cbn [fst snd] in *.
      destruct a as [|a].
      - exfalso. cbn in L. lra.
      - assert (Le : b2r (Nat.odd (S a)) <= 1) by (unfold b2r; destruct (Nat.odd (S a)); lra).
        change (Nat.odd 1) with true in *. cbn [b2r] in L, Eq.
        assert (1 / 21 = b2r (Nat.odd (S a)) / 21) by lra. specialize (Eq H).
        f_equal; lia. }
    unfold strict_finite. rewrite Am.
    replace (off_centre (shape q) (INR (fst (1, 0)%nat)) (INR (snd (1, 0)%nat))) with true; [reflexivity|].
    symmetry. unfold off_centre, PSF_CTR_TOL, shape. change (nr q) with (nr p). change (nc q) with (nc p).
    rewrite Sr, Sc. cbn [fst snd].
    destruct (Rlt_dec _ _) as [|N]; [reflexivity|]. exfalso. apply N.
    replace (INR 7 / 5) with (sqrt ((7 / 5) * (7 / 5))) by (rewrite sqrt_square; cbn; lra).
    apply sqrt_lt_1; cbn; nra. }
  destruct (extract_single _ _ _ _ _ _ _ _ O) as (ex & E & S). exists ex. auto.
Qed.

(** The announced disabling for at most 20 candidates does not happen: the attribute
    strict_star_pick becomes False but the source is still rejected by the strict criteria. *)
Lemma C34_disabled_refuted_lm : forall stats label, exists image rms sh sources ex ex',
  (length sources <= 20)%nat /\
  extract_stamps stats label (mkpicks true None) image rms sh sources = Ok ex /\
  extract_stamps stats label (mkpicks false None) image rms sh sources = Ok ex' /\
  public_pick (ex_picks ex) = Some false /\
  length (ex_stamps ex') = length sources /\ ex_stamps ex = [].
Proof.
  intros stats label. destruct (stripes_rejected stats label None) as (ex & E & S).
  destruct (stripes_stored stats label None) as (ex' & E' & S').
  exists stripes, 1, (1, 1)%nat, [mid], ex, ex'.
  split; [cbn; lia|]. split; [exact E|]. split; [exact E'|]. split; [|split; [exact S'|exact S]].
  unfold extract_stamps in E. cbn [length Nat.leb] in E.
  destruct (stamp_loop _ _ _ _ _ _ _ _ _ _ _) as [[[a b] c]|]; cbn [bind] in E; [|discriminate].
  apply Ok_inj in E. subst ex. reflexivity.
Qed.
