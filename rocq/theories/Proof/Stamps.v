(** Facts about the cutting and normalisation of one stamp. *)
From Coq Require Import ZArith List Bool Arith Reals Lia Lra Sorting.Permutation.
From Flocq Require Import Core.Raux.
From Verif.Model Require Import Py Plane Sources FindS Stamps.
From Verif.Spec Require Import Stamps.
From Verif.Proof Require Import FindSMain SourcesMain.
Import ListNotations.
Local Open Scope R_scope.

(** * Windows *)

Lemma Zceil_minus x (k : Z) : Zceil (x - IZR k) = (Zceil x - k)%Z.
Proof.
  apply Zceil_imp. pose proof (Zceil_ub x) as U. pose proof (Zceil_lb x) as L.
  rewrite !minus_IZR. split; lra.
Qed.

Lemma first_index_grow pos s k : first_index pos (s + 2 * k) = (first_index pos s - Z.of_nat k)%Z.
Proof.
  unfold first_index. rewrite <- Zceil_minus. f_equal.
  rewrite plus_INR, mult_INR, <- INR_IZR_INZ. simpl (INR 2). lra.
Qed.

Lemma no_overlap_iff n s pos : no_overlap n s pos = false <->
  (0 < start pos s + Z.of_nat s /\ start pos s < Z.of_nat n)%Z.
Proof.
  unfold no_overlap, start, first_index. rewrite orb_false_iff, Z.leb_gt, Z.leb_gt. tauto.
Qed.

Lemma no_overlap_grow n s pos k : no_overlap n s pos = false -> no_overlap n (s + 2 * k) pos = false.
Proof.
  unfold no_overlap. rewrite first_index_grow. rewrite !orb_false_iff, !Z.leb_gt. lia.
Qed.

(** extract_array gives the window, or NoOverlapError. *)
Lemma extract_overlap image fill sh pos k : overlaps image sh pos ->
  extract_array image fill (fst sh + 2 * k, snd sh + 2 * k)%nat pos = Ok (window image fill sh pos k).
Proof.
  intros (A & B & C & D).
  assert (N1 : no_overlap (nr image) (fst sh) (fst pos) = false) by (apply no_overlap_iff; auto).
  assert (N2 : no_overlap (nc image) (snd sh) (snd pos) = false) by (apply no_overlap_iff; auto).
  unfold extract_array. cbn [fst snd].
  rewrite (no_overlap_grow _ _ _ k N1), (no_overlap_grow _ _ _ k N2). cbn [orb].
  rewrite !first_index_grow. reflexivity.
Qed.

Lemma extract_no_overlap image fill sh pos : ~ overlaps image sh pos ->
  extract_array image fill sh pos = Raise NoOverlapError.
Proof.
  intros H. unfold extract_array.
  destruct (no_overlap (nr image) (fst sh) (fst pos)) eqn:N1; [reflexivity|].
  destruct (no_overlap (nc image) (snd sh) (snd pos)) eqn:N2; [reflexivity|].
  apply no_overlap_iff in N1, N2. exfalso. apply H. unfold overlaps. tauto.
Qed.

Lemma extract_overlap0 image fill sh pos : overlaps image sh pos ->
  extract_array image fill sh pos = Ok (window image fill sh pos 0).
Proof.
  intros H. rewrite <- (extract_overlap image fill sh pos 0 H). f_equal.
  destruct sh as [a b]. cbn [fst snd]. f_equal; lia.
Qed.

(** * Margins *)

Lemma sumR_sq_zero (f : R -> R) l : (forall x, In x l -> 0 <= f x) -> sumR (map f l) = 0 ->
  forall x, In x l -> f x = 0.
Proof.
  induction l as [|a l IH]; cbn; intros P Z x I; [destruct I|].
  assert (S : 0 <= sumR (map f l)).
  { clear - P. induction l as [|b l IH]; cbn; [lra|].
    pose proof (P b (or_intror (or_introl eq_refl))).
    assert (forall x, a = x \/ In x l -> 0 <= f x) as P' by (intros x [->|I]; apply P; cbn; tauto).
    specialize (IH P'). unfold sumR in *. lra. }
  pose proof (P a (or_introl eq_refl)). unfold sumR in S, Z.
  destruct I as [->|I]; [unfold sumR in *; lra|].
  apply IH; auto. unfold sumR in *. lra.
Qed.

Lemma sumR_const l v : (forall x, In x l -> x = v) -> sumR l = INR (length l) * v.
Proof.
  induction l as [|a l IH]; intros H; [cbn; ring|].
  cbn [length]. rewrite S_INR. unfold sumR in *. cbn. rewrite (H a (or_introl eq_refl)).
  rewrite IH by (intros; apply H; now right). ring.
Qed.

Lemma stdR_nonneg l : 0 <= stdR l.
Proof. apply sqrt_pos. Qed.

Lemma meanR_const l v : l <> [] -> (forall x, In x l -> x = v) -> meanR l = v.
Proof.
  intros N H. unfold meanR. rewrite (sumR_const l v H). field.
  destruct l; [congruence|]. cbn [length]. rewrite S_INR. pose proof (pos_INR (length l)). lra.
Qed.

Lemma stdR_zero l : l <> [] -> (stdR l = 0 <-> forall x, In x l -> x = meanR l).
Proof.
  intros N. assert (Ln : 0 < INR (length l)).
  { destruct l; [congruence|]. cbn [length]. rewrite S_INR. pose proof (pos_INR (length l)). lra. }
  unfold stdR. set (m := meanR l). set (f := fun x => (x - m) * (x - m)).
  assert (Fp : forall x, In x l -> 0 <= f x) by (intros x _; apply (Rle_0_sqr (x - m))).
  split.
  - intros E. apply sqrt_eq_0 in E.
    + unfold meanR in E. rewrite map_length in E.
      assert (Z : sumR (map f l) = 0).
      { apply (f_equal (fun z => z * INR (length l))) in E.
        unfold Rdiv in E. rewrite Rmult_assoc, Rinv_l in E by lra. lra. }
      intros x I. pose proof (sumR_sq_zero f l Fp Z x I) as Q. unfold f in Q. nra.
    + unfold meanR. rewrite map_length. apply Rmult_le_pos; [|left; now apply Rinv_0_lt_compat].
      clearbody f. clear - Fp. induction l as [|a l IH]; cbn; [lra|].
      pose proof (Fp a (or_introl eq_refl)). specialize (IH (fun x I => Fp x (or_intror I))).
      unfold sumR in *. lra.
  - intros H. replace (meanR (map f l)) with 0; [apply sqrt_0|]. symmetry.
    apply meanR_const; [destruct l; cbn; congruence|].
    intros y I. apply in_map_iff in I. destruct I as [x [<- I]]. unfold f. rewrite (H x I). ring.
Qed.

Lemma check_margin_false rms p : margins p <> [] ->
  (check_margin rms p = false <-> forall x, In x (margins p) -> x = 35 / 10 * rms).
Proof.
  intros N. unfold check_margin, MARGIN_CHECK_THRESHOLD.
  pose proof (stdR_nonneg (margins p)) as P. pose proof (stdR_zero (margins p) N) as Z.
  set (T := 35 / 10 * rms). split.
  - intros H. apply orb_false_iff in H. destruct H as [H1 H2].
    destruct (Rlt_dec T _) as [|A]; [discriminate|]. destruct (Rlt_dec _ T) as [|B]; [discriminate|].
    assert (S0 : stdR (margins p) = 0) by lra. intros x I.
    rewrite (proj1 Z S0 x I). lra.
  - intros H. assert (M : meanR (margins p) = T) by now apply meanR_const.
    assert (S0 : stdR (margins p) = 0) by (apply Z; intros x I; rewrite M; auto).
    rewrite S0, M. apply orb_false_iff.
    split; (destruct (Rlt_dec _ _); [exfalso; lra|reflexivity]).
Qed.

Lemma margins_in (p : plane R) x : (0 < nr p)%nat -> (0 < nc p)%nat ->
  (In x (margins p) <-> exists i j, (i < nr p)%nat /\ (j < nc p)%nat /\
     (i = 0 \/ i = nr p - 1 \/ j = 0 \/ j = nc p - 1)%nat /\ x = px p i j).
Proof.
  intros Hr Hc. unfold margins. rewrite !in_app_iff, !in_map_iff. split.
  - intros [H|[H|[H|H]]]; destruct H as [k [<- I]]; apply in_seq in I;
      [exists k, 0%nat|exists k, (nc p - 1)%nat|exists (nr p - 1)%nat, k|exists 0%nat, k];
      (split; [lia|split; [lia|split; [lia|reflexivity]]]).
  - intros (i & j & Hi & Hj & B & ->). destruct B as [B|[B|[B|B]]]; subst.
    + right; right; right. exists j. split; [reflexivity|]. apply in_seq. lia.
    + right; right; left. exists j. split; [reflexivity|]. apply in_seq. lia.
    + left. exists i. split; [reflexivity|]. apply in_seq. lia.
    + right; left. exists i. split; [reflexivity|]. apply in_seq. lia.
Qed.

Lemma check_margin_flat rms p : (0 < nr p)%nat -> (0 < nc p)%nat ->
  (check_margin rms p = false <-> flat_border p (35 / 10 * rms)).
Proof.
  intros Hr Hc. rewrite check_margin_false.
  - split.
    + intros H i j Hi Hj B. apply H. apply margins_in; auto. exists i, j. auto.
    + intros H x I. apply margins_in in I; auto. destruct I as (i & j & Hi & Hj & B & ->). now apply H.
  - intros E. assert (I : In (px p 0 0) (margins p)).
    { apply margins_in; auto. exists 0%nat, 0%nat. repeat (split; [lia|]). reflexivity. }
    rewrite E in I. destruct I.
Qed.

(** * The growing loop *)

(** The loop stops at the first of the two windows with a flat border, and otherwise at the
    window with three more cells on each side. *)
Lemma grow_result image rms sh pos : (0 < fst sh)%nat -> (0 < snd sh)%nat -> overlaps image sh pos ->
  let w := window image rms sh pos in
  let T := 35 / 10 * rms in
  (flat_border (w 0%nat) T /\ grow 4 image rms sh pos sh (w 0%nat) = Some (Ok (w 1%nat))) \/
  (~ flat_border (w 0%nat) T /\ flat_border (w 1%nat) T /\
   grow 4 image rms sh pos sh (w 0%nat) = Some (Ok (w 2%nat))) \/
  (~ flat_border (w 0%nat) T /\ ~ flat_border (w 1%nat) T /\
   grow 4 image rms sh pos sh (w 0%nat) = Some (Ok (w 3%nat))).
Proof.
  intros Hr Hc O w T.
  assert (Dim : forall k, (0 < nr (w k))%nat /\ (0 < nc (w k))%nat) by (intros k; cbn; lia).
  assert (Ne : forall k, Nat.eqb (nr (w k)) 0 || Nat.eqb (nc (w k)) 0 = false).
  { intros k. destruct (Dim k). apply orb_false_iff. rewrite !Nat.eqb_neq. lia. }
  assert (Ex : forall k, extract_array image rms
     (fst (fst sh + 2 * k, snd sh + 2 * k) + 2, snd (fst sh + 2 * k, snd sh + 2 * k) + 2)%nat pos = Ok (w (S k))).
  { intros k. cbn [fst snd]. unfold w. rewrite <- (extract_overlap image rms sh pos (S k) O). f_equal. f_equal; lia. }
  assert (Step : forall fuel k, grow (S fuel) image rms sh pos (fst sh + 2 * k, snd sh + 2 * k)%nat (w k) =
     if (if Nat.leb 3 (S k) then false else check_margin rms (w k))
     then grow fuel image rms sh pos (fst sh + 2 * S k, snd sh + 2 * S k)%nat (w (S k)) else Some (Ok (w (S k)))).
  { intros fuel k. cbn [grow]. rewrite (Ne k), (Ex k). cbn [fst snd].
    replace (Nat.leb 6 (fst sh + 2 * k + 2 - fst sh)) with (Nat.leb 3 (S k)).
    - replace (fst sh + 2 * k + 2)%nat with (fst sh + 2 * S k)%nat by lia.
      now replace (snd sh + 2 * k + 2)%nat with (snd sh + 2 * S k)%nat by lia.
    - destruct (Nat.leb 3 (S k)) eqn:E; symmetry; [apply Nat.leb_le in E; apply Nat.leb_le; lia|].
      apply Nat.leb_gt in E. apply Nat.leb_gt. lia. }
  assert (Fl := fun k => check_margin_flat rms (w k) (proj1 (Dim k)) (proj2 (Dim k))). fold T in Fl.
  assert (E0 : grow 4 image rms sh pos sh (w 0%nat) =
    grow 4 image rms sh pos (fst sh + 2 * 0, snd sh + 2 * 0)%nat (w 0%nat)).
  { f_equal. destruct sh. cbn [fst snd]. f_equal; lia. }
  rewrite E0, Step. cbn [Nat.leb].
  destruct (check_margin rms (w 0%nat)) eqn:C0.
  - assert (N0 : ~ flat_border (w 0%nat) T) by (intros F; apply Fl in F; congruence).
    right. rewrite Step. cbn [Nat.leb].
    destruct (check_margin rms (w 1%nat)) eqn:C1.
    + assert (N1 : ~ flat_border (w 1%nat) T) by (intros F; apply Fl in F; congruence).
      right. rewrite Step. cbn [Nat.leb]. auto.
    + left. split; [exact N0|]. split; [now apply Fl|reflexivity].
  - left. split; [now apply Fl|reflexivity].
Qed.

(** * Sorting, percentiles and medians under an increasing affine map *)

Section Affine.
Variables (a c : R).
Hypothesis Ha : 0 < a.
Let g (x : R) := a * x + c.

Lemma g_le x y : g x <= g y <-> x <= y.
Proof. unfold g. split; intros H; nra. Qed.

Lemma insertR_affine x l : insertR (g x) (map g l) = map g (insertR x l).
Proof.
  induction l as [|y l IH]; cbn; [reflexivity|].
  destruct (Rle_dec x y) as [L|L], (Rle_dec (g x) (g y)) as [L'|L'];
    rewrite ?g_le in L'; try contradiction; cbn; [reflexivity|now rewrite IH].
Qed.

Lemma sortR_affine l : sortR (map g l) = map g (sortR l).
Proof.
  unfold sortR. induction l as [|x l IH]; [reflexivity|]. cbn [map fold_right].
  rewrite IH. apply insertR_affine.
Qed.

Lemma sortR_length l : length (sortR l) = length l.
Proof. apply Permutation_length. apply Permutation_sym, sortR_perm. Qed.

Lemma nth_affine k s : (k < length s)%nat -> nth k (map g s) 0 = g (nth k s 0).
Proof. intros H. rewrite (nth_indep _ 0 (g 0)) by now rewrite map_length. apply map_nth. Qed.

Lemma percentile_affine q l : 0 <= q <= 100 -> l <> [] ->
  percentile q (map g l) = g (percentile q l).
Proof.
  intros Hq N. unfold percentile. rewrite sortR_affine, map_length.
  set (v := q / 100 * INR (length l - 1)). set (k := Z.to_nat (Zfloor v)).
  assert (Kl : (k < length (sortR l))%nat).
  { rewrite sortR_length. assert (Ln : (1 <= length l)%nat) by (destruct l; [congruence|cbn; lia]).
    pose proof (pos_INR (length l - 1)).
    assert (V : v <= INR (length l - 1)) by (unfold v; nra).
    assert (Zfloor v <= Z.of_nat (length l - 1))%Z.
    { rewrite <- (Zfloor_IZR (Z.of_nat (length l - 1))). apply Zfloor_le. now rewrite <- INR_IZR_INZ. }
    unfold k. lia. }
  rewrite (nth_affine k) by exact Kl. rewrite map_nth. unfold g. ring.
Qed.

Lemma median_affine l : l <> [] -> median (map g l) = g (median l).
Proof.
  intros N. unfold median. rewrite sortR_affine, map_length.
  assert (Ln : (1 <= length l)%nat) by (destruct l; [congruence|cbn; lia]).
  assert (D1 : (Nat.div (length l - 1) 2 <= length l - 1)%nat)
    by (apply Nat.div_le_upper_bound; lia).
  assert (D2 : (Nat.div (length l) 2 < length l)%nat) by (apply Nat.div_lt; lia).
  rewrite !nth_affine by (rewrite sortR_length; lia). unfold g. field.
Qed.

Lemma faint_affine l : faint (map g l) = map g (faint l).
Proof.
  unfold faint. destruct l as [|x0 l0]; [reflexivity|].
  set (l := x0 :: l0). assert (N : l <> []) by discriminate.
  rewrite percentile_affine by (lra || exact N). set (p := percentile 70 l). clearbody p l. clear N.
  induction l as [|x l IH]; [reflexivity|]. cbn [map filter]. rewrite IH.
  destruct (Rlt_dec x p) as [A|A], (Rlt_dec (g x) (g p)) as [B|B]; try reflexivity;
    exfalso; unfold g in B; nra.
Qed.
End Affine.

Lemma map_shift c l : map (fun x => x + c) l = map (fun x => 1 * x + c) l.
Proof. apply map_ext. intros; ring. Qed.

(** * The level *)

Lemma values_pmap {A B} (f : A -> B) p : values (pmap f p) = map f (values p).
Proof. unfold values. rewrite map_map. reflexivity. Qed.

Lemma fold_min_le x l : fold_right Rmin x l <= x.
Proof. induction l as [|a l IH]; cbn; [lra|]. eapply Rle_trans; [apply Rmin_r|exact IH]. Qed.

Lemma minR_le l x : In x l -> minR l <= x.
Proof.
  destruct l as [|a l]; [intros []|]. cbn [minR]. intros [->|I]; [apply fold_min_le|].
  induction l as [|b l IH]; [destruct I|]. cbn. destruct I as [->|I]; [apply Rmin_l|].
  eapply Rle_trans; [apply Rmin_r|auto].
Qed.

(** The shift by the absolute minimum has no effect on the result. *)
Lemma subtract_level_spec w :
  match faint (values w) with
  | [] => subtract_level w = None
  | _ => exists p, subtract_level w = Some p /\
           plane_eq p (pmap (fun x => x - median (faint (values w))) w)
  end.
Proof.
  unfold subtract_level. set (mn := Rabs (minR (values w))).
  assert (Pos : forall x, In x (values w) -> 0 <= x + mn).
  { intros x I. pose proof (minR_le _ _ I). unfold mn. pose proof (Rle_abs (- minR (values w))).
    rewrite Rabs_Ropp in H0. lra. }
  assert (V1 : values (pmap (fun x => x + mn) w) = map (fun x => 1 * x + mn) (values w))
    by (rewrite values_pmap; apply map_shift).
  assert (VA : map Rabs (values (pmap (fun x => x + mn) w)) = values (pmap (fun x => x + mn) w)).
  { rewrite values_pmap. rewrite map_map. apply map_ext_in. intros x I. apply Rabs_right.
    apply Rle_ge. auto. }
  rewrite VA.
  change (filter _ (values (pmap (fun x => x + mn) w))) with (faint (values (pmap (fun x => x + mn) w))).
  rewrite V1, (faint_affine 1 mn) by lra.
  destruct (faint (values w)) as [|y t] eqn:F; [reflexivity|].
  cbn [map]. eexists. split; [reflexivity|].
  split; [reflexivity|]. intros i j _ _. cbn [px pmap].
  change ((1 * y + mn) :: map (fun x => 1 * x + mn) t) with (map (fun x => 1 * x + mn) (y :: t)).
  rewrite (median_affine 1 mn) by (lra || discriminate). ring.
Qed.

Lemma values_ext {A} (p q : plane A) : plane_eq p q -> values p = values q.
Proof.
  intros [S E]. unfold shape in S. injection S as Hr Hc. unfold values, all_cells.
  rewrite <- Hr, <- Hc. apply map_ext_in. intros c I. apply in_cells in I. now apply E.
Qed.

(** The stamp made from a window. *)
Definition stamp_of (w : plane R) : plane (option R) :=
  match subtract_level w with Some p => unit_sum p | None => pmap (fun _ => None) w end.

Lemma stamp_of_normalised w : plane_eq (stamp_of w) (normalised w).
Proof.
  unfold stamp_of, normalised. pose proof (subtract_level_spec w) as H.
  destruct (faint (values w)) as [|y t] eqn:F.
  - rewrite H. split; [reflexivity|]. intros; reflexivity.
  - destruct H as (p & -> & E). pose proof E as [Sh Ep]. split; [exact Sh|].
    intros i j Hi Hj. unfold unit_sum. cbn [px pmap].
    rewrite (values_ext _ _ E), (Ep i j Hi Hj). cbn [px pmap].
    set (tot := sumR _). destruct (Req_EM_T tot 0); reflexivity.
Qed.

Lemma sumR_scale a l : sumR (map (fun x => x / a) l) = sumR l / a.
Proof. unfold sumR. induction l as [|x l IH]; cbn; [lra|]. rewrite IH. unfold Rdiv. ring. Qed.

(** A stamp is all finite, with sum one, or has no finite cell. *)
Lemma stamp_of_cases w :
  (exists q, plane_eq (stamp_of w) (pmap Some q) /\ sumR (values q) = 1) \/
  (forall i j, px (stamp_of w) i j = None).
Proof.
  unfold stamp_of. destruct (subtract_level w) as [p|]; [|right; reflexivity].
  unfold unit_sum. destruct (Req_EM_T (sumR (values p)) 0) as [Z|NZ] eqn:E.
  - right. intros i j. cbn [px pmap]. now rewrite ?E.
  - left. exists (pmap (fun x => x / sumR (values p)) p). split.
    + split; [reflexivity|]. intros i j _ _. cbn [px pmap]. now rewrite ?E.
    + rewrite values_pmap, sumR_scale. field. exact NZ.
Qed.
