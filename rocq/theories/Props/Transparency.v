(** C44-C49: catalogue matching and relative transparencies. *)
From Coq Require Import ZArith List Bool Arith Reals Lia Lra Permutation.
From Verif.Model Require Import Py Transparency.
From Verif.Spec Require Import Transparency.
From Verif.Proof Require Import LeastSquares Transparency TransparencyMain Nearest.
Import ListNotations.

(** C44: a source of the second catalogue gets the identifier of the master source with
    which it is mutually nearest, and -13133 if there is none. *)
Theorem C44_matched : forall query A ids B r j, nearest query -> length ids = length A -> j < length B ->
  length (fst (matching query A ids B r)) = length B /\
  (forall i, mutual query A B r i j -> nth_error (fst (matching query A ids B r)) j = nth_error ids i) /\
  ((forall i, ~ mutual query A B r i j) ->
   nth_error (fst (matching query A ids B r)) j = Some (-13133)%Z).
Proof. exact C44_matched_lm. Qed.
Print Assumptions C44_matched.

(** C44: with distinct identifiers, none of them -13133, identifier [z] is given to source
    j if and only if j and the master source with that identifier are mutually nearest;
    and no identifier is given twice. *)
Theorem C44_one_to_one : forall query A ids B r, nearest query -> length ids = length A ->
  NoDup ids -> ~ In (-13133)%Z ids ->
  (forall i j z, nth_error ids i = Some z ->
     (nth_error (fst (matching query A ids B r)) j = Some z <-> mutual query A B r i j)) /\
  (forall j j' z, z <> (-13133)%Z -> nth_error (fst (matching query A ids B r)) j = Some z ->
     nth_error (fst (matching query A ids B r)) j' = Some z -> j = j').
Proof. exact C44_one_to_one_lm. Qed.
Print Assumptions C44_one_to_one.

(** C44: matched sources are closer than the radius and nearest to each other. *)
Theorem C44_within_radius : forall query A B r i j, nearest query -> mutual query A B r i j ->
  exists a b, nth_error A i = Some a /\ nth_error B j = Some b /\ (dist a b < r)%R /\
    (forall j' b', nth_error B j' = Some b' -> (dist a b <= dist a b')%R) /\
    (forall i' a', nth_error A i' = Some a' -> (dist a b <= dist a' b)%R).
Proof. exact C44_within_radius_lm. Qed.
Print Assumptions C44_within_radius.

(** C44: two sources strictly nearest to each other, within the radius, are matched. *)
Theorem C44_strict_nearest : forall query A B r i j a b, nearest query ->
  nth_error A i = Some a -> nth_error B j = Some b -> (dist a b < r)%R ->
  (forall j' b', nth_error B j' = Some b' -> j' <> j -> (dist a b < dist a b')%R) ->
  (forall i' a', nth_error A i' = Some a' -> i' <> i -> (dist a b < dist a' b)%R) ->
  mutual query A B r i j.
Proof. exact C44_strict_nearest_lm. Qed.
Print Assumptions C44_strict_nearest.

(** The search by exhaustion has the property assumed of the KD tree, and the example
    catalogues match crosswise. *)
Example C44_case : nearest nn_query /\
  forall i j, mutual nn_query (map xy (rows cat_a)) (map xy (rows cat_b)) 2 i j <-> (i = 0 /\ j = 1) \/ (i = 1 /\ j = 0).
Proof. split; [exact nn_nearest|]. intros i j. exact (ab_matched nn_query i j nn_nearest). Qed.

(** C45: the mask flags exactly the sources whose identifier is positive. *)
Theorem C45_mask : forall query A ids B r j,
  nth_error (snd (matching query A ids B r)) j = Some true <->
  exists z, nth_error (fst (matching query A ids B r)) j = Some z /\ (0 < z)%Z.
Proof. exact C45_mask_lm. Qed.
Print Assumptions C45_mask.

(** C45: a source matched to the master source with identifier 0 gets that identifier, and
    is reported as unmatched. *)
Theorem C45_zero_unflagged : forall query A ids B r i j, nearest query -> length ids = length A ->
  mutual query A B r i j -> nth_error ids i = Some 0%Z ->
  nth_error (fst (matching query A ids B r)) j = Some 0%Z /\
  nth_error (snd (matching query A ids B r)) j = Some false.
Proof. exact C45_zero_unflagged_lm. Qed.
Print Assumptions C45_zero_unflagged.

Example C45_case :
  mutual nn_query (map xy (rows cat_a)) (map xy (rows cat_b)) 2 0 1 /\ nth_error [0; 1]%Z 0 = Some 0%Z /\
  length [0; 1]%Z = length (map xy (rows cat_a)).
Proof. split; [|split; reflexivity]. apply (ab_matched nn_query 0 1 nn_nearest). now left. Qed.

(** C46: two images. The difference of the zero points is the mean difference of the
    magnitudes of the common sources. *)
Theorem C46_offset : forall query sort_cat lsqr images master a b l,
  nearest query -> (forall l, Permutation (sort_cat l) l) -> solves lsqr ->
  roles images master a [b] -> has_id a = false -> positive a -> positive b ->
  common query a [b] l -> l <> [] ->
  exists o partner z0 z1,
    transparency query sort_cat lsqr images master = Ok o /\
    (forall i, In i l -> matched query a b i (partner i)) /\
    zps o = [z0; z1] /\
    (z1 - z0 = sumR (fun i => mag_of b (partner i) - mag_of a i) l / INR (length l))%R.
Proof. exact C46_offset_lm. Qed.
Print Assumptions C46_offset.

(** C46: for two images zero points and mean magnitudes are the minimum-norm least-squares
    solution of "zero point + magnitude = observed magnitude". *)
Theorem C46_min_norm : forall query sort_cat lsqr images master a b l,
  nearest query -> (forall l, Permutation (sort_cat l) l) -> solves lsqr ->
  roles images master a [b] -> has_id a = false -> positive a -> positive b ->
  common query a [b] l -> l <> [] ->
  let q := length l in
  exists o partner m x,
    transparency query sort_cat lsqr images master = Ok o /\ answer o x /\
    (forall i, In i l -> matched query a b i (partner i)) /\
    (forall r, r < q -> nth (0 * q + r) m 0%R = mag_of a (nth r l 0)) /\
    (forall r, r < q -> nth (1 * q + r) m 0%R = mag_of b (partner (nth r l 0))) /\
    min_norm_solution (2 * q) (2 + q) (system 2 q) m x.
Proof. exact C46_min_norm_lm. Qed.
Print Assumptions C46_min_norm.

(** C46: the minimum-norm solution of such a system is unique. *)
Theorem C46_unique : forall p q m x y, 0 < p -> 0 < q ->
  min_norm_solution (p * q) (p + q) (system p q) m x ->
  min_norm_solution (p * q) (p + q) (system p q) m y -> x = y.
Proof. exact C46_unique_lm. Qed.
Print Assumptions C46_unique.

(** All hypotheses hold for the example catalogues; the offset is -2.5 magnitudes. *)
Example C46_case :
  nearest nn_query /\ (forall l : list row, Permutation l l) /\ solves exact_lsqr /\
  roles [cat_a; cat_b] None cat_a [cat_b] /\ has_id cat_a = false /\ positive cat_a /\ positive cat_b /\
  common nn_query cat_a [cat_b] [0; 1] /\ matched nn_query cat_a cat_b 0 1 /\
  (mag_of cat_b 1 - mag_of cat_a 0 = - (5 / 2))%R.
Proof.
  repeat split; try apply nn_nearest; try apply exact_lsqr_solves; try apply (ab_common nn_query nn_nearest); auto.
  - now left.
  - repeat constructor; cbn; lra.
  - repeat constructor; cbn; lra.
  - apply (ab_matched nn_query 0 1 nn_nearest). now left.
  - apply (ab_matched nn_query 0 1 nn_nearest). now left.
  - unfold mag_of, mag. cbn. rewrite ln_1. assert (0 < ln 10)%R by (rewrite <- ln_1; apply ln_increasing; lra).
    unfold Rdiv. rewrite Rinv_r by lra. lra.
Qed.

(** C47: for any number of images, the magnitude of source r in the k-th of the n other
    images is at position q + r*n + k of the right-hand side, while its equation is at
    (k+1)*q + r; these agree for all sources and images if and only if n = 1 or q = 1. *)
Theorem C47_layout : forall query sort_cat lsqr images master mc imgs l,
  nearest query -> (forall l, Permutation (sort_cat l) l) ->
  roles images master mc imgs -> has_id mc = false -> Forall positive (mc :: imgs) ->
  common query mc imgs l -> l <> [] -> imgs <> [] ->
  let n := length imgs in let q := length l in
  exists o m partner,
    transparency query sort_cat lsqr images master = Ok o /\
    zps o = firstn (S n) (lsqr (S n * q) (S n + q) (system (S n) q) m) /\ length m = S n * q /\
    (forall k i, k < n -> In i l -> matched query mc (nth k imgs mc) i (partner k i)) /\
    (forall r, r < q -> nth r m 0%R = mag_of mc (nth r l 0)) /\
    (forall k r, k < n -> r < q ->
       nth (q + r * n + k) m 0%R = mag_of (nth k imgs mc) (partner k (nth r l 0))) /\
    ((forall k r, k < n -> r < q -> q + r * n + k = S k * q + r) <-> n = 1 \/ q = 1).
Proof. exact C47_layout_lm. Qed.
Print Assumptions C47_layout.

(** C47: noiseless catalogues (each image differs from the master by a constant offset):
    with one other image or one common source the zero points are right. *)
Theorem C47_right : forall query sort_cat lsqr images master mc imgs l off,
  nearest query -> (forall l, Permutation (sort_cat l) l) -> solves lsqr ->
  roles images master mc imgs -> has_id mc = false -> Forall positive (mc :: imgs) ->
  common query mc imgs l -> l <> [] ->
  length imgs = 1 \/ length l = 1 ->
  (forall k i j, k < length imgs -> matched query mc (nth k imgs mc) i j ->
     mag_of (nth k imgs mc) j = (mag_of mc i + off k)%R) ->
  exists o, transparency query sort_cat lsqr images master = Ok o /\ length (zps o) = S (length imgs) /\
    forall k, k < length imgs -> (nth (S k) (zps o) 0 - nth 0 (zps o) 0 = off k)%R.
Proof. exact C47_right_lm. Qed.
Print Assumptions C47_right.

(** C47: for every number p >= 3 of images and every number q >= 2 of sources there is a
    catalogue such that p images with this very catalogue get different zero points. *)
Theorem C47_identical_wrong : forall query sort_cat lsqr p q,
  nearest query -> (forall l, Permutation (sort_cat l) l) -> solves lsqr ->
  3 <= p -> 2 <= q ->
  exists c o, length (rows c) = q /\ positive c /\ common query c (repeat c (p - 1)) (seq 0 q) /\
    transparency query sort_cat lsqr (repeat c p) None = Ok o /\ nth 0 (zps o) 0%R <> nth 1 (zps o) 0%R.
Proof. exact C47_identical_wrong_lm. Qed.
Print Assumptions C47_identical_wrong.

(** The hypotheses of C47_identical_wrong are about the libraries only and hold for the
    exhaustive search, the identity sort and an exact solver. *)
Example C47_case : exists c o, length (rows c) = 4 /\
  transparency nn_query (fun l => l) exact_lsqr (repeat c 3) None = Ok o /\ nth 0 (zps o) 0%R <> nth 1 (zps o) 0%R.
Proof.
  destruct (C47_identical_wrong nn_query (fun l => l) exact_lsqr 3 4 nn_nearest (fun l => Permutation_refl l) exact_lsqr_solves)
    as (c & o & A & _ & _ & B & C); [lia|lia|]. exists c, o. auto.
Qed.

(** C48: when no master source is matched in all the other images, the zero points are
    ones and the mean magnitude is NaN. *)
Theorem C48_no_common : forall query sort_cat lsqr images master mc imgs,
  nearest query -> (forall l, Permutation (sort_cat l) l) ->
  roles images master mc imgs -> has_id mc = false -> common query mc imgs [] ->
  exists o, transparency query sort_cat lsqr images master = Ok o /\
    zps o = repeat 1%R (S (length imgs)) /\ meanmags o = None.
Proof. exact C48_no_common_lm. Qed.
Print Assumptions C48_no_common.

(** C48: the call never raises, except IndexError for an empty list without a master. *)
Theorem C48_total : forall query sort_cat lsqr images master,
  (forall l, Permutation (sort_cat l) l) ->
  (exists o, transparency query sort_cat lsqr images master = Ok o) \/
  (images = [] /\ master = None /\ transparency query sort_cat lsqr images master = Raise IndexError).
Proof. exact C48_total_lm. Qed.
Print Assumptions C48_total.

Example C48_case : common nn_query cat_a [mkcat false false []] [].
Proof.
  split; [constructor|]. split; [intros [|a] b i i' _ E; discriminate|]. intros i. split; [intros []|].
  intros (_ & K). destruct (K _ (or_introl eq_refl)) as (j & M).
  destruct (mutual_bounds nn_query nn_nearest _ _ _ _ _ M) as (_ & B). cbn in B. lia.
Qed.

(** C49: after a call that found common sources, a source of the master is flagged as
    detected if and only if its identifier occurs among the identifiers of every other
    image. The identifiers are those the master had, or 0, 1, ... *)
Theorem C49_detected : forall query sort_cat lsqr images master mc imgs o i r0,
  (forall l, Permutation (sort_cat l) l) ->
  roles images master mc imgs -> transparency query sort_cat lsqr images master = Ok o -> meanmags o <> None ->
  nth_error (rows mc) i = Some r0 ->
  length (cats o) = length imgs /\
  exists r, nth_error (rows (mcat o)) i = Some r /\
    r_id r = (if has_id mc then r_id r0 else Z.of_nat i) /\
    (r_det r = true <-> forall c, In c (cats o) -> exists s, In s (rows c) /\ r_id s = r_id r).
Proof. exact C49_detected_lm. Qed.
Print Assumptions C49_detected.

(** C49: with fresh identifiers, detected means matched in every other image. *)
Theorem C49_fresh : forall query sort_cat lsqr images master mc imgs o i r,
  nearest query -> (forall l, Permutation (sort_cat l) l) ->
  roles images master mc imgs -> has_id mc = false ->
  transparency query sort_cat lsqr images master = Ok o -> meanmags o <> None ->
  nth_error (rows (mcat o)) i = Some r ->
  (r_det r = true <-> forall c, In c imgs -> exists j, matched query mc c i j).
Proof. exact C49_fresh_lm. Qed.
Print Assumptions C49_fresh.

(** C49: an image that was a non-master in an earlier call and is then used as master: its
    unmatched sources carry the identifier -13133 and count as detected. Two images
    without any common source: the first call says so, the second one does not. *)
Theorem C49_stale_refuted : forall query sort_cat lsqr,
  nearest query -> (forall l, Permutation (sort_cat l) l) ->
  exists a b b' o1 o2,
    common query a [b] [] /\ common query b [a] [] /\
    transparency query sort_cat lsqr [a; b] None = Ok o1 /\ meanmags o1 = None /\
    mcat o1 = a /\ cats o1 = [b'] /\
    transparency query sort_cat lsqr [b'; a] None = Ok o2 /\ meanmags o2 <> None.
Proof. exact C49_stale_refuted_lm. Qed.
Print Assumptions C49_stale_refuted.

(** In the example both sources of the master are flagged. *)
Example C49_case : exists o, transparency nn_query (fun l => l) exact_lsqr [cat_a; cat_b] None = Ok o /\
  meanmags o <> None.
Proof.
  destruct (C46_min_norm nn_query (fun l => l) exact_lsqr [cat_a; cat_b] None cat_a cat_b [0; 1] nn_nearest
              (fun l => Permutation_refl l) exact_lsqr_solves) as (o & p & m & x & E & (mm & A & _) & _).
  - now left.
  - reflexivity.
  - repeat constructor; cbn; lra.
  - repeat constructor; cbn; lra.
  - exact (ab_common nn_query nn_nearest).
  - discriminate.
  - exists o. split; [exact E|]. rewrite A. discriminate.
Qed.
