(** The lemmas behind C44-C49. *)
From Coq Require Import ZArith List Bool Arith Reals Lia Lra Permutation.
From Verif.Model Require Import Py Transparency.
From Verif.Spec Require Import Transparency.
From Verif.Proof Require Import LeastSquares Transparency TransparencyFresh.
Import ListNotations.

(** C44: a source of the second catalogue gets the identifier of the master source with
    which it is mutually nearest, and -13133 if there is none. *)
Lemma C44_matched_lm : forall query A ids B r j, nearest query -> length ids = length A -> j < length B ->
  length (fst (matching query A ids B r)) = length B /\
  (forall i, mutual query A B r i j -> nth_error (fst (matching query A ids B r)) j = nth_error ids i) /\
  ((forall i, ~ mutual query A B r i j) ->
   nth_error (fst (matching query A ids B r)) j = Some (-13133)%Z).
Proof.
  intros query A ids B r j N Li Hj. split; [apply matching_len|]. rewrite (matching_nth query ids A B r j Hj). split.
  - intros i M. rewrite (match_one_mutual query ids A B r i j M).
    destruct (mutual_bounds query N _ _ _ _ _ M) as (Hi & _). symmetry. apply List.nth_error_nth'. lia.
  - intros H. f_equal. now apply match_one_none.
Qed.

(** C44: with distinct identifiers, none of them -13133, identifier [z] is given to source
    j if and only if j and the master source with that identifier are mutually nearest;
    and no identifier is given twice. *)
Lemma C44_one_to_one_lm : forall query A ids B r, nearest query -> length ids = length A ->
  NoDup ids -> ~ In (-13133)%Z ids ->
  (forall i j z, nth_error ids i = Some z ->
     (nth_error (fst (matching query A ids B r)) j = Some z <-> mutual query A B r i j)) /\
  (forall j j' z, z <> (-13133)%Z -> nth_error (fst (matching query A ids B r)) j = Some z ->
     nth_error (fst (matching query A ids B r)) j' = Some z -> j = j').
Proof.
  intros query A ids B r N Li ND S.
  assert (K : forall i j z, nth_error ids i = Some z ->
     (nth_error (fst (matching query A ids B r)) j = Some z <-> mutual query A B r i j)).
  { intros i j z E. split.
    - intros E'. assert (Hj : j < length B).
      { rewrite <- (matching_len query ids A B r). apply nth_error_Some. now rewrite E'. }
      destruct (C44_matched_lm query A ids B r j N Li Hj) as (_ & P & Q).
      destruct (mutual_dec query A B r j) as [(i' & M)|M].
      + rewrite (P i' M) in E'. assert (i = i'); [|now subst].
        apply (proj1 (NoDup_nth_error ids) ND); [apply nth_error_Some; now rewrite E|congruence].
      + rewrite (Q M) in E'. injection E' as <-. elim S. apply nth_error_In with i. exact E.
    - intros M. destruct (mutual_bounds query N _ _ _ _ _ M) as (_ & Hj).
      destruct (C44_matched_lm query A ids B r j N Li Hj) as (_ & P & _). rewrite (P i M). exact E. }
  split; [exact K|]. intros j j' z Hz E E'.
  assert (Hj : j < length B).
  { rewrite <- (matching_len query ids A B r). apply nth_error_Some. now rewrite E. }
  destruct (C44_matched_lm query A ids B r j N Li Hj) as (_ & P & Q).
  destruct (mutual_dec query A B r j) as [(i & M)|M].
  - pose proof E as Ei. rewrite (P i M) in Ei. pose proof (proj1 (K i j' z Ei) E') as M'. apply (mutual_fun_r query A B r i j j' M M').
  - rewrite (Q M) in E. congruence.
Qed.

(** C44: matched sources are closer than the radius and nearest to each other. *)
Lemma C44_within_radius_lm : forall query A B r i j, nearest query -> mutual query A B r i j ->
  exists a b, nth_error A i = Some a /\ nth_error B j = Some b /\ (dist a b < r)%R /\
    (forall j' b', nth_error B j' = Some b' -> (dist a b <= dist a b')%R) /\
    (forall i' a', nth_error A i' = Some a' -> (dist a b <= dist a' b)%R).
Proof.
  intros query A B r i j N (H1 & H2).
  destruct (query_some query N A B r i j H1) as (a & b & Ea & Eb & D & M).
  destruct (query_some query N B A r j i H2) as (b' & a' & Eb' & Ea' & D' & M').
  assert (a' = a) by congruence. assert (b' = b) by congruence. subst.
  exists a, b. repeat (split; [trivial|]). intros i' a' E. specialize (M' i' a' E).
  assert (S : forall x y, dist x y = dist y x). { intros x y. unfold dist. f_equal. ring. }
  rewrite (S a b), (S a' b). exact M'.
Qed.

(** C44: two sources strictly nearest to each other, within the radius, are matched. *)
Lemma C44_strict_nearest_lm : forall query A B r i j a b, nearest query ->
  nth_error A i = Some a -> nth_error B j = Some b -> (dist a b < r)%R ->
  (forall j' b', nth_error B j' = Some b' -> j' <> j -> (dist a b < dist a b')%R) ->
  (forall i' a', nth_error A i' = Some a' -> i' <> i -> (dist a b < dist a' b)%R) ->
  mutual query A B r i j.
Proof.
  intros query A B r i j a b N Ea Eb D U V.
  assert (S : forall x y, dist x y = dist y x). { intros x y. unfold dist. f_equal. ring. }
  assert (G : forall X Y i j a b, nth_error X i = Some a -> nth_error Y j = Some b -> (dist a b < r)%R ->
     (forall j' b', nth_error Y j' = Some b' -> j' <> j -> (dist a b < dist a b')%R) ->
     nth_error (query X Y r) i = Some (Some j)).
  { clear - N. intros X Y i j a b Ea Eb D U. destruct (N X Y r) as (L & W). specialize (W i a Ea).
    apply nth_some_error. destruct (nth i (query X Y r) None) as [j'|].
    - destruct W as (b' & Eb' & D' & M). f_equal. destruct (Nat.eq_dec j' j) as [|Hn]; [trivial|].
      specialize (U j' b' Eb' Hn). specialize (M j b Eb). lra.
    - specialize (W j b Eb). lra. }
  split; [now apply (G A B i j a b)|]. apply (G B A j i b a); trivial; [now rewrite S|].
  intros i' a' E Hn. rewrite (S b a), (S b a'). now apply (V i').
Qed.

(** C45: the mask flags exactly the sources whose identifier is positive. *)
Lemma C45_mask_lm : forall query A ids B r j,
  nth_error (snd (matching query A ids B r)) j = Some true <->
  exists z, nth_error (fst (matching query A ids B r)) j = Some z /\ (0 < z)%Z.
Proof.
  intros query A ids B r j. unfold matching. cbn [fst snd]. rewrite (nth_error_map (fun z => (0 <? z)%Z)).
  set (l := map _ _). destruct (nth_error l j) as [z|]; cbn [option_map].
  - split; [intros E; injection E as E; exists z; split; [reflexivity|lia]|].
    intros (z' & E & H). injection E as <-. f_equal. lia.
  - split; [discriminate|]. intros (z & E & _). discriminate.
Qed.

(** C45: a source matched to the master source with identifier 0 gets that identifier, and
    is reported as unmatched. *)
Lemma C45_zero_unflagged_lm : forall query A ids B r i j, nearest query -> length ids = length A ->
  mutual query A B r i j -> nth_error ids i = Some 0%Z ->
  nth_error (fst (matching query A ids B r)) j = Some 0%Z /\
  nth_error (snd (matching query A ids B r)) j = Some false.
Proof.
  intros query A ids B r i j N Li M E. destruct (mutual_bounds query N _ _ _ _ _ M) as (_ & Hj).
  destruct (C44_matched_lm query A ids B r j N Li Hj) as (_ & P & _).
  assert (E' : nth_error (fst (matching query A ids B r)) j = Some 0%Z) by now rewrite (P i M).
  split; [exact E'|].
  assert (X : snd (matching query A ids B r) = map (fun z => (0 <? z)%Z) (fst (matching query A ids B r))) by reflexivity.
  rewrite X, nth_error_map, E'. reflexivity.
Qed.

Lemma sorted_unique : forall l k : list nat,
  (forall a b i i', a < b -> nth_error l a = Some i -> nth_error l b = Some i' -> i < i') ->
  (forall a b i i', a < b -> nth_error k a = Some i -> nth_error k b = Some i' -> i < i') ->
  (forall i, In i l <-> In i k) -> l = k.
Proof.
  assert (T : forall (x : nat) (m : list nat), (forall a b i i', a < b -> nth_error (x :: m) a = Some i -> nth_error (x :: m) b = Some i' -> i < i') ->
     (forall y, In y m -> x < y) /\ forall a b i i', a < b -> nth_error m a = Some i -> nth_error m b = Some i' -> i < i').
  { intros x m H. split.
    - intros y Hy. apply In_nth_error in Hy. destruct Hy as (n & Hn). apply (H 0 (S n)); trivial. lia.
    - intros a b i i' Hab. apply (H (S a) (S b)). lia. }
  induction l as [|x l IH]; intros [|y k] Sl Sk E; trivial.
  - elim (proj2 (E y)). now left.
  - elim (proj1 (E x)). now left.
  - destruct (T x l Sl) as (Xl & Sl'), (T y k Sk) as (Yk & Sk').
    assert (x = y).
    { destruct (proj1 (E x) (or_introl eq_refl)) as [|H1]; [now symmetry|].
      destruct (proj2 (E y) (or_introl eq_refl)) as [|H2]; [trivial|].
      specialize (Xl _ H2). specialize (Yk _ H1). lia. }
    subst y. f_equal. apply IH; trivial. intros i. specialize (E i). cbn in E. split; intros Hi.
    + destruct (proj1 E (or_intror Hi)) as [->|]; [|trivial]. specialize (Xl _ Hi). lia.
    + destruct (proj2 E (or_intror Hi)) as [->|]; [|trivial]. specialize (Yk _ Hi). lia.
Qed.

Lemma common_unique query mc imgs l k : common query mc imgs l -> common query mc imgs k -> l = k.
Proof.
  intros (_ & S1 & E1) (_ & S2 & E2). apply sorted_unique; trivial. intros i. now rewrite E1, E2.
Qed.

Lemma transparency_roles query sort lsqr images master mc imgs : roles images master mc imgs ->
  transparency query sort lsqr images master = transparency_of query sort lsqr mc imgs.
Proof. intros [(-> & ->)|(-> & ->)]; reflexivity. Qed.

Section S.
Variable query : list pt -> list pt -> R -> list (option nat).
Hypothesis N : nearest query.
Variable sort_cat : list row -> list row.
Hypothesis SP : forall l, Permutation (sort_cat l) l.
Variable lsqr : nat -> nat -> (nat -> nat -> R) -> list R -> list R.

Lemma fresh_zps mc imgs l : has_id mc = false -> common query mc imgs l -> l <> [] ->
  let p := S (length imgs) in let q := length l in
  exists m partner o, transparency_of query sort_cat lsqr mc imgs = Ok o /\
    zps o = firstn p (lsqr (p * q) (p + q) (system p q) m) /\
    meanmags o = Some (skipn p (lsqr (p * q) (p + q) (system p q) m)) /\
    length m = p * q /\
    (forall k i, k < length imgs -> In i l -> matched query mc (nth k imgs mc) i (partner k i)) /\
    (forall r, r < q -> nth r m 0%R = mag_of mc (nth r l 0)) /\
    (forall k r, k < length imgs -> r < q ->
       nth (q + r * length imgs + k) m 0%R = mag_of (nth k imgs mc) (partner k (nth r l 0))).
Proof.
  intros F C Hl. cbv zeta.
  assert (E : L query mc imgs = l) by (eapply common_unique; [apply L_common; trivial|exact C]).
  exists (mags query mc imgs), (fun k i => partner query mc (nth k imgs mc) i).
  rewrite (fresh_result query N sort_cat SP lsqr mc F imgs). cbv zeta. rewrite E.
  destruct (length l =? 0) eqn:Z; [apply Nat.eqb_eq in Z; apply length_zero_iff_nil in Z; contradiction|].
  eexists. split; [reflexivity|]. cbn [zps meanmags]. split; [reflexivity|]. split; [reflexivity|].
  split; [rewrite mags_len, E; reflexivity|]. split; [|split].
  - intros k i Hk Hi. rewrite <- E in Hi. destruct (in_L query N mc F imgs i Hi) as (_ & M).
    apply M. now apply nth_In.
  - intros r Hr. unfold mags. rewrite E. rewrite app_nth1 by (now rewrite map_length).
    rewrite (nth_indep _ 0%R (mag_of mc 0)) by (now rewrite map_length). now rewrite map_nth.
  - intros k r Hk Hr. unfold mags. rewrite E. rewrite app_nth2 by (rewrite map_length; lia).
    rewrite map_length. replace (length l + r * length imgs + k - length l) with (r * length imgs + k) by lia.
    rewrite (flat_map_nth _ (length imgs) l 0) by (trivial; intros; now rewrite map_length).
    set (g := fun c => _). rewrite (nth_indep _ 0%R (g mc)) by (now rewrite map_length). now rewrite map_nth.
Qed.

Lemma zps_value p q m : solves lsqr -> 0 < p -> 0 < q -> length m = p * q ->
  lsqr (p * q) (p + q) (system p q) m = closed p q m.
Proof. intros So Hp Hq Lm. apply solution_unique; trivial. now apply So. Qed.

Lemma zps_nth p q m k : k < p -> nth k (firstn p (closed p q m)) 0%R = (block_mean m q k - alpha p q m)%R.
Proof.
  intros Hk.
  assert (FN : forall (l : list R) n i, i < n -> nth i (firstn n l) 0%R = nth i l 0%R).
  { induction l as [|x l IH]; intros [|n] [|i] H; cbn; try lia; trivial. apply IH. lia. }
  rewrite FN by trivial. rewrite closed_z by trivial. reflexivity.
Qed.

End S.

(** C46: two images. The difference of the zero points is the mean difference of the
    magnitudes of the common sources. *)
Lemma C46_offset_lm : forall query sort_cat lsqr images master a b l,
  nearest query -> (forall l, Permutation (sort_cat l) l) -> solves lsqr ->
  roles images master a [b] -> has_id a = false -> positive a -> positive b ->
  common query a [b] l -> l <> [] ->
  exists o partner z0 z1,
    transparency query sort_cat lsqr images master = Ok o /\
    (forall i, In i l -> matched query a b i (partner i)) /\
    zps o = [z0; z1] /\
    (z1 - z0 = sumR (fun i => mag_of b (partner i) - mag_of a i) l / INR (length l))%R.
Proof.
  intros query sort_cat lsqr images master a b l N SP So Ro F _ _ C Hl.
  rewrite (transparency_roles query sort_cat lsqr _ _ _ _ Ro).
  destruct (fresh_zps query N sort_cat SP lsqr a [b] l F C Hl) as (m & partner & o & E & Z & _ & Lm & M & V0 & V1).
  cbn [length] in *. set (q := length l) in *.
  assert (Hq : 0 < q) by (unfold q; destruct l; [congruence|cbn; lia]).
  rewrite (zps_value lsqr 2 q m So ltac:(lia) Hq Lm) in Z.
  exists o, (partner 0).
  assert (LZ : length (zps o) = 2). { rewrite Z, firstn_length, closed_len. lia. }
  pose proof (zps_nth 2 q m 0 ltac:(lia)) as Z0. pose proof (zps_nth 2 q m 1 ltac:(lia)) as Z1.
  rewrite <- Z in Z0, Z1. destruct (zps o) as [|z0 [|z1 [|]]]; try discriminate. cbn [nth] in Z0, Z1.
  exists z0, z1. split; [exact E|]. split; [intros i Hi; exact (M 0 i ltac:(lia) Hi)|]. split; [reflexivity|].
  rewrite Z0, Z1. unfold block_mean.
  assert (S0 : sumR (fun r => nth (0 * q + r) m 0%R) (seq 0 q) = sumR (mag_of a) l).
  { transitivity (sumR (fun r => mag_of a (nth r l 0)) (seq 0 q)).
    - apply sumR_ext. intros r Hr. apply in_seq in Hr. cbn [Nat.mul Nat.add]. now rewrite V0 by lia.
    - rewrite <- (sumR_map (mag_of a) (fun r => nth r l 0)). f_equal. unfold q. clear.
      induction l as [|x l IH]; [reflexivity|]. cbn [length seq map nth]. f_equal. rewrite <- seq_shift, map_map. exact IH. }
  assert (S1 : sumR (fun r => nth (1 * q + r) m 0%R) (seq 0 q) = sumR (fun i => mag_of b (partner 0 i)) l).
  { transitivity (sumR (fun r => mag_of b (partner 0 (nth r l 0))) (seq 0 q)).
    - apply sumR_ext. intros r Hr. apply in_seq in Hr. specialize (V1 0 r ltac:(lia) ltac:(lia)).
      replace (q + r * 1 + 0) with (1 * q + r) in V1 by lia. exact V1.
    - rewrite <- (sumR_map (fun i => mag_of b (partner 0 i)) (fun r => nth r l 0)). f_equal. unfold q. clear.
      induction l as [|x l IH]; [reflexivity|]. cbn [length seq map nth]. f_equal. rewrite <- seq_shift, map_map. exact IH. }
  rewrite S0, S1. rewrite (sumR_ext (fun i => (mag_of b (partner 0%nat i) - mag_of a i)%R) (fun i => (mag_of b (partner 0%nat i) + -1 * mag_of a i)%R)) by (intros; lra).
  rewrite sumR_plus, sumR_scal. unfold Rdiv. lra.
Qed.

(** C46: for two images zero points and mean magnitudes are the minimum-norm least-squares
    solution of "zero point + magnitude = observed magnitude". *)
Lemma C46_min_norm_lm : forall query sort_cat lsqr images master a b l,
  nearest query -> (forall l, Permutation (sort_cat l) l) -> solves lsqr ->
  roles images master a [b] -> has_id a = false -> positive a -> positive b ->
  common query a [b] l -> l <> [] ->
  let q := length l in
  exists o partner m x,
    transparency query sort_cat lsqr images master = Ok o /\ answer o x /\
    (forall i, In i l -> matched query a b i (partner i)) /\
    (forall r, r < q -> nth (0 * q + r) m 0%R = mag_of a (nth r l 0)) /\
    (forall r, r < q -> nth (1 * q + r) m 0%R = mag_of b (partner (nth r l 0))) /\
    min_norm_solution (2 * q) (2 + q) (system 2 q) m x.
Proof.
  intros query sort_cat lsqr images master a b l N SP So Ro F _ _ C Hl q.
  rewrite (transparency_roles query sort_cat lsqr _ _ _ _ Ro).
  destruct (fresh_zps query N sort_cat SP lsqr a [b] l F C Hl) as (m & partner & o & E & Z & ZM & Lm & M & V0 & V1).
  cbn [length] in *. fold q in Z, ZM, Lm, V0, V1.
  assert (Hq : 0 < q) by (unfold q; destruct l; [congruence|cbn; lia]).
  exists o, (partner 0), m, (lsqr (2 * q) (2 + q) (system 2 q) m). split; [exact E|]. split; [|split; [|split; [|split]]].
  - eexists. split; [exact ZM|]. rewrite Z. symmetry. apply firstn_skipn.
  - intros i Hi. exact (M 0 i ltac:(lia) Hi).
  - intros r Hr. now apply V0.
  - intros r Hr. specialize (V1 0 r ltac:(lia) Hr). replace (q + r * 1 + 0) with (1 * q + r) in V1 by lia. exact V1.
  - apply So; lia.
Qed.

(** C46: the minimum-norm solution of such a system is unique. *)
Lemma C46_unique_lm : forall p q m x y, 0 < p -> 0 < q ->
  min_norm_solution (p * q) (p + q) (system p q) m x ->
  min_norm_solution (p * q) (p + q) (system p q) m y -> x = y.
Proof.
  intros p q m x y Hp Hq X Y. rewrite (solution_unique p q Hp Hq m x X). symmetry. now apply solution_unique.
Qed.

(** C47: for any number of images, the magnitude of source r in the k-th of the n other
    images is at position q + r*n + k of the right-hand side, while its equation is at
    (k+1)*q + r; these agree for all sources and images if and only if n = 1 or q = 1. *)
Lemma C47_layout_lm : forall query sort_cat lsqr images master mc imgs l,
  nearest query -> (forall l, Permutation (sort_cat l) l) ->
  roles images master mc imgs -> has_id mc = false -> Forall positive (mc :: imgs) ->
  common query mc imgs l -> l <> [] -> imgs <> [] ->
  let n := length imgs in let q := length l in
  exists o m partner,
    transparency query sort_cat lsqr images master = Ok o /\
    zps o = firstn (S n) (lsqr (S n * q) (S n + q) (system (S n) q) m) /\ length m = S n * q /\
    (forall k i, k < n -> In i l -> matched query mc (nth k imgs mc) i (partner k i)) /\
    (forall r, r < q -> nth r m 0%R = mag_of mc (nth r l 0)) /\
    (forall k r, k < n -> r < q ->
       nth (q + r * n + k) m 0%R = mag_of (nth k imgs mc) (partner k (nth r l 0))) /\
    ((forall k r, k < n -> r < q -> q + r * n + k = S k * q + r) <-> n = 1 \/ q = 1).
Proof.
  intros query sort_cat lsqr images master mc imgs l N SP Ro F _ C Hl Hi n q.
  rewrite (transparency_roles query sort_cat lsqr _ _ _ _ Ro).
  destruct (fresh_zps query N sort_cat SP lsqr mc imgs l F C Hl) as (m & partner & o & E & Z & ZM & Lm & M & V0 & V1).
  fold n in Z, Lm, M, V1. fold q in Z, Lm, V0, V1. exists o, m, partner. repeat (split; [assumption|]).
  assert (Hq : 0 < q) by (unfold q; destruct l; [congruence|cbn; lia]).
  assert (Hn : 0 < n) by (unfold n; destruct imgs; [congruence|cbn; lia]).
  split.
  - intros H. destruct (Nat.eq_dec n 1) as [|Hn1]; [now left|]. destruct (Nat.eq_dec q 1) as [|Hq1]; [now right|].
    specialize (H 0 1 ltac:(lia) ltac:(lia)). lia.
  - intros [-> | ->] k r Hk Hr; nia.
Qed.

(** C47: noiseless catalogues (each image differs from the master by a constant offset):
    with one other image or one common source the zero points are right. *)
Lemma C47_right_lm : forall query sort_cat lsqr images master mc imgs l off,
  nearest query -> (forall l, Permutation (sort_cat l) l) -> solves lsqr ->
  roles images master mc imgs -> has_id mc = false -> Forall positive (mc :: imgs) ->
  common query mc imgs l -> l <> [] ->
  length imgs = 1 \/ length l = 1 ->
  (forall k i j, k < length imgs -> matched query mc (nth k imgs mc) i j ->
     mag_of (nth k imgs mc) j = (mag_of mc i + off k)%R) ->
  exists o, transparency query sort_cat lsqr images master = Ok o /\ length (zps o) = S (length imgs) /\
    forall k, k < length imgs -> (nth (S k) (zps o) 0 - nth 0 (zps o) 0 = off k)%R.
Proof.
  intros query sort_cat lsqr images master mc imgs l off N SP So Ro F _ C Hl One Off.
  rewrite (transparency_roles query sort_cat lsqr _ _ _ _ Ro).
  destruct (fresh_zps query N sort_cat SP lsqr mc imgs l F C Hl) as (m & partner & o & E & Z & ZM & Lm & M & V0 & V1).
  set (n := length imgs) in *. set (q := length l) in *.
  assert (Hq : 0 < q) by (unfold q; destruct l; [congruence|cbn; lia]).
  rewrite (zps_value lsqr (S n) q m So ltac:(lia) Hq Lm) in Z.
  exists o. split; [exact E|]. split; [rewrite Z, firstn_length, closed_len; lia|].
  intros k Hk. rewrite Z, !zps_nth by lia. unfold block_mean.
  rewrite (sumR_ext (fun r => nth (S k * q + r) m 0%R) (fun r => (nth (0 * q + r)%nat m 0 + off k)%R)).
  - rewrite sumR_plus, sumR_const, seq_length. field. apply not_0_INR. lia.
  - intros r Hr. apply in_seq in Hr. cbn [Nat.mul Nat.add]. rewrite (V0 r) by lia.
    specialize (V1 k r Hk ltac:(lia)). replace (q + r * n + k) with (S k * q + r) in V1 by (destruct One as [-> | ->]; nia).
    cbn [Nat.mul] in V1. rewrite V1. apply Off; trivial. apply M; trivial. apply nth_In. unfold q in Hr. lia.
Qed.

(** The catalogue used below: q sources 10 apart, all of flux 1 but the last, of flux 10. *)
Definition ladder (q : nat) : cat :=
  mkcat false false (map (fun i => mkrow (INR (10 * i)) 0 (if i =? q - 1 then 10 else 1) 0 false) (seq 0 q)).

Lemma nth_error_seq0 n i : i < n -> nth_error (seq 0 n) i = Some i.
Proof.
  intros H. destruct (nth_error (seq 0 n) i) as [x|] eqn:E.
  - apply nth_error_nth with (d := 0) in E. rewrite seq_nth in E by trivial. cbn in E. now subst.
  - apply nth_error_None in E. rewrite seq_length in E. lia.
Qed.

Lemma ladder_xy q i a : nth_error (map xy (rows (ladder q))) i = Some a -> i < q /\ a = (INR (10 * i), 0%R).
Proof.
  intros H. assert (Hi : i < q).
  { rewrite <- (seq_length q 0), <- (map_length xy), <- (map_length xy (map _ _)) || idtac.
    assert (i < length (map xy (rows (ladder q)))) by (apply nth_error_Some; now rewrite H).
    unfold ladder in H0. cbn [rows] in H0. now rewrite !map_length, seq_length in H0. }
  split; [exact Hi|]. unfold ladder in H. cbn [rows] in H. rewrite !nth_error_map, (nth_error_seq0 q i Hi) in H.
  cbn in H. injection H as <-. reflexivity.
Qed.

Lemma ladder_nth q i : i < q -> nth_error (map xy (rows (ladder q))) i = Some (INR (10 * i), 0%R).
Proof.
  intros Hi. unfold ladder. cbn [rows]. rewrite !nth_error_map, (nth_error_seq0 q i Hi). reflexivity.
Qed.

Lemma ladder_dist i j : i <> j -> (dist (INR (10 * i), 0%R) (INR (10 * i), 0%R) < dist (INR (10 * i), 0%R) (INR (10 * j), 0%R))%R.
Proof.
  intros H. unfold dist. cbn [fst snd]. replace ((INR (10 * i) - INR (10 * i)) ^ 2 + (0 - 0) ^ 2)%R with 0%R by ring.
  rewrite sqrt_0. apply sqrt_lt_R0.
  assert (INR (10 * i) - INR (10 * j) <> 0)%R.
  { intros E. apply Rminus_diag_uniq in E. apply INR_eq in E. lia. }
  pose proof (Rsqr_pos_lt _ H0) as K. unfold Rsqr in K. lra.
Qed.

Lemma ladder_matched query q i j : nearest query -> (matched query (ladder q) (ladder q) i j <-> i = j /\ i < q).
Proof.
  intros N.
  assert (I : forall i, i < q -> matched query (ladder q) (ladder q) i i).
  { intros i' Hi. eapply C44_strict_nearest_lm; [exact N|apply ladder_nth; exact Hi|apply ladder_nth; exact Hi| | |].
    - unfold dist. cbn [fst snd]. replace ((INR (10 * i') - INR (10 * i')) ^ 2 + (0 - 0) ^ 2)%R with 0%R by ring. rewrite sqrt_0. lra.
    - intros j' b' E Hn. apply ladder_xy in E. destruct E as (_ & ->). apply ladder_dist. lia.
    - intros j' b' E Hn. apply ladder_xy in E. destruct E as (_ & ->).
      assert (S : forall x y, dist x y = dist y x). { intros x y. unfold dist. f_equal. ring. }
      rewrite (S (INR (10 * j'), 0%R)). apply ladder_dist. lia. }
  split.
  - intros M. destruct (mutual_bounds query N _ _ _ _ _ M) as (Hi & _).
    rewrite map_length in Hi. cbn [ladder rows] in Hi. rewrite map_length, seq_length in Hi.
    split; [|exact Hi]. symmetry. apply (mutual_fun_r query _ _ _ _ _ _ M (I i Hi)).
  - intros (-> & H). now apply I.
Qed.

Lemma ladder_common query q n : nearest query -> common query (ladder q) (repeat (ladder q) n) (seq 0 q).
Proof.
  intros N. split; [apply seq_NoDup|]. split.
  - intros a b i i' Hab Ea Eb.
    assert (Hb : b < q) by (rewrite <- (seq_length q 0); apply nth_error_Some; now rewrite Eb).
    rewrite nth_error_seq0 in Ea, Eb by lia. congruence.
  - intros i. rewrite in_seq. cbn [ladder rows]. rewrite map_length, seq_length. split.
    + intros H. split; [lia|]. intros c Hc. apply repeat_spec in Hc. subst c. exists i. apply ladder_matched; trivial. lia.
    + lia.
Qed.

Lemma ladder_mag q i : i < q -> mag_of (ladder q) i = if i =? q - 1 then (20 - 5 / 2)%R else 20%R.
Proof.
  intros Hi. unfold mag_of. rewrite (nth_error_nth' _ i _ (mkrow (INR (10 * i)) 0 (if i =? q - 1 then 10 else 1) 0 false)).
  2:{ unfold ladder. cbn [rows]. now rewrite nth_error_map, (nth_error_seq0 q i Hi). }
  cbn [r_flux]. unfold mag. destruct (i =? q - 1).
  - unfold Rdiv at 2. rewrite Rinv_r; [lra|]. assert (0 < ln 10)%R; [|lra]. rewrite <- ln_1. apply ln_increasing; lra.
  - rewrite ln_1. unfold Rdiv. lra.
Qed.

(** C47: for every number p >= 3 of images and every number q >= 2 of sources there is a
    catalogue such that p images with this very catalogue get different zero points. *)
Lemma C47_identical_wrong_lm : forall query sort_cat lsqr p q,
  nearest query -> (forall l, Permutation (sort_cat l) l) -> solves lsqr ->
  3 <= p -> 2 <= q ->
  exists c o, length (rows c) = q /\ positive c /\ common query c (repeat c (p - 1)) (seq 0 q) /\
    transparency query sort_cat lsqr (repeat c p) None = Ok o /\ nth 0 (zps o) 0%R <> nth 1 (zps o) 0%R.
Proof.
  intros query sort_cat lsqr p q N SP So Hp Hq.
  destruct p as [|n]; [lia|]. cbn [Nat.sub]. rewrite Nat.sub_0_r.
  pose proof (ladder_common query q n N) as C.
  destruct (fresh_zps query N sort_cat SP lsqr (ladder q) (repeat (ladder q) n) (seq 0 q) eq_refl C) as (m & partner & o & E & Z & ZM & Lm & M & V0 & V1).
  { destruct q; [lia|discriminate]. }
  rewrite repeat_length, seq_length in *.
  exists (ladder q), o. split; [cbn [ladder rows]; now rewrite map_length, seq_length|]. split.
  { apply Forall_forall. intros r Hr. cbn [ladder rows] in Hr. apply in_map_iff in Hr. destruct Hr as (i & <- & _). cbn. destruct (i =? q - 1); lra. }
  split; [exact C|]. split; [exact E|].
  rewrite (zps_value lsqr (S n) q m So ltac:(lia) ltac:(lia) Lm) in Z. rewrite Z, !zps_nth by lia.
  assert (B1 : block_mean m q 1 = 20%R).
  { unfold block_mean. rewrite (sumR_ext _ (fun _ => 20%R)).
    - rewrite sumR_const, seq_length. field. apply not_0_INR. lia.
    - intros t Ht. apply in_seq in Ht. specialize (V1 (t mod n) (t / n)).
      assert (Hn : n <> 0) by lia.
      pose proof (Nat.mod_upper_bound t n Hn) as Hm. pose proof (Nat.div_mod t n Hn) as DM.
      assert (Hd : t / n < q - 1).
      { apply Nat.div_lt_upper_bound; [lia|]. nia. }
      specialize (V1 Hm ltac:(lia)).
      replace (1 * q + t) with (q + t / n * n + t mod n) by nia. rewrite V1.
      rewrite seq_nth by lia. cbn [Nat.add].
      assert (Em : nth (t mod n) (repeat (ladder q) n) (ladder q) = ladder q) by apply nth_repeat.
      specialize (M (t mod n) (t / n) Hm ltac:(apply in_seq; lia)). rewrite Em in *.
      apply ladder_matched in M; trivial. destruct M as (<- & _). rewrite ladder_mag by lia.
      destruct (Nat.eqb_spec (t / n) (q - 1)); [lia|reflexivity]. }
  assert (B0 : (block_mean m q 0 < 20)%R).
  { unfold block_mean.
    assert (Sq : seq 0 q = seq 0 (q - 1) ++ [q - 1]).
    { change (q - 1 :: nil) with [0 + (q - 1)]. rewrite <- seq_S. f_equal. lia. }
    rewrite Sq, sumR_app, sumR_cons, sumR_nil. cbn [Nat.add Nat.mul].
    rewrite (sumR_ext _ (fun _ => 20%R)).
    - rewrite sumR_const, seq_length. rewrite V0 by lia. rewrite seq_nth by lia. rewrite ladder_mag by (cbn; lia).
      cbn [Nat.add]. rewrite Nat.eqb_refl.
      assert (Q : INR q = (INR (q - 1) + 1)%R) by (rewrite <- S_INR; f_equal; lia).
      assert (0 <= INR (q - 1))%R by apply pos_INR.
      apply Rmult_lt_reg_r with (INR q); [lra|]. unfold Rdiv. rewrite Rmult_assoc, Rinv_l by lra. lra.
    - intros r Hr. apply in_seq in Hr. rewrite V0 by lia. rewrite seq_nth by lia. rewrite ladder_mag by (cbn; lia).
      cbn [Nat.add]. destruct (Nat.eqb_spec r (q - 1)); [lia|reflexivity]. }
  intros Eq. rewrite B1 in Eq. lra.
Qed.

(** C48: when no master source is matched in all the other images, the zero points are
    ones and the mean magnitude is NaN. *)
Lemma C48_no_common_lm : forall query sort_cat lsqr images master mc imgs,
  nearest query -> (forall l, Permutation (sort_cat l) l) ->
  roles images master mc imgs -> has_id mc = false -> common query mc imgs [] ->
  exists o, transparency query sort_cat lsqr images master = Ok o /\
    zps o = repeat 1%R (S (length imgs)) /\ meanmags o = None.
Proof.
  intros query sort_cat lsqr images master mc imgs N SP Ro F C.
  rewrite (transparency_roles query sort_cat lsqr _ _ _ _ Ro).
  assert (E : L query mc imgs = []) by (eapply common_unique; [apply L_common; trivial|exact C]).
  rewrite (fresh_result query N sort_cat SP lsqr mc F imgs). cbv zeta. rewrite E. cbn [length Nat.eqb].
  eexists. split; [reflexivity|]. split; reflexivity.
Qed.

Lemma ids_for_length query mc c : length (ids_for query mc c) = length (rows c).
Proof. unfold ids_for. rewrite matching_len. apply map_length. Qed.

(** C48: the call never raises, except IndexError for an empty list without a master. *)
Lemma C48_total_lm : forall query sort_cat lsqr images master,
  (forall l, Permutation (sort_cat l) l) ->
  (exists o, transparency query sort_cat lsqr images master = Ok o) \/
  (images = [] /\ master = None /\ transparency query sort_cat lsqr images master = Raise IndexError).
Proof.
  intros query sort_cat lsqr images master SP.
  assert (T : forall mc imgs, exists o, transparency_of query sort_cat lsqr mc imgs = Ok o).
  { intros mc0 imgs. rewrite transparency_unfold. cbv zeta.
    destruct (_ =? 0); [eexists; reflexivity|]. set (mc := with_source_ids mc0).
    match goal with |- context [mapM ?f ?l] => assert (G : exists mm, mapM f l = Ok mm) end.
    2:{ destruct G as (mm & ->). cbn [bind]. eexists. reflexivity. }
    assert (MO : forall {A B} (f : A -> res B) l, (forall a, In a l -> exists b, f a = Ok b) -> exists r, mapM f l = Ok r).
    { clear. intros A B f. induction l as [|a l IH]; intros H; [now exists []|].
      destruct (H a (or_introl eq_refl)) as (b & E). destruct IH as (r & E'); [intros; apply H; now right|].
      exists (b :: r). cbn. now rewrite E, E'. }
    apply MO. intros r Hr. apply in_map_iff in Hr. destruct Hr as (r0 & <- & Hr). apply filter_In in Hr.
    destruct Hr as (Hr & D). apply MO. intros c' Hc. apply in_map_iff in Hc. destruct Hc as (c & <- & Hc).
    unfold detf in D. rewrite forallb_forall in D. specialize (D c Hc). apply existsb_exists in D. destruct D as (z & Hz & Ez).
    apply Z.eqb_eq in Ez. subst z. cbn [with_det r_id]. unfold flux_of, newcat. cbn [rows].
    destruct (filter _ (sort_cat _)) as [|x t] eqn:Fi; [|eexists; reflexivity].
    exfalso. set (s := set_ids (ids_for query mc c) (rows c)) in *.
    assert (Hin : In (r_id r0) (map r_id s)).
    { unfold s. rewrite set_ids_ids; trivial. apply ids_for_length. }
    apply in_map_iff in Hin. destruct Hin as (x & Ex & Hx).
    assert (In x (filter (fun r => (r_id r =? r_id r0)%Z) (sort_cat s))).
    { apply filter_In. split; [apply Permutation_in with s; [apply Permutation_sym, SP|exact Hx]|]. rewrite Ex. apply Z.eqb_refl. }
    rewrite Fi in H. destruct H. }
  destruct master as [mc|]; [left; apply T|]. destruct images as [|mc imgs]; [right; auto|left; apply T].
Qed.

(** C49: after a call that found common sources, a source of the master is flagged as
    detected if and only if its identifier occurs among the identifiers of every other
    image. The identifiers are those the master had, or 0, 1, ... *)
Lemma C49_detected_lm : forall query sort_cat lsqr images master mc imgs o i r0,
  (forall l, Permutation (sort_cat l) l) ->
  roles images master mc imgs -> transparency query sort_cat lsqr images master = Ok o -> meanmags o <> None ->
  nth_error (rows mc) i = Some r0 ->
  length (cats o) = length imgs /\
  exists r, nth_error (rows (mcat o)) i = Some r /\
    r_id r = (if has_id mc then r_id r0 else Z.of_nat i) /\
    (r_det r = true <-> forall c, In c (cats o) -> exists s, In s (rows c) /\ r_id s = r_id r).
Proof.
  intros query sort_cat lsqr images master mc imgs o i r0 SP Ro E Hm Hi.
  rewrite (transparency_roles query sort_cat lsqr _ _ _ _ Ro), transparency_unfold in E. cbv zeta in E.
  destruct (_ =? 0); [injection E as <-; now elim Hm|].
  destruct (mapM _ _) as [mm|]; [|discriminate]. cbn [bind] in E. injection E as <-. cbn [cats mcat rows].
  split; [apply map_length|]. set (m1 := with_source_ids mc).
  assert (K : nth_error (rows m1) i = Some (with_id (if has_id mc then r_id r0 else Z.of_nat i) r0)).
  { unfold m1, with_source_ids, append_ids. destruct (has_id mc); [rewrite Hi; now destruct r0|]. cbn [rows].
    assert (Hl : i < length (rows mc)) by (apply nth_error_Some; now rewrite Hi).
    rewrite (set_ids_nth _ _ i r0) by (trivial; now rewrite map_length, seq_length).
    f_equal. f_equal; [|now apply nth_error_nth].
    change 0%Z with (Z.of_nat 0). rewrite map_nth, seq_nth by trivial. reflexivity. }
  set (z := if has_id mc then r_id r0 else Z.of_nat i) in *.
  exists (with_det (detf query m1 imgs (with_id z r0)) (with_id z r0)). split; [|split; [reflexivity|]].
  - assert (Hl : i < length (rows m1)) by (apply nth_error_Some; now rewrite K).
    rewrite (set_dets_nth _ _ i row0) by (trivial; now rewrite map_length).
    rewrite (nth_error_nth' _ _ _ _ K). f_equal. f_equal. apply nth_error_nth. now rewrite nth_error_map, K.
  - cbn [with_det r_det r_id]. unfold detf. rewrite forallb_forall. cbn [with_id r_id]. split.
    + intros D c' Hc. apply in_map_iff in Hc. destruct Hc as (c & <- & Hc). specialize (D c Hc).
      apply existsb_exists in D. destruct D as (y & Hy & Ey). apply Z.eqb_eq in Ey. subst y.
      unfold newcat. cbn [rows]. rewrite <- (set_ids_ids (ids_for query m1 c) (rows c) (ids_for_length query m1 c)) in Hy.
      apply in_map_iff in Hy. destruct Hy as (s & Es & Hs). exists s. split; [|exact Es].
      apply Permutation_in with (2 := Hs). apply Permutation_sym, SP.
    + intros D c Hc. destruct (D (newcat query sort_cat m1 c)) as (s & Hs & Es); [apply in_map; exact Hc|].
      unfold newcat in Hs. cbn [rows] in Hs. apply (Permutation_in _ (SP _)) in Hs.
      apply existsb_exists. exists (r_id s). split; [|rewrite Es; apply Z.eqb_refl].
      rewrite <- (set_ids_ids (ids_for query m1 c) (rows c) (ids_for_length query m1 c)). now apply in_map.
Qed.

(** C49: with fresh identifiers, detected means matched in every other image. *)
Lemma C49_fresh_lm : forall query sort_cat lsqr images master mc imgs o i r,
  nearest query -> (forall l, Permutation (sort_cat l) l) ->
  roles images master mc imgs -> has_id mc = false ->
  transparency query sort_cat lsqr images master = Ok o -> meanmags o <> None ->
  nth_error (rows (mcat o)) i = Some r ->
  (r_det r = true <-> forall c, In c imgs -> exists j, matched query mc c i j).
Proof.
  intros query sort_cat lsqr images master mc imgs o i r N SP Ro F E Hm Hr.
  rewrite (transparency_roles query sort_cat lsqr _ _ _ _ Ro) in E.
  rewrite (fresh_result query N sort_cat SP lsqr mc F imgs) in E. cbv zeta in E. injection E as E.
  destruct (_ =? 0); subst o; [now elim Hm|]. cbn [mcat rows] in Hr.
  set (m1 := with_source_ids mc) in *.
  assert (Hl : i < length (rows m1)).
  { assert (i < length (set_dets (map (detf query m1 imgs) (rows m1)) (rows m1))) by (apply nth_error_Some; now rewrite Hr).
    unfold set_dets in H. rewrite map_length, combine_length, map_length in H. lia. }
  rewrite (set_dets_nth _ _ i row0) in Hr by (trivial; now rewrite map_length).
  injection Hr as <-. cbn [with_det r_det].
  rewrite (nth_indep _ false (detf query m1 imgs row0)) by (now rewrite map_length). rewrite map_nth.
  unfold m1 in Hl. rewrite fresh_len in Hl by trivial. exact (detected_iff query N mc F imgs i Hl).
Qed.

(** C49: an image that was a non-master in an earlier call and is then used as master: its
    unmatched sources carry the identifier -13133 and count as detected. Two images
    without any common source: the first call says so, the second one does not. *)
Lemma C49_stale_refuted_lm : forall query sort_cat lsqr,
  nearest query -> (forall l, Permutation (sort_cat l) l) ->
  exists a b b' o1 o2,
    common query a [b] [] /\ common query b [a] [] /\
    transparency query sort_cat lsqr [a; b] None = Ok o1 /\ meanmags o1 = None /\
    mcat o1 = a /\ cats o1 = [b'] /\
    transparency query sort_cat lsqr [b'; a] None = Ok o2 /\ meanmags o2 <> None.
Proof.
  intros query sort_cat lsqr N SP.
  set (ra := mkrow 0 0 1 0 false). set (rb := mkrow 100 0 1 0 false).
  set (a := mkcat false false [ra]). set (b := mkcat false false [rb]).
  assert (Far : forall x y r s : R, ((x - y) ^ 2 = 10000)%R -> (dist (x, r) (y, s) < 2)%R -> False).
  { intros x y r s E D. unfold dist in D. cbn [fst snd] in D.
    assert (sqrt (2 ^ 2) <= sqrt ((x - y) ^ 2 + (r - s) ^ 2))%R.
    { apply sqrt_le_1_alt. rewrite E. pose proof (pow2_ge_0 (r - s)). lra. }
    rewrite sqrt_pow2 in H by lra. lra. }
  assert (NM : forall X Y x y i j, X = [x] -> Y = [y] -> ((fst x - fst y) ^ 2 = 10000)%R -> ~ mutual query X Y 2 i j).
  { intros X Y x y i j -> -> E M. destruct (C44_within_radius_lm query _ _ _ _ _ N M) as (u & v & Eu & Ev & D & _).
    destruct i as [|[|i]]; try discriminate. destruct j as [|[|j]]; try discriminate.
    cbn in Eu, Ev. injection Eu as <-. injection Ev as <-. destruct x, y. exact (Far _ _ _ _ E D). }
  assert (NAB : forall i j, ~ matched query a b i j).
  { intros i j. apply (NM _ _ (0, 0)%R (100, 0)%R); try reflexivity. cbn [fst]. lra. }
  assert (NBA : forall i j, ~ matched query b a i j).
  { intros i j. apply (NM _ _ (100, 0)%R (0, 0)%R); try reflexivity. cbn [fst]. lra. }
  assert (CE : forall x y, (forall i j, ~ matched query x y i j) -> common query x [y] []).
  { intros x y H. split; [constructor|]. split; [intros [|] ? ? ? ? ?; discriminate|].
    intros i. split; [intros []|]. intros (_ & K). destruct (K y (or_introl eq_refl)) as (j & M). elim (H i j M). }
  assert (SS : forall r, sort_cat [r] = [r]).
  { intros r. apply Permutation_length_1_inv. apply Permutation_sym, SP. }
  pose proof (fresh_result query N sort_cat SP lsqr a eq_refl [b]) as R1.
  assert (E1 : L query a [b] = []) by (eapply common_unique; [apply L_common; trivial|apply CE, NAB]).
  rewrite E1 in R1. cbn [length Nat.eqb] in R1. cbv zeta in R1.
  assert (I1 : ids_for query (with_source_ids a) b = [sentinel]).
  { pose proof (ids_for_len query a b) as Hl. destruct (ids_for_spec query N a eq_refl b 0) as (_ & Q); [cbn; lia|].
    specialize (Q (fun i => NAB i 0)). destruct (ids_for query (with_source_ids a) b) as [|z [|]]; try discriminate. cbn in Q. congruence. }
  assert (B' : newcat query sort_cat (with_source_ids a) b = mkcat true false [with_id sentinel rb]).
  { unfold newcat. rewrite I1. cbn. now rewrite SS. }
  cbn [map] in R1. rewrite B' in R1.
  set (b' := mkcat true false [with_id sentinel rb]) in *.
  assert (I2 : ids_for query b' a = [sentinel]).
  { unfold ids_for. assert (Hl : 0 < length (map xy (rows a))) by (cbn; lia).
    pose proof (matching_len query (map r_id (rows b')) (map xy (rows b')) (map xy (rows a)) 2) as Len.
    pose proof (matching_nth query (map r_id (rows b')) (map xy (rows b')) (map xy (rows a)) 2 0 Hl) as E.
    rewrite match_one_none in E by (intros i; exact (NBA i 0)).
    destruct (fst (matching _ _ _ _ _)) as [|z [|]]; try discriminate. cbn in E. congruence. }
  assert (D2 : detf query b' [a] (with_id sentinel rb) = true).
  { unfold detf. cbn [forallb]. rewrite I2. reflexivity. }
  assert (N2 : newcat query sort_cat b' a = mkcat true false [with_id sentinel ra]).
  { unfold newcat. rewrite I2. cbn. now rewrite SS. }
  pose proof (transparency_unfold query sort_cat lsqr b' [a]) as R2. cbv zeta in R2.
  change (with_source_ids b') with b' in R2. cbn [b' rows filter] in R2. fold b' in R2. rewrite D2 in R2.
  cbn [length Nat.eqb map mapM] in R2. rewrite N2 in R2. cbn [bind mapM flux_of rows filter with_det with_id r_id] in R2.
  change ((sentinel =? sentinel)%Z) with true in R2. cbn [bind] in R2.
  exists a, b, b'. do 2 eexists. split; [apply CE, NAB|]. split; [apply CE, NBA|].
  split; [exact R1|]. split; [reflexivity|]. split; [reflexivity|]. split; [reflexivity|]. split; [exact R2|]. discriminate.
Qed.
