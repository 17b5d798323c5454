(** The percentile and the median of the model are those of the specification. *)
From Coq Require Import ZArith List Bool Arith Reals Lia Lra Permutation Sorting.Sorted.
From Flocq Require Import Core.Raux.
From Verif.Model Require Import Py Sources Stamps.
From Verif.Spec Require Import Percentile.
From Verif.Proof Require Import SourcesMain.
Import ListNotations.
Set Bullet Behavior "Strict Subproofs".
Local Open Scope R_scope.

Lemma insertR_sorted x l : StronglySorted Rle l -> StronglySorted Rle (insertR x l).
Proof.
  induction 1 as [|y l S IH F]; cbn; [repeat constructor|].
  destruct (Rle_dec x y) as [L|L].
  - constructor; [now constructor|]. constructor; [exact L|]. rewrite Forall_forall in F |- *. intros z Hz. specialize (F z Hz). lra.
  - constructor; [exact IH|]. rewrite Forall_forall in F |- *. intros z Hz.
    apply (Permutation_in z (Permutation_sym (insertR_perm x l))) in Hz. destruct Hz as [<-|Hz]; [lra|now apply F].
Qed.

Lemma sortR_sorted l : StronglySorted Rle (sortR l).
Proof. induction l as [|x l IH]; cbn; [constructor|now apply insertR_sorted]. Qed.

Lemma sorted_unique l : forall l', Permutation l l' -> StronglySorted Rle l -> StronglySorted Rle l' -> l = l'.
Proof.
  induction l as [|x l IH]; intros l' P S S'.
  - now apply Permutation_nil in P.
  - destruct l' as [|y l']; [apply Permutation_sym, Permutation_nil in P; discriminate|].
    inversion S as [|? ? S1 F1]; subst. inversion S' as [|? ? S2 F2]; subst.
    rewrite Forall_forall in F1, F2.
    assert (E : x = y).
    { apply Rle_antisym.
      - destruct (Permutation_in y (Permutation_sym P) (or_introl eq_refl)) as [->|H]; [lra|now apply F1].
      - destruct (Permutation_in x P (or_introl eq_refl)) as [->|H]; [lra|now apply F2]. }
    subst y. f_equal. apply IH; trivial. eapply Permutation_cons_inv. exact P.
Qed.

Lemma percentile_is q l : l <> [] -> 0 <= q <= 100 -> is_percentile q l (percentile q l).
Proof.
  intros N Hq. unfold percentile. set (v := q / 100 * INR (length l - 1)).
  assert (Hn : (1 <= length l)%nat) by (destruct l; [contradiction|simpl; lia]).
  assert (Hv : 0 <= v <= INR (length l - 1)).
  { unfold v. pose proof (pos_INR (length l - 1)). split.
    - apply Rmult_le_pos; lra.
    - rewrite <- (Rmult_1_l (INR _)) at 2. apply Rmult_le_compat_r; lra. }
  assert (Hf : (0 <= Zfloor v <= Z.of_nat (length l - 1))%Z).
  { split; [apply Zfloor_lub; simpl; lra|]. rewrite INR_IZR_INZ in Hv.
    rewrite <- (Zfloor_IZR (Z.of_nat (length l - 1))). apply Zfloor_le. lra. }
  pose proof (Zfloor_lb v). pose proof (Zfloor_ub v).
  exists (sortR l), (Z.to_nat (Zfloor v)), (v - IZR (Zfloor v)).
  split; [apply sortR_perm|]. split; [apply sortR_sorted|]. split; [rewrite sortR_len; lia|]. split; [lra|]. split.
  - rewrite INR_IZR_INZ, Z2Nat.id by lia. unfold v. rewrite minus_INR by lia. cbn [INR]. lra.
  - set (k := Z.to_nat (Zfloor v)).
    destruct (Nat.lt_ge_cases (S k) (length (sortR l))) as [L|L].
    + rewrite (nth_indep _ (nth k (sortR l) 0) 0 L). ring.
    + assert (v - IZR (Zfloor v) = 0).
      { rewrite sortR_len in L. assert (Zfloor v = Z.of_nat (length l - 1))%Z by (unfold k in L; lia).
        rewrite INR_IZR_INZ in Hv. rewrite H1 in *. lra. }
      rewrite H1. ring.
Qed.

Lemma percentile_unique q l v w : is_percentile q l v -> is_percentile q l w -> v = w.
Proof.
  intros (s & k & t & P & S & K & T & E & ->) (s' & k' & t' & P' & S' & K' & T' & E' & ->).
  assert (s = s') by (apply sorted_unique; trivial; now rewrite <- P). subst s'.
  assert (k = k').
  { destruct (Nat.lt_trichotomy k k') as [L|[L|L]]; trivial.
    - apply Nat.le_succ_l in L. apply le_INR in L. rewrite S_INR in L. lra.
    - apply Nat.le_succ_l in L. apply le_INR in L. rewrite S_INR in L. lra. }
  subst k'. assert (t = t') by lra. now subst.
Qed.

(** The percentile of the statements about source selection and stamps. *)
Lemma C29_percentile_lm : forall q l v, l <> [] -> 0 <= q <= 100 -> (v = percentile q l <-> is_percentile q l v).
Proof.
  intros q l v N Hq. split; [intros ->; now apply percentile_is|].
  intros H. apply (percentile_unique q l); [exact H|now apply percentile_is].
Qed.

(** The median of the statements about stamps. *)
Lemma C80_median_lm : forall l v, l <> [] -> (v = median l <-> is_median l v).
Proof.
  intros l v N. unfold is_median. rewrite <- C29_percentile_lm by (trivial; lra).
  assert (E : median l = percentile 50 l); [|now rewrite E].
  apply (percentile_unique 50 l); [|now apply percentile_is; [|lra]].
  assert (Hn : (1 <= length l)%nat) by (destruct l; [contradiction|simpl; lia]).
  unfold median. set (n := length l) in *.
  destruct (Nat.Even_or_Odd n) as [(m & Em)|(m & Em)].
  - exists (sortR l), (m - 1)%nat, (1 / 2). split; [apply sortR_perm|]. split; [apply sortR_sorted|].
    split; [rewrite sortR_len; fold n; lia|]. split; [lra|]. fold n. split.
    + rewrite Em, mult_INR, minus_INR by lia. cbn [INR]. lra.
    + replace ((n - 1) / 2)%nat with (m - 1)%nat. 2: { rewrite Em. replace (2 * m - 1)%nat with (1 + (m - 1) * 2)%nat by lia. rewrite Nat.div_add by lia. reflexivity. }
      replace (n / 2)%nat with m. 2: { rewrite Em, Nat.mul_comm, Nat.div_mul by lia. reflexivity. }
      replace (S (m - 1)) with m by lia. field.
  - exists (sortR l), m, 0. split; [apply sortR_perm|]. split; [apply sortR_sorted|].
    split; [rewrite sortR_len; fold n; lia|]. split; [lra|]. fold n. split.
    + rewrite Em, plus_INR, mult_INR. cbn [INR]. lra.
    + replace ((n - 1) / 2)%nat with m. 2: { rewrite Em. replace (2 * m + 1 - 1)%nat with (m * 2)%nat by lia. rewrite Nat.div_mul by lia. reflexivity. }
      replace (n / 2)%nat with m. 2: { rewrite Em. replace (2 * m + 1)%nat with (1 + m * 2)%nat by lia. rewrite Nat.div_add by lia. reflexivity. }
      field.
Qed.
