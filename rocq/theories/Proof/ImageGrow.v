(** The enlargement of masks: inclusion, locality, monotonicity, isolated cells. *)
From Coq Require Import ZArith List Bool Arith Lia.
From Verif.Model Require Import Py Plane Ma Image.
From Verif.Spec Require Import Image.
Import ListNotations.
Set Bullet Behavior "Strict Subproofs".

Definition offsets : list (Z * Z) :=
  [(-1,-1); (-1,0); (-1,1); (0,-1); (0,0); (0,1); (1,-1); (1,0); (1,1)]%Z.

Definition nb (sh : nat * nat) (i j : nat) (o : Z * Z) : nat * nat :=
  (Z.to_nat (mirror (Z.of_nat (fst sh)) (Z.of_nat i + fst o)),
   Z.to_nat (mirror (Z.of_nat (snd sh)) (Z.of_nat j + snd o))).

Lemma near_nb sh m i j :
  near sh m i j = List.length (filter (fun o => m (fst (nb sh i j o)) (snd (nb sh i j o))) offsets).
Proof. reflexivity. Qed.

Lemma off_bound o : In o offsets -> (-1 <= fst o <= 1)%Z /\ (-1 <= snd o <= 1)%Z.
Proof.
  intros H. cbn in H.
  repeat destruct H as [H|H]; try (subst o; cbn; lia). easy.
Qed.

Lemma mirror_bound n i o : i < n -> (-1 <= o <= 1)%Z ->
  let r := Z.to_nat (mirror (Z.of_nat n) (Z.of_nat i + o)) in r < n /\ r <= i + 1 /\ i <= r + 1.
Proof.
  intros Hi Ho. cbv zeta. unfold mirror.
  destruct (Z.ltb_spec (Z.of_nat i + o) 0); [|destruct (Z.leb_spec (Z.of_nat n) (Z.of_nat i + o))]; lia.
Qed.

Lemma grown_incl sh k m i j : m i j = true -> grown sh k m i j = true.
Proof. induction k as [|k IH]; cbn [grown]; intros H; [trivial|]. rewrite IH; trivial. Qed.

Lemma near_pos sh m i j : i < fst sh -> j < snd sh -> 1 <= near sh m i j ->
  exists i' j', i' < fst sh /\ j' < snd sh /\ m i' j' = true /\
    i' <= i + 1 /\ i <= i' + 1 /\ j' <= j + 1 /\ j <= j' + 1.
Proof.
  intros Hi Hj H. rewrite near_nb in H.
  destruct (filter _ offsets) as [|o l] eqn:E; [cbn in H; lia|].
  assert (Ho : In o (filter (fun o => m (fst (nb sh i j o)) (snd (nb sh i j o))) offsets)) by (rewrite E; now left).
  apply filter_In in Ho as [Ho Hm]. apply off_bound in Ho as [B1 B2].
  pose proof (mirror_bound (fst sh) i (fst o) Hi B1). pose proof (mirror_bound (snd sh) j (snd o) Hj B2).
  exists (fst (nb sh i j o)), (snd (nb sh i j o)). cbn [nb fst snd] in *. intuition lia.
Qed.

Lemma grown_local sh k m : forall i j, i < fst sh -> j < snd sh -> grown sh k m i j = true ->
  exists i' j', i' < fst sh /\ j' < snd sh /\ m i' j' = true /\
    i' <= i + k /\ i <= i' + k /\ j' <= j + k /\ j <= j' + k.
Proof.
  induction k as [|k IH]; intros i j Hi Hj H.
  - exists i, j. cbn in H. repeat split; trivial; lia.
  - cbn [grown] in H. apply orb_true_iff in H as [H|H].
    + destruct (IH i j Hi Hj H) as (i' & j' & H1). exists i', j'. intuition lia.
    + apply Nat.leb_le in H.
      destruct (near_pos sh (grown sh k m) i j Hi Hj) as (i1 & j1 & A & B & M & C); [lia|].
      destruct (IH i1 j1 A B M) as (i' & j' & H1). exists i', j'. intuition lia.
Qed.

Lemma filter_le {A} (f g : A -> bool) l : (forall x, In x l -> f x = true -> g x = true) ->
  List.length (filter f l) <= List.length (filter g l).
Proof.
  induction l as [|a l IH]; intros H; cbn; [lia|].
  assert (List.length (filter f l) <= List.length (filter g l)) by (apply IH; intros; apply H; trivial; now right).
  destruct (f a) eqn:F.
  - rewrite (H a) by (trivial; now left). cbn. lia.
  - destruct (g a); cbn; lia.
Qed.

Lemma near_mono sh f g i j : i < fst sh -> j < snd sh ->
  (forall x y, x < fst sh -> y < snd sh -> f x y = true -> g x y = true) ->
  near sh f i j <= near sh g i j.
Proof.
  intros Hi Hj H. rewrite !near_nb. apply filter_le. intros o Ho.
  apply off_bound in Ho as [B1 B2].
  pose proof (mirror_bound (fst sh) i (fst o) Hi B1). pose proof (mirror_bound (snd sh) j (snd o) Hj B2).
  apply H; cbn [nb fst snd] in *; intuition lia.
Qed.

Lemma grown_mono sh k f g :
  (forall x y, x < fst sh -> y < snd sh -> f x y = true -> g x y = true) ->
  forall x y, x < fst sh -> y < snd sh -> grown sh k f x y = true -> grown sh k g x y = true.
Proof.
  intros H. induction k as [|k IH]; intros x y Hx Hy; cbn [grown]; [now apply H|].
  rewrite !orb_true_iff. intros [E|E]; [left; now apply IH|right].
  apply Nat.leb_le in E. apply Nat.leb_le. eapply Nat.le_trans; [exact E|]. now apply near_mono.
Qed.

(** A single set cell is seen at most twice by another cell, on arrays with at least two
    rows and two columns. *)
Lemma single_seen sh i j a b : 2 <= fst sh -> 2 <= snd sh -> i < fst sh -> j < snd sh ->
  (i <> a \/ j <> b) ->
  List.length (filter (fun o => (fst (nb sh i j o) =? a) && (snd (nb sh i j o) =? b)) offsets) <= 2.
Proof.
  intros N M Hi Hj D. destruct sh as [n m]. cbn [fst snd] in *.
  set (row := fun o => Z.to_nat (mirror (Z.of_nat n) (Z.of_nat i + o))).
  set (col := fun o => Z.to_nat (mirror (Z.of_nat m) (Z.of_nat j + o))).
  assert (R : (row (-1) = a -> row 1 <> a)%Z /\ (i = a \/ (row 0 <> a)%Z)).
  { unfold row, mirror.
    repeat match goal with |- context [Z.ltb ?x ?y] => destruct (Z.ltb_spec x y)
      | |- context [Z.leb ?x ?y] => destruct (Z.leb_spec x y) end; lia. }
  assert (R' : (col (-1) = b -> col 1 <> b)%Z /\ (j = b \/ (col 0 <> b)%Z)).
  { unfold col, mirror.
    repeat match goal with |- context [Z.ltb ?x ?y] => destruct (Z.ltb_spec x y)
      | |- context [Z.leb ?x ?y] => destruct (Z.leb_spec x y) end; lia. }
  assert (E : forall o, (fst (nb (n, m) i j o) =? a) && (snd (nb (n, m) i j o) =? b) = (row (fst o) =? a) && (col (snd o) =? b)) by reflexivity.
  rewrite (filter_ext _ _ E). unfold offsets. cbn [filter fst snd].
  destruct R as [R1 R2], R' as [R1' R2'].
  destruct (Nat.eqb_spec (row (-1)%Z) a), (Nat.eqb_spec (row 0%Z) a), (Nat.eqb_spec (row 1%Z) a),
    (Nat.eqb_spec (col (-1)%Z) b), (Nat.eqb_spec (col 0%Z) b), (Nat.eqb_spec (col 1%Z) b);
    cbn [andb List.length]; intuition (try lia).
Qed.

Lemma isolated_near sh m i j : isolated sh m -> 2 <= fst sh -> 2 <= snd sh -> i < fst sh -> j < snd sh ->
  m i j = false -> near sh m i j <= 2.
Proof.
  intros I N M Hi Hj F. rewrite near_nb.
  destruct (filter (fun o => m (fst (nb sh i j o)) (snd (nb sh i j o))) offsets) as [|o l] eqn:E; [cbn; lia|].
  rewrite <- E.
  assert (Ho : In o (filter (fun o => m (fst (nb sh i j o)) (snd (nb sh i j o))) offsets)) by (rewrite E; now left).
  apply filter_In in Ho as [Ho Hm].
  set (a := fst (nb sh i j o)) in *. set (b := snd (nb sh i j o)) in *.
  apply off_bound in Ho as [B1 B2].
  pose proof (mirror_bound (fst sh) i (fst o) Hi B1) as Q1. pose proof (mirror_bound (snd sh) j (snd o) Hj B2) as Q2.
  eapply Nat.le_trans; [|apply (single_seen sh i j a b); trivial].
  - apply filter_le. intros o' Ho' Hm'. apply off_bound in Ho' as [B1' B2'].
    pose proof (mirror_bound (fst sh) i (fst o') Hi B1') as Q1'. pose proof (mirror_bound (snd sh) j (snd o') Hj B2') as Q2'.
    cbn [nb fst snd] in *.
    destruct (Nat.eq_dec (Z.to_nat (mirror (Z.of_nat (fst sh)) (Z.of_nat i + fst o'))) a) as [Ea|Na];
    destruct (Nat.eq_dec (Z.to_nat (mirror (Z.of_nat (snd sh)) (Z.of_nat j + snd o'))) b) as [Eb|Nb].
    + rewrite Ea, Eb, !Nat.eqb_refl. reflexivity.
    + exfalso. assert (Hne : (a, b) <> (Z.to_nat (mirror (Z.of_nat (fst sh)) (Z.of_nat i + fst o')), Z.to_nat (mirror (Z.of_nat (snd sh)) (Z.of_nat j + snd o')))) by congruence.
      apply I in Hne; trivial; unfold a, b in *; cbn [nb fst snd] in *; lia.
    + exfalso. assert (Hne : (a, b) <> (Z.to_nat (mirror (Z.of_nat (fst sh)) (Z.of_nat i + fst o')), Z.to_nat (mirror (Z.of_nat (snd sh)) (Z.of_nat j + snd o')))) by congruence.
      apply I in Hne; trivial; unfold a, b in *; cbn [nb fst snd] in *; lia.
    + exfalso. assert (Hne : (a, b) <> (Z.to_nat (mirror (Z.of_nat (fst sh)) (Z.of_nat i + fst o')), Z.to_nat (mirror (Z.of_nat (snd sh)) (Z.of_nat j + snd o')))) by congruence.
      apply I in Hne; trivial; unfold a, b in *; cbn [nb fst snd] in *; lia.
  - destruct (Nat.eq_dec i a) as [e|]; [|now left]. right. intros e'. rewrite e, e' in F. congruence.
Qed.

Lemma near_agree sh f g i j : i < fst sh -> j < snd sh ->
  (forall x y, x < fst sh -> y < snd sh -> f x y = g x y) -> near sh f i j = near sh g i j.
Proof.
  intros Hi Hj H. apply Nat.le_antisymm; apply near_mono; trivial; intros x y Hx Hy; rewrite H; trivial.
Qed.

Lemma grown_isolated sh k m : isolated sh m -> 2 <= fst sh -> 2 <= snd sh ->
  forall i j, i < fst sh -> j < snd sh -> grown sh k m i j = m i j.
Proof.
  intros I N M. induction k as [|k IH]; intros i j Hi Hj; cbn [grown]; [reflexivity|].
  rewrite IH by trivial. destruct (m i j) eqn:F; [reflexivity|]. cbn [orb].
  rewrite (near_agree sh _ m) by trivial.
  pose proof (isolated_near sh m i j I N M Hi Hj F). apply Nat.leb_gt. lia.
Qed.
