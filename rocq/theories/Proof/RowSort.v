(** A sort of catalogue rows by identifier, then by the other fields. *)
From Coq Require Import ZArith List Bool Arith Reals Lia Lra Permutation.
From Verif.Model Require Import Py Transparency.
From Verif.Spec Require Import Stopped.
Import ListNotations.
Set Bullet Behavior "Strict Subproofs".

Record ordering {A} (c : A -> A -> comparison) : Prop := {
  or_eq : forall a b, c a b = Eq -> a = b;
  or_refl : forall a, c a a = Eq;
  or_sym : forall a b, c a b = Gt -> c b a = Lt;
  or_asym : forall a b, c a b = Lt -> c b a = Gt;
  or_trans : forall a b d, c a b = Lt -> c b d = Lt -> c a d = Lt }.

Definition lex {A B} (c : A -> A -> comparison) (d : B -> B -> comparison) (p q : A * B) : comparison :=
  match c (fst p) (fst q) with Eq => d (snd p) (snd q) | o => o end.

Lemma lex_ordering {A B} (c : A -> A -> comparison) (d : B -> B -> comparison) : ordering c -> ordering d -> ordering (lex c d).
Proof.
  intros [C1 C2 C3 C4 C5] [D1 D2 D3 D4 D5]. constructor; unfold lex.
  - intros [a b] [a' b']. cbn. destruct (c a a') eqn:E; try discriminate. intros X. now rewrite (C1 _ _ E), (D1 _ _ X).
  - intros [a b]. cbn. now rewrite C2, D2.
  - intros [a b] [a' b']. cbn. destruct (c a a') eqn:E; try discriminate.
    + apply C1 in E as ->. rewrite C2. apply D3.
    + intros _. now rewrite (C3 _ _ E).
  - intros [a b] [a' b']. cbn. destruct (c a a') eqn:E; try discriminate.
    + apply C1 in E as ->. rewrite C2. apply D4.
    + intros _. now rewrite (C4 _ _ E).
  - intros [a b] [a' b'] [a2 b2]. cbn. destruct (c a a') eqn:E; try discriminate.
    + apply C1 in E as ->. destruct (c a' a2); try discriminate; [apply D5|reflexivity].
    + intros _. destruct (c a' a2) eqn:E2; try discriminate; [apply C1 in E2 as <-; now rewrite E|]. intros _. now rewrite (C5 _ _ _ E E2).
Qed.

Definition cmpR (a b : R) : comparison := match total_order_T a b with inleft (left _) => Lt | inleft (right _) => Eq | inright _ => Gt end.

Lemma cmpR_ordering : ordering cmpR.
Proof.
  constructor; unfold cmpR.
  - intros a b. destruct (total_order_T a b) as [[H|H]|H]; try discriminate. now intros.
  - intros a. destruct (total_order_T a a) as [[H|H]|H]; try reflexivity; lra.
  - intros a b. destruct (total_order_T a b) as [[H|H]|H]; try discriminate. destruct (total_order_T b a) as [[X|X]|X]; try reflexivity; lra.
  - intros a b. destruct (total_order_T a b) as [[H|H]|H]; try discriminate. destruct (total_order_T b a) as [[X|X]|X]; try reflexivity; lra.
  - intros a b d. destruct (total_order_T a b) as [[H|H]|H]; try discriminate. destruct (total_order_T b d) as [[X|X]|X]; try discriminate.
    destruct (total_order_T a d) as [[Y|Y]|Y]; try reflexivity; lra.
Qed.

Lemma cmpZ_ordering : ordering Z.compare.
Proof.
  constructor.
  - apply Z.compare_eq.
  - apply Z.compare_refl.
  - intros a b H. rewrite Z.compare_antisym, H. reflexivity.
  - intros a b H. rewrite Z.compare_antisym, H. reflexivity.
  - intros a b d. rewrite !Z.compare_lt_iff. lia.
Qed.

Definition cmpB (a b : bool) : comparison := match a, b with false, true => Lt | true, false => Gt | _, _ => Eq end.
Lemma cmpB_ordering : ordering cmpB.
Proof. constructor; intros; repeat match goal with b : bool |- _ => destruct b end; cbn in *; congruence. Qed.

Definition key (r : row) : Z * (R * (R * (R * bool))) := (r_id r, (r_x r, (r_y r, (r_flux r, r_det r)))).
Definition cmp_row (r r' : row) : comparison := lex Z.compare (lex cmpR (lex cmpR (lex cmpR cmpB))) (key r) (key r').

Lemma cmp_row_ordering : ordering cmp_row.
Proof.
  pose proof (lex_ordering _ _ cmpZ_ordering (lex_ordering _ _ cmpR_ordering (lex_ordering _ _ cmpR_ordering (lex_ordering _ _ cmpR_ordering cmpB_ordering)))) as [C1 C2 C3 C4 C5].
  constructor; unfold cmp_row; eauto. intros [] [] H. apply C1 in H. unfold key in H. cbn in H. injection H as -> -> -> -> ->. reflexivity.
Qed.

Fixpoint put (r : row) (l : list row) : list row :=
  match l with
  | [] => [r]
  | a :: t => match cmp_row r a with Gt => a :: put r t | _ => r :: l end
  end.

Definition row_sort (l : list row) : list row := fold_right put [] l.

Lemma put_perm r l : Permutation (put r l) (r :: l).
Proof.
  induction l as [|a t IH]; [reflexivity|]. cbn. destruct (cmp_row r a); try reflexivity.
  transitivity (a :: r :: t); [now constructor|constructor].
Qed.

Lemma row_sort_perm l : Permutation (row_sort l) l.
Proof. induction l as [|a t IH]; [reflexivity|]. cbn. transitivity (a :: row_sort t); [apply put_perm|now constructor]. Qed.

Lemma put_swap a b l : put a (put b l) = put b (put a l).
Proof.
  destruct cmp_row_ordering as [C1 C2 C3 C4 C5].
  induction l as [|c t IH]; cbn.
  - destruct (cmp_row a b) eqn:E.
    + apply C1 in E as ->. now rewrite C2.
    + now rewrite (C4 _ _ E).
    + now rewrite (C3 _ _ E).
  - destruct (cmp_row a c) eqn:Ea; destruct (cmp_row b c) eqn:Eb; cbn; rewrite ?Ea, ?Eb.
    + apply C1 in Ea, Eb. subst. reflexivity.
    + apply C1 in Ea. subst. try rewrite (C4 _ _ Eb). cbn. now rewrite ?Eb, ?C2.
    + apply C1 in Ea. subst. now rewrite ?Eb.
    + apply C1 in Eb. subst. rewrite ?(C4 _ _ Ea). cbn. now rewrite ?Ea, ?C2.
    + destruct (cmp_row a b) eqn:E.
      * apply C1 in E. subst. now rewrite C2.
      * rewrite (C4 _ _ E). cbn. now rewrite ?Eb.
      * rewrite (C3 _ _ E). cbn. now rewrite ?Ea.
    + assert (X : cmp_row a b = Lt) by (apply (C5 _ c); [exact Ea|now apply C3]). rewrite ?(C4 _ _ X), ?X; cbn; now rewrite ?Ea, ?Eb.
    + apply C1 in Eb. subst. now rewrite ?Ea.
    + assert (X : cmp_row b a = Lt) by (apply (C5 _ c); [exact Eb|now apply C3]). rewrite ?(C4 _ _ X), ?X; cbn; now rewrite ?Ea, ?Eb.
    + now rewrite IH.
Qed.

Lemma row_sort_canonical : canonical row_sort.
Proof.
  intros l l' P. induction P as [|a l l' _ IH|a b l|l l' l2 _ IH1 _ IH2]; [reflexivity| | |congruence].
  - change (put a (row_sort l) = put a (row_sort l')). now rewrite IH.
  - change (put b (put a (row_sort l)) = put a (put b (row_sort l))). apply put_swap.
Qed.
