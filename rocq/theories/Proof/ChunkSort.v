(** Lemmas about the ordering step of [chunk_it]. *)
From Coq Require Import ZArith List Bool Lia Permutation Sorted.
From Verif.Model Require Import Py Chunk.
From Verif.Spec Require Import Lex.
From Verif.Proof Require Import Chunk.
Import ListNotations.
Local Open Scope Z_scope.

Section Perm.
Variable A : Type.
Variable eqb : A -> A -> bool.
Variable ltb : A -> A -> option bool.

Lemma insert_perm x l : forall r, insert_asc eqb ltb x l = Some r -> Permutation r (x :: l).
Proof.
  induction l as [|y l IH]; intros r H; cbn in H.
  - injection H as <-. auto.
  - destruct (list_lt eqb ltb x y) as [[|]|]; [|destruct (insert_asc eqb ltb x l) as [r'|]; [|discriminate]|discriminate].
    + injection H as <-. auto.
    + cbn in H. injection H as <-. specialize (IH _ eq_refl).
      rewrite IH. apply perm_swap.
Qed.

Lemma sorted_from_perm l : forall acc r, sorted_from eqb ltb acc l = Some r -> Permutation r (acc ++ l).
Proof.
  induction l as [|x l IH]; intros acc r H; cbn in H.
  - injection H as <-. rewrite app_nil_r. auto.
  - destruct (insert_asc eqb ltb x acc) as [acc'|] eqn:E; [|discriminate].
    rewrite (IH _ _ H). rewrite (insert_perm _ _ _ E). cbn. apply Permutation_middle.
Qed.

Lemma sorted_reverse_perm l r : sorted_reverse eqb ltb l = Some r -> Permutation r l.
Proof.
  unfold sorted_reverse. destruct (sorted_from eqb ltb [] (rev l)) as [s|] eqn:E; [|discriminate].
  cbn. intros H; injection H as <-. rewrite <- Permutation_rev.
  rewrite (sorted_from_perm _ _ _ E). cbn. symmetry. apply Permutation_rev.
Qed.

Lemma chunk_it_made fuel sq num cs : chunks_made fuel sq num = Some (Ok cs) ->
  exists out, chunk_it eqb ltb fuel sq num = Some (Ok out) /\ Permutation out cs.
Proof.
  intros H. unfold chunk_it. rewrite H.
  destruct (sorted_reverse eqb ltb cs) as [s|] eqn:E.
  - exists s. split; [reflexivity|]. now apply sorted_reverse_perm.
  - exists cs. auto.
Qed.
End Perm.

(** Unorderable items *)
Lemma NoDup_tail {A} (l m : list A) : NoDup (l ++ m) -> NoDup m.
Proof. induction l as [|a l IH]; cbn; [auto|]. intros H. inversion H; auto. Qed.

Lemma unorderable {A} (eqb : A -> A -> bool) ltb cs :
  (forall a b, ltb a b = None) -> (forall a b, eqb a b = true -> a = b) ->
  NoDup (concat cs) -> (forall c, In c cs -> c <> []) ->
  sorted_reverse eqb ltb cs = None \/ sorted_reverse eqb ltb cs = Some cs.
Proof.
  intros Hl He Hd Hne. unfold sorted_reverse.
  destruct (rev cs) as [|x [|y l]] eqn:E.
  - right. cbn. f_equal. symmetry. rewrite <- (rev_involutive cs), E. reflexivity.
  - right. cbn. f_equal. rewrite <- (rev_involutive cs), E. reflexivity.
  - left. cbn.
    assert (cs = rev l ++ [y] ++ [x]) as Ec.
    { rewrite <- (rev_involutive cs), E. cbn. now rewrite <- app_assoc. }
    assert (x <> []) as Hx by (apply Hne; rewrite Ec; apply in_or_app; right; cbn; auto).
    assert (y <> []) as Hy by (apply Hne; rewrite Ec; apply in_or_app; right; cbn; auto).
    destruct x as [|a x]; [congruence|]. destruct y as [|b y]; [congruence|].
    cbn [list_lt]. destruct (eqb b a) eqn:Eb.
    + exfalso. apply He in Eb. subst b. rewrite Ec in Hd.
      rewrite !concat_app in Hd. cbn in Hd. rewrite !app_nil_r in Hd.
      apply NoDup_tail in Hd. inversion Hd as [|? ? Hni]. apply Hni.
      apply in_or_app. right. left. reflexivity.
    + rewrite Hl. reflexivity.
Qed.

(** Totally ordered items *)
Section Total.
Variable A : Type.
Variable eqb : A -> A -> bool.
Variable ltb : A -> A -> option bool.
Variable lt : A -> A -> Prop.
Hypothesis eqb_spec : forall a b, eqb a b = true <-> a = b.
Hypothesis ltb_spec : forall a b, a <> b -> (ltb a b = Some true /\ lt a b) \/ (ltb a b = Some false /\ ~ lt a b).
Hypothesis lt_irrefl : forall a, ~ lt a a.
Hypothesis lt_trans : forall a b c, lt a b -> lt b c -> lt a c.
Hypothesis lt_total : forall a b, lt a b \/ a = b \/ lt b a.

Lemma list_lt_spec l1 : forall l2,
  (list_lt eqb ltb l1 l2 = Some true /\ lex lt l1 l2) \/
  (list_lt eqb ltb l1 l2 = Some false /\ ~ lex lt l1 l2).
Proof.
  induction l1 as [|a l1 IH]; intros [|b l2]; cbn.
  - right. split; auto. intros H; inversion H.
  - left. split; auto. constructor.
  - right. split; auto. intros H; inversion H.
  - destruct (eqb a b) eqn:E.
    + apply eqb_spec in E. subst b. destruct (IH l2) as [[H1 H2]|[H1 H2]]; [left|right]; split; auto.
      * now apply lex_eq.
      * intros H. inversion H; subst; [now apply (lt_irrefl a)|auto].
    + assert (a <> b) as N by (intros ->; destruct (eqb_spec b b) as [_ K]; rewrite K in E; congruence).
      destruct (ltb_spec a b N) as [[H1 H2]|[H1 H2]]; [left|right]; split; auto.
      * now apply lex_lt.
      * intros H. inversion H; subst; congruence.
Qed.

Lemma lex_irrefl l : ~ lex lt l l.
Proof. induction l; intros H; inversion H; subst; auto. eapply lt_irrefl; eauto. Qed.

Lemma lex_trans l1 : forall l2 l3, lex lt l1 l2 -> lex lt l2 l3 -> lex lt l1 l3.
Proof.
  induction l1 as [|a l1 IH]; intros l2 l3 H1 H2; inversion H1; subst; inversion H2; subst;
    try (now constructor); try (apply lex_lt; eauto; fail).
  - apply lex_eq. eauto.
Qed.

Lemma lex_total l1 : forall l2, lex lt l1 l2 \/ l1 = l2 \/ lex lt l2 l1.
Proof.
  induction l1 as [|a l1 IH]; intros [|b l2].
  - auto.
  - left; constructor.
  - right; right; constructor.
  - destruct (lt_total a b) as [H|[->|H]].
    + left; now apply lex_lt.
    + destruct (IH l2) as [H|[->|H]]; [left; now apply lex_eq|auto|right; right; now apply lex_eq].
    + right; right; now apply lex_lt.
Qed.

Definition le (x y : list A) := ~ lex lt y x.

Lemma le_trans x y z : le x y -> le y z -> le x z.
Proof.
  unfold le. intros H1 H2 H3. destruct (lex_total z y) as [H|[->|H]].
  - now apply H2.
  - now apply H1.
  - apply H1. eapply lex_trans; eauto.
Qed.

Lemma lex_le x y : lex lt x y -> le x y.
Proof. intros H G. apply (lex_irrefl x). eapply lex_trans; eauto. Qed.

Lemma insert_total x l : StronglySorted le l ->
  exists r, insert_asc eqb ltb x l = Some r /\ StronglySorted le r.
Proof.
  induction l as [|y l IH]; intros S; cbn.
  - exists [x]. split; auto. repeat constructor.
  - inversion S as [|? ? S' F]; subst.
    destruct (list_lt_spec x y) as [[-> H]|[-> H]].
    + exists (x :: y :: l). split; auto. constructor; auto. constructor; [now apply lex_le|].
      eapply Forall_impl; [|exact F]. intros z Hz. eapply le_trans; [apply lex_le; exact H|exact Hz].
    + destruct (IH S') as [r [Er Sr]]. rewrite Er. cbn. exists (y :: r). split; auto.
      constructor; auto. apply Forall_forall. intros z Hz.
      apply (Permutation_in _ (insert_perm _ _ _ _ _ _ Er)) in Hz. destruct Hz as [<-|Hz].
      * exact H.
      * now apply (proj1 (Forall_forall _ _) F).
Qed.

Lemma sorted_from_total l : forall acc, StronglySorted le acc ->
  exists r, sorted_from eqb ltb acc l = Some r /\ StronglySorted le r.
Proof.
  induction l as [|x l IH]; intros acc S; cbn.
  - eauto.
  - destruct (insert_total x acc S) as [r [-> Sr]]. now apply IH.
Qed.

Lemma sorted_nth l : StronglySorted le l -> forall i j x y, (i < j)%nat ->
  nth_error l i = Some x -> nth_error l j = Some y -> le x y.
Proof.
  induction 1 as [|a l S IH F]; intros i j x y Hij Hi Hj.
  - destruct i; discriminate.
  - destruct j as [|j]; [lia|]. destruct i as [|i]; cbn in *.
    + injection Hi as <-. apply (proj1 (Forall_forall _ _) F). eapply nth_error_In; eauto.
    + apply (IH i j); auto. lia.
Qed.

Lemma nth_error_rev {B} (l : list B) i x : nth_error (rev l) i = Some x ->
  (i < length l)%nat /\ nth_error l (length l - S i) = Some x.
Proof.
  intros H. assert (i < length l)%nat as L.
  { rewrite <- rev_length. apply nth_error_Some. congruence. }
  split; auto. rewrite (nth_error_nth' _ x) by lia. f_equal.
  rewrite <- (rev_nth l x L). erewrite nth_error_nth; eauto.
Qed.

Lemma sorted_reverse_total l : exists r, sorted_reverse eqb ltb l = Some r /\ descending (lex lt) r.
Proof.
  unfold sorted_reverse. destruct (sorted_from_total (rev l) [] (SSorted_nil _)) as [r [-> SS]].
  exists (rev r). split; auto. intros i j x y Hij Hi Hj.
  apply nth_error_rev in Hi as [Li Hi]. apply nth_error_rev in Hj as [Lj Hj].
  apply (sorted_nth r SS (length r - S j) (length r - S i)); auto. lia.
Qed.
End Total.

(** ** The statements used in Props/Chunk.v *)

Lemma partition_all {A} eqb ltb (sq : list A) num fuel :
  Z.of_nat (length sq) < 2 ^ 52 -> 1 <= num <= 2 ^ 52 -> (5 * Z.to_nat num + 1 <= fuel)%nat ->
  exists made out, chunks_made fuel sq num = Some (Ok made) /\ concat made = sq /\
    chunk_it eqb ltb fuel sq num = Some (Ok out) /\ Permutation out made.
Proof.
  intros Hn Hm Hf.
  assert (exists cs, chunks_made fuel sq num = Some (Ok cs) /\ concat cs = sq) as [cs [E C]].
  { destruct sq as [|a sq'].
    - exists []. split; [|reflexivity]. apply made_empty; [cbn; lia|reflexivity|lia].
    - destruct (made_all (a :: sq') num fuel) as [cs [E [C _]]]; auto; try discriminate.
      exists cs. auto. }
  destruct (chunk_it_made A eqb ltb _ _ _ _ E) as [out [Eo P]].
  exists cs, out. auto.
Qed.

Lemma sorted_desc {A} eqb ltb (lt : A -> A -> Prop) sq num fuel out :
  (forall a b, eqb a b = true <-> a = b) ->
  (forall a b, a <> b -> (ltb a b = Some true /\ lt a b) \/ (ltb a b = Some false /\ ~ lt a b)) ->
  (forall a, ~ lt a a) -> (forall a b c, lt a b -> lt b c -> lt a c) ->
  (forall a b, lt a b \/ a = b \/ lt b a) ->
  chunk_it eqb ltb fuel sq num = Some (Ok out) -> descending (lex lt) out.
Proof.
  intros H1 H2 H3 H4 H5 H. unfold chunk_it in H.
  destruct (chunks_made fuel sq num) as [[cs|e]|]; [|discriminate|discriminate].
  destruct (sorted_reverse_total A eqb ltb lt H1 H2 H3 H4 H5 cs) as [r [Er D]].
  rewrite Er in H. injection H as <-. exact D.
Qed.

Lemma unsorted_order {A} eqb ltb (sq : list A) num fuel :
  (forall a b, ltb a b = None) -> (forall a b, eqb a b = true -> a = b) -> NoDup sq ->
  Z.of_nat (length sq) < 2 ^ 52 -> 1 <= num <= Z.of_nat (length sq) ->
  (5 * Z.to_nat num + 1 <= fuel)%nat ->
  exists made, chunks_made fuel sq num = Some (Ok made) /\ concat made = sq /\
    chunk_it eqb ltb fuel sq num = Some (Ok made).
Proof.
  intros Hl He Hd Hn Hm Hf.
  destruct (made_all sq num fuel) as [cs [E [C [Ne _]]]]; auto.
  - destruct sq; [cbn in Hm; lia|discriminate].
  - lia.
  - exists cs. split; [exact E|]. split; [exact C|]. unfold chunk_it. rewrite E.
    destruct (unorderable eqb ltb cs Hl He) as [-> | ->]; auto; [now rewrite C|apply Ne; lia].
Qed.

Lemma negative_never {A} eqb ltb (sq : list A) num :
  sq <> [] -> Z.of_nat (length sq) < 2 ^ 52 -> - 2 ^ 52 <= num < 0 ->
  forall fuel, chunk_it eqb ltb fuel sq num = None.
Proof. intros Hs Hn Hm fuel. unfold chunk_it. now rewrite made_negative. Qed.

Lemma empty_sequence {A} (eqb : A -> A -> bool) ltb num fuel :
  num <> 0 -> chunk_it eqb ltb fuel [] num = Some (Ok []).
Proof. intros H. unfold chunk_it. rewrite made_empty; [reflexivity|cbn; lia|reflexivity|exact H]. Qed.
