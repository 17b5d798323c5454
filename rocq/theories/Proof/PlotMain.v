(** C51-C53 and C75: plotting. *)
From Coq Require Import ZArith List Bool String Arith Lia Permutation.
From Verif.Model Require Import Py Chunk Plot.
From Verif.Spec Require Import Plot.
From Verif.Proof Require Import Plot.
Import ListNotations.
Local Open Scope nat_scope.

(** C51: with one to three distinct prime factors, the largest of them... *)
Lemma C51_largest_prime_factor_lm : forall (n : nat) (P : list nat),
  2 <= n -> prime_factors n P -> List.length P <= 3 ->
  prime_factor (primes n) n /\ forall p, prime_factor p n -> p <= primes n.
Proof.
  intros n P Hn HP HL. destruct (prime_dec n Hn) as [Hp|Hne].
  - rewrite primes_prime by (apply prims_nil; auto).
    split; [split; [assumption|apply Nat.divide_refl]|].
    intros p [_ Hd]. apply Nat.divide_pos_le in Hd; lia.
  - assert (Hnp : ~ prime n) by (intros Hp; apply Hne, prims_nil; auto).
    pose proof (prims_factors n P Hn HP Hnp) as HPm.
    pose proof (Permutation_length HPm) as HLL.
    destruct (primes_few n Hne) as [H1 H2]; [lia|].
    split; [now apply prims_spec in H1|].
    intros p Hpf. apply H2. apply (Permutation_in _ HPm). now apply HP.
Qed.

(** ... with four or more, the product of the two largest... *)
Lemma C51_two_largest_lm : forall (n : nat) (P : list nat),
  2 <= n -> prime_factors n P -> 4 <= List.length P ->
  exists p q, prime_factor p n /\ prime_factor q n /\ p < q /\ primes n = p * q /\
    forall r, prime_factor r n -> r = q \/ r <= p.
Proof.
  intros n P Hn HP HL.
  assert (Hnp : ~ prime n).
  { intros Hp. rewrite (prime_one_factor n P Hp HP) in HL. simpl in HL. lia. }
  pose proof (prims_factors n P Hn HP Hnp) as HPm.
  pose proof (Permutation_length HPm) as HLL.
  destruct (primes_many n) as (l & p & q & E & Ep & Hpq & Hl); [lia|].
  assert (Hp : In p (prims n)) by (rewrite E; apply in_or_app; right; simpl; auto).
  assert (Hq : In q (prims n)) by (rewrite E; apply in_or_app; right; simpl; auto).
  exists p, q. apply prims_spec in Hp, Hq. repeat split; try apply Hp; try apply Hq; try assumption.
  intros r Hr. apply HP in Hr. apply (Permutation_in _ HPm) in Hr. rewrite E in Hr.
  apply in_app_or in Hr. destruct Hr as [Hr|[<-|[<-|[]]]]; [right; apply Hl in Hr; lia|auto|auto].
Qed.

(** ... 0 and 1 are returned unchanged, and the answer always divides [n]. *)
Lemma C51_divides_lm : forall n : nat,
  Nat.divide (primes n) n /\ (n <= 1 -> primes n = n).
Proof.
  intros n. split; [apply primes_divides|]. intros H. apply primes_prime, prims_nil. lia.
Qed.

Lemma subplots_room n : 1 <= n -> (Z.of_nat n <= 2 ^ 53)%Z ->
  (1 <= fst (subplots n) /\ 2 <= snd (subplots n) /\
   Z.of_nat n <= fst (subplots n) * snd (subplots n) /\
   (composite n -> fst (subplots n) * snd (subplots n) = Z.of_nat n))%Z.
Proof.
  intros H1 HB. destruct (Nat.eq_dec n 3) as [->|H3].
  { change (subplots 3) with (1, 3)%Z. simpl. repeat split; lia. }
  unfold subplots. destruct (n =? 3) eqn:E3; [apply Nat.eqb_eq in E3; lia|].
  destruct (primes n =? n) eqn:Ep; cbn [fst snd].
  - destruct (prime_grid (Z.of_nat n)) as (Ha & Hb & Hc); [lia|].
    repeat split; [assumption..|]. intros Hcomp. exfalso.
    apply composite_not_prime in Hcomp. destruct Hcomp as [Hn Hp].
    apply Nat.eqb_eq in Ep. pose proof (primes_range n Hn Hp). lia.
  - apply Nat.eqb_neq in Ep.
    assert (Hn : 2 <= n).
    { destruct (le_lt_dec 2 n) as [|Hlt]; [assumption|]. exfalso; apply Ep.
      apply primes_prime, prims_nil. lia. }
    assert (Hp : ~ prime n) by (intros Hp; apply Ep, primes_prime, prims_nil; auto).
    pose proof (primes_range n Hn Hp) as Hr. destruct (primes_divides n) as [k Hk].
    assert (Hm : n mod primes n = 0) by (apply Nat.mod_divide; [lia|exists k; assumption]).
    assert (Hd : n / primes n = k) by (rewrite Hk at 1; apply Nat.div_mul; lia).
    rewrite Hm, Hd. assert (1 <= k) by nia. repeat split; try lia; nia.
Qed.

(** C52: the grid has room for [n] panels, and is full when [n] is composite. *)
Lemma C52_grid_has_room_lm : forall n : nat,
  1 <= n -> (Z.of_nat n <= 2 ^ 53)%Z ->
  (1 <= fst (subplots n) /\ 1 <= snd (subplots n) /\
   Z.of_nat n <= fst (subplots n) * snd (subplots n) /\
   (composite n -> fst (subplots n) * snd (subplots n) = Z.of_nat n))%Z.
Proof.
  intros n H1 HB. destruct (subplots_room n H1 HB) as (Ha & Hb & Hc & Hd).
  repeat split; try assumption; lia.
Qed.

Lemma combine_nth_error {A B} (l : list A) : forall (l' : list B) k a b,
  nth_error l k = Some a -> nth_error l' k = Some b -> nth_error (combine l l') k = Some (a, b).
Proof.
  induction l as [|x l IH]; intros [|y l'] [|k] a b; simpl; try discriminate.
  - now intros [= ->] [= ->].
  - apply IH.
Qed.

Lemma nth_error_seq s n k : k < n -> nth_error (seq s n) k = Some (s + k).
Proof.
  intros H. rewrite nth_error_nth' with (d := 0) by (now rewrite seq_length).
  now rewrite seq_nth.
Qed.

Lemma draw_auto {component} first (comps : list component) :
  1 <= List.length comps -> (Z.of_nat (List.length comps) <= 2 ^ 53)%Z ->
  exists axs calls, draw_panels first None comps = Ok (axs, calls) /\
    List.length calls = List.length comps /\
    forall k c, nth_error comps k = Some c -> nth_error calls k = Some (first + k, c).
Proof.
  intros H1 HB. destruct (subplots_room _ H1 HB) as (Ha & Hb & Hc & _).
  unfold draw_panels. destruct (subplots (List.length comps)) as [r c]. cbn [fst snd] in *.
  unfold fig_subplots.
  replace ((r <? 1) || (c <? 1))%Z with false
    by (symmetry; apply orb_false_iff; split; apply Z.ltb_ge; lia).
  replace ((r =? 1) && (c =? 1))%Z with false
    by (symmetry; apply andb_false_iff; right; apply Z.eqb_neq; lia).
  cbn [bind]. unfold np_size. cbn [ravel]. rewrite seq_length.
  replace (Z.to_nat (r * c) <? List.length comps) with false
    by (symmetry; apply Nat.ltb_ge; lia).
  eexists; eexists; split; [reflexivity|]. split.
  - rewrite combine_length, seq_length. lia.
  - intros k x Hk. apply combine_nth_error; [|assumption].
    apply nth_error_seq.
    assert (k < List.length comps) by (apply nth_error_Some; congruence). lia.
Qed.

(** C52: automatic axes never lead to an error; component k is drawn once, in the k-th new
    cell, row by row. *)
Lemma C52_automatic_axes_lm : forall (component : Type) (first : nat) (basis : list component),
  1 <= List.length basis -> (Z.of_nat (List.length basis) <= 2 ^ 53)%Z ->
  exists axs calls, autopsf first None basis = Ok (axs, calls) /\
    List.length calls = List.length basis /\
    forall k c, nth_error basis k = Some c -> nth_error calls k = Some (first + k, c).
Proof. intros. now apply draw_auto. Qed.

(** C52: the same for the coefficients, unless the PSF has one component only, in which
    case there is nothing to plot. *)
Lemma C52_automatic_axes_coef_lm : forall (component : Type) (first : nat)
  (fields : list (option component)),
  2 <= List.length fields -> (Z.of_nat (List.length fields) <= 2 ^ 53)%Z ->
  (exists axs calls, autopsf_coef first None fields = Ok (axs, calls) /\
    List.length calls = List.length fields /\
    forall k c, nth_error fields k = Some c -> nth_error calls k = Some (first + k, c)) /\
  forall given, @autopsf_coef component first given [None] = Raise NoDataToPlot.
Proof.
  intros component first fields H1 H2. split; [|reflexivity].
  assert (E : autopsf_coef first None fields = draw_panels first None fields).
  { destruct fields as [|[x|] [|y l]]; try reflexivity; simpl in H1; lia. }
  rewrite E. apply draw_auto; [lia|assumption].
Qed.

(** C75: with explicit axes, component k is drawn on the k-th of them in row-major order,
    those left over are not touched, and the axes are returned. *)
Lemma C75_explicit_axes_lm : forall (component : Type) (first : nat) (axs : axes)
  (basis : list component),
  List.length basis <= np_size axs ->
  exists calls, autopsf first (Some axs) basis = Ok (axs, calls) /\
    List.length calls = List.length basis /\
    forall k c a, nth_error basis k = Some c -> nth_error (ravel axs) k = Some a ->
      nth_error calls k = Some (a, c).
Proof.
  intros component first axs basis H. unfold autopsf, draw_panels. cbn [bind].
  replace (np_size axs <? List.length basis) with false by (symmetry; apply Nat.ltb_ge; lia).
  eexists; split; [reflexivity|]. split.
  - rewrite combine_length. unfold np_size in H. lia.
  - intros k c a Hk Ha. now apply combine_nth_error.
Qed.

(** C75: too few axes: nothing is drawn; ValueError for a sequence of axes, but TypeError
    for a single Axes object, because building the message takes its length. *)
Lemma C75_too_few_axes_lm : forall (component : Type) (first : nat) (basis : list component),
  (forall len flat, List.length flat < List.length basis ->
     autopsf first (Some (ManyAxes len flat)) basis = Raise ValueError) /\
  (forall a, 2 <= List.length basis ->
     autopsf first (Some (OneAxes a)) basis = Raise TypeError).
Proof.
  intros component first basis. split.
  - intros len flat H. unfold autopsf, draw_panels. cbn [bind]. unfold np_size. cbn [ravel].
    now replace (List.length flat <? List.length basis) with true by (symmetry; now apply Nat.ltb_lt).
  - intros a H. unfold autopsf, draw_panels. cbn [bind]. unfold np_size. cbn [ravel List.length].
    now replace (1 <? List.length basis) with true by (symmetry; now apply Nat.ltb_lt).
Qed.

(** C53: a name runs a method iff it is the name of a public method; then that method
    runs, with the given arguments; every other string raises ValueError; None runs
    imshow. *)
Lemma C53_dispatch_lm : forall (kwargs answer : Type) (run : string -> kwargs -> res answer) (kw : kwargs),
  plot_call run None kw = run "imshow"%string kw /\
  (forall s, In s ["imshow"; "autopsf"; "autopsf_coef"]%string ->
     plot_call run (Some s) kw = run s kw) /\
  (forall s, ~ In s ["imshow"; "autopsf"; "autopsf_coef"]%string ->
     plot_call run (Some s) kw = Raise ValueError).
Proof.
  intros kwargs answer run kw. split; [reflexivity|]. split.
  - intros s [<-|[<-|[<-|[]]]]; reflexivity.
  - intros s Hs. unfold plot_call. destruct (private s) eqn:Ep; [reflexivity|].
    cbn [orb]. destruct (getattr s) as [v|] eqn:Eg; [|reflexivity].
    destruct (String.eqb s "") eqn:E0.
    { apply String.eqb_eq in E0. subst s. vm_compute in Eg. discriminate. }
    rewrite Eg. unfold getattr, plot_attributes in Eg. cbn [find fst snd option_map] in Eg.
    repeat match type of Eg with
    | context [String.eqb ?a s] =>
        let H := fresh in
        destruct (String.eqb a s) eqn:H;
        [apply String.eqb_eq in H; subst s; cbn in Eg; injection Eg as <-;
         first [reflexivity | exfalso; apply Hs; simpl; tauto]|]
    end. discriminate.
Qed.
