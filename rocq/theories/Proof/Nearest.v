(** A nearest-neighbour search by exhaustion has the property assumed of the KD tree; a
    concrete pair of catalogues. *)
From Coq Require Import ZArith List Bool Arith Reals Lia Lra Permutation.
From Verif.Model Require Import Py Transparency.
From Verif.Spec Require Import Transparency.
From Verif.Proof Require Import Transparency TransparencyMain.
Import ListNotations.

Fixpoint argmin (a : pt) (l : list pt) : option (nat * R) :=
  match l with
  | [] => None
  | b :: t => match argmin a t with
              | None => Some (0, dist a b)
              | Some (j, d) => if Rle_dec (dist a b) d then Some (0, dist a b) else Some (S j, d)
              end
  end.

Definition nn_query (X1 X2 : list pt) (r : R) : list (option nat) :=
  map (fun a => match argmin a X2 with
                | Some (j, d) => if Rlt_dec d r then Some j else None
                | None => None
                end) X1.

Lemma argmin_spec a l : match argmin a l with
  | Some (j, d) => exists b, nth_error l j = Some b /\ d = dist a b /\
                     forall j' b', nth_error l j' = Some b' -> (d <= dist a b')%R
  | None => l = []
  end.
Proof.
  induction l as [|b t IH]; [reflexivity|]. cbn [argmin]. destruct (argmin a t) as [(j, d)|].
  - destruct IH as (b0 & E & -> & M). destruct (Rle_dec (dist a b) (dist a b0)) as [H|H].
    + exists b. split; [reflexivity|]. split; [reflexivity|]. intros [|j'] b' E'.
      * cbn in E'. injection E' as <-. lra.
      * cbn in E'. specialize (M j' b' E'). lra.
    + exists b0. split; [exact E|]. split; [reflexivity|]. intros [|j'] b' E'.
      * cbn in E'. injection E' as <-. lra.
      * cbn in E'. exact (M j' b' E').
  - subst t. exists b. split; [reflexivity|]. split; [reflexivity|]. intros [|j'] b' E'.
    + cbn in E'. injection E' as <-. lra.
    + destruct j'; discriminate.
Qed.

Lemma nn_nearest : nearest nn_query.
Proof.
  intros X1 X2 r. split; [apply map_length|]. intros i a E.
  assert (V : nth i (nn_query X1 X2 r) None = match argmin a X2 with Some (j, d) => if Rlt_dec d r then Some j else None | None => None end).
  { apply nth_error_nth. unfold nn_query. now rewrite nth_error_map, E. }
  rewrite V. pose proof (argmin_spec a X2) as S. destruct (argmin a X2) as [(j, d)|].
  - destruct S as (b & Eb & -> & M). destruct (Rlt_dec (dist a b) r) as [H|H].
    + exists b. auto.
    + intros j' b' E'. specialize (M j' b' E'). lra.
  - subst X2. intros [|j] b; discriminate.
Qed.

(** Two sources, and the same two (in the opposite order, shifted) with a third one. *)
Definition cat_a : cat := mkcat false false [mkrow 0 0 1 0 false; mkrow 10 0 10 0 false].
Definition cat_b : cat :=
  mkcat false false [mkrow 10 1 100 0 false; mkrow 0 1 10 0 false; mkrow 77 0 5 0 false].

Ltac far := unfold dist; cbn [xy r_x r_y fst snd]; apply sqrt_lt_1_alt; split; lra.

Lemma ab_matched query i j : nearest query ->
  (matched query cat_a cat_b i j <-> (i = 0 /\ j = 1) \/ (i = 1 /\ j = 0)).
Proof.
  intros N.
  assert (H2 : forall a b, ((fst a - fst b) ^ 2 + (snd a - snd b) ^ 2 < 4)%R -> (dist a b < 2)%R).
  { intros a b H. unfold dist. replace 2%R with (sqrt (2 ^ 2)) by (apply sqrt_pow2; lra).
    apply sqrt_lt_1_alt. pose proof (pow2_ge_0 (fst a - fst b)). pose proof (pow2_ge_0 (snd a - snd b)). lra. }
  assert (M01 : matched query cat_a cat_b 0 1).
  { eapply C44_strict_nearest_lm; [exact N|reflexivity|reflexivity| | |].
    - apply H2. cbn. lra.
    - intros [|[|[|j']]] b' E Hn; try (destruct j'; discriminate); try lia; cbn in E; injection E as <-; far.
    - intros [|[|j']] b' E Hn; try (destruct j'; discriminate); try lia; cbn in E; injection E as <-; far. }
  assert (M10 : matched query cat_a cat_b 1 0).
  { eapply C44_strict_nearest_lm; [exact N|reflexivity|reflexivity| | |].
    - apply H2. cbn. lra.
    - intros [|[|[|j']]] b' E Hn; try (destruct j'; discriminate); try lia; cbn in E; injection E as <-; far.
    - intros [|[|j']] b' E Hn; try (destruct j'; discriminate); try lia; cbn in E; injection E as <-; far. }
  split.
  - intros M. destruct (mutual_bounds query N _ _ _ _ _ M) as (Hi & _). cbn in Hi.
    destruct i as [|[|]]; [left|right|lia]; (split; [reflexivity|]).
    + exact (mutual_fun_r query _ _ _ _ _ _ M M01).
    + exact (mutual_fun_r query _ _ _ _ _ _ M M10).
  - intros [(-> & ->)|(-> & ->)]; trivial.
Qed.

Lemma ab_common query : nearest query -> common query cat_a [cat_b] [0; 1].
Proof.
  intros N. split; [repeat constructor; cbn; intuition lia|]. split.
  - intros [|[|a]] [|[|b]] i i' H Ea Eb; try lia; try (destruct a; discriminate); try (destruct b; discriminate);
      cbn in Ea, Eb; injection Ea as <-; injection Eb as <-; lia.
  - intros i. cbn [rows cat_a length]. split.
    + intros [<-|[<-|[]]]; (split; [lia|]); intros c [<-|[]].
      * exists 1. apply ab_matched; auto.
      * exists 0. apply ab_matched; auto.
    + intros (Hi & _). cbn. lia.
Qed.
