(** C29-C31: source detection and selection. *)
From Coq Require Import ZArith List Bool Arith Reals Lia Lra Permutation Sorting.Sorted.
From Flocq Require Import Core.Raux.
From Verif.Model Require Import Py Sources.
From Verif.Spec Require Import Sources Percentile.
From Verif.Proof Require Import SourcesMain Percentile.
Import ListNotations.
Local Open Scope R_scope.

(** C29: what best_sources returns is not empty, has at most 1800 entries, and consists of
    detected sources, no detection being used twice. *)
Theorem C29_bounded_selection : forall (choice : nat -> list nat) (a : attempts) (m : Z) (l : list src),
  fair_choice choice -> best_sources choice a m = Ok l ->
  exists srcs, detect a m = Ok srcs /\ l <> [] /\ (length l <= 1800)%nat /\ drawn_from l srcs.
Proof. exact C29_bounded_selection_lm. Qed.
Print Assumptions C29_bounded_selection.

(** Six equal sources, and numpy's choice of the first 1800. *)
Definition star : src := mksrc 10 20 9 500 0.
Definition six : attempts := mkattempts (Ok (repeat star 6)) (Ok []) (Ok []) (Ok []).

Example C29_case : fair_choice (fun _ => seq 0 1800) /\ detect six 5 = Ok (repeat star 6) /\
  passes (repeat star 6) star /\ exists l, best_sources (fun _ => seq 0 1800) six 5 = Ok l.
Proof.
  split; [|split; [reflexivity|split]].
  - intros n H. rewrite seq_length. split; [reflexivity|]. split; [apply seq_NoDup|].
    apply Forall_forall. intros k I. apply in_seq in I. simpl in I.
    eapply Nat.lt_le_trans; [exact (proj2 I)|assumption].
  - assert (Q : forall (q v : R) (l : list R), 0 <= q <= 100 -> l <> [] -> (forall x, In x l -> x = v) ->
      percentile q l = v).
    { intros q v l Hq N H. apply Rle_antisym; apply (percentile_between q l v v); auto;
        intros x I; rewrite (H x I); lra. }
    unfold passes. rewrite !(Q _ (INR 9) (map (fun t => INR (s_npix t)) (repeat star 6))), !(Q _ 500 (map s_flux (repeat star 6)));
      try lra; try discriminate; try (simpl; intuition congruence).
    simpl. repeat split; lra.
  - eexists. unfold best_sources. replace (detect six 5) with (Ok (repeat star 6)) by reflexivity. reflexivity.
Qed.

(** C29: if at least 5 (and at most 1800) sources pass the quality cuts, exactly these are
    kept, in their order; if fewer than 5 pass, all the detected sources are kept; in both
    cases 1800 of them are drawn when there are more. *)
Theorem C29_exact_selection : forall (choice : nat -> list nat) (a : attempts) (m : Z)
  (srcs : list src) (f : src -> bool),
  fair_choice choice -> detect a m = Ok srcs -> (forall s, f s = true <-> passes srcs s) ->
  let kept := if (length (filter f srcs) <? 5)%nat then srcs else filter f srcs in
  ((length kept <= 1800)%nat -> best_sources choice a m = Ok kept) /\
  ((1800 < length kept)%nat ->
   exists l, best_sources choice a m = Ok l /\ length l = 1800%nat /\ drawn_from l kept).
Proof. exact C29_exact_selection_lm. Qed.
Print Assumptions C29_exact_selection.

(** The percentile in [passes] (and in C31) is the value found by linear interpolation in the
    sorted list. *)
Theorem C29_percentile : forall q l v, l <> [] -> 0 <= q <= 100 -> (v = percentile q l <-> is_percentile q l v).
Proof. exact C29_percentile_lm. Qed.
Print Assumptions C29_percentile.

Example C29_percentile_case : is_percentile 25 [5; 1; 3] 2.
Proof.
  exists [1; 3; 5], 0%nat, (1 / 2). split.
  - apply perm_trans with [1; 5; 3]; [apply perm_swap|]. apply perm_skip, perm_swap.
  - split; [repeat constructor; lra|]. cbn. repeat split; lra || lia.
Qed.

(** C30: the catalogue detection ends with: the first one if it has min_sources entries or
    more, otherwise the longer of the first and the faint one, the faint one on a tie; it
    must have at least two sources. *)
Theorem C30_detection_policy : forall (a : attempts) (m : Z) (l : list src),
  detect a m = Ok l <->
  (2 <= length l)%nat /\
  exists first, first_catalogue a first /\
    (((m <= Z.of_nat (length first))%Z /\ l = first) \/
     ((Z.of_nat (length first) < m)%Z /\
      exists faint, faint_catalogue a faint /\
        (((length faint < length first)%nat /\ l = first) \/
         ((length first <= length faint)%nat /\ l = faint)))).
Proof. exact C30_detection_policy_lm. Qed.
Print Assumptions C30_detection_policy.

(** The 8 sigma attempt fails, the 35 sigma one finds a single source, the 3 sigma one
    works at the second attempt. *)
Definition hard : attempts :=
  mkattempts (Raise ValueError) (Ok [star]) (Raise ValueError) (Ok [star; star; star]).

Example C30_case : detect hard 20 = Ok [star; star; star] /\ detect hard 1 = Raise ValueError /\
  first_catalogue hard [star] /\ faint_catalogue hard [star; star; star].
Proof.
  split; [reflexivity|]. split; [reflexivity|].
  split; right; (split; [eexists; reflexivity|reflexivity]).
Qed.

(** C30: detection raises exactly when both bright attempts fail (the exception of the
    second), when a faint attempt is needed and both fail (the exception of the second,
    whatever the bright attempt had found), or, with ValueError, when the resulting
    catalogue has fewer than two sources. *)
Theorem C30_detection_failure : forall (a : attempts) (m : Z) (e : exn),
  detect a m = Raise e <->
  ((exists e', at_default a = Raise e') /\ at_high a = Raise e) \/
  (exists first, first_catalogue a first /\ (Z.of_nat (length first) < m)%Z /\
     (exists e', at_low5 a = Raise e') /\ at_low9 a = Raise e) \/
  (e = ValueError /\ exists first, first_catalogue a first /\ (length first < 2)%nat /\
     ((m <= Z.of_nat (length first))%Z \/
      ((Z.of_nat (length first) < m)%Z /\ exists faint, faint_catalogue a faint /\ (length faint < 2)%nat))).
Proof. exact C30_detection_failure_lm. Qed.
Print Assumptions C30_detection_failure.

(** C31: without explicit stamp shape the stamp is square with an odd side of at least 5;
    when three times the root of the 65% percentile of the areas exceeds 5, the side is the
    smallest odd number not below its integer part; otherwise it is 5. *)
Theorem C31_default_stamp : forall (srcs : list src),
  exists d : Z, default_stamp srcs = (d, d) /\ Z.Odd d /\ (5 <= d)%Z /\
    let p := 3 * sqrt (percentile 65 (map (fun t => INR (s_npix t)) srcs)) in
    (5 < p -> forall z : Z, (Z.Odd z /\ (Zfloor p <= z)%Z) <-> (Z.Odd z /\ (d <= z)%Z)) /\
    (p <= 5 -> d = 5%Z).
Proof. exact C31_default_stamp_lm. Qed.
Print Assumptions C31_default_stamp.

Example C31_case : default_stamp [star; star] = (9%Z, 9%Z).
Proof.
  unfold default_stamp, default_side.
  assert (P : percentile 65 (map (fun t => INR (s_npix t)) [star; star]) = 9).
  { apply Rle_antisym; apply (percentile_between 65 _ 9 9); try discriminate; try lra;
      simpl; intros x [<-|[<-|[]]]; lra. }
  rewrite P. replace (sqrt 9) with 3 by (symmetry; replace 9 with (3 * 3) by lra; apply sqrt_square; lra).
  destruct (Rlt_dec 5 (3 * 3)) as [_|N]; [|exfalso; lra].
  replace (3 * 3) with (IZR 9) by (simpl; lra). rewrite Ztrunc_IZR. reflexivity.
Qed.
