(** C01-C05, C66: [chunk_it]. *)
From Coq Require Import ZArith List Bool Lia Permutation.
From Verif.Model Require Import Py Chunk.
From Verif.Spec Require Import Lex.
From Verif.Proof Require Import Chunk ChunkSort.
Import ListNotations.
Local Open Scope Z_scope.

(** C01, C02 (first part): the call ends; the chunks in production order concatenate to
    the input; what is returned is a rearrangement of them. *)
Theorem C01_chunks_partition : forall (A : Type) (eqb : A -> A -> bool)
  (ltb : A -> A -> option bool) (seq : list A) (num : Z) (fuel : nat),
  Z.of_nat (length seq) < 2 ^ 52 -> 1 <= num <= 2 ^ 52 -> (5 * Z.to_nat num + 1 <= fuel)%nat ->
  exists made out, chunks_made fuel seq num = Some (Ok made) /\ concat made = seq /\
    chunk_it eqb ltb fuel seq num = Some (Ok out) /\ Permutation out made.
Proof. exact @partition_all. Qed.
Print Assumptions C01_chunks_partition.

Example C01_case : exists out,
  chunk_it Z.eqb (fun a b => Some (Z.ltb a b)) 31 [1;2;3;4;5;6;7;8] 6 = Some (Ok out)
  /\ out = [[8];[7];[6];[5];[3;4];[2];[1]].
Proof. eexists. split; vm_compute; reflexivity. Qed.

(** C02: with totally ordered items the chunks come back in descending order... *)
Theorem C02_sorted_descending : forall (A : Type) (eqb : A -> A -> bool)
  (ltb : A -> A -> option bool) (lt : A -> A -> Prop) (seq : list A) num fuel out,
  (forall a b, eqb a b = true <-> a = b) ->
  (forall a b, a <> b -> (ltb a b = Some true /\ lt a b) \/ (ltb a b = Some false /\ ~ lt a b)) ->
  (forall a, ~ lt a a) -> (forall a b c, lt a b -> lt b c -> lt a c) ->
  (forall a b, lt a b \/ a = b \/ lt b a) ->
  chunk_it eqb ltb fuel seq num = Some (Ok out) -> descending (lex lt) out.
Proof. exact @sorted_desc. Qed.
Print Assumptions C02_sorted_descending.

Example C02_sorted_case :
  (forall a b, Z.eqb a b = true <-> a = b) /\
  (forall a b, a <> b -> (Some (Z.ltb a b) = Some true /\ a < b) \/ (Some (Z.ltb a b) = Some false /\ ~ a < b)) /\
  (exists out, chunk_it Z.eqb (fun a b => Some (Z.ltb a b)) 31 [5;1;9;2;7] 2 = Some (Ok out)
     /\ out = [[9;2;7];[5;1]]).
Proof.
  split; [exact Z.eqb_eq|]. split.
  - intros a b _. destruct (Z.ltb_spec a b); [left|right]; split; auto; lia.
  - eexists. split; vm_compute; reflexivity.
Qed.

(** ... and with items that cannot be compared (as images cannot) in production order. *)
Theorem C02_unorderable_in_order : forall (A : Type) (eqb : A -> A -> bool)
  (ltb : A -> A -> option bool) (seq : list A) num fuel,
  (forall a b, ltb a b = None) -> (forall a b, eqb a b = true -> a = b) -> NoDup seq ->
  Z.of_nat (length seq) < 2 ^ 52 -> 1 <= num <= Z.of_nat (length seq) ->
  (5 * Z.to_nat num + 1 <= fuel)%nat ->
  exists made, chunks_made fuel seq num = Some (Ok made) /\ concat made = seq /\
    chunk_it eqb ltb fuel seq num = Some (Ok made).
Proof. exact @unsorted_order. Qed.
Print Assumptions C02_unorderable_in_order.

Example C02_unorderable_case :
  NoDup [5;1;9;2;7] /\
  chunk_it Z.eqb (fun _ _ => None) 31 [5;1;9;2;7] 2 = Some (Ok [[5;1];[9;2;7]]).
Proof.
  split; [|vm_compute; reflexivity].
  repeat constructor; cbn; intuition lia.
Qed.

(** C03 *)
Theorem C03_nonempty_chunks : forall (A : Type) (seq : list A) num fuel,
  seq <> [] -> Z.of_nat (length seq) < 2 ^ 52 -> 1 <= num <= 2 ^ 52 ->
  (5 * Z.to_nat num + 1 <= fuel)%nat ->
  exists made, chunks_made fuel seq num = Some (Ok made) /\
    (num <= Z.of_nat (length seq) -> forall c, In c made -> c <> []) /\
    (Z.of_nat (length seq) < num -> nth_error made 0 = Some []).
Proof.
  exact (fun A sq num fuel Hs Hn Hm Hf =>
    let '(ex_intro _ cs (conj E (conj _ (conj N (conj F _))))) :=
      made_all sq num fuel Hs Hn Hm (or_introl Hf) in
    ex_intro _ cs (conj E (conj N F))).
Qed.
Print Assumptions C03_nonempty_chunks.

Example C03_case : chunks_made 40 [10;20;30] 5 = Some (Ok [[];[10];[];[20];[30]])
  /\ chunks_made 40 [10;20;30] 3 = Some (Ok [[10];[20];[30]]).
Proof. split; vm_compute; reflexivity. Qed.

(** C04 *)
Theorem C04_number_of_chunks : forall (A : Type) (seq : list A) num fuel,
  seq <> [] -> Z.of_nat (length seq) < 2 ^ 52 -> 1 <= num <= 2 ^ 52 -> num <= 2 ^ 26 ->
  (5 * Z.to_nat num + 1 <= fuel)%nat ->
  exists made, chunks_made fuel seq num = Some (Ok made) /\
    (length made = Z.to_nat num \/ length made = S (Z.to_nat num)).
Proof.
  exact (fun A sq num fuel Hs Hn Hm H26 Hf =>
    let '(ex_intro _ cs (conj E (conj _ (conj _ (conj _ (conj C _)))))) :=
      made_all sq num fuel Hs Hn Hm (or_introl Hf) in
    ex_intro _ cs (conj E (C H26))).
Qed.
Print Assumptions C04_number_of_chunks.

Example C04_case : exists six, chunks_made 31 [1;2;3;4;5;6;7;8] 6 = Some (Ok six) /\ length six = 7%nat /\
  chunks_made 31 [1;2;3;4;5;6;7] 3 = Some (Ok [[1;2];[3;4];[5;6;7]]).
Proof. exists [[1];[2];[3;4];[5];[6];[7];[8]]. repeat split; vm_compute; reflexivity. Qed.

(** The docstring promises [num] chunks; 8 items in 6 chunks give 7. *)
Theorem C04_exact_number_refuted : exists (seq : list Z) num fuel made,
  seq <> [] /\ 1 <= num <= Z.of_nat (length seq) /\
  chunks_made fuel seq num = Some (Ok made) /\ length made <> Z.to_nat num.
Proof.
  exists [1;2;3;4;5;6;7;8], 6, 31%nat, [[1];[2];[3;4];[5];[6];[7];[8]].
  split; [discriminate|]. split; [cbn; lia|]. split; [vm_compute; reflexivity|discriminate].
Qed.
Print Assumptions C04_exact_number_refuted.

(** C05 *)
Theorem C05_terminates : forall (A : Type) (eqb : A -> A -> bool)
  (ltb : A -> A -> option bool) (seq : list A) (num : Z) (fuel : nat),
  Z.of_nat (length seq) < 2 ^ 52 -> 1 <= num <= 2 ^ 52 -> (5 * Z.to_nat num + 1 <= fuel)%nat ->
  chunk_it eqb ltb fuel seq num <> None.
Proof.
  exact (fun A eqb ltb sq num fuel Hn Hm Hf H =>
    let '(ex_intro _ _ (ex_intro _ out (conj _ (conj _ (conj E _))))) :=
      partition_all eqb ltb sq num fuel Hn Hm Hf in
    eq_ind (Some (Ok out)) (fun x => match x with Some _ => True | None => False end) I None
      (eq_trans (eq_sym E) H)).
Qed.
Print Assumptions C05_terminates.

Theorem C05_zero_raises : forall (A : Type) (eqb : A -> A -> bool)
  (ltb : A -> A -> option bool) (seq : list A) fuel,
  chunk_it eqb ltb fuel seq 0 = Some (Raise ZeroDivisionError).
Proof. exact (fun A eqb ltb sq fuel => eq_refl). Qed.
Print Assumptions C05_zero_raises.

Theorem C05_negative_never_returns : forall (A : Type) (eqb : A -> A -> bool)
  (ltb : A -> A -> option bool) (seq : list A) num,
  seq <> [] -> Z.of_nat (length seq) < 2 ^ 52 -> - 2 ^ 52 <= num < 0 ->
  forall fuel, chunk_it eqb ltb fuel seq num = None.
Proof. exact @negative_never. Qed.
Print Assumptions C05_negative_never_returns.

Theorem C05_empty_sequence : forall (A : Type) (eqb : A -> A -> bool)
  (ltb : A -> A -> option bool) num fuel,
  num <> 0 -> chunk_it eqb ltb fuel [] num = Some (Ok []).
Proof. exact @empty_sequence. Qed.
Print Assumptions C05_empty_sequence.

Example C05_case : chunk_it Z.eqb (fun _ _ => None) 50 [1;2;3] (-2) = None
  /\ chunk_it Z.eqb (fun _ _ => None) 50 (@nil Z) (-2) = Some (Ok []).
Proof. split; vm_compute; reflexivity. Qed.

(** C66: chunk sizes are balanced. *)
Theorem C66_balanced_chunks : forall (A : Type) (seq : list A) num fuel,
  seq <> [] -> Z.of_nat (length seq) < 2 ^ 52 -> 1 <= num <= 2 ^ 52 ->
  (5 * Z.to_nat num + 1 <= fuel)%nat ->
  exists made, chunks_made fuel seq num = Some (Ok made) /\
    (forall c, In c made -> Z.of_nat (length c) <= (Z.of_nat (length seq) + num - 1) / num + 1) /\
    (forall k c, (S k < length made)%nat -> nth_error made k = Some c ->
        Z.of_nat (length seq) / num <= Z.of_nat (length c)).
Proof.
  exact (fun A sq num fuel Hs Hn Hm Hf =>
    let '(ex_intro _ cs (conj E (conj _ (conj _ (conj _ (conj _ B)))))) :=
      made_all sq num fuel Hs Hn Hm (or_introl Hf) in
    ex_intro _ cs (conj E B)).
Qed.
Print Assumptions C66_balanced_chunks.

Example C66_case : chunks_made 31 [1;2;3;4;5;6;7] 3 = Some (Ok [[1;2];[3;4];[5;6;7]]).
Proof. vm_compute. reflexivity. Qed.
