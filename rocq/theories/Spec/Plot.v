(** Prime factors, for stating what [plot.primes] returns. *)
From Coq Require Import Arith List.

Definition prime (p : nat) : Prop :=
  2 <= p /\ forall d, Nat.divide d p -> d = 1 \/ d = p.

(** [p] is a prime factor of [n]. *)
Definition prime_factor (p n : nat) : Prop := prime p /\ Nat.divide p n.

(** [l] lists the distinct prime factors of [n], each once, in any order. *)
Definition prime_factors (n : nat) (l : list nat) : Prop :=
  NoDup l /\ forall p, In p l <-> prime_factor p n.

Definition composite (n : nat) : Prop := exists a b, 2 <= a /\ 2 <= b /\ n = a * b.
