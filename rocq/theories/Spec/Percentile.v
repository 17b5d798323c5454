(** Percentiles and medians, said without a sorting program. *)
From Coq Require Import List Arith Reals Permutation Sorting.Sorted.
Import ListNotations.
Local Open Scope R_scope.

(** [v] is the q-th percentile of [l]: the value at the position q (n-1) / 100 of the n
    values in increasing order, with linear interpolation between neighbours. *)
Definition is_percentile (q : R) (l : list R) (v : R) : Prop :=
  exists s k t, Permutation l s /\ StronglySorted Rle s /\ (k < length s)%nat /\ 0 <= t < 1 /\
    INR k + t = q * (INR (length l) - 1) / 100 /\
    v = nth k s 0 + t * (nth (S k) s 0 - nth k s 0).

(** The median: half the values are below, half above. *)
Definition is_median (l : list R) (v : R) : Prop := is_percentile 50 l v.
