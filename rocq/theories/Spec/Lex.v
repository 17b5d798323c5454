(** Lexicographic order on lists, the order Python defines on lists. *)
From Coq Require Import List.
Import ListNotations.

Inductive lex {A} (lt : A -> A -> Prop) : list A -> list A -> Prop :=
| lex_nil b l : lex lt [] (b :: l)
| lex_lt a b l m : lt a b -> lex lt (a :: l) (b :: m)
| lex_eq a l m : lex lt l m -> lex lt (a :: l) (a :: m).

(** [l] is in descending order: no item is below a later one. *)
Definition descending {A} (lt : A -> A -> Prop) (l : list A) : Prop :=
  forall i j x y, i < j -> nth_error l i = Some x -> nth_error l j = Some y -> ~ lt x y.
