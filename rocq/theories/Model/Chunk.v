(** Model of [chunk_it], /repo/properimage/utils.py:365-392. *)
From Coq Require Import ZArith List Bool.
From Flocq Require Import Core.Core IEEE754.BinarySingleNaN.
From Verif.Model Require Import Py.
Import ListNotations.
Local Open Scope Z_scope.

(** CPython floats: IEEE-754 binary64, rounding to nearest even. *)
Definition f64 : Set := binary_float 53 1024.
Definition p53 : Prec_gt_0 53 := eq_refl.
Definition e1024 : Prec_lt_emax 53 1024 := eq_refl.

Definition f64_add (x y : f64) : f64 := @Bplus 53 1024 p53 e1024 mode_NE x y.
Definition f64_div (x y : f64) : f64 := @Bdiv 53 1024 p53 e1024 mode_NE x y.
Definition f64_zero : f64 := @B754_zero 53 1024 false.

(** [float(z)] for an integer [z] (the conversion of an integer of absolute value
    above 2^1024, which raises OverflowError in Python, is outside the domain of
    the theorems). *)
Definition f64_of_Z (z : Z) : f64 := @binary_normalize 53 1024 p53 e1024 mode_NE z 0 false.

(** [int(x)] of a finite float: truncation towards zero. *)
Definition f64_int (x : f64) : Z := @Btrunc 53 1024 x.

(** [x < n] for a float and an int. Python compares exactly; converting [n] first,
    as done here, is the same comparison for |n| <= 2^53. *)
Definition f64_ltZ (x : f64) (n : Z) : bool := @Bltb 53 1024 x (f64_of_Z n).

Section Items.
Variable A : Type.

(** utils.py:384-386, the loop
      while last < len(seq):
          out.append(seq[int(last) : int(last + avg)])
          last += avg
    [fuel] bounds the number of iterations; [None] is "not finished yet". *)
Fixpoint chunk_loop (fuel : nat) (seq : list A) (avg last : f64)
         (out : list (list A)) : option (list (list A)) :=
  if f64_ltZ last (Z.of_nat (length seq)) then
    match fuel with
    | O => None
    | S fuel' =>
        let nxt := f64_add last avg in
        chunk_loop fuel' seq avg nxt
          (out ++ [pyslice seq (f64_int last) (f64_int nxt)])
    end
  else Some out.

(** utils.py:381-386: the chunks in production order. Dividing by [float(0)]
    raises ZeroDivisionError (line 381). *)
Definition chunks_made (fuel : nat) (seq : list A) (num : Z)
  : option (res (list (list A))) :=
  if num =? 0 then Some (Raise ZeroDivisionError)
  else
    let avg := f64_div (f64_of_Z (Z.of_nat (length seq))) (f64_of_Z num) in
    option_map Ok (chunk_loop fuel seq avg f64_zero []).

(** Item comparison: [eqb] is [==]; [ltb a b] is [a < b], [None] when it raises
    TypeError or ValueError. *)
Variable eqb : A -> A -> bool.
Variable ltb : A -> A -> option bool.

(** [l1 < l2] on Python lists: the first differing items decide, then the length. *)
Fixpoint list_lt (l1 l2 : list A) : option bool :=
  match l1, l2 with
  | _, [] => Some false
  | [], _ :: _ => Some true
  | a :: l1', b :: l2' => if eqb a b then list_lt l1' l2' else ltb a b
  end.

(** Insertion of [x] in an ascending list, after the items it is not below. *)
Fixpoint insert_asc (x : list A) (l : list (list A)) : option (list (list A)) :=
  match l with
  | [] => Some [x]
  | y :: l' =>
      match list_lt x y with
      | None => None
      | Some true => Some (x :: y :: l')
      | Some false => option_map (cons y) (insert_asc x l')
      end
  end.

(** [sorted(l)]: stable insertion sort. CPython's timsort performs other
    comparisons but yields the same list for consistent orders; [None] when a
    comparison raises. *)
Fixpoint sorted_from (acc l : list (list A)) : option (list (list A)) :=
  match l with
  | [] => Some acc
  | x :: l' => match insert_asc x acc with
               | None => None
               | Some acc' => sorted_from acc' l'
               end
  end.

(** [sorted(l, reverse=True)]: CPython reverses, sorts stably, reverses. *)
Definition sorted_reverse (l : list (list A)) : option (list (list A)) :=
  option_map (@rev _) (sorted_from [] (rev l)).

(** utils.py:365-392: [chunk_it(seq, num)]. *)
Definition chunk_it (fuel : nat) (seq : list A) (num : Z)
  : option (res (list (list A))) :=
  match chunks_made fuel seq num with
  | None => None
  | Some (Raise e) => Some (Raise e)
  | Some (Ok out) =>
      match sorted_reverse out with
      | Some s => Some (Ok s)       (* line 388 *)
      | None => Some (Ok out)       (* lines 389-392 *)
      end
  end.
End Items.
Arguments chunk_loop {A} fuel seq avg last out.
Arguments chunks_made {A} fuel seq num.
Arguments list_lt {A} eqb ltb l1 l2.
Arguments insert_asc {A} eqb ltb x l.
Arguments sorted_from {A} eqb ltb acc l.
Arguments sorted_reverse {A} eqb ltb l.
Arguments chunk_it {A} eqb ltb fuel seq num.
