(** C131: the deprecated names. *)
From Coq Require Import List Bool Arith String Lia.
From Verif.Model Require Import Deprecated.
From Verif.Spec Require Import Deprecated.
From Verif.Proof Require Import DeprecatedMain.
From Coq Require Import List.
Import ListNotations.

(** What [diff] and [stack_R] answer. *)
Theorem C131_calls : forall A A' B B' World (subtract : A -> World -> B * World) (coadd : A' -> World -> B' * World) fs l s0 p s,
  happen_all A A' B B' World subtract coadd l (new_process fs, s0) = (p, s) ->
  (forall a, (says (p_filters p) diff_warning AError -> exists p1, diff A B World subtract a p s = (None, p1, s) /\ p_shown p1 = p_shown p) /\
             (~ says (p_filters p) diff_warning AError -> exists p1, diff A B World subtract a p s = (Some (fst (subtract a s)), p1, snd (subtract a s)))) /\
  (forall a, (says (p_filters p) stack_warning AError -> exists p1, stack_R A' B' World coadd a p s = (None, p1, s) /\ p_shown p1 = p_shown p) /\
             (~ says (p_filters p) stack_warning AError -> exists p1, stack_R A' B' World coadd a p s = (Some (fst (coadd a s)), p1, snd (coadd a s)))).
Proof. exact C131_calls_lm. Qed.
Print Assumptions C131_calls.

Theorem C131_shown : forall A A' B B' World (subtract : A -> World -> B * World) (coadd : A' -> World -> B' * World) fs l s0 ac,
  Forall (fun e => is_filters e = false) l ->
  (says fs diff_warning ac -> Forall (apart diff_warning) l ->
   times diff_warning (p_shown (fst (happen_all A A' B B' World subtract coadd l (new_process fs, s0)))) =
   let n := List.length (List.filter is_diff l) in
   match ac with AError | AIgnore => 0 | AAlways => n | ADefault | AModule | AOnce => Nat.min 1 n end) /\
  (says fs stack_warning ac -> Forall (apart stack_warning) l ->
   times stack_warning (p_shown (fst (happen_all A A' B B' World subtract coadd l (new_process fs, s0)))) =
   let n := List.length (List.filter is_stack l) in
   match ac with AError | AIgnore => 0 | AAlways => n | ADefault | AModule | AOnce => Nat.min 1 n end).
Proof. exact C131_shown_lm. Qed.
Print Assumptions C131_shown.

(** With the filters an interpreter starts with, nobody sees either of them. *)
Theorem C131_silent : forall A A' B B' World (subtract : A -> World -> B * World) (coadd : A' -> World -> B' * World) l s0,
  Forall (fun e => is_filters e = false) l -> Forall (apart diff_warning) l -> Forall (apart stack_warning) l ->
  let p := fst (happen_all A A' B B' World subtract coadd l (new_process usual_filters, s0)) in
  ~ In diff_warning (p_shown p) /\ ~ In stack_warning (p_shown p).
Proof. exact C131_silent_lm. Qed.
Print Assumptions C131_silent.

Example C131_case :
  says usual_filters diff_warning AIgnore /\ says [] stack_warning ADefault /\ says warnings_are_errors diff_warning AError /\
  action_for diff_warning "__main__"%string usual_filters = ADefault /\
  let l := [EDiff nat nat 1; EDiff nat nat 2; EFilters nat nat []; EDiff nat nat 3; EDiff nat nat 4; EStack nat nat 5;
            EFilters nat nat warnings_are_errors; EDiff nat nat 6] in
  let f a s := (a, a + s) in
  let ps := happen_all nat nat nat nat nat f f l (new_process usual_filters, 0) in
  p_shown (fst ps) = [diff_warning; stack_warning] /\ snd ps = 15.
Proof. exact C131_case_lm. Qed.
