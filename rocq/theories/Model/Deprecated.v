(** Model of the deprecated names [diff] and [stack_R] (operations.py 429-437 and 580-588), with
    the part of Python's [warnings] module that decides what becomes of their warning
    (warnings.py of CPython 3.7 and later: [warn], [warn_explicit]; not in /repo). *)
From Coq Require Import List Bool Arith String.
Import ListNotations.
Local Open Scope string_scope.

Inductive action : Set := AError | AIgnore | AAlways | ADefault | AModule | AOnce.

(** The categories, by name; [Warning] is above all of them. Categories below
    [DeprecationWarning] are left out. *)
Definition category : Type := string.
Definition below (c d : category) : bool := (d =? "Warning") || (c =? d).

(** One entry of [warnings.filters]. The patterns for the text and the module are functions on
    strings ([fun _ => true] if there is none); line 0 means all lines. *)
Record filter : Type := mkfilter {
  f_act : action; f_text : string -> bool; f_cat : category; f_mod : string -> bool; f_line : nat }.

(** A warning: its text, its category and its line. *)
Record warning : Type := mkwarning { w_text : string; w_cat : category; w_line : nat }.

Definition same_warning (a b : warning) : bool :=
  (w_text a =? w_text b) && (w_cat a =? w_cat b) && Nat.eqb (w_line a) (w_line b).

(** What the process holds: the filters with the number of times they were changed, the registry
    of the module properimage.operations with the number it was made for, the registry of the
    action [once], and what was shown. *)
Record process : Type := mkprocess {
  p_filters : list filter; p_version : nat; p_registry : list warning; p_made : nat;
  p_once : list warning; p_shown : list warning }.

(** The first filter that fits (warn_explicit); the default action is [default]. *)
Definition fits (w : warning) (module : string) (f : filter) : bool :=
  f_text f (w_text w) && below (w_cat w) (f_cat f) && f_mod f module && (Nat.eqb (f_line f) 0 || Nat.eqb (f_line f) (w_line w)).

Definition action_for (w : warning) (module : string) (fs : list filter) : action :=
  match find (fits w module) fs with Some f => f_act f | None => ADefault end.

Definition known (w : warning) (l : list warning) : bool := existsb (same_warning w) l.
Definition anywhere (w : warning) : warning := mkwarning (w_text w) (w_cat w) 0.

(** warn_explicit for a warning that comes from the module: [true] if it is raised. *)
Definition warn (w : warning) (p : process) : bool * process :=
  let reg := if Nat.eqb (p_made p) (p_version p) then p_registry p else [] in
  let with_ r o s := mkprocess (p_filters p) (p_version p) r (p_version p) o s in
  if known w reg then (false, with_ reg (p_once p) (p_shown p))
  else match action_for w "properimage.operations" (p_filters p) with
  | AIgnore => (false, with_ reg (p_once p) (p_shown p))
  | AError => (true, with_ reg (p_once p) (p_shown p))
  | AAlways => (false, with_ reg (p_once p) (p_shown p ++ [w])%list)
  | ADefault => (false, with_ (w :: reg) (p_once p) (p_shown p ++ [w])%list)
  | AModule =>
      if known (anywhere w) (w :: reg) then (false, with_ (w :: reg) (p_once p) (p_shown p))
      else (false, with_ (anywhere w :: w :: reg) (p_once p) (p_shown p ++ [w])%list)
  | AOnce =>
      if known (anywhere w) (p_once p) then (false, with_ (w :: reg) (p_once p) (p_shown p))
      else (false, with_ (w :: reg) (anywhere w :: p_once p) (p_shown p ++ [w])%list)
  end.

(** The warnings of the two names (operations.py:434-436 and 585-587). The line is that of the
    call; interpreters before 3.8 report another one of its lines, which changes nothing below. *)
Definition diff_warning : warning :=
  mkwarning "This is being deprecated in favour of `subtract`" "DeprecationWarning" 434.
Definition stack_warning : warning :=
  mkwarning "This is being deprecated in favour of `coadd`" "DeprecationWarning" 585.

(** A name that warns and calls a function with the arguments it was given: the function works on
    a world of images, and what it returns or raises is its answer. [None] is the
    DeprecationWarning as an exception. *)
Section Wrapper.
Variables A B World : Type.

Definition wrapped (w : warning) (f : A -> World -> B * World) (a : A) (p : process) (s : World) : option B * process * World :=
  let (raised, p1) := warn w p in
  if raised then (None, p1, s) else let (b, s1) := f a s in (Some b, p1, s1).
End Wrapper.

Section Names.
Variables A A' B B' World : Type.
Variable subtract : A -> World -> B * World.
Variable coadd : A' -> World -> B' * World.

(** operations.py:429-437 *)
Definition diff : A -> process -> World -> option B * process * World := wrapped A B World diff_warning subtract.
(** operations.py:580-588 *)
Definition stack_R : A' -> process -> World -> option B' * process * World := wrapped A' B' World stack_warning coadd.

(** What happens in a process: the two names are called, the filters are changed
    (simplefilter, filterwarnings, resetwarnings, catch_warnings), or something else warns from
    the same module. *)
Inductive event : Type := EDiff (a : A) | EStack (a : A') | EFilters (fs : list filter) | EWarn (w : warning).

Definition happen (ps : process * World) (e : event) : process * World :=
  match e with
  | EDiff a => let '(_, p, s) := diff a (fst ps) (snd ps) in (p, s)
  | EStack a => let '(_, p, s) := stack_R a (fst ps) (snd ps) in (p, s)
  | EFilters fs => (mkprocess fs (S (p_version (fst ps))) (p_registry (fst ps)) (p_made (fst ps)) (p_once (fst ps)) (p_shown (fst ps)), snd ps)
  | EWarn w => (snd (warn w (fst ps)), snd ps)
  end.

Definition happen_all (l : list event) (ps : process * World) : process * World := fold_left happen l ps.
End Names.
