(** Words used in the statements about the deprecated names. *)
From Coq Require Import List Bool Arith String.
From Verif.Model Require Import Deprecated.
Import ListNotations.
Local Open Scope string_scope.

(** The filters a Python interpreter starts with, unless told otherwise: deprecation warnings are
    shown if they come from the script itself and ignored otherwise. *)
Definition all (_ : string) : bool := true.
Definition usual_filters : list filter :=
  [mkfilter ADefault all "DeprecationWarning" (fun m => m =? "__main__") 0;
   mkfilter AIgnore all "DeprecationWarning" all 0;
   mkfilter AIgnore all "PendingDeprecationWarning" all 0;
   mkfilter AIgnore all "ImportWarning" all 0;
   mkfilter AIgnore all "ResourceWarning" all 0].

(** The interpreter was started with -W error. *)
Definition warnings_are_errors : list filter := [mkfilter AError all "Warning" all 0].

(** A process in which the module has not warned yet. *)
Definition new_process (fs : list filter) : process := mkprocess fs 0 [] 0 [] [].

(** What the first filter that fits [w] says; none fits: the default. *)
Definition says (fs : list filter) (w : warning) (a : action) : Prop :=
  (exists before f after, fs = (before ++ f :: after)%list /\ fits w "properimage.operations" f = true /\
     Forall (fun g => fits w "properimage.operations" g = false) before /\ f_act f = a) \/
  (Forall (fun g => fits w "properimage.operations" g = false) fs /\ a = ADefault).

Definition times (w : warning) (l : list warning) : nat := List.length (List.filter (same_warning w) l).

(** Calls of [diff] and of [stack_R], and nothing that changes the filters. *)
Definition is_diff {A A'} (e : event A A') : bool := match e with EDiff _ _ _ => true | _ => false end.
Definition is_stack {A A'} (e : event A A') : bool := match e with EStack _ _ _ => true | _ => false end.
Definition is_filters {A A'} (e : event A A') : bool := match e with EFilters _ _ _ => true | _ => false end.
Definition apart {A A'} (w : warning) (e : event A A') : Prop := match e with EWarn _ _ v => w_text v <> w_text w | _ => True end.
