(** Words used in the statements about [plot_S], [plot_R] and [imshow]. *)
From Coq Require Import List Bool Arith String Reals.
From Verif.Model Require Import Py Plane Pyplot.
Import ListNotations.
Local Open Scope R_scope.

(** The cell (i, j) of an array is masked. *)
Definition hidden (a : array) (i j : nat) : Prop :=
  match mask a with Some m => px m i j = true | None => False end.

(** A picture of a significance image: the numbers of the array, the fill value at masked
    cells, and limits four deviations around the median of those numbers. *)
Definition depicts_S (clip : plane R -> R * R) (a : array) (p : picture) : Prop :=
  shape (cells p) = shape (re a) /\ lower p = false /\
  (forall i j, ~ hidden a i j -> px (cells p) i j = Some (px (re a) i j)) /\
  (forall i j, hidden a i j -> px (cells p) i j = Some (fill a)) /\
  exists v, cells p = pmap Some v /\
    limits p = Some (fst (clip v) - 4 * snd (clip v), fst (clip v) + 4 * snd (clip v)).

(** A picture of a coadd: the power of ten of each number (real part), nothing where it is not
    positive, and the power of ten of the fill value [f] at masked cells. *)
Definition ten_to (y x : R) : Prop := exp (y * ln 10) = x.

Definition shows_log (o : option R) (x : R) : Prop :=
  match o with Some y => ten_to y x | None => x <= 0 end.

Definition depicts_R (a : array) (f : R) (p : picture) : Prop :=
  shape (cells p) = shape (re a) /\ lower p = false /\ limits p = None /\
  (forall i j, ~ hidden a i j -> shows_log (px (cells p) i j) (px (re a) i j)) /\
  (forall i j, hidden a i j -> shows_log (px (cells p) i j) f).

(** The arrays that can be plotted with plot_R. *)
Definition plottable (a : array) : Prop :=
  (0 < nr (re a))%nat /\ (0 < nc (re a))%nat /\
  match dt a with Float => True | Complex128 => ~ hidden a 0 0 | Complex64 => False end.

(** The fill value used for it. *)
Definition fill_used (a : array) : R := match dt a with Float => fill a | _ => default_fill end.

(** Calls of a user with a path. *)
Inductive call := CallS (a : array) (path : string) | CallR (a : array) (path : string).

Definition path_of (c : call) : string := match c with CallS _ p | CallR _ p => p end.

Definition can_plot (c : call) : Prop := match c with CallS _ _ => True | CallR a _ => plottable a end.

Definition depicts clip (c : call) (p : picture) : Prop :=
  match c with CallS a _ => depicts_S clip a p | CallR a _ => depicts_R a (fill_used a) p end.

Definition do_call clip left (nbook : bool) (s : pyplot) (c : call) : pyplot :=
  match c with
  | CallS a p => snd (plot_S clip left a (Some p) nbook s)
  | CallR a p => snd (plot_R left a (Some p) nbook s)
  end.

(** One call after the other. *)
Definition session clip left nbook (cs : list call) (s : pyplot) : pyplot :=
  fold_left (do_call clip left nbook) cs s.

(** A page with one image and its colour bar. *)
Definition page (p : picture) : figure := mkfigure [mkaxes [p] None] 1.

(** No figure, or only an empty one. *)
Definition tidy (s : pyplot) : Prop := figs s = [] \/ figs s = [mkfigure [blank] 0].
