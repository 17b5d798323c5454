(** Model of /repo/properimage/plot.py: [primes], the dispatch of [Plot.__call__] and
    the panel layout of [Plot.autopsf] and [Plot.autopsf_coef].

    Not modelled: colours, titles, contours, colour bars and figure sizes, which are
    matplotlib calls without effect on the choice and order of the panels. *)
From Coq Require Import ZArith List Bool String Arith.
From Flocq Require Import IEEE754.BinarySingleNaN.
From Verif.Model Require Import Py Chunk.
Import ListNotations.
Local Open Scope nat_scope.

(** [range(a, b)] on naturals. *)
Definition nrange (a b : nat) : list nat := seq a (b - a).

(** plot.py:66, [[d for d in range(2, n // 2 + 1) if n % d == 0]]. *)
Definition divisors (n : nat) : list nat :=
  filter (fun d => n mod d =? 0) (nrange 2 (n / 2 + 1)).

(** plot.py:67-69, the divisors that no other divisor divides. *)
Definition prims (n : nat) : list nat :=
  filter (fun d => forallb (fun od => (od =? d) || negb (d mod od =? 0)) (divisors n))
         (divisors n).

(** plot.py:64-75. [prims[-1]], [prims[-2]] and [max(prims)] are only reached on lists
    long enough. *)
Definition primes (n : nat) : nat :=
  let p := prims n in
  if 4 <=? List.length p then nth 0 (rev p) 0 * nth 1 (rev p) 0
  else if List.length p =? 0 then n
  else fold_right max 0 p.

(** numpy's [np.sqrt] of an integer: conversion to binary64, correctly rounded root. *)
Definition f64_sqrt (x : f64) : f64 := @Bsqrt 53 1024 p53 e1024 mode_NE x.

(** [round(x)] of a float without second argument: the nearest integer, the even one on
    a tie (0 for infinities and nan, which Python rejects and the model never meets). *)
Definition f64_round (x : f64) : Z :=
  match x with
  | B754_finite s m e _ =>
      let a :=
        if (0 <=? e)%Z then (Zpos m * 2 ^ e)%Z
        else
          let d := (2 ^ (- e))%Z in
          let q := (Zpos m / d)%Z in
          let r := (Zpos m mod d)%Z in
          if (2 * r <? d)%Z then q
          else if (d <? 2 * r)%Z then (q + 1)%Z
          else if Z.even q then q else (q + 1)%Z in
      if s then (- a)%Z else a
  | _ => 0%Z
  end.

(** plot.py:208-220 ([autopsf]) and 270-280 ([autopsf_coef]): the shape of the grid
    for [n] panels. The assignments for n = 1 and n = 2 are overwritten by the second
    [if] statement, whose [elif] branch applies to both (primes(1) = 1 and
    primes(2) = 2), so that the two methods compute the same grid. *)
Definition subplots (n : nat) : Z * Z :=
  let p := primes n in
  if n =? 3 then (1, 3)%Z
  else if p =? n then
    let s := f64_sqrt (f64_of_Z (Z.of_nat n)) in
    (f64_round s, f64_round (f64_add s (f64_of_Z 1)))
  else (Z.of_nat (n / p + n mod p), Z.of_nat p).

(** The axes argument: one Axes object or a (nested) sequence of Axes, given by its
    outer length and its axes in row-major order. *)
Inductive axes : Type :=
| OneAxes (a : nat)
| ManyAxes (len : nat) (flat : list nat).

(** [np.ravel(axs)] *)
Definition ravel (a : axes) : list nat :=
  match a with OneAxes x => [x] | ManyAxes _ l => l end.

(** [np.size(axs)] *)
Definition np_size (a : axes) : nat := List.length (ravel a).

(** [len(axs)]: an Axes object has no length. *)
Definition axes_len (a : axes) : res nat :=
  match a with OneAxes _ => Raise TypeError | ManyAxes k _ => Ok k end.

(** matplotlib's [fig.subplots(r, c)] with its default [squeeze=True]: new axes
    numbered row by row from [first]; one Axes object for a 1x1 grid; numbers of rows
    or columns below one raise ValueError. *)
Definition fig_subplots (first : nat) (rc : Z * Z) : res axes :=
  let (r, c) := rc in
  if ((r <? 1) || (c <? 1))%Z then Raise ValueError
  else if ((r =? 1) && (c =? 1))%Z then Ok (OneAxes first)
  else
    let cells := seq first (Z.to_nat (r * c)) in
    Ok (ManyAxes (Z.to_nat (if (r =? 1)%Z then c else r)) cells).

(** plot.py:190-252 and 257-315 after the components are known: the axes returned and
    the drawing calls, each an axes and the component shown in it. [given] is the
    argument [axs]; [first] numbers the axes matplotlib would create. The error
    message evaluates [len(axs)]. *)
Definition draw_panels {component : Type} (first : nat) (given : option axes) (comps : list component)
  : res (axes * list (nat * component)) :=
  let n := List.length comps in
  bind (match given with
        | None => fig_subplots first (subplots n)
        | Some a => Ok a
        end) (fun axs =>
  if np_size axs <? n then
    bind (axes_len axs) (fun _ => Raise ValueError)
  else Ok (axs, combine (ravel axs) comps)).

(** plot.py:185-252, [autopsf]: [basis] is the second result of get_variable_psf. *)
Definition autopsf {component : Type} (first : nat) (given : option axes) (basis : list component) :=
  draw_panels first given basis.

(** plot.py:254-315, [autopsf_coef]: [a_fields] is the first result of
    get_variable_psf, whose only entry is None when the PSF has one component. *)
Definition autopsf_coef {component : Type} (first : nat) (given : option axes)
  (a_fields : list (option component)) : res (axes * list (nat * option component)) :=
  match a_fields with
  | [None] => Raise NoDataToPlot
  | _ => draw_panels first given a_fields
  end.

(** Attributes of a Plot object: plot.py:150-158 and the methods below it. The names
    Python and attrs add all start with an underscore and are left out: line 163 rejects
    them before they are looked up. *)
Inductive attribute : Type :=
| Method (name : string)
| Value.

Definition plot_attributes : list (string * attribute) :=
  [("DEFAULT_PLOT", Value);          (* line 154 *)
   ("si", Value);                    (* line 156, a SingleImage *)
   ("imshow", Method "imshow");
   ("autopsf", Method "autopsf");
   ("autopsf_coef", Method "autopsf_coef")]%string.

Definition getattr (name : string) : option attribute :=
  option_map snd (find (fun e => String.eqb (fst e) name) plot_attributes).

(** [name.startswith("_")] *)
Definition private (name : string) : bool := String.prefix "_" name.

Section Call.
Variables kwargs answer : Type.
(** What the named method does with its keyword arguments. *)
Variable run : string -> kwargs -> res answer.

(** plot.py:158-169, [Plot.__call__]. [plot or Plot.DEFAULT_PLOT] replaces None and the
    empty string. *)
Definition plot_call (plot : option string) (kw : kwargs) : res answer :=
  let invalid :=
    match plot with
    | None => false
    | Some s => private s || match getattr s with None => true | Some _ => false end
    end in
  if invalid then Raise ValueError
  else
    let name :=
      match plot with
      | None => "imshow"%string
      | Some s => if String.eqb s "" then "imshow"%string else s
      end in
    match getattr name with
    | None => Raise AttributeError
    | Some Value => Raise ValueError
    | Some (Method m) => run m kw
    end.
End Call.
Arguments plot_call {kwargs answer} run plot kw.
