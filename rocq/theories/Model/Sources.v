(** Model of source detection and selection, [best_sources]
    (properimage/single_image.py 571-739) and of the default stamp size (550-569).

    Exact real numbers. *)
From Coq Require Import ZArith List Bool Arith Reals.
From Flocq Require Import Core.Raux.
From Verif.Model Require Import Py.
Import ListNotations.
Local Open Scope R_scope.

(** The fields of a row of sep.extract the code reads. *)
Record src : Type := mksrc { s_x : R; s_y : R; s_npix : nat; s_flux : R; s_flag : Z }.

(** Insertion sort. *)
Fixpoint insertR (x : R) (l : list R) : list R :=
  match l with
  | [] => [x]
  | y :: t => if Rle_dec x y then x :: l else y :: insertR x t
  end.
Definition sortR (l : list R) : list R := fold_right insertR [] l.

(** [np.percentile(l, q)] of a non-empty list: linear interpolation between the two
    neighbours of the position q (n-1) / 100 in the sorted list. *)
Definition percentile (q : R) (l : list R) : R :=
  let s := sortR l in
  let v := q / 100 * INR (length l - 1) in
  let k := Z.to_nat (Zfloor v) in
  nth k s 0 + (nth (S k) s (nth k s 0) - nth k s 0) * (v - IZR (Zfloor v)).

(** The outcomes of the four calls of sep.extract that can happen: 8 sigma (582-595),
    35 sigma (601-616), 3 sigma with minarea 5 (633-646) and with minarea 9 (653-659). *)
Record attempts : Type := mkattempts {
  at_default : res (list src);
  at_high : res (list src);
  at_low5 : res (list src);
  at_low9 : res (list src) }.

(** [try: a except Exception: b] *)
Definition orelse {A} (a b : res A) : res A := match a with Ok x => Ok x | Raise _ => b end.

(** single_image.py:582-691: the detected sources. With one source all the branches raise
    ValueError. *)
Definition detect (a : attempts) (min_sources : Z) : res (list src) :=
  bind (orelse (at_default a) (at_high a)) (fun srcs =>
  bind (if (Z.of_nat (length srcs) <? min_sources)%Z then
          bind (orelse (at_low5 a) (at_low9 a)) (fun low =>
          Ok (if (length low <? length srcs)%nat then srcs else low))
        else Ok srcs) (fun srcs =>
  match srcs with
  | [] => Raise ValueError
  | [_] => Raise ValueError
  | _ => Ok srcs
  end)).

Definition Rleb (x y : R) : bool := if Rle_dec x y then true else false.

(** single_image.py:693-709: the quality cuts. *)
Definition good (srcs : list src) (s : src) : bool :=
  let sizes := map (fun t => INR (s_npix t)) srcs in
  let fluxes := map s_flux srcs in
  Rleb (percentile 20 sizes) (INR (s_npix s)) && (s_flag s =? 0)%Z &&
  Rleb (INR (s_npix s)) (percentile 80 sizes) &&
  Rleb (s_flux s) (percentile 85 fluxes) && Rleb (percentile 15 fluxes) (s_flux s).

Definition MAX_SRCS_LIMIT : nat := 1800.

(** single_image.py:720-735. [choice n] is np.random.choice(n, 1800, replace=False). *)
Definition select (choice : nat -> list nat) (srcs : list src) : list src :=
  let best := filter (good srcs) srcs in
  let best := if (length best <? 5)%nat then srcs else best in
  if (MAX_SRCS_LIMIT <? length best)%nat then
    map (fun k => nth k best (mksrc 0 0 0 0 0)) (choice (length best))
  else best.

(** single_image.py:571-739, the first access to best_sources. *)
Definition best_sources (choice : nat -> list nat) (a : attempts) (min_sources : Z)
  : res (list src) :=
  bind (detect a min_sources) (fun srcs => Ok (select choice srcs)).

(** single_image.py:555-569 with shape None. *)
Definition default_side (srcs : list src) : Z :=
  let p := 3 * sqrt (percentile 65 (map (fun t => INR (s_npix t)) srcs)) in
  if Rlt_dec 5 p then
    let dx := Ztrunc p in
    if (dx mod 2 =? 1)%Z then dx else (dx + 1)%Z
  else 5%Z.
Definition default_stamp (srcs : list src) : Z * Z := (default_side srcs, default_side srcs).
