(** Model of the extraction of star stamps, [stamps_pos]
    (properimage/single_image.py 753-959).

    Exact real numbers. This file has the pieces: the window, the margins, the growth, the
    level. Here a window is a copy of the image; the image has no NaN before the extraction (see
    the property about [interped]), so the NaN rejection of lines 811-815 is left out. The loop
    as it acts on the image in place, with NaN, is in Model/Cut.v, and the properties of the
    extraction are stated about that one. *)
From Coq Require Import ZArith List Bool Arith Reals.
From Flocq Require Import Core.Raux.
From Verif.Model Require Import Py Plane Sources FindS.
Import ListNotations.
Local Open Scope R_scope.

(** astropy's [overlap_slices]: first index covered on one axis. *)
Definition first_index (pos : R) (side : nat) : Z := Zceil (pos - INR side / 2).

(** Is the window of that axis outside an image of [n] cells? *)
Definition no_overlap (n side : nat) (pos : R) : bool :=
  (first_index pos side + Z.of_nat side <=? 0)%Z || (Z.of_nat n <=? first_index pos side)%Z.

(** Cell [z] of an axis of [n] cells. *)
Definition in_axis (n : nat) (z : Z) : bool := (0 <=? z)%Z && (z <? Z.of_nat n)%Z.

(** astropy's [extract_array(image, shape, position, mode="partial", fill_value=fill)]. *)
Definition extract_array (image : plane R) (fill : R) (sh : nat * nat) (pos : R * R)
  : res (plane R) :=
  if no_overlap (nr image) (fst sh) (fst pos) || no_overlap (nc image) (snd sh) (snd pos)
  then Raise NoOverlapError
  else
    let r0 := first_index (fst pos) (fst sh) in
    let c0 := first_index (snd pos) (snd sh) in
    Ok (mkplane (fst sh) (snd sh) (fun i j =>
      let r := (r0 + Z.of_nat i)%Z in
      let c := (c0 + Z.of_nat j)%Z in
      if in_axis (nr image) r && in_axis (nc image) c
      then px image (Z.to_nat r) (Z.to_nat c) else fill)).

Definition sumR (l : list R) : R := fold_right Rplus 0 l.
Definition meanR (l : list R) : R := sumR l / INR (length l).
(** [np.std] *)
Definition stdR (l : list R) : R :=
  sqrt (meanR (map (fun x => (x - meanR l) * (x - meanR l)) l)).
(** [np.min] of a non-empty list. *)
Definition minR (l : list R) : R :=
  match l with [] => 0 | x :: t => fold_right Rmin x t end.
(** [np.median] of a non-empty list. *)
Definition median (l : list R) : R :=
  let s := sortR l in
  let n := length l in
  (nth (Nat.div (n - 1) 2) s 0 + nth (Nat.div n 2) s 0) / 2.

(** The cells of an array in row-major order, with their values. *)
Definition values {A} (p : plane A) : list A :=
  map (fun c => px p (fst c) (snd c)) (all_cells p).

Definition MARGIN_CHECK_THRESHOLD : R := 35 / 10.
Definition STAMP_PADSIZE : nat := 6.
Definition PSF_CTR_TOL : R := 5.

(** single_image.py:771-789: columns 0 and -1, rows -1 and 0. *)
Definition margins (p : plane R) : list R :=
  map (fun i => px p i 0) (seq 0 (nr p)) ++ map (fun i => px p i (nc p - 1)) (seq 0 (nr p)) ++
  map (fun j => px p (nr p - 1) j) (seq 0 (nc p)) ++ map (fun j => px p 0 j) (seq 0 (nc p)).

Definition check_margin (rms : R) (p : plane R) : bool :=
  let m := meanR (margins p) in
  let s := stdR (margins p) in
  (if Rlt_dec (MARGIN_CHECK_THRESHOLD * rms) (m + s) then true else false) ||
  (if Rlt_dec (m - s) (MARGIN_CHECK_THRESHOLD * rms) then true else false).

(** single_image.py:817-832: the loop that grows the stamp; [sh] is [self.stamp_shape] and
    [cur] is [new_shape]. [None] when the fuel runs out. An empty stamp is an IndexError in
    [check_margin]. *)
Fixpoint grow (fuel : nat) (image : plane R) (rms : R) (sh : nat * nat) (pos : R * R)
  (cur : nat * nat) (sub : plane R) : option (res (plane R)) :=
  match fuel with
  | O => None
  | S fuel' =>
      if Nat.eqb (nr sub) 0 || Nat.eqb (nc sub) 0 then Some (Raise IndexError)
      else
        let check := check_margin rms sub in
        let cur' := (fst cur + 2, snd cur + 2)%nat in
        match extract_array image rms cur' pos with
        | Raise e => Some (Raise e)
        | Ok sub' =>
            let check' := if Nat.leb 6 (fst cur' - fst sh) then false else check in
            if check' then grow fuel' image rms sh pos cur' sub' else Some (Ok sub')
        end
  end.

(** single_image.py:835-841: shifted by the absolute value of the minimum, then by the median
    of the cells below the 70th percentile. [None]: there are no such cells and numpy's
    median is nan. *)
Definition subtract_level (sub : plane R) : option (plane R) :=
  let sub1 := pmap (fun x => x + Rabs (minR (values sub))) sub in
  let cut := percentile 70 (map Rabs (values sub1)) in
  let star_bg := filter (fun x => if Rlt_dec x cut then true else false) (values sub1) in
  match star_bg with
  | [] => None
  | _ => Some (pmap (fun x => x - median star_bg) sub1)
  end.

(** single_image.py:855: division by the sum. [None] in a cell stands for nan or inf. *)
Definition unit_sum (p : plane R) : plane (option R) :=
  let t := sumR (values p) in
  pmap (fun x => if Req_EM_T t 0 then None else Some (x / t)) p.

(** The first cell (row-major) with the largest value. *)
Definition argmax (p : plane R) : nat * nat :=
  fold_left (fun b c => if Rlt_dec (px p (fst b) (snd b)) (px p (fst c) (snd c)) then c else b)
    (all_cells p) (0, 0)%nat.

(** Distance of a position from [new_shape / 2.0] greater than [new_shape[0] / 5]? *)
Definition off_centre (sh : nat * nat) (x y : R) : bool :=
  if Rlt_dec (INR (fst sh) / PSF_CTR_TOL)
       (sqrt ((x - INR (fst sh) / 2) * (x - INR (fst sh) / 2) +
              (y - INR (snd sh) / 2) * (y - INR (snd sh) / 2)))
  then true else false.

(** single_image.py:857-919: the strict criteria, for a stamp of finite cells; true when the
    source is kept. *)
Definition strict_finite (stats : plane R -> R * R * R) (label : plane bool -> plane nat * nat)
  (p : plane R) : res bool :=
  let sh := shape p in
  let peak := argmax p in
  if off_centre sh (INR (fst peak)) (INR (snd peak)) then Ok false
  else if Rlt_dec (15 / 100) (stdR (values p)) then Ok false
  else if existsb (fun x => if Rlt_dec (1 / 2) x then true else false) (values p) then Ok false
  else
    bind (find_S stats label p (35 / 10) 5) (fun cat =>
      match cat with
      | [] => Ok true
      | [(ymax, xmax, _)] => Ok (negb (off_centre sh xmax ymax))
      | _ => Ok false
      end).

(** The strict criteria on any stamp. With a NaN cell the maximum is NaN, no cell equals it,
    and [xcm[0]] is an IndexError. Without NaN but a zero total the cells are infinite of both
    signs; the source is then rejected (by its peak or because a cell exceeds 0.5). *)
Definition strict (stats : plane R -> R * R * R) (label : plane bool -> plane nat * nat)
  (levelled : option (plane R)) : res bool :=
  match levelled with
  | None => Raise IndexError
  | Some p =>
      let t := sumR (values p) in
      if Req_EM_T t 0 then
        if existsb (fun x => if Req_EM_T x 0 then true else false) (values p)
        then Raise IndexError else Ok false
      else strict_finite stats label (pmap (fun x => x / t) p)
  end.

(** The two attributes: the constructor's argument is kept in [_strict_star_pick] (line 129);
    line 799 assigns [strict_star_pick]. *)
Record picks : Type := mkpicks { private_pick : bool; public_pick : option bool }.

(** single_image.py:801-923: one source; [None] means rejected. Padding with a non-zero
    width of floats is a TypeError. *)
Definition one_stamp stats label (pk : picks) (image : plane R) (rms : R) (sh : nat * nat)
  (s : src) : res (option (plane (option R))) :=
  let pos := (s_y s, s_x s) in
  bind (extract_array image rms sh pos) (fun sub0 =>
  bind (match grow 4 image rms sh pos sh sub0 with Some r => r | None => Raise ValueError end)
    (fun sub =>
  let pad0 := (Z.of_nat (fst sh) - Z.of_nat (nr sub) + Z.of_nat STAMP_PADSIZE)%Z in
  let pad1 := (Z.of_nat (snd sh) - Z.of_nat (nc sub) + Z.of_nat STAMP_PADSIZE)%Z in
  if negb ((pad0 =? 0)%Z && (pad1 =? 0)%Z) then Raise TypeError
  else
    let lev := subtract_level sub in
    let stamp := match lev with
                 | Some p => unit_sum p
                 | None => pmap (fun _ => None) sub
                 end in
    if private_pick pk then
      bind (strict stats label lev) (fun ok => Ok (if ok : bool then Some stamp else None))
    else Ok (Some stamp))).

(** What a call leaves behind: positions, stamps written to the database in the order of their
    keys 0, 1, ..., the catalogue, the stamp shape and the number of sources. *)
Record extraction : Type := mkextraction {
  ex_pos : list (R * R);
  ex_stamps : list (plane (option R));
  ex_sources : list src;
  ex_shape : nat * nat;
  ex_n : nat;
  ex_picks : picks }.

(** single_image.py:801-924: the loop; [jj] counts the sources. *)
Fixpoint stamp_loop stats label pk image rms sh (srcs : list src) (jj : nat)
  (pos : list (R * R)) (stamps : list (plane (option R))) (to_del : list nat)
  : res (list (R * R) * list (plane (option R)) * list nat) :=
  match srcs with
  | [] => Ok (pos, stamps, to_del)
  | s :: rest =>
      match one_stamp stats label pk image rms sh s with
      | Raise e => Raise e
      | Ok None => stamp_loop stats label pk image rms sh rest (S jj) pos stamps (to_del ++ [jj])
      | Ok (Some p) =>
          stamp_loop stats label pk image rms sh rest (S jj)
            (pos ++ [(s_y s, s_x s)]) (stamps ++ [p]) to_del
      end
  end.

(** [np.delete(l, indices, axis=0)]; [k] is the index of the head. *)
Fixpoint np_delete {A} (k : nat) (indices : list nat) (l : list A) : list A :=
  match l with
  | [] => []
  | a :: t =>
      if existsb (Nat.eqb k) indices then np_delete (S k) indices t
      else a :: np_delete (S k) indices t
  end.

(** single_image.py:765-957: the whole computation. *)
Definition extract_stamps stats label (pk : picks) (image : plane R) (rms : R)
  (sh : nat * nat) (sources : list src) : res extraction :=
  let n := length sources in
  let pk' := if Nat.leb n 20 then mkpicks (private_pick pk) (Some false) else pk in
  bind (stamp_loop stats label pk' image rms sh sources 0 [] [] []) (fun '(pos, stamps, to_del) =>
  Ok (mkextraction pos stamps
        (if Nat.leb 15 (n - length to_del) then np_delete 0 to_del sources else sources)
        (fst sh + STAMP_PADSIZE, snd sh + STAMP_PADSIZE)%nat (length pos) pk')).
