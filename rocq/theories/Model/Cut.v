(** Model of the extraction of star stamps with what it writes into the interpolated image
    (properimage/single_image.py 753-959, 1313-1375).

    astropy's extract_array returns a view of the image when the window is inside the frame, and
    a new array otherwise. The statements [sub_array_data += ...] and [sub_array_data -= ...] of
    lines 835-841 therefore change the cached interpolated image, from which the stamps of the
    sources that follow are cut and which the later steps read. Model/Stamps.v has the same
    computation for one source with a copy of the window.

    Exact real numbers; [None] is nan. Cells outside the shape of a window are 0 here. *)
From Coq Require Import ZArith List Bool Arith Reals.
From Verif.Model Require Import Py Plane Sources FindS Stamps Interp.
Import ListNotations.
Local Open Scope R_scope.

(** astropy's [extract_array(image, shape, position, mode="partial", fill_value=fill)]: the
    values. *)
Definition view (image : plane (option R)) (fill : R) (sh : nat * nat) (pos : R * R)
  : res (plane (option R)) :=
  if no_overlap (nr image) (fst sh) (fst pos) || no_overlap (nc image) (snd sh) (snd pos)
  then Raise NoOverlapError
  else
    let r0 := first_index (fst pos) (fst sh) in
    let c0 := first_index (snd pos) (snd sh) in
    Ok (mkplane (fst sh) (snd sh) (fun i j =>
      if (i <? fst sh)%nat && (j <? snd sh)%nat then
        let r := (r0 + Z.of_nat i)%Z in
        let c := (c0 + Z.of_nat j)%Z in
        if in_axis (nr image) r && in_axis (nc image) c
        then px image (Z.to_nat r) (Z.to_nat c) else Some fill
      else Some 0)).

(** Does it share its cells with the image? [array_large[large_slices]] has the shape asked for
    exactly when the window is inside. *)
Definition shares (image : plane (option R)) (sh : nat * nat) (pos : R * R) : bool :=
  let r0 := first_index (fst pos) (fst sh) in
  let c0 := first_index (snd pos) (snd sh) in
  (0 <=? r0)%Z && (r0 + Z.of_nat (fst sh) <=? Z.of_nat (nr image))%Z &&
  ((0 <=? c0)%Z && (c0 + Z.of_nat (snd sh) <=? Z.of_nat (nc image))%Z).

(** The image after the cells of the window around [pos] became those of [w]. *)
Definition write (image : plane (option R)) (pos : R * R) (w : plane (option R)) : plane (option R) :=
  if shares image (shape w) pos then
    let r0 := Z.to_nat (first_index (fst pos) (nr w)) in
    let c0 := Z.to_nat (first_index (snd pos) (nc w)) in
    mkplane (nr image) (nc image) (fun i j =>
      if (r0 <=? i)%nat && (i <? r0 + nr w)%nat && ((c0 <=? j)%nat && (j <? c0 + nc w)%nat)
      then px w (i - r0) (j - c0) else px image i j)
  else image.

(** The array as numbers, when none of its cells is nan. *)
Definition whole (w : plane (option R)) : option (plane R) :=
  if any_nan w then None
  else Some (pmap (fun x => match x with Some x => x | None => 0 end) w).

(** single_image.py:771-789: a comparison with nan is False. *)
Definition check_margin_nan (rms : R) (w : plane (option R)) : bool :=
  let border := map (fun i => px w i 0) (seq 0 (nr w)) ++ map (fun i => px w i (nc w - 1)) (seq 0 (nr w)) ++
                map (fun j => px w (nr w - 1) j) (seq 0 (nc w)) ++ map (fun j => px w 0 j) (seq 0 (nc w)) in
  if existsb is_nan border then false
  else check_margin rms (pmap (fun x => match x with Some x => x | None => 0 end) w).

(** single_image.py:817-832 *)
Fixpoint grow_view (fuel : nat) (image : plane (option R)) (rms : R) (sh : nat * nat) (pos : R * R)
  (cur : nat * nat) (sub : plane (option R)) : option (res (plane (option R))) :=
  match fuel with
  | O => None
  | S fuel' =>
      if Nat.eqb (nr sub) 0 || Nat.eqb (nc sub) 0 then Some (Raise IndexError)
      else
        let check := check_margin_nan rms sub in
        let cur' := (fst cur + 2, snd cur + 2)%nat in
        match view image rms cur' pos with
        | Raise e => Some (Raise e)
        | Ok sub' =>
            let check' := if Nat.leb 6 (fst cur' - fst sh) then false else check in
            if check' then grow_view fuel' image rms sh pos cur' sub' else Some (Ok sub')
        end
  end.

(** The array, 0 outside its shape. *)
Definition tidy (p : plane R) : plane R :=
  mkplane (nr p) (nc p) (fun i j => if (i <? nr p)%nat && (j <? nc p)%nat then px p i j else 0).

(** single_image.py:835-841, in place: nan everywhere when a cell is nan or no cell is below
    the percentile. *)
Definition levelled (w : plane (option R)) : plane (option R) :=
  match whole w with
  | None => pmap (fun _ => None) w
  | Some p => match subtract_level p with
              | Some q => pmap Some (tidy q)
              | None => pmap (fun _ => None) w
              end
  end.

(** single_image.py:855-919, on an array that was levelled. *)
Definition judge stats label (pk : picks) (w : plane (option R)) : res (option (plane (option R))) :=
  let stamp := match whole w with Some p => unit_sum p | None => pmap (fun _ => None) w end in
  if private_pick pk then
    bind (strict stats label (whole w)) (fun ok => Ok (if ok : bool then Some stamp else None))
  else Ok (Some stamp).

(** single_image.py:801-923: one source; the image afterwards, and the stamp ([None]: the source
    is rejected). The padding comes after the array was changed. *)
Definition cut_one stats label (pk : picks) (image : plane (option R)) (rms : R) (sh : nat * nat) (s : src)
  : plane (option R) * res (option (plane (option R))) :=
  let pos := (s_y s, s_x s) in
  match view image rms sh pos with
  | Raise e => (image, Raise e)
  | Ok sub0 =>
      if any_nan sub0 then (image, Ok None)
      else
        match grow_view 4 image rms sh pos sh sub0 with
        | None => (image, Raise ValueError)
        | Some (Raise e) => (image, Raise e)
        | Some (Ok sub) =>
            let lev := levelled sub in
            let pad0 := (Z.of_nat (fst sh) - Z.of_nat (nr sub) + Z.of_nat STAMP_PADSIZE)%Z in
            let pad1 := (Z.of_nat (snd sh) - Z.of_nat (nc sub) + Z.of_nat STAMP_PADSIZE)%Z in
            (write image pos lev,
             if negb ((pad0 =? 0)%Z && (pad1 =? 0)%Z) then Raise TypeError
             else judge stats label pk lev)
        end
  end.

(** single_image.py:801-924: the loop; [jj] counts the sources. *)
Fixpoint cut_loop stats label pk image rms sh (srcs : list src) (jj : nat)
  (pos : list (R * R)) (stamps : list (plane (option R))) (to_del : list nat)
  : plane (option R) * res (list (R * R) * list (plane (option R)) * list nat) :=
  match srcs with
  | [] => (image, Ok (pos, stamps, to_del))
  | s :: rest =>
      match cut_one stats label pk image rms sh s with
      | (image', Raise e) => (image', Raise e)
      | (image', Ok None) => cut_loop stats label pk image' rms sh rest (S jj) pos stamps (to_del ++ [jj])
      | (image', Ok (Some p)) =>
          cut_loop stats label pk image' rms sh rest (S jj) (pos ++ [(s_y s, s_x s)]) (stamps ++ [p]) to_del
      end
  end.

(** single_image.py:765-957: the interpolated image afterwards, also when a source raises, and
    what Model/Stamps.v has. *)
Definition cut_stamps stats label (pk : picks) (image : plane (option R)) (rms : R)
  (sh : nat * nat) (sources : list src) : plane (option R) * res extraction :=
  let n := length sources in
  let pk' := if Nat.leb n 20 then mkpicks (private_pick pk) (Some false) else pk in
  match cut_loop stats label pk' image rms sh sources 0 [] [] [] with
  | (image', r) =>
      (image', bind r (fun '(pos, stamps, to_del) =>
         Ok (mkextraction pos stamps
               (if Nat.leb 15 (n - length to_del) then np_delete 0 to_del sources else sources)
               (fst sh + STAMP_PADSIZE, snd sh + STAMP_PADSIZE)%nat (length pos) pk')))
  end.
