(** Model of the construction of a [SingleImage]: header, gain, data and mask
    (properimage/single_image.py 111-146, 168-502) and of [store_img]
    (properimage/utils.py 40-66).

    Pixel values are IEEE numbers ([spec_float] of the standard library). Whole-number
    images (integer dtypes) are represented by the floats of the same value. The empty
    HDU (no data) and arrays that are not 2-d are outside the model. *)
From Coq Require Import ZArith List Bool Arith String.
From Coq Require Import SpecFloat.
From Verif.Model Require Import Py Plane Ma.
Import ListNotations.

Definition pix := spec_float.

Definition fzero : pix := S754_zero false.
Definition fone : pix := S754_finite false 1 0.

(** The integer [z] as a pixel value, rounded to binary64. *)
Definition pix_of_Z (z : Z) : pix := SpecFloat.binary_normalize 53 1024 z 0 false.

Definition is_nanb (x : pix) : bool := match x with S754_nan => true | _ => false end.

(** [np.isfinite] *)
Definition finiteb (x : pix) : bool :=
  match x with S754_zero _ | S754_finite _ _ _ => true | _ => false end.

(** Comparison of two IEEE values of any format, by value ([None]: one of them is NaN). *)
Definition fexp (x : pix) : Z := match x with S754_finite _ _ e => e | _ => 0%Z end.
Definition fnum (x : pix) (e0 : Z) : Z :=
  match x with S754_finite s m e => cond_Zopp s (Zpos m * 2 ^ (e - e0))%Z | _ => 0%Z end.
Definition fcmp (x y : pix) : option comparison :=
  match x, y with
  | S754_nan, _ | _, S754_nan => None
  | S754_infinity s, S754_infinity s' =>
      Some (if Bool.eqb s s' then Eq else if s then Lt else Gt)
  | S754_infinity s, _ => Some (if s then Lt else Gt)
  | _, S754_infinity s => Some (if s then Gt else Lt)
  | _, _ => let e0 := Z.min (fexp x) (fexp y) in Some (fnum x e0 ?= fnum y e0)%Z
  end.
Definition fltb (x y : pix) : bool := match fcmp x y with Some Lt => true | _ => false end.
Definition fleb (x y : pix) : bool :=
  match fcmp x y with Some Lt | Some Eq => true | _ => false end.
Definition feqb (x y : pix) : bool := match fcmp x y with Some Eq => true | _ => false end.

(** [.astype("<f4")] of one value: rounding to binary32. *)
Definition to_f4 (x : pix) : pix :=
  match x with
  | S754_finite s m e => SpecFloat.binary_normalize 24 128 (cond_Zopp s (Zpos m)) e s
  | _ => x
  end.

(** Product and sum of two float32 values. *)
Definition f4_mul (x y : pix) : pix := SFmul 24 128 x y.
Definition f4_add (x y : pix) : pix := SFadd 24 128 x y.

(** The constants -50 and 65000 (single_image.py 60-76, MASK_LOWER_THRESHOLD, and the
    literal 65000.0 of the mask setter). *)
Definition low_thresh : pix := pix_of_Z (-50).
Definition high_thresh : pix := pix_of_Z 65000.

(** A masked array: data and mask. *)
Record marr : Type := mkmarr { dat : plane pix; msk : mask }.

(** One HDU: the header cards the code reads, and the data. *)
Record hdu : Type := mkhdu {
  h_gain : option pix;       (* GAIN *)
  h_extend : option bool;    (* EXTEND *)
  h_data : plane pix }.

(** The [img] argument of the constructor. A [numpy.ma.MaskedArray] is an [ndarray]
    whose class name is not "ndarray". [Other] stands for an object of a class the
    setters do not test for (such as CCDData or None). *)
Inductive source : Type :=
| Path (name : string)
| Ndarray (d : plane pix)
| MaskedArr (a : marr)
| HduList (l : list hdu)
| Primary (h : hdu)
| Other.

(** The [mask] argument. *)
Inductive maskarg : Type :=
| MPath (name : string)
| MArray (m : plane bool)
| MNone
| MOther.

(* ------------------------------------------------------------------ *)
(** ** numpy.ma *)

(** Cells of a slice [a[r0:r1, c0:c1]]. *)
Definition slice_plane {A} (p : plane A) (r0 r1 c0 c1 : Z) : plane A :=
  let n := Z.of_nat (nr p) in
  let m := Z.of_nat (nc p) in
  let rl := slice_bound n r0 in
  let rh := slice_bound n r1 in
  let cl := slice_bound m c0 in
  let ch := slice_bound m c1 in
  mkplane (Z.to_nat (rh - rl)) (Z.to_nat (ch - cl))
          (fun i j => px p (Z.to_nat rl + i) (Z.to_nat cl + j)).

Definition slice_mask (m : mask) (r0 r1 c0 c1 : Z) : mask :=
  match m with Nomask => Nomask | Full q => Full (slice_plane q r0 r1 c0 c1) end.

(** Slicing a masked array slices its data and its mask. *)
Definition slice_marr (a : marr) (r0 r1 c0 c1 : Z) : marr :=
  mkmarr (slice_plane (dat a) r0 r1 c0 c1) (slice_mask (msk a) r0 r1 c0 c1).

(** [current.flat = m]: the cells of [current] in row-major order receive the cells of
    [m] in row-major order, cyclically; an empty [m] changes nothing. *)
Definition set_flat (current m : plane bool) : plane bool :=
  if nr m * nc m =? 0 then current
  else mkplane (nr current) (nc current) (fun i j =>
         let k := (i * nc current + j) mod (nr m * nc m) in
         px m (k / nc m) (k mod nc m)).

(** [a.mask = m] for a masked array with a soft mask: a scalar fills, an array goes
    through [.flat]; nothing happens when both are [nomask]. *)
Definition assign_mask (a : marr) (m : mask) : marr :=
  match msk a, m with
  | Nomask, Nomask => a
  | Nomask, Full q => mkmarr (dat a) (Full (set_flat (pconst (shape (dat a)) false) q))
  | Full c, Nomask => mkmarr (dat a) (Full (pconst (shape c) false))
  | Full c, Full q => mkmarr (dat a) (Full (set_flat c q))
  end.

(** [ma.masked_where(test(a), a)] with [test(a)] a masked comparison: masked cells of
    the comparison count as True, the result is united with the mask of [a] and shrunk,
    and then assigned to a copy of [a]. *)
Definition masked_test (test : pix -> bool) (a : marr) : res marr :=
  let cond := mkplane (nr (dat a)) (nc (dat a))
                (fun i j => orb (test (px (dat a) i j)) (masked_at (msk a) i j)) in
  bind (mask_or (Full cond) (msk a)) (fun m => Ok (assign_mask a m)).

Definition masked_less (a : marr) (v : pix) : res marr := masked_test (fun x => fltb x v) a.
Definition masked_greater (a : marr) (v : pix) : res marr := masked_test (fun x => fltb v x) a.

(** [ma.masked_invalid(a)]: never returns [nomask]. *)
Definition masked_invalid (a : marr) : res marr :=
  bind (masked_test (fun x => negb (finiteb x)) a) (fun b =>
    Ok (match msk b with
        | Nomask => mkmarr (dat b) (Full (pconst (shape (dat b)) false))
        | Full _ => b
        end)).

(** [ma.MaskedArray(img, mask=False)]: a full mask; the mask of a masked [img] is kept. *)
Definition with_mask_false (a : marr) : marr :=
  mkmarr (dat a) (Full (mkplane (nr (dat a)) (nc (dat a)) (fun i j => masked_at (msk a) i j))).

Definition astype_f4 (a : marr) : marr := mkmarr (pmap to_f4 (dat a)) (msk a).

(** [a * g] for a float32 masked array and a Python number: masked cells keep their
    value. *)
Definition mul_gain (a : marr) (g : pix) : marr :=
  mkmarr (mkplane (nr (dat a)) (nc (dat a)) (fun i j =>
            if masked_at (msk a) i j then px (dat a) i j
            else f4_mul (px (dat a) i j) (to_f4 g)))
         (msk a).

(** Number of cells with a given value ([np.sum] of a boolean array). *)
Definition countb (p : plane bool) : nat :=
  list_sum (map (fun i => list_sum (map (fun j => if px p i j then 1 else 0) (seq 0 (nc p))))
                (seq 0 (nr p))).

(** [np.sum(~m)]: of [nomask] it is 1. *)
Definition count_unmasked (m : mask) : nat :=
  match m with Nomask => 1 | Full q => countb (pmap negb q) end.

(* ------------------------------------------------------------------ *)
(** ** Threshold masks read from a FITS extension *)

Fixpoint insert_pix (x : pix) (l : list pix) : list pix :=
  match l with
  | [] => [x]
  | y :: t => if fleb x y then x :: l else y :: insert_pix x t
  end.
Definition sort_pix (l : list pix) : list pix := fold_right insert_pix [] l.

(** Cells in row-major order. *)
Definition cells {A} (p : plane A) : list A :=
  flat_map (fun i => map (fun j => px p i j) (seq 0 (nc p))) (seq 0 (nr p)).

(** [np.median(m)] (binary64). *)
Definition median (p : plane pix) : pix :=
  let l := cells p in
  let n := List.length l in
  if existsb is_nanb l then S754_nan
  else if n =? 0 then S754_nan
  else let s := sort_pix l in
       if Nat.odd n then nth (n / 2) s S754_nan
       else SFdiv 53 1024 (SFadd 53 1024 (nth (n / 2 - 1) s S754_nan) (nth (n / 2) s S754_nan))
                  (pix_of_Z 2).

(** single_image.py 328-338 (and 388-391, 417-424): the mask read from a FITS image,
    [>= thresh] when its median is 0 and [<= thresh] otherwise. *)
Definition thresh_mask (fitsmask : plane pix) (thresh : pix) : plane bool :=
  if feqb (median fitsmask) fzero
  then pmap (fun v => fleb thresh v) fitsmask
  else pmap (fun v => fleb v thresh) fitsmask.

(* ------------------------------------------------------------------ *)
(** ** Border search (single_image.py 216-260) *)

(** The loop [for x, px in enumerate(line): pxsum += px; if pxsum > 0.0: ...; break]:
    the index at which it breaks. The sum runs in float32. *)
Fixpoint first_pos_from (acc : pix) (k : nat) (line : list pix) : option nat :=
  match line with
  | [] => None
  | v :: t => let acc := f4_add acc v in
              if fltb fzero acc then Some k else first_pos_from acc (S k) t
  end.
Definition first_pos (line : list pix) : option nat := first_pos_from fzero 0 line.

(** The loop [for d in range(n): if not np.sum(...) == 0: ...; break]: the index at which
    it breaks, [test d] being the sum of the d-th block. *)
Definition first_nonzero (n : nat) (blocksum : nat -> pix) : option nat :=
  find (fun d => negb (feqb (blocksum d) fzero)) (seq 0 n).

Definition row_line (p : plane pix) (i : nat) : list pix := map (px p i) (seq 0 (nc p)).
Definition col_line (p : plane pix) (j : nat) : list pix := map (fun i => px p i j) (seq 0 (nr p)).

(** [np.sum] of the blocks the loops look at; [nsum] is numpy's summation (its order of
    additions is not part of the model). *)
Definition block (nsum : list pix -> pix) (p : plane pix) (r0 r1 c0 c1 : Z) : pix :=
  nsum (cells (slice_plane p r0 r1 c0 c1)).

(** The window (ldx, rdx, ldy, rdy) of single_image.py 216-258. A variable that was never
    assigned raises UnboundLocalError when it is first read. *)
Definition border_window (nsum : list pix -> pix) (p : plane pix) : res (Z * Z * Z * Z) :=
  let sx := nr p in
  let sy := nc p in
  let all := Z.of_nat (sx + sy) in
  let line := row_line p (sx / 2) in
  match first_pos line with
  | None => Raise UnboundLocalError
  | Some ldx0 =>
      let ldx := match first_nonzero ldx0 (fun d => block nsum p 0 (Z.of_nat d) 0 all) with
                 | Some d => d | None => ldx0 end in
      let back := first_pos (rev line) in
      let x := match back with Some x => x | None => List.length line - 1 end in
      let rdx0 := match back with Some x => Some (Z.of_nat sx - Z.of_nat x)%Z | None => None end in
      let rdx := match first_nonzero x (fun d => block nsum p (- Z.of_nat d - 1) all 0 all) with
                 | Some d => Some (Z.of_nat sx - Z.of_nat d)%Z | None => rdx0 end in
      match first_pos (col_line p (sy / 2)) with
      | None => Raise UnboundLocalError
      | Some ldy0 =>
          let ldy := match first_nonzero ldy0 (fun d => block nsum p 0 all 0 (Z.of_nat d)) with
                     | Some d => d | None => ldy0 end in
          (* the last loop runs over the row again, not over the column *)
          let rdy0 := match back with Some y => Some (Z.of_nat sy - Z.of_nat y)%Z | None => None end in
          let rdy := match first_nonzero x (fun d => block nsum p 0 all (- Z.of_nat d - 1) all) with
                     | Some d => Some (Z.of_nat sy - Z.of_nat d)%Z | None => rdy0 end in
          match rdx, rdy with
          | Some rx, Some ry => Ok (Z.of_nat ldx, rx, Z.of_nat ldy, ry)
          | _, _ => Raise UnboundLocalError
          end
      end
  end.

(* ------------------------------------------------------------------ *)
(** ** The setters *)

Section Setters.

(** The file system as [fits.open] sees it; [None] is an IOError. *)
Variable fs : string -> option (list hdu).
(** [np.sum] of a float32 array. *)
Variable nsum : list pix -> pix.

Definition open_primary (name : string) : res hdu :=
  match fs name with
  | Some (h :: _) => Ok h
  | _ => Raise IOError
  end.

(** single_image.py 168-182: a path is its own name, anything else the name of its
    class. *)
Definition attached_to (s : source) : string :=
  match s with
  | Path n => n
  | Ndarray _ => "ndarray"
  | MaskedArr _ => "MaskedArray"
  | HduList _ => "HDUList"
  | Primary _ => "PrimaryHDU"
  | Other => "object"
  end%string.

(** A header: the cards GAIN and EXTEND. *)
Definition header := (option pix * option bool)%type.

(** single_image.py 296-311. For other classes the attribute is not set. *)
Definition get_header (s : source) : res (option header) :=
  match s with
  | Path n => bind (open_primary n) (fun h => Ok (Some (h_gain h, h_extend h)))
  | Ndarray _ | MaskedArr _ => Ok (Some (None, None))
  | HduList (h :: _) => Ok (Some (h_gain h, h_extend h))
  | HduList [] => Raise IndexError
  | Primary h => Ok (Some (h_gain h, h_extend h))
  | Other => Ok None
  end.

(** single_image.py 278-289. *)
Definition get_gain (hd : option header) (arg : option pix) : res pix :=
  match arg with
  | Some g => Ok g
  | None => match hd with
            | None => Raise AttributeError
            | Some (Some g, _) => Ok g
            | Some (None, _) => Ok fone
            end
  end.

(** single_image.py 189-215. *)
Definition load_data (s : source) : res marr :=
  match s with
  | Path n => bind (open_primary n) (fun h => Ok (astype_f4 (mkmarr (h_data h) Nomask)))
  | Ndarray d => Ok (astype_f4 (with_mask_false (mkmarr d Nomask)))
  | MaskedArr a => Ok (astype_f4 (with_mask_false a))
  | HduList (h :: _) => Ok (astype_f4 (mkmarr (h_data h) Nomask))
  | HduList [] => Raise IndexError
  | Primary h => Ok (astype_f4 (mkmarr (h_data h) Nomask))
  | Other => Raise AttributeError
  end.

(** single_image.py 216-263. *)
Definition cut_borders (borders : bool) (a : marr) : res marr :=
  if borders
  then bind (border_window nsum (dat a)) (fun w =>
         match w with (l, r, l', r') => Ok (slice_marr a l r l' r') end)
  else Ok a.

(** The crop argument ((dx0,dx1),(dy0,dy1)). *)
Definition cropt := ((Z * Z) * (Z * Z))%type.

(** single_image.py 264-268. *)
Definition apply_crop (crop : cropt) (a : marr) : marr :=
  match crop with
  | ((x0, x1), (y0, y1)) =>
      if (x0 + x1 + y0 + y1 =? 0)%Z then a
      else slice_marr a x0 (- x1) y0 (- y1)
  end.

(** single_image.py 189-271. *)
Definition set_data (s : source) (borders : bool) (crop : cropt) (gain : pix) : res marr :=
  bind (load_data s) (fun a =>
  bind (cut_borders borders a) (fun a =>
  Ok (mul_gain (apply_crop crop a) gain))).

(** The saturation branch (single_image.py 440-447 and 453-461): [guard] is 1000. *)
Definition saturation (guard : nat) (a : marr) : res marr :=
  bind (masked_greater a high_thresh) (fun b =>
    Ok (if count_unmasked (msk b) <? guard then a else b)).

(** What the first three tests of [attached_to] (single_image.py:360-387) do to a path that is one
    of the names they test for: [self.__img] is the string itself. *)
Definition mistaken (s : source) (hd : option header) : option exn :=
  match s with
  | Path n =>
      if (n =? "PrimaryHDU")%string then Some AttributeError  (* "PrimaryHDU".data *)
      else if (n =? "ndarray")%string then Some TypeError      (* np.isfinite("ndarray") *)
      else if (n =? "HDUList")%string then
        match hd with
        | Some (_, None) => Some KeyError                      (* header["EXTEND"] *)
        | _ => Some AttributeError                             (* "HDUList"[1].data, "HDUList"[0].data *)
        end
      else None
  | _ => None
  end.

(** The first half of the mask setter, single_image.py 318-461. *)
Definition choose_mask (guard : nat) (s : source) (hd : option header) (guess : bool)
           (thresh : pix) (arg : maskarg) (a : marr) : res marr :=
  match arg with
  | MPath n => bind (open_primary n) (fun h =>
                 Ok (assign_mask a (Full (thresh_mask (h_data h) thresh))))
  | MArray m => Ok (assign_mask a (Full m))
  | MNone =>
      if guess then
        match s with
        | Primary h => masked_invalid (mkmarr (h_data h) Nomask)
        | Ndarray d => masked_invalid (mkmarr d Nomask)
        | HduList l =>
            match hd with
            | Some (_, Some true) =>
                match nth_error l 1 with
                | Some e => Ok (assign_mask a (Full (thresh_mask (h_data e) thresh)))
                | None => Raise IndexError
                end
            | Some (_, Some false) =>
                match l with
                | h :: _ => masked_invalid (mkmarr (h_data h) Nomask)
                | [] => Raise IndexError
                end
            | Some (_, None) => Raise KeyError
            | None => Raise AttributeError
            end
        | _ =>
            match mistaken s hd with
            | Some e => Raise e
            | None =>
            match fs (attached_to s) with
            | Some (h :: rest) =>
                match h_extend h with
                | Some true =>
                    match rest with
                    | e :: _ => Ok (assign_mask a (Full (thresh_mask (h_data e) thresh)))
                    | [] => masked_invalid (mkmarr (dat a) Nomask)
                    end
                | Some false => Ok a
                | None => saturation guard a
                end
            | _ => masked_invalid a
            end
            end
        end
      else saturation guard a
  | MOther => saturation guard a
  end.

(** single_image.py 463-477: out-of-range pixels. Both comparisons are made before the
    mask changes. *)
Definition add_out_of_range (a : marr) : res marr :=
  bind (masked_less a low_thresh) (fun lo =>
  bind (masked_greater a high_thresh) (fun hi =>
  bind (mask_or (msk a) (msk lo)) (fun m =>
  let a1 := assign_mask a m in
  bind (mask_or (msk a1) (msk hi)) (fun m' =>
  Ok (assign_mask a1 m'))))).

(** Boundary mode "reflect" of scipy.ndimage.convolve for offsets of at most one cell:
    the cell before the first is the first, the one after the last is the last. [i] is
    the index plus one. *)
Definition reflect1 (n i : nat) : nat := Nat.min (i - 1) (n - 1).

(** [convolve_scp(m.astype(int), np.ones((3, 3)))] *)
Definition convolve3 (m : plane bool) : plane nat :=
  mkplane (nr m) (nc m) (fun i j =>
    list_sum (flat_map (fun di => map (fun dj =>
      if px m (reflect1 (nr m) (i + di)) (reflect1 (nc m) (j + dj)) then 1 else 0)
      [0; 1; 2]) [0; 1; 2])).

(** The same array with its cells computed once and kept in a list: the identity on
    arrays (arrays are functions here; without it evaluation would recompute each cell of
    the previous round nine times). *)
Definition freeze {A} (p : plane A) : plane A :=
  let t := map (fun i => map (px p i) (seq 0 (nc p))) (seq 0 (nr p)) in
  mkplane (nr p) (nc p) (fun i j =>
    match nth_error t i with
    | Some row => match nth_error row j with Some v => v | None => px p i j end
    | None => px p i j
    end).

(** One round of the enlargement, single_image.py 486-490. *)
Definition enlarge1 (a : marr) : res marr :=
  match msk a with
  | Nomask => Ok a
  | Full m0 =>
      let m := freeze m0 in
      bind (mask_or (Full m) (Full (pmap (fun c => 2 <? c) (convolve3 m)))) (fun m' =>
      Ok (assign_mask a m'))
  end.

Fixpoint enlarge (k : nat) (a : marr) : res marr :=
  match k with O => Ok a | S k' => bind (enlarge1 a) (enlarge k') end.

(** Number of rounds, single_image.py 486. *)
Definition rounds : nat := 7.

(** single_image.py 479-493. *)
Definition grow_mask (a : marr) : res marr :=
  match msk a with
  | Full _ => enlarge rounds a
  | Nomask => Ok (assign_mask a (Full (pconst (shape (dat a)) false)))
  end.

(** The mask setter, single_image.py 318-502, given the current data. *)
Definition set_mask_with (guard : nat) (s : source) (hd : option header) (guess : bool)
           (thresh : pix) (arg : maskarg) (a : marr) : res marr :=
  bind (choose_mask guard s hd guess thresh arg a) (fun a =>
  bind (add_out_of_range a) grow_mask).

(** The guard of the code: 1000 unmasked pixels. *)
Definition code_guard : nat := 1000.

Definition set_mask := set_mask_with code_guard.

(** What the constructor keeps (single_image.py 111-146, up to the mask): header, gain,
    the source and the options the setters read, and the data. *)
Record image : Type := mkimage {
  im_src : source;
  im_hdr : option header;
  im_gain : pix;
  im_guess : bool;
  im_thresh : pix;
  im_data : marr }.

Record args : Type := mkargs {
  a_img : source;
  a_mask : maskarg;
  a_thresh : option pix;
  a_guess : bool;
  a_borders : bool;
  a_crop : cropt;
  a_gain : option pix }.

(** single_image.py 1228-1234: the default threshold is 16. *)
Definition thresh_of (t : option pix) : pix :=
  match t with Some v => v | None => pix_of_Z 16 end.

(** single_image.py 129-140: header, gain, threshold, data, mask, in this order. *)
Definition construct (c : args) : res image :=
  bind (get_header (a_img c)) (fun hd =>
  bind (get_gain hd (a_gain c)) (fun g =>
  let th := thresh_of (a_thresh c) in
  bind (set_data (a_img c) (a_borders c) (a_crop c) g) (fun d =>
  bind (set_mask (a_img c) hd (a_guess c) th (a_mask c) d) (fun d' =>
  Ok (mkimage (a_img c) hd g (a_guess c) th d'))))).

(** [si.mask = arg] on an existing image. *)
Definition assign (im : image) (arg : maskarg) : res image :=
  bind (set_mask (im_src im) (im_hdr im) (im_guess im) (im_thresh im) arg (im_data im)) (fun d =>
  Ok (mkimage (im_src im) (im_hdr im) (im_gain im) (im_guess im) (im_thresh im) d)).

End Setters.

(** utils.py 40-66: [store_img(img)] of a real masked array with a full mask: the data
    rounded to float32 and, in extension 1, the mask as 0/1. The primary header of an
    HDU astropy builds carries EXTEND = True and no GAIN. *)
Definition store_img (d : plane pix) (m : plane bool) : list hdu :=
  [ mkhdu None (Some true) (pmap to_f4 d);
    mkhdu None None (pmap (fun b : bool => if b then fone else fzero) m) ].
