(** Vocabulary for the properties of image construction and masking. *)
From Coq Require Import ZArith List Bool Arith String Reals.
From Coq Require Import SpecFloat.
From Flocq Require Import Core.Core IEEE754.BinarySingleNaN.
From Verif.Model Require Import Py Plane Ma Image.
Import ListNotations.
Set Bullet Behavior "Strict Subproofs".

(** The value of a pixel is below -50 or above 65000 (infinities included, NaN not). *)
Definition out_of_range (v : pix) : Prop :=
  match v with
  | S754_nan => False
  | S754_infinity _ => True
  | _ => (SF2R radix2 v < -50)%R \/ (65000 < SF2R radix2 v)%R
  end.

(** The value is not a finite number. *)
Definition non_finite (v : pix) : Prop :=
  match v with S754_nan | S754_infinity _ => True | _ => False end.

(** Mirroring of an index on an axis of [n] cells: ... 1 0 | 0 1 .. n-1 | n-1 n-2 ... *)
Definition mirror (n k : Z) : Z :=
  (if k <? 0 then - k - 1 else if n <=? k then 2 * n - 1 - k else k)%Z.

(** Number of set cells among the nine of the 3x3 neighbourhood of (i,j), the array being
    mirrored at its edges. *)
Definition near (sh : nat * nat) (m : nat -> nat -> bool) (i j : nat) : nat :=
  List.length (filter (fun o : Z * Z =>
      m (Z.to_nat (mirror (Z.of_nat (fst sh)) (Z.of_nat i + fst o)))
        (Z.to_nat (mirror (Z.of_nat (snd sh)) (Z.of_nat j + snd o))))
    [(-1,-1); (-1,0); (-1,1); (0,-1); (0,0); (0,1); (1,-1); (1,0); (1,1)]%Z).

(** The mask after [k] rounds: each round adds the cells with three or more set cells
    in their neighbourhood. *)
Fixpoint grown (sh : nat * nat) (k : nat) (m : nat -> nat -> bool) : nat -> nat -> bool :=
  match k with
  | O => m
  | S k' => let g := grown sh k' m in fun i j => g i j || (3 <=? near sh g i j)
  end.

(** Any two set cells are at least 3 apart on one of the axes. *)
Definition isolated (sh : nat * nat) (m : nat -> nat -> bool) : Prop :=
  forall i j i' j', i < fst sh -> j < snd sh -> i' < fst sh -> j' < snd sh ->
    m i j = true -> m i' j' = true -> (i, j) <> (i', j') ->
    i + 3 <= i' \/ i' + 3 <= i \/ j + 3 <= j' \/ j' + 3 <= j.

(** The k-th cell of an array read in row-major order, starting again at the first cell
    after the last one. *)
Definition cyclic {A} (m : plane A) (k : nat) : A :=
  let q := k mod (nr m * nc m) in px m (q / nc m) (q mod nc m).

(** A masked array is well formed: a full mask has the shape of the data (an invariant
    of numpy). *)
Definition wf (a : marr) : Prop :=
  match msk a with Nomask => True | Full q => shape q = shape (dat a) end.

Definition wf_source (s : source) : Prop :=
  match s with MaskedArr a => wf a | _ => True end.

(** What the mask setter starts from, before out-of-range pixels and the enlargement:
    [chosen fs s extend guess thresh a arg d flag] says that for the image source [s]
    (whose header has EXTEND = [extend]) with current data [a], the assignment of the
    mask [arg] stores the pixels [d] and flags the cells [flag]. *)
Definition set_by (m : plane bool) (a : marr) (i j : nat) : Prop :=
  if (nr m * nc m =? 0)%nat then masked_at (msk a) i j = true
  else cyclic m (i * nc (dat a) + j) = true.

(** The flags found in a FITS image: values at or above the threshold if its median is
    0, at or below it otherwise. *)
Definition fits_flags (m : plane pix) (thresh : pix) : plane bool :=
  pmap (fun v => if feqb (median m) fzero then fleb thresh v else fleb v thresh) m.

(** Names that a file must not have if its mask is to be guessed: those of the classes an image
    can be made from. *)
Definition class_name (n : string) : Prop := n = "PrimaryHDU"%string \/ n = "ndarray"%string \/ n = "HDUList"%string.

Inductive chosen (fs : string -> option (list hdu)) (s : source) (extend : option bool)
          (guess : bool) (thresh : pix) (a : marr)
  : maskarg -> plane pix -> (nat -> nat -> Prop) -> Prop :=
| ch_array m : chosen fs s extend guess thresh a (MArray m) (dat a) (set_by m a)
| ch_file n h rest : fs n = Some (h :: rest) ->
    chosen fs s extend guess thresh a (MPath n) (dat a) (set_by (fits_flags (h_data h) thresh) a)
| ch_other : chosen fs s extend guess thresh a MOther (dat a) (fun i j => masked_at (msk a) i j = true)
| ch_noguess : guess = false ->
    chosen fs s extend guess thresh a MNone (dat a) (fun i j => masked_at (msk a) i j = true)
| ch_nd d : guess = true -> s = Ndarray d ->
    chosen fs s extend guess thresh a MNone d (fun i j => non_finite (px d i j))
| ch_primary h : guess = true -> s = Primary h ->
    chosen fs s extend guess thresh a MNone (h_data h) (fun i j => non_finite (px (h_data h) i j))
| ch_hdulist h rest : guess = true -> s = HduList (h :: rest) -> extend = Some false ->
    chosen fs s extend guess thresh a MNone (h_data h) (fun i j => non_finite (px (h_data h) i j))
| ch_hdulist_ext h e rest : guess = true -> s = HduList (h :: e :: rest) -> extend = Some true ->
    chosen fs s extend guess thresh a MNone (dat a) (set_by (fits_flags (h_data e) thresh) a)
| ch_nofile : guess = true -> (exists n, s = Path n /\ ~ class_name n) \/ (exists b, s = MaskedArr b) \/ s = Other ->
    (fs (attached_to s) = None \/ fs (attached_to s) = Some []) ->
    chosen fs s extend guess thresh a MNone (dat a)
           (fun i j => masked_at (msk a) i j = true \/ non_finite (px (dat a) i j))
| ch_path_ext h e rest : guess = true -> (exists n, s = Path n /\ ~ class_name n) \/ (exists b, s = MaskedArr b) \/ s = Other ->
    fs (attached_to s) = Some (h :: e :: rest) -> h_extend h = Some true ->
    chosen fs s extend guess thresh a MNone (dat a) (set_by (fits_flags (h_data e) thresh) a)
| ch_path_one h : guess = true -> (exists n, s = Path n /\ ~ class_name n) \/ (exists b, s = MaskedArr b) \/ s = Other ->
    fs (attached_to s) = Some [h] -> h_extend h = Some true ->
    chosen fs s extend guess thresh a MNone (dat a) (fun i j => non_finite (px (dat a) i j))
| ch_path_none h rest : guess = true -> (exists n, s = Path n /\ ~ class_name n) \/ (exists b, s = MaskedArr b) \/ s = Other ->
    fs (attached_to s) = Some (h :: rest) -> h_extend h <> Some true ->
    chosen fs s extend guess thresh a MNone (dat a) (fun i j => masked_at (msk a) i j = true).

(** The result [b] stores the pixels [d] and its mask is a full array of their shape:
    the cells flagged or out of range, enlarged seven times. *)
Definition final_mask (d : plane pix) (flag : nat -> nat -> Prop) (b : marr) : Prop :=
  plane_eq (dat b) d /\
  exists q init,
    msk b = Full q /\ shape q = shape d /\
    (forall i j, i < nr d -> j < nc d ->
       (init i j = true <-> flag i j \/ out_of_range (px d i j))) /\
    (forall i j, i < nr d -> j < nc d -> px q i j = grown (shape d) 7 init i j).

(** The pixels of an image before any masking: those of the file or array, as float32. *)
Definition original (fs : string -> option (list hdu)) (s : source) : option (plane pix) :=
  match s with
  | Path n => match fs n with Some (h :: _) => Some (h_data h) | _ => None end
  | Ndarray d => Some d
  | MaskedArr a => Some (dat a)
  | HduList (h :: _) => Some (h_data h)
  | HduList [] => None
  | Primary h => Some (h_data h)
  | Other => None
  end.

(** The GAIN card of the source. *)
Definition header_gain (fs : string -> option (list hdu)) (s : source) : option pix :=
  match s with
  | Path n => match fs n with Some (h :: _) => h_gain h | _ => None end
  | HduList (h :: _) => h_gain h
  | Primary h => h_gain h
  | _ => None
  end.

(** The sources whose automatic masking starts again from the original pixels. *)
Definition reloads (s : source) (extend : option bool) (guess : bool) (arg : maskarg) : bool :=
  match arg, s, extend with
  | MNone, Ndarray _, _ | MNone, Primary _, _ | MNone, HduList _, Some false => guess
  | _, _, _ => false
  end.

(** A cell of the user's masked array that the user masked. *)
Definition user_masked (s : source) (i j : nat) : bool :=
  match s with MaskedArr a => masked_at (msk a) i j | _ => false end.

(** All pixels of the source converted to float32 and multiplied by the gain (the cells
    masked by the user are not multiplied). *)
Definition scaled (s : source) (g : pix) (o : plane pix) : plane pix :=
  mkplane (nr o) (nc o) (fun i j =>
    if user_masked s i j then to_f4 (px o i j) else f4_mul (to_f4 (px o i j)) (to_f4 g)).

(** The part of [p] of [h] rows and [w] columns starting at cell (r0,c0). *)
Definition window {A} (p : plane A) (r0 c0 h w : nat) : plane A :=
  mkplane h w (fun i j => px p (r0 + i) (c0 + j)).

(** Is the cell (i,j) of the image masked? *)
Definition is_masked (im : image) (i j : nat) : Prop := masked_at (msk (im_data im)) i j = true.

(** The pixels of the image. *)
Definition pixels (im : image) : plane pix := dat (im_data im).

(** EXTEND in the header kept by the image. *)
Definition extend_card (im : image) : option bool :=
  match im_hdr im with Some (_, e) => e | None => None end.

(** The exception the constructor raises without border search, if any. *)
Definition build_error (fs : string -> option (list hdu)) (c : args) : option exn :=
  let readable n := match fs n with Some (_ :: _) => true | _ => false end in
  let mask_error :=
    match a_mask c, a_img c with
    | MPath n, _ => if readable n then None else Some IOError
    | MNone, Path n =>
        if a_guess c then
          if string_dec n "PrimaryHDU" then Some AttributeError
          else if string_dec n "ndarray" then Some TypeError
          else if string_dec n "HDUList" then
            match fs n with Some (h :: _) => match h_extend h with None => Some KeyError | _ => Some AttributeError end | _ => None end
          else None
        else None
    | MNone, HduList (h :: rest) =>
        if a_guess c then
          match h_extend h, rest with
          | None, _ => Some KeyError
          | Some true, [] => Some IndexError
          | _, _ => None
          end
        else None
    | _, _ => None
    end in
  match a_img c with
  | Path n => if readable n then mask_error else Some IOError
  | HduList [] => Some IndexError
  | Other => Some AttributeError
  | _ => mask_error
  end.

(** Number of set cells. *)
Definition set_cells (m : plane bool) : nat :=
  List.length (filter (fun c => px m (fst c) (snd c)) (list_prod (seq 0 (nr m)) (seq 0 (nc m)))).

(** [d] surrounded by zero-valued cells: [t] rows above, [b] below, [l] columns on the
    left, [r] on the right, and positive values inside. *)
Definition framed (d : plane pix) (t b l r : nat) : Prop :=
  t + b < nr d /\ l + r < nc d /\
  forall i j, i < nr d -> j < nc d ->
    if (t <=? i) && (i <? nr d - b) && (l <=? j) && (j <? nc d - r)
    then fltb fzero (px d i j) = true
    else feqb (px d i j) fzero = true.

(** What the theorems assume about numpy's summation of float32 values: the sum of zeros
    is zero, and the sum of values none of which is negative (or NaN), one being
    positive, is not zero. (Summation from left to right is one instance, see
    [Proof/ImageSum.v].) *)
Definition float32 (v : pix) : Prop := valid_binary 24 128 v = true.

Definition sum_like (nsum : list pix -> pix) : Prop :=
  (forall l, (forall v, In v l -> feqb v fzero = true) -> feqb (nsum l) fzero = true) /\
  (forall l, (forall v, In v l -> float32 v /\ (feqb v fzero = true \/ fltb fzero v = true)) ->
             (exists v, In v l /\ fltb fzero v = true) -> feqb (nsum l) fzero = false).
