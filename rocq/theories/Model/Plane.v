(** Two-dimensional arrays, numpy broadcasting, and the discrete Fourier transform.

    These are numpy / scipy primitives the modelled functions use, not functions of
    /repo. Values are exact: real numbers are Coq's [R], complex ones Coquelicot's
    [C]; floating point rounding is outside this part of the model. *)
From Coq Require Import Arith List Bool Reals.
From Coquelicot Require Import Complex.
From Verif.Model Require Import Py.
Import ListNotations.

(** A 2-d array: a shape and the value of each cell. Cells outside the shape carry no
    meaning. *)
Record plane (A : Type) : Type := mkplane { nr : nat; nc : nat; px : nat -> nat -> A }.
Arguments mkplane {A} nr nc px.
Arguments nr {A} p.
Arguments nc {A} p.
Arguments px {A} p i j.

Definition shape {A} (p : plane A) : nat * nat := (nr p, nc p).

(** Equality of two arrays: same shape, same value in each cell. *)
Definition plane_eq {A} (p q : plane A) : Prop :=
  shape p = shape q /\ forall i j, i < nr p -> j < nc p -> px p i j = px q i j.

Definition pmap {A B} (f : A -> B) (p : plane A) : plane B :=
  mkplane (nr p) (nc p) (fun i j => f (px p i j)).

(** Elementwise operation on two arrays of one shape (the shape of the first). *)
Definition pmap2 {A B D} (f : A -> B -> D) (p : plane A) (q : plane B) : plane D :=
  mkplane (nr p) (nc p) (fun i j => f (px p i j) (px q i j)).

Definition pconst {A} (sh : nat * nat) (a : A) : plane A :=
  mkplane (fst sh) (snd sh) (fun _ _ => a).

(** numpy broadcasting of one axis. *)
Definition bdim (a b : nat) : option nat :=
  if a =? b then Some a else if a =? 1 then Some b else if b =? 1 then Some a else None.

(** Index in an axis of length [d] of the cell broadcast at [i]. *)
Definition bidx (d i : nat) : nat := if d =? 1 then 0 else i.

Definition bshape (s1 s2 : nat * nat) : option (nat * nat) :=
  match bdim (fst s1) (fst s2), bdim (snd s1) (snd s2) with
  | Some a, Some b => Some (a, b)
  | _, _ => None
  end.

(** A binary ufunc on two arrays: broadcast, or ValueError. *)
Definition ufunc2 {A B D} (f : A -> B -> D) (p : plane A) (q : plane B) : res (plane D) :=
  match bshape (shape p) (shape q) with
  | None => Raise ValueError
  | Some (a, b) =>
      Ok (mkplane a b (fun i j => f (px p (bidx (nr p) i) (bidx (nc p) j))
                                    (px q (bidx (nr q) i) (bidx (nc q) j))))
  end.

(** [np.add(p, s, out=s)]: broadcast, and ValueError unless the result has the shape of
    [s]. *)
Definition add_out {A} (plus : A -> A -> A) (p s : plane A) : res (plane A) :=
  match ufunc2 plus p s with
  | Raise e => Raise e
  | Ok r => if (nr r =? nr s) && (nc r =? nc s) then Ok r else Raise ValueError
  end.

(** Sum of [f 0 .. f (n-1)]. *)
Fixpoint csum (n : nat) (f : nat -> C) : C :=
  match n with O => RtoC 0 | S n' => Cplus (csum n' f) (f n') end.

(** [np.sum] of a complex array. *)
Definition psum (p : plane C) : C := csum (nr p) (fun i => csum (nc p) (fun j => px p i j)).

(** exp(i t) *)
Definition cis (t : R) : C := (cos t, sin t).

Local Open Scope R_scope.

(** Inverse discrete Fourier transform without normalisation. *)
Definition idft_raw (F : plane C) : plane C :=
  mkplane (nr F) (nc F) (fun x y =>
    csum (nr F) (fun u => csum (nc F) (fun v =>
      (px F u v * cis (2 * PI * (INR u * INR x / INR (nr F) + INR v * INR y / INR (nc F))))%C))).

(** [ifft2(F)]: numpy's default ("backward") normalisation, 1/(number of cells). *)
Definition ifft2 (F : plane C) : plane C :=
  pmap (fun z => (RtoC (/ (INR (nr F) * INR (nc F))) * z)%C) (idft_raw F).

(** [ifft2(F, norm="ortho")]. *)
Definition ifft2_ortho (F : plane C) : plane C :=
  pmap (fun z => (RtoC (/ sqrt (INR (nr F) * INR (nc F))) * z)%C) (idft_raw F).

(** Forward transform without normalisation. *)
Definition dft_raw (f : plane C) : plane C :=
  mkplane (nr f) (nc f) (fun u v =>
    csum (nr f) (fun x => csum (nc f) (fun y =>
      (px f x y * cis (- (2 * PI * (INR u * INR x / INR (nr f) + INR v * INR y / INR (nc f)))))%C))).

(** [fft2(f, norm="ortho")]. *)
Definition fft2_ortho (f : plane C) : plane C :=
  pmap (fun z => (RtoC (/ sqrt (INR (nr f) * INR (nc f))) * z)%C) (dft_raw f).

(** The [s=] argument of fft2: crop or zero-pad at the end of each axis. *)
Definition pad_to (sh : nat * nat) (p : plane C) : plane C :=
  mkplane (fst sh) (snd sh) (fun i j =>
    if ((i <? nr p) && (j <? nc p))%nat then px p i j else RtoC 0).

(** Signed frequency of index [k] on an axis of length [n], as in scipy.ndimage
    [fourier_shift]. *)
Definition freq (n k : nat) : R :=
  if (k <? (n + 1) / 2)%nat then INR k else INR k - INR n.

(** [scipy.ndimage.fourier_shift(F, (dx, dy))] for a full complex transform. *)
Definition fourier_shift (F : plane C) (dx dy : R) : plane C :=
  mkplane (nr F) (nc F) (fun u v =>
    (px F u v * cis (- (2 * PI) * (freq (nr F) u * dx / INR (nr F) + freq (nc F) v * dy / INR (nc F))))%C).

(** [np.sqrt] of a complex number: the principal square root. *)
Definition csqrt (z : C) : C :=
  (sqrt ((Cmod z + fst z) / 2),
   if Rle_dec 0 (snd z) then sqrt ((Cmod z - fst z) / 2) else - sqrt ((Cmod z - fst z) / 2)).
