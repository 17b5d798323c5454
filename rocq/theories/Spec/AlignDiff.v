(** Words used in the statements about [_align_for_diff]. *)
From Coq Require Import ZArith List Bool Arith String Ascii.
From Verif.Model Require Import Py Plane Ma Image AlignDiff.
From Verif.Spec Require Import Image.
Import ListNotations.
Local Open Scope string_scope.

(** A file name: no slash in it. *)
Definition name (n : string) : Prop := forall k, get k n <> Some "/"%char.

(** A directory as it is usually written: some text whose last character is no slash. *)
Definition folder (d : string) : Prop := exists c e, d = e ++ String c "" /\ c <> "/"%char.

(** Paths as they are usually written: [name], [/name] or [folder/name]. *)
Definition usual (p : string) : Prop :=
  exists n, name n /\ (p = n \/ p = "/" ++ n \/ exists d, folder d /\ p = d ++ "/" ++ n).

(** [k] slashes. *)
Fixpoint slashes (k : nat) : string := match k with O => "" | S k' => "/" ++ slashes k' end.

(** The file holds the pixels of [r], and its mask, if it has one, as 0 and 1 in a first
    extension. *)
Definition shows (l : list hdu) (r : registered) : Prop :=
  match r, l with
  | Bare d, [h] => h_data h = d
  | Masked d m, [h; e] => h_data h = d /\ h_extend h = Some true /\
      plane_eq (h_data e) (pmap (fun b : bool => if b then fone else fzero) m)
  | _, _ => False
  end.

(** Registering looks for a transformation from the source to the target and applies it to the
    pixels of the source, on a grid of the shape of the target. *)
Definition moves {T} (find : marr -> marr -> res T) (resample : T -> marr -> nat * nat -> registered)
  (register : marr -> marr -> res registered) : Prop :=
  forall s t, register s t = match find s t with Ok x => Ok (resample x s (shape (dat t))) | Raise e => Raise e end.

(** The pixels of a file as they are registered: everything that is not finite is masked. *)
Definition masked_file (fs : files) (path : string) (a : marr) : Prop :=
  exists h rest, fs path = Some (h :: rest) /\ plane_eq (dat a) (h_data h) /\
    exists q, msk a = Full q /\ shape q = shape (h_data h) /\
    forall i j, (i < nr (h_data h))%nat -> (j < nc (h_data h))%nat -> px q i j = negb (finiteb (px (h_data h) i j)).

(** The paths a job reads, and the one it may write. *)
Definition reads (j : job) : list string :=
  match j with (r, n, m) => r :: n :: match m with Some k => [k] | None => [] end end.
Definition writes (j : job) : string := match j with (_, n, _) => dest_file n end.

(** No job reads a file that one of them writes. *)
Definition apart (js : list job) : Prop := forall j k, In j js -> In k js -> ~ In (writes k) (reads j).

(** A mask file that fits the pixels [d]: it has one value, or as many as there are pixels. *)
Definition mask_fits_file (fs : files) (mask : option string) (d : plane pix) : Prop :=
  match mask with
  | None => True
  | Some k => exists h rest, fs k = Some (h :: rest) /\
      (nr (h_data h) * nc (h_data h) = 1 \/ nr (h_data h) * nc (h_data h) = nr d * nc d)%nat
  end.

(** The pixels of the new image as they are registered. Without a mask file everything that is not
    finite is masked; with one, the pixels with a value other than zero in it (its values taken row
    by row, a single value standing for all). *)
Definition masked_new (fs : files) (path : string) (mask : option string) (a : marr) : Prop :=
  exists h rest, fs path = Some (h :: rest) /\ dat a = h_data h /\
    exists q, msk a = Full q /\ shape q = shape (h_data h) /\
    forall i j, (i < nr (h_data h))%nat -> (j < nc (h_data h))%nat ->
      (px q i j = true <->
       match mask with
       | None => finiteb (px (h_data h) i j) = false
       | Some k => exists hm rest', fs k = Some (hm :: rest') /\ forall s, cyclic (h_data hm) (i * nc (h_data h) + j) <> SpecFloat.S754_zero s
       end).

(** The same pixels without mask, the masked ones replaced by [v]. *)
Definition filled_with (v : pix) (a f : marr) : Prop :=
  msk f = Nomask /\ shape (dat f) = shape (dat a) /\
  forall i j, (i < nr (dat a))%nat -> (j < nc (dat a))%nat ->
    px (dat f) i j = if masked_at (msk a) i j then v else px (dat a) i j.

(** [x] is what came out of the alignment. *)
Definition comes_out (out : res (string * list hdu)) (dest : string) (x : res registered) : Prop :=
  match x with
  | Ok x => exists l, out = Ok (dest, l) /\ shows l x
  | Raise e => out = Raise e
  end.
