(** Model of [_align_for_diff] (properimage/utils.py 246-298), with the functions of [os.path] it
    uses. *)
From Coq Require Import ZArith List Bool Arith String Ascii.
From Coq Require Import SpecFloat.
From Verif.Model Require Import Py Plane Ma Image.
Import ListNotations.
Local Open Scope string_scope.

Definition slash : ascii := "/"%char.

(** A path cut after its last slash: what [posixpath.split] starts from. *)
Fixpoint rsplit (p : string) : string * string :=
  match p with
  | "" => ("", "")
  | String c r =>
      match rsplit r with
      | ("", t) => if Ascii.eqb c slash then (String c "", t) else ("", String c t)
      | (h, t) => (String c h, t)
      end
  end.

(** [head == '/' * len(head)] *)
Fixpoint only_slashes (p : string) : bool :=
  match p with
  | "" => true
  | String c r => Ascii.eqb c slash && only_slashes r
  end.

(** [head.rstrip('/')] *)
Fixpoint rstrip (p : string) : string :=
  match p with
  | "" => ""
  | String c r => match rstrip r with
                  | "" => if Ascii.eqb c slash then "" else String c ""
                  | s => String c s
                  end
  end.

(** [os.path.basename] *)
Definition basename (p : string) : string := snd (rsplit p).

(** [os.path.dirname] *)
Definition dirname (p : string) : string :=
  let h := fst (rsplit p) in if only_slashes h then h else rstrip h.

(** [path.endswith('/')] *)
Fixpoint ends_slash (p : string) : bool :=
  match p with
  | "" => false
  | String c "" => Ascii.eqb c slash
  | String _ r => ends_slash r
  end.

(** [os.path.join(a, b)] *)
Definition path_join (a b : string) : string :=
  match b with
  | String c _ => if Ascii.eqb c slash then b
                  else if (a =? "") || ends_slash a then a ++ b else a ++ "/" ++ b
  | "" => if (a =? "") || ends_slash a then a ++ b else a ++ "/" ++ b
  end.

(** utils.py 275-276: where the aligned image is written. *)
Definition dest_file (newpath : string) : string :=
  path_join (dirname newpath) ("aligned_" ++ basename newpath).

(** What [aa.register(source, target)] returns: an array, or a masked array with a full mask.
    (astroalign 1.x, for which the function was written. From version 2 on it returns a pair,
    which is outside the model.) *)
Inductive registered : Type :=
| Bare (d : plane pix)
| Masked (d : plane pix) (m : plane bool).

Section Align.
(** [aa.register]: the source first, then the target. *)
Variable register : marr -> marr -> res registered.
(** [np.median] of a masked array. *)
Variable median : marr -> pix.

(** The files are those [fits.getdata] finds under a path. Two spellings of one path are two
    files in the model. *)
Definition files : Type := string -> option (list hdu).

(** A mask from a FITS file: numbers other than zero are True, NaN included. *)
Definition nonzero (v : pix) : bool := match v with S754_zero _ => false | _ => true end.

(** [np.ma.masked_array(new, mask=m)]: a mask of one value is repeated, one with as many values
    is reshaped; anything else is a [MaskError], which we represent by ValueError. *)
Definition given_mask (d : plane pix) (m : plane pix) : res marr :=
  let q := pmap nonzero m in
  if (nr m * nc m =? 1)%nat || (nr m * nc m =? nr d * nc d)%nat
  then Ok (mkmarr d (Full (set_flat (pconst (shape d) false) q)))
  else Raise ValueError.

(** [new.filled(v)] *)
Definition filled (a : marr) (v : pix) : marr :=
  mkmarr (mkplane (nr (dat a)) (nc (dat a)) (fun i j => if masked_at (msk a) i j then v else px (dat a) i j)) Nomask.

(** utils.py 278-283: on a ValueError once more with the masked array itself. The conversion
    [astype(float)] keeps the values. *)
Definition registered_with (ref new : marr) : res registered :=
  match register ref (filled new (median new)) with
  | Raise ValueError => register ref new
  | r => r
  end.

(** utils.py 285-296: what is written. The header is that of the new image; astropy sets EXTEND
    when there is an extension. The comment card is not modelled. *)
Definition hdus (h : hdu) (r : registered) : list hdu :=
  match r with
  | Masked d m => [ mkhdu (h_gain h) (Some true) d; mkhdu None None (pmap (fun b : bool => if b then fone else fzero) m) ]
  | Bare d => [ mkhdu (h_gain h) (h_extend h) d ]
  end.

(** utils.py 246-298: the path that is returned and the file that is written, or the error
    raised before anything is written. *)
Definition align_for_diff (fs : files) (refpath newpath : string) (newmask : option string) : res (string * list hdu) :=
  bind (open_primary fs refpath) (fun hr =>
  bind (masked_invalid (mkmarr (h_data hr) Nomask)) (fun ref =>
  bind (open_primary fs newpath) (fun hn =>
  bind (match newmask with
        | Some n => bind (open_primary fs n) (fun hm => given_mask (h_data hn) (h_data hm))
        | None => masked_invalid (mkmarr (h_data hn) Nomask)
        end) (fun new =>
  bind (registered_with ref new) (fun r =>
  Ok (dest_file newpath, hdus hn r)))))).

(** The files afterwards. *)
Definition files_after (fs : files) (refpath newpath : string) (newmask : option string) : files :=
  match align_for_diff fs refpath newpath newmask with
  | Ok (dest, l) => fun n => if n =? dest then Some l else fs n
  | Raise _ => fs
  end.

(** Several alignments, one after the other: reference, new image and mask of each. *)
Definition job : Type := string * string * option string.
Definition align_all (fs : files) (js : list job) : files :=
  fold_left (fun fs j => match j with (r, n, m) => files_after fs r n m end) js fs.
End Align.
