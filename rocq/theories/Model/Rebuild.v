(** Model of the images that [subtract] builds itself (properimage/operations.py 106-141): from an
    argument that is not an image of the class it works with, and from the registered new image.

    The registration (astroalign) is a parameter: it is given the pixels and masks of the two
    images and returns an array and a footprint. *)
From Coq Require Import ZArith List Bool Arith Reals String.
From Coquelicot Require Import Complex.
From Verif.Model Require Import Py Plane Ma Image Interp Sources Stamps KL Session Filter Transparency Subtract Chain Gauss GaussSub.
Import ListNotations.

(** The arguments [ref] and [new]: an image of the class that fitted_psf selects (106-112; every
    SingleImageGaussPSF is a SingleImage), an image of the other class, a CCDData with its data
    and its mask, or something else that an image can be built from. *)
Inductive operand : Type :=
| Suits (im : image)
| Differs (im : image)
| Ccd (d : plane pix) (m : mask)
| Raw (s : source).

Section Rebuild.
Variable fs : string -> option (list hdu).
Variable nsum : list pix -> pix.

(** [SI(s)]: the defaults of single_image.py 111-124. *)
Definition plain_args (s : source) : args := mkargs s MNone None true false ((0, 0), (0, 0))%Z None.

(** [x.data]: the array of a MaskedArray or PrimaryHDU; a str or an HDUList has no such
    attribute, that of an ndarray is a buffer. *)
Definition dot_data (s : source) : res source :=
  match s with
  | Path _ | HduList _ | Image.Other => Raise AttributeError
  | Ndarray _ => Ok Image.Other
  | MaskedArr a => Ok (Ndarray (dat a))
  | Primary h => Ok (Ndarray (h_data h))
  end.

(** operations.py 114-130: [SI(x)], and [SI(x.data)] when that raises. *)
Definition converted (x : operand) : res image :=
  let try_both s s' :=
    match construct fs nsum (plain_args s) with
    | Ok im => Ok im
    | Raise _ => bind s' (fun s' => construct fs nsum (plain_args s'))
    end in
  match x with
  | Suits im => Ok im
  | Differs im => try_both Image.Other (Ok (MaskedArr (im_data im)))
  | Ccd d _ => try_both Image.Other (Ok (Ndarray d))
  | Raw s => try_both s (dot_data s)
  end.

Variable register : marr -> marr -> res (plane pix * plane bool).

(** operations.py 132-141. *)
Definition aligned (ref new : image) : res image :=
  bind (register (im_data new) (im_data ref)) (fun '(d, m) =>
  let rows := Z.of_nat (nr (dat (im_data ref))) in
  let cols := Z.of_nat (nc (dat (im_data ref))) in
  construct fs nsum
    (mkargs (Ndarray (slice_plane d 0 rows 0 cols)) (MArray (slice_plane m 0 rows 0 cols))
            None true false ((0, 0), (0, 0))%Z None)).

(** operations.py 114-141: the two images that are subtracted. *)
Definition operands (ref new : operand) (align : bool) : res (image * image) :=
  bind (converted ref) (fun r =>
  bind (converted new) (fun n =>
  bind (if align then aligned r n else Ok n) (fun n' => Ok (r, n')))).

Variable W : libs.

(** fitted_psf=False with its inf_loss, or fitted_psf=True with the fitter of the Gaussians. *)
Inductive mode : Type :=
| Stamps (inf_loss : R)
| Gaussians (fitter : start -> plane R -> gaussian) (stats : list R -> R * R * R).

(** The options of an image that subtract makes: the defaults of single_image.py 111-124, with
    20 for min_sources (1215-1220). The pixel stack is that of the process. *)
Definition plain_choices (o : choices) : choices := mkchoices None 20 false None (o_stack o).

Definition choices_for (x : operand) (o : choices) : choices :=
  match x with Suits _ => o | _ => plain_choices o end.

(** operations.py 56-426 on freshly made images; [o] and [o'] are what the caller chose for
    images made before the call. *)
Definition subtract_call (fuel : nat) (o o' : choices) (md : mode) (beta shift iterative : bool)
  (ref new : operand) (align : bool) : option (res (plane C * plane R * plane (option R) * mask)) :=
  match operands ref new align with
  | Raise e => Some (Raise e)
  | Ok (r, n) =>
      match build W fuel (choices_for ref o) (mdata r),
            build W fuel (if align then plain_choices o' else choices_for new o') (mdata n) with
      | Some x, Some y => Some (bind x (fun x => bind y (fun y =>
          match md with
          | Stamps l => subtract_built W l beta shift iterative x y
          | Gaussians fitter stats => subtract_gauss W fitter stats beta shift iterative x y
          end)))
      | _, _ => None
      end
  end.
End Rebuild.
