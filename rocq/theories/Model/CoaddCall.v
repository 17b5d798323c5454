(** Model of the images that [coadd] works on (properimage/operations.py 457-577, utils.py
    301-330): those it is given, those it makes from other things, and the registered ones.

    The registration (astroalign) is a parameter: it is given the pixels and masks of two images
    and returns an array and a footprint. *)
From Coq Require Import ZArith List Bool Arith Reals String.
From Coquelicot Require Import Complex.
From Verif.Model Require Import Py Plane Ma Image Interp Coadd Subtract Filter Sources Stamps KL Session Transparency Chain ChainCoadd Gauss GaussSub Rebuild.
Import ListNotations.

(** An element of [si_list]: a SingleImage with the options and the history it has, or something
    else. [Image.Other] is anything that the constructor does not know, like a CCDData. *)
Inductive entry : Type :=
| Made (o : choices) (im : image) (cs : list call)
| NotMade (s : source).

Section CoaddCall.
Variable fs : string -> option (list hdu).
Variable nsum : list pix -> pix.
Variable register : marr -> marr -> res (plane pix * plane bool).
Variable W : libs.
(** The size of the pixel stack of sep. *)
Variable stack : Z.

Definition default_choices : choices := mkchoices None 20 false None stack.

(** operations.py:485-487: [si(animg)]; an exception is not caught. *)
Definition made (e : entry) : res (choices * image * list call) :=
  match e with
  | Made o im cs => Ok (o, im, cs)
  | NotMade s => bind (construct fs nsum (plain_args s)) (fun im => Ok (default_choices, im, []))
  end.

(** utils.py:323-329: [type(animg)(registrd, mask=registrd_mask, borders=False)]. *)
Definition registered (ref im : image) : res image :=
  bind (register (im_data im) (im_data ref)) (fun '(d, m) =>
  construct fs nsum (mkargs (Ndarray d) (MArray m) None true false ((0, 0), (0, 0))%Z None)).

(** utils.py:301-330 *)
Definition align_for_coadd (l : list (choices * image * list call)) : res (list (choices * image * list call)) :=
  match l with
  | [] => Raise IndexError
  | r :: t => bind (mapM (fun n => bind (registered (snd (fst r)) (snd (fst n))) (fun f => Ok (default_choices, f, []))) t)
                (fun t => Ok (r :: t))
  end.

(** operations.py:485-496, before the sources are detected again. *)
Definition img_list (es : list entry) (align : bool) : res (list (choices * image * list call)) :=
  bind (mapM made es) (fun l => if align then align_for_coadd l else Ok l).

(** operations.py:493-494 *)
Definition refreshed (x : Chain.built) : res Chain.built :=
  match update_sources _ _ _ (bu_lib x) None (bu_attr x) with
  | (Raise e, _) => Raise e
  | (Ok _, s) => Ok (with_attr s x)
  end.

(** operations.py:457-577 for distinct images that were in no coadd or subtraction before. All the
    images are made before the first of them detects its sources again; when several things fail
    the exception is the one of the first step here. *)
Definition coadd_call (fuel fuel' : nat) (sched : list nat) (inf_loss : R) (n_procs : Z) (es : list entry) (align : bool)
  : option (res (plane C * plane C * mask)) :=
  match img_list es align with
  | Raise e => Some (Raise e)
  | Ok l =>
      match build_all W fuel (map (fun '(o, im, cs) => (o, mdata im, cs)) l) with
      | None => None
      | Some (Raise e) => Some (Raise e)
      | Some (Ok xs) =>
          match (if align then mapM refreshed xs else Ok xs) with
          | Raise e => Some (Raise e)
          | Ok xs => coadd_built W fuel' sched inf_loss n_procs xs
          end
      end
  end.
End CoaddCall.
