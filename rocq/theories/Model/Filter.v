(** Model of the arithmetic of s_hat_comp, s_component, psf_hat_sqnorm and p_sqnorm
    (properimage/single_image.py 1258-1311, 1389-1414). When they are recomputed is in
    Model/Session.v.

    Exact arithmetic, no nan in the basis; a cell where the normalisation image is 0 makes
    numpy's transform nan everywhere, the theorems have it nowhere 0. *)
From Coq Require Import Arith ZArith List Bool Reals.
From Coquelicot Require Import Complex.
From Verif.Model Require Import Py Plane Ma Coadd Subtract.
Import ListNotations.
Local Open Scope R_scope.

(** What the filter reads of an image: the shape of data, interped, var (_bkg.globalrms,
    single_image.py:1270) and zp. *)
Record fimg : Type := mkfimg {
  f_shape : nat * nat; f_pix : nat -> nat -> R; f_var : R; f_zp : R }.

(** _fftwn(psf, s=shape, norm="ortho") (single_image.py:1275-1277, 1288, 1399) *)
Definition elem_hat (sh : nat * nat) (b : plane R) : plane C := fft2_ortho (pad_to sh (pmap RtoC b)).

(** x * y.conj() (single_image.py:1273-1278, 1286-1289, 1400-1402) *)
Definition times_conj (a b : C) : C := (a * Cconj b)%C.

(** single_image.py:1272-1282: one element and no field. *)
Definition s_hat_const (im : fimg) (b : plane R) : plane C :=
  let '(dx, dy) := center_of_mass b in
  let interped_hat := fft2_ortho (frame (f_shape im) (fun i j => RtoC (f_pix im i j))) in
  fourier_shift (pmap2 times_conj interped_hat (elem_hat (f_shape im) b)) dx dy.

(** single_image.py:1283-1291: the loop over zip(a_fields, psf_basis), dx and dy being those of
    the first element. *)
Definition s_hat_fields (im : fimg) (nrm : nat -> nat -> R) (d : R * R)
  (fields : list (nat -> nat -> R)) (basis : list (plane R)) : plane C :=
  fold_left (fun s ab =>
    let weighted := frame (f_shape im) (fun i j => RtoC (f_pix im i j * fst ab i j / nrm i j)) in
    let conv := pmap2 times_conj (fft2_ortho weighted) (elem_hat (f_shape im) (snd ab)) in
    pmap2 Cplus (fourier_shift conv (fst d) (snd d)) s)
    (combine fields basis) (pconst (f_shape im) (RtoC 0)).

(** single_image.py:1266-1291, "s_hat" before the factor; [fields] is [None] for a_fields =
    [None]. *)
Definition s_base (im : fimg) (nrm : nat -> nat -> R) (fields : option (list (nat -> nat -> R)))
  (basis : list (plane R)) : res (plane C) :=
  match basis with
  | [] => Raise IndexError
  | b :: _ =>
      Ok match fields with
         | None => s_hat_const im b
         | Some fs => s_hat_fields im nrm (center_of_mass b) fs basis
         end
  end.

(** single_image.py:1293 *)
Definition s_hat (im : fimg) (nrm : nat -> nat -> R) (fields : option (list (nat -> nat -> R)))
  (basis : list (plane R)) : res (plane C) :=
  bind (s_base im nrm fields basis) (fun s =>
  Ok (pmap (fun z => (RtoC (f_zp im / f_var im ^ 2) * z)%C) s)).

(** single_image.py:1298-1311 *)
Definition s_component (im : fimg) (nrm : nat -> nat -> R) (fields : option (list (nat -> nat -> R)))
  (basis : list (plane R)) : res (plane R) :=
  bind (s_hat im nrm fields basis) (fun s => Ok (pmap fst (ifft2_ortho s))).

(** single_image.py:1389-1404. kl_afields is a list, never None: the first branch is dead and
    the fields are not used. *)
Definition psf_hat_sqnorm (sh : nat * nat) (fields : option (list (nat -> nat -> R)))
  (basis : list (plane R)) : plane C :=
  fold_left (fun s b =>
    pmap2 Cplus (pmap (fun z => times_conj z z) (elem_hat sh b)) s)
    basis (pconst sh (RtoC 0)).

(** single_image.py:1406-1414 *)
Definition p_sqnorm (sh stamp : nat * nat) (fields : option (list (nat -> nat -> R)))
  (basis : list (plane R)) : plane C :=
  ifft2_ortho (fourier_shift (psf_hat_sqnorm sh fields basis) (INR (fst stamp) / 2) (INR (snd stamp) / 2)).

(** The image as coadd sees it (Model/Coadd.v), nothing computed yet. [nrm] and [psf] are the
    normalisation image and the fields and elements kept for each inf_loss. *)
Definition coadd_view (im : fimg) (m : mask) (loss : R) (stamp : nat) (nrm : R -> nat -> nat -> R)
  (psf : R -> option (list (nat -> nat -> R)) * list (plane R)) : simg :=
  mksimg (f_shape im) m (f_var im) (f_zp im) loss stamp
    (fun l i j => match s_base im (nrm l) (fst (psf l)) (snd (psf l)) with
                  | Ok s => px s i j | Raise _ => RtoC 0 end)
    (fun l => px (psf_hat_sqnorm (f_shape im) (fst (psf l)) (snd (psf l))))
    None None false true.
