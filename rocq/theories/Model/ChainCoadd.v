(** Model of [coadd] on images that were built from pixels (operations.py 457-577), put
    together from the other models, and of what [subtract] and [coadd] leave in the images they
    are given.

    The images are distinct objects and have catalogues without "sourceid" (none of them was in
    an earlier transparency). With align=False. *)
From Coq Require Import ZArith List Bool Arith Reals.
From Coquelicot Require Import Complex.
From Verif.Model Require Import Py Plane Ma Interp Coadd Subtract Filter Sources Stamps KL Session Transparency Chain.
Import ListNotations.
Local Open Scope R_scope.

Section ChainCoadd.
Variable W : libs.

Definition with_attr (s : si (plane R) (res (plane C)) (res (plane R))) (x : built) : built :=
  mkbuilt (bu_data x) (bu_back x) (bu_clean x) (bu_lib x) s.

(** utils.py:166-243 for images: the catalogues are read in order, and each image is given the
    catalogue that comes out (the first image gets its own back when no source is common). *)
Definition match_all (xs : list built) : res (list R * list built) :=
  bind (mapM (fun x => fst (Session.best_sources _ _ _ (bu_lib x) (bu_attr x))) xs) (fun cs =>
  bind (transparency (l_query W) (l_sort W) (l_lsqr W)
          (map (fun c => mkcat false false (map row_of c)) cs) None) (fun t =>
  Ok (zps t, map (fun xc => with_best (map src_of (rows (snd xc))) (fst xc))
                 (combine xs (mcat t :: cats t))))).

(** operations.py:506-508 *)
Fixpoint set_up (inf_loss : R) (xs : list built) (zs : list R) : res (list built) :=
  match xs, zs with
  | [], _ => Ok []
  | _ :: _, [] => Raise IndexError
  | x :: xs', z :: zs' =>
      match setup_kl_a_fields _ _ _ (bu_lib x) (Some inf_loss) false (set_zp _ _ _ (Some z) (bu_attr x)) with
      | (Raise e, _) => Raise e
      | (Ok _, s) => bind (set_up inf_loss xs' zs') (fun l => Ok (with_attr s x :: l))
      end
  end.

(** single_image.py:1389-1404 on an image built from pixels. *)
Definition sqnorm_of (x : built) : res (plane C) :=
  let '(b, s) := Session.kl_basis _ _ _ (bu_lib x) (bu_attr x) in
  bind b (fun b => bind (fst (kl_afields _ _ _ (bu_lib x) s)) (fun a =>
  Ok (psf_hat_sqnorm (shape (m_dat (bu_data x))) (on_pixels a) (map numbers b)))).

(** The image as the workers of coadd see it (Model/Coadd.v), once s_hat_comp and
    psf_hat_sqnorm() have been evaluated (operations.py:447-450, 558-561). They are evaluated
    here before the loop: they depend on no other image. The base of the filtered image is not
    needed any more. *)
Definition coadd_seen (x : built) : res simg :=
  let '(h, s) := Session.s_hat_comp _ _ _ (bu_lib x) (bu_attr x) in
  bind h (fun h => bind h (fun h => bind (sqnorm_of (with_attr s x)) (fun q =>
  Ok (mksimg (shape (m_dat (bu_data x))) (Full (m_msk (bu_data x))) (b_rms (bu_back x)) (get_zp _ _ _ s)
        (Session.inf_loss _ _ _ s) (fst (Session.stamp_shape _ _ _ s)) (fun _ => px h) (fun _ => px q)
        (Some (px h)) (Some (Session.inf_loss _ _ _ s)) false true)))).

Definition blank : simg :=
  mksimg (0, 0)%nat Nomask 1 1 1 0 (fun _ _ _ => RtoC 0) (fun _ _ _ => RtoC 0) None None false true.

(** operations.py:457-577. When several images cannot be filtered the exception is that of the
    first one, and shapes that differ are noticed afterwards. *)
Definition coadd_built (fuel : nat) (sched : list nat) (inf_loss : R) (n_procs : Z) (xs : list built)
  : option (res (plane C * plane C * mask)) :=
  match xs with
  | [] => Some (Raise ValueError)
  | _ =>
      match bind (match_all xs) (fun '(zs, xs) => bind (set_up inf_loss xs zs) (mapM coadd_seen)) with
      | Raise e => Some (Raise e)
      | Ok vs => coadd_core fuel sched (fun k => nth k vs blank) (seq 0 (length vs)) n_procs
      end
  end.

(** The same from the pixels: images are built, used, and coadded. [None]: one of them is not
    finished within the fuel. *)
Fixpoint build_all (fuel : nat) (l : list (choices * mimg * list call)) : option (res (list built)) :=
  match l with
  | [] => Some (Ok [])
  | (o, d, cs) :: t =>
      match build W fuel o d, build_all fuel t with
      | Some r, Some rs => Some (bind r (fun x => bind rs (fun xs => Ok (after cs x :: xs))))
      | _, _ => None
      end
  end.

Definition coadd_pixels (fuel fuel' : nat) (sched : list nat) (inf_loss : R) (n_procs : Z)
  (l : list (choices * mimg * list call)) : option (res (plane C * plane C * mask)) :=
  match build_all fuel l with
  | None => None
  | Some (Raise e) => Some (Raise e)
  | Some (Ok xs) => coadd_built fuel' sched inf_loss n_procs xs
  end.
End ChainCoadd.
