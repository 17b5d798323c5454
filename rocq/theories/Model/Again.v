(** Model of what is left in the images by [coadd], and of calling it again on the same images
    (operations.py 457-577, utils.py 141-243).

    A catalogue that was in a matching has the fields "sourceid" and "detected"; here it is kept
    beside the image, whose own list of sources (Model/Session.v) has the same sources without
    these fields. *)
From Coq Require Import ZArith List Bool Arith Reals.
From Coquelicot Require Import Complex.
From Verif.Model Require Import Py Plane Ma Interp Coadd Subtract Filter Sources Stamps KL Session Transparency Chain ChainCoadd.
Import ListNotations.
Local Open Scope R_scope.

(** An image, and its catalogue once it was in a matching. *)
Record held : Type := mkheld { h_img : built; h_cat : option cat }.

Section Again.
Variable W : libs.

(** What transparency reads: [best_sources] (utils.py:167, 182). *)
Definition catalogue_of (x : held) : res cat :=
  match h_cat x with
  | Some c => Ok c
  | None => bind (fst (Session.best_sources _ _ _ (bu_lib (h_img x)) (bu_attr (h_img x)))) (fun l =>
            Ok (mkcat false false (map row_of l)))
  end.

Definition is_source (r : row) (s : src) : bool :=
  (if Req_EM_T (r_x r) (s_x s) then true else false) &&
  (if Req_EM_T (r_y r) (s_y s) then true else false) &&
  (if Req_EM_T (r_flux r) (s_flux s) then true else false).

(** stamps_pos removes rejected stars from the catalogue (single_image.py:936-941): the rows
    whose source is still there, in order. Stars in the same place and of the same brightness
    are not told apart. *)
Fixpoint keep_rows (l : list row) (kept : list src) : list row :=
  match l, kept with
  | [], _ => []
  | _, [] => []
  | r :: l', s :: kept' => if is_source r s then r :: keep_rows l' kept' else keep_rows l' kept
  end.

(** The image after the workers have asked for s_hat_comp and psf_hat_sqnorm()
    (operations.py:447-450, 558-561; single_image.py:1389-1392). *)
Definition touched (x : built) : built :=
  with_attr (exec_all _ _ _ (bu_lib x) [CSHat; CBasis; CAfields] (bu_attr x)) x.

(** The image and its catalogue afterwards. *)
Definition leave (xc : built * cat) : held :=
  let y := touched (fst xc) in
  mkheld y (Some (mkcat (has_id (snd xc)) (has_det (snd xc))
    (keep_rows (rows (snd xc)) (match Session.best _ _ _ (bu_attr y) with Some l => l | None => [] end)))).

(** operations.py:457-577 with align=False: the result and the images afterwards. *)
Definition coadd_run (fuel : nat) (sched : list nat) (inf_loss : R) (n_procs : Z) (hs : list held)
  : option (res ((plane C * plane C * mask) * list held)) :=
  match hs with
  | [] => Some (Raise ValueError)
  | _ =>
      match bind (mapM catalogue_of hs) (fun cs =>
            bind (transparency (l_query W) (l_sort W) (l_lsqr W) cs None) (fun t =>
            let ys := map (fun xc => with_best (map src_of (rows (snd xc))) (h_img (fst xc)))
                          (combine hs (mcat t :: cats t)) in
            bind (set_up inf_loss ys (zps t)) (fun ws =>
            bind (mapM coadd_seen ws) (fun vs =>
            Ok (vs, map leave (combine ws (mcat t :: cats t))))))) with
      | Raise e => Some (Raise e)
      | Ok (vs, hs1) =>
          match coadd_core fuel sched (fun k => nth k vs blank) (seq 0 (length vs)) n_procs with
          | None => None
          | Some (Raise e) => Some (Raise e)
          | Some (Ok r) => Some (Ok (r, hs1))
          end
      end
  end.

(** Several coadds of the same images, with their fuel, schedules, losses and workers. *)
Fixpoint coadds (jobs : list (nat * list nat * R * Z)) (hs : list held) : option (res (list held)) :=
  match jobs with
  | [] => Some (Ok hs)
  | (fuel, sched, l, n) :: jobs' =>
      match coadd_run fuel sched l n hs with
      | None => None
      | Some (Raise e) => Some (Raise e)
      | Some (Ok (_, hs')) => coadds jobs' hs'
      end
  end.
End Again.
