(** Model of [coadd] on images with what their interpolated images have become by then
    (properimage/operations.py 430-577, utils.py 141-243, single_image.py 741-959, 1241-1404):
    Model/ChainCoadd.v with the methods of Model/Live.v. The images are distinct objects and were
    in no matching before; align=False. *)
From Coq Require Import ZArith List Bool Arith Reals.
From Coquelicot Require Import Complex.
From Verif.Model Require Import Py Plane Ma Interp Coadd Subtract Filter Sources Stamps Cut KL Session Transparency Chain ChainCoadd CutChain Live LiveSub.
Import ListNotations.
Local Open Scope R_scope.

(** An image with the choices of its user, and what it has become. *)
Definition limage : Type := (choices * built) * lstate.

Section LiveCoadd.
Variable W : libs.

Local Notation "'do' x <- m ; k" := (lbind _ _ _ _ m (fun x => k)) (at level 200, x pattern, m at level 100, k at level 200).

Definition l_of (u : limage) := live_lib W (fst (fst u)) (snd (fst u)).

(** The sources of an image (utils.py:168), and the image when it is given those that the
    matching left (utils.py:203, 224). *)
Definition l_looked (u : limage) : res (list src) := fst (l_best_sources _ _ _ _ (l_of u) (snd u)).
Definition l_given (u : limage) (left : list src) : limage :=
  (fst u, snd (l_update_sources _ _ _ _ (l_of u) (Some left) (snd (l_best_sources _ _ _ _ (l_of u) (snd u))))).

(** utils.py:166-243 *)
Definition match_live (us : list limage) : res (list R * list limage) :=
  bind (mapM l_looked us) (fun cs =>
  bind (transparency (l_query W) (l_sort W) (l_lsqr W)
          (map (fun c => mkcat false false (map row_of c)) cs) None) (fun t =>
  Ok (zps t, map (fun uc => l_given (fst uc) (map src_of (rows (snd uc)))) (combine us (mcat t :: cats t))))).

(** operations.py:506-508 *)
Fixpoint set_up_live (inf_loss : R) (us : list limage) (zs : list R) : res (list limage) :=
  match us, zs with
  | [], _ => Ok []
  | _ :: _, [] => Raise IndexError
  | u :: us', z :: zs' =>
      match l_setup_kl_a_fields _ _ _ _ (l_of u) (Some inf_loss) false (fst (snd u), set_zp _ _ _ (Some z) (snd (snd u))) with
      | (Raise e, _) => Raise e
      | (Ok _, s) => bind (set_up_live inf_loss us' zs') (fun l => Ok ((fst u, s) :: l))
      end
  end.

(** The image as the workers of coadd see it (operations.py:447-450, 558-561; single_image.py
    1258-1296, 1389-1404). As in Model/ChainCoadd.v it is evaluated before the loop. What is left
    of the image afterwards is not part of the result here. *)
Definition l_coadd_seen (u : limage) : res simg :=
  let x := snd (fst u) in
  fst ((do h <- l_s_hat_comp _ _ _ _ (l_of u);
        match h with
        | Raise e => lraise _ _ _ _ e
        | Ok h =>
            do s <- lget _ _ _ _;
            do b <- l_kl_basis _ _ _ _ (l_of u);
            do a <- l_kl_afields _ _ _ _ (l_of u);
            let q := psf_hat_sqnorm (shape (m_dat (bu_data x))) (on_pixels a) (map numbers b) in
            lret _ _ _ _ (mksimg (shape (m_dat (bu_data x))) (Full (m_msk (bu_data x))) (b_rms (bu_back x)) (get_zp _ _ _ s)
              (Session.inf_loss _ _ _ s) (fst (Session.stamp_shape _ _ _ s)) (fun _ => px h) (fun _ => px q)
              (Some (px h)) (Some (Session.inf_loss _ _ _ s)) false true)
        end) (snd u)).

(** operations.py:457-577 *)
Definition coadd_live (fuel : nat) (sched : list nat) (inf_loss : R) (n_procs : Z) (us : list limage)
  : option (res (plane C * plane C * mask)) :=
  match us with
  | [] => Some (Raise ValueError)
  | _ =>
      match bind (match_live us) (fun '(zs, us) => bind (set_up_live inf_loss us zs) (mapM l_coadd_seen)) with
      | Raise e => Some (Raise e)
      | Ok vs => coadd_core fuel sched (fun k => nth k vs blank) (seq 0 (length vs)) n_procs
      end
  end.
End LiveCoadd.
