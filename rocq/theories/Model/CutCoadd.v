(** Model of [coadd] on new images with what the extraction of stamps leaves in their
    interpolated images (operations.py 457-577, single_image.py 753-959, 1258-1296):
    Model/ChainCoadd.v with the extraction of Model/Cut.v.

    For images whose stamps were not extracted before, with align=False. *)
From Coq Require Import ZArith List Bool Arith Reals.
From Coquelicot Require Import Complex.
From Verif.Model Require Import Py Plane Ma Interp Coadd Sources Stamps Cut KL Session Filter Transparency Chain ChainCoadd CutChain.
Import ListNotations.
Local Open Scope R_scope.

Section CutCoadd.
Variable W : libs.

(** The image at its first extraction (operations.py:508): the catalogue is the one that
    transparency left. *)
Definition opened_own (o : choices) (x : built) : built :=
  match best _ _ _ (bu_attr x) with Some c => opened W o c x | None => x end.

(** operations.py:457-577; [ous] has the images with the choices of their users. *)
Definition coadd_cut (fuel : nat) (sched : list nat) (inf_loss : R) (n_procs : Z) (ous : list (choices * built))
  : option (res (plane C * plane C * mask)) :=
  match ous with
  | [] => Some (Raise ValueError)
  | _ =>
      match bind (match_all W (map snd ous)) (fun '(zs, ys) =>
              bind (set_up inf_loss (map (fun oy => opened_own (fst oy) (snd oy)) (combine (map fst ous) ys)) zs)
                (mapM coadd_seen)) with
      | Raise e => Some (Raise e)
      | Ok vs => coadd_core fuel sched (fun k => nth k vs blank) (seq 0 (length vs)) n_procs
      end
  end.

(** The same from the pixels. [None]: one of the images is not finished within the fuel. *)
Fixpoint build_each (fuel : nat) (l : list (choices * mimg)) : option (res (list (choices * built))) :=
  match l with
  | [] => Some (Ok [])
  | (o, d) :: t =>
      match build W fuel o d, build_each fuel t with
      | Some r, Some rs => Some (bind r (fun x => bind rs (fun xs => Ok ((o, x) :: xs))))
      | _, _ => None
      end
  end.

Definition coadd_cut_pixels (fuel fuel' : nat) (sched : list nat) (inf_loss : R) (n_procs : Z)
  (l : list (choices * mimg)) : option (res (plane C * plane C * mask)) :=
  match build_each fuel l with
  | None => None
  | Some (Raise e) => Some (Raise e)
  | Some (Ok ous) => coadd_cut fuel' sched inf_loss n_procs ous
  end.
End CutCoadd.
