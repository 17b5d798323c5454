(** Model of what is left in the images by [subtract], and of subtracting and coadding the same
    two images again (operations.py 56-426 and 457-577, utils.py 141-243). The catalogue of an
    image that was in a matching is kept beside it, as in Model/Again.v. *)
From Coq Require Import ZArith List Bool Arith Reals.
From Coquelicot Require Import Complex.
From Verif.Model Require Import Py Plane Ma Interp Coadd Subtract Filter Sources Stamps KL Session Transparency Chain ChainCoadd Again.
Import ListNotations.
Local Open Scope R_scope.

Section SubAgain.
Variable W : libs.

(** An image that transparency gave the catalogue [c] (utils.py:166-243) and subtract the zero
    point [z] (operations.py:150-151). *)
Definition given_zp (c : cat) (z : R) (x : built) : built :=
  let y := with_best (map src_of (rows c)) x in
  with_attr (set_zp _ _ _ (Some z) (bu_attr y)) y.

(** The image after [get_variable_psf(inf_loss)] (operations.py:155-156). *)
Definition asked (inf_loss : R) (x : built) : built :=
  with_attr (exec _ _ _ (bu_lib x) (CGetPSF (Some inf_loss) None) (bu_attr x)) x.

(** The image [x] and its catalogue [c] without the stars that were rejected. *)
Definition keeping (x : built) (c : cat) : held :=
  mkheld x (Some (mkcat (has_id c) (has_det c)
    (keep_rows (rows c) (match Session.best _ _ _ (bu_attr x) with Some l => l | None => [] end)))).

(** operations.py:56-426 with align=False and fitted_psf=False: the result and the two images
    afterwards, the reference first. What is left when it raises is not modelled. *)
Definition subtract_run (inf_loss : R) (beta shift iterative : bool) (ref new : held)
  : res ((plane C * plane R * plane (option R) * mask) * (held * held)) :=
  if negb (shape_eqb (shape (m_dat (bu_data (h_img new)))) (shape (m_dat (bu_data (h_img ref))))) then Raise ValueError
  else
  bind (catalogue_of ref) (fun cr =>
  bind (catalogue_of new) (fun cn =>
  bind (transparency (l_query W) (l_sort W) (l_lsqr W) [cr; cn] None) (fun t =>
  let kr := mcat t in
  let kn := match cats t with c :: _ => c | [] => cn end in
  let ref' := given_zp kr (nth 0 (zps t) 0) (h_img ref) in
  let new' := given_zp kn (nth 1 (zps t) 0) (h_img new) in
  bind (first_element inf_loss ref') (fun pr =>
  bind (first_element inf_loss new') (fun pn =>
  bind (subtract (mkenv (fun _ => Raise TypeError) (fun _ => Raise TypeError)
              (fun _ _ => Raise ValueError)
              (fun _ _ => Ok (nth 0 (zps t) 0, nth 1 (zps t) 0)) (l_back W) (l_solve W))
    (Is (seen ref' pr)) (Is (seen new' pn)) false beta shift iterative false) (fun r =>
  Ok (r, (keeping (asked inf_loss ref') kr, keeping (asked inf_loss new') kn)))))))).

(** One operation on the two images: a subtraction with its loss and options, or a coadd with
    its fuel, schedule, loss and number of workers. *)
Inductive task : Type :=
| Sub (inf_loss : R) (beta shift iterative : bool)
| Add (fuel : nat) (sched : list nat) (inf_loss : R) (n_procs : Z).

(** What an operation leaves of the reference and the new image. *)
Definition do_task (k : task) (p : held * held) : option (res (held * held)) :=
  match k with
  | Sub l beta shift iterative =>
      Some (bind (subtract_run l beta shift iterative (fst p) (snd p)) (fun r => Ok (snd r)))
  | Add fuel sched l n =>
      match coadd_run W fuel sched l n [fst p; snd p] with
      | None => None
      | Some (Raise e) => Some (Raise e)
      | Some (Ok (_, [a; b])) => Some (Ok (a, b))
      | Some (Ok _) => Some (Raise IndexError)
      end
  end.

Fixpoint tasks (ks : list task) (p : held * held) : option (res (held * held)) :=
  match ks with
  | [] => Some (Ok p)
  | k :: ks' =>
      match do_task k p with
      | None => None
      | Some (Raise e) => Some (Raise e)
      | Some (Ok q) => tasks ks' q
      end
  end.
End SubAgain.
