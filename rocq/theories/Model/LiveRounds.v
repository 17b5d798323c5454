(** Model of several subtractions of the same two images, with other calls in between
    (properimage/operations.py 56-426, utils.py 141-243, single_image.py 741-959): each works on
    what the ones before left of the interpolated images. The catalogue of an image that was in a
    matching has more fields and is kept beside it, as in Model/Again.v. A sequence ends with the
    first subtraction that raises. *)
From Coq Require Import ZArith List Bool Arith Reals.
From Coquelicot Require Import Complex.
From Verif.Model Require Import Py Plane Ma Interp Coadd Subtract Filter Sources Stamps Cut KL Session Transparency Chain Again CutChain Live LiveSub.
Import ListNotations.
Local Open Scope R_scope.

(** An image, and its catalogue once it was in a matching. *)
Definition lheld : Type := lstate * option cat.

(** Calls on the reference and on the new image, or a subtraction. *)
Inductive round : Type :=
| Calls (cs cs' : list call)
| Sub (loss : R) (beta shift iterative : bool).

Section Rounds.
Variable W : libs.

(** What transparency reads: [best_sources] (utils.py:167, 182). *)
Definition l_catalogue (o : choices) (x : built) (h : lheld) : res cat * lstate :=
  match snd h with
  | Some c => (Ok c, fst h)
  | None => let '(r, s) := l_best_sources _ _ _ _ (live_lib W o x) (fst h) in
            (bind r (fun l => Ok (mkcat false false (map row_of l))), s)
  end.

(** The catalogue [c] without the stars that were rejected meanwhile (single_image.py:936-941). *)
Definition l_kept (c : cat) (s : lstate) : cat :=
  mkcat (has_id c) (has_det c) (keep_rows (rows c) (match Session.best _ _ _ (snd s) with Some l => l | None => [] end)).

(** operations.py:56-426 with align=False and fitted_psf=False: the result and the two images
    afterwards, the reference first. What is left when it raises is not modelled. *)
Definition subtract_held (o o' : choices) (loss : R) (beta shift iterative : bool) (x y : built) (hs : lheld * lheld)
  : res ((plane C * plane R * plane (option R) * mask) * (lheld * lheld)) :=
  if negb (shape_eqb (shape (m_dat (bu_data y))) (shape (m_dat (bu_data x)))) then Raise ValueError
  else
  let '(cr, s1) := l_catalogue o x (fst hs) in
  let '(cn, t1) := l_catalogue o' y (snd hs) in
  bind cr (fun cr =>
  bind cn (fun cn =>
  bind (transparency (l_query W) (l_sort W) (l_lsqr W) [cr; cn] None) (fun tr =>
  let kr := mcat tr in
  let kn := match cats tr with c :: _ => c | [] => cn end in
  let '(pr, s2) := l_turn W o x loss (map src_of (rows kr)) (nth 0 (zps tr) 0) s1 in
  let '(pn, t2) := l_turn W o' y loss (map src_of (rows kn)) (nth 1 (zps tr) 0) t1 in
  bind pr (fun pr =>
  bind pn (fun pn =>
  bind (subtract (mkenv (fun _ => Raise TypeError) (fun _ => Raise TypeError)
              (fun _ _ => Raise ValueError)
              (fun _ _ => Ok (nth 0 (zps tr) 0, nth 1 (zps tr) 0)) (l_back W) (l_solve W))
    (Is (l_seen x (fst s2) pr)) (Is (l_seen y (fst t2) pn)) false beta shift iterative false) (fun r =>
  let keep (u : lstate) : lstate := (mkpicture (pic_now (fst u)) (Some (spectral (fst u))), snd u) in
  Ok (r, ((keep s2, Some (l_kept kr s2)), (keep t2, Some (l_kept kn t2)))))))))).

(** Calls that give the image a catalogue without the fields of a matching: update_sources with
    or without a table (single_image.py:741-751; the user's table is taken to have none). *)
Definition renews (c : call) : bool := match c with CUpdateSources _ => true | _ => false end.

(** single_image.py: calls on one of the images between two subtractions. *)
Definition l_calls (o : choices) (x : built) (cs : list call) (h : lheld) : lheld :=
  let s := l_exec_all _ _ _ _ (live_lib W o x) cs (fst h) in
  (s, if existsb renews cs then None else option_map (fun c => l_kept c s) (snd h)).

Definition play (o o' : choices) (x y : built) (r : round) (hs : lheld * lheld) : res (lheld * lheld) :=
  match r with
  | Calls cs cs' => Ok (l_calls o x cs (fst hs), l_calls o' y cs' (snd hs))
  | Sub loss beta shift it => bind (subtract_held o o' loss beta shift it x y hs) (fun a => Ok (snd a))
  end.

Fixpoint play_all (o o' : choices) (x y : built) (rs : list round) (hs : lheld * lheld) : res (lheld * lheld) :=
  match rs with [] => Ok hs | r :: rs' => bind (play o o' x y r hs) (play_all o o' x y rs') end.
End Rounds.
