(** Model of subtract and of the cached attributes of new images with what the extraction of
    stamps leaves in the interpolated image (properimage/single_image.py 753-959, 1258-1296,
    operations.py 56-426): Model/Chain.v with the extraction of Model/Cut.v.

    For images whose stamps were not extracted before, and whose first extraction returns. A
    stamp without a level makes the image nan in the code and 0 here. *)
From Coq Require Import ZArith List Bool Arith Reals.
From Coquelicot Require Import Complex.
From Verif.Model Require Import Py Plane Ma Interp Sources Stamps Cut KL Session Filter Transparency Subtract Chain.
Import ListNotations.
Local Open Scope R_scope.

Section CutChain.
Variable W : libs.

(** single_image.py:801-924: the image afterwards, the stamps written to the file, also when
    the loop raises, the positions and the numbers of the rejected sources. *)
Fixpoint cut_dump (pk : picks) (image : plane (option R)) (rms : R) (sh : nat * nat) (srcs : list src)
  (jj : nat) : plane (option R) * (list (plane (option R)) * res (list (R * R) * list nat)) :=
  match srcs with
  | [] => (image, ([], Ok ([], [])))
  | s :: rest =>
      match cut_one (l_stats W) (l_label W) pk image rms sh s with
      | (image', Raise e) => (image', ([], Raise e))
      | (image', Ok o) =>
          let '(last, (stamps, r)) := cut_dump pk image' rms sh rest (S jj) in
          (last, match o with
                 | None => (stamps, bind r (fun pd => Ok (fst pd, jj :: snd pd)))
                 | Some p => (p :: stamps, bind r (fun pd => Ok ((s_y s, s_x s) :: fst pd, snd pd)))
                 end)
      end
  end.

(** The extraction as Model/Session.v wants it, from the image as it is before the first one. *)
Definition cut_for (pk : picks) (image : plane R) (rms : R) (sh : nat * nat) (srcs : list src)
  : list (plane R) * res (list (R * R) * list src) :=
  let '(_, (stamps, r)) := cut_dump pk (pmap Some image) rms sh srcs 0 in
  (map numbers stamps,
   bind r (fun '(pos, to_del) =>
     Ok (pos, if Nat.leb 15 (length srcs - length to_del) then np_delete 0 to_del srcs else srcs))).

(** The interpolated image once the stamps of the sources [c] were extracted. *)
Definition left_by (pk : picks) (image : plane R) (rms : R) (sh : nat * nat) (c : list src) : plane R :=
  numbers (fst (cut_dump pk (pmap Some image) rms sh c 0)).

(** An image of which the first extraction will be that of the sources [c]: the stamps come
    from the image as it is before, and what is computed from the image afterwards from what
    the extraction leaves. [o] has the user's strict_star_pick. *)
Definition opened (o : choices) (c : list src) (x : built) : built :=
  let L := bu_lib x in
  let pk := mkpicks (o_pick o) None in
  let rms := b_rms (bu_back x) in
  let img := left_by pk (bu_clean x) rms (stamp_shape _ _ _ (bu_attr x)) c in
  mkbuilt (bu_data x) (bu_back x) img
    (mklib (plane R) (res (plane C)) (res (plane R))
       (select _ _ _ L) (cut_for pk (bu_clean x) rms) (eigh _ _ _ L) (smooth _ _ _ L) (Session.fit _ _ _ L)
       (normal_of _ _ _ L)
       (fun z a basis n => Filter.s_hat (mkfimg (shape (m_dat (bu_data x))) (px img) rms z) (px n)
                             (on_pixels a) (map numbers basis))
       (ifft_real _ _ _ L))
    (bu_attr x).

(** An image that goes through a history of calls with its own catalogue. *)
Definition used (o : choices) (x : built) : res built :=
  bind (fst (Session.best_sources _ _ _ (bu_lib x) (bu_attr x))) (fun c => Ok (opened o c x)).

(** operations.py:56-426 with align=False and fitted_psf=False, on two new images. *)
Definition subtract_cut (o o' : choices) (inf_loss : R) (beta shift iterative : bool) (ref new : built)
  : res (plane C * plane R * plane (option R) * mask) :=
  if negb (shape_eqb (shape (m_dat (bu_data new))) (shape (m_dat (bu_data ref)))) then Raise ValueError
  else
  bind (fst (Session.best_sources _ _ _ (bu_lib ref) (bu_attr ref))) (fun cr =>
  bind (fst (Session.best_sources _ _ _ (bu_lib new) (bu_attr new))) (fun cn =>
  bind (transparency (l_query W) (l_sort W) (l_lsqr W)
          [mkcat false false (map row_of cr); mkcat false false (map row_of cn)] None) (fun t =>
  let mr := map src_of (rows (mcat t)) in
  let mn := match cats t with c :: _ => map src_of (rows c) | [] => cn end in
  let ref' := opened o mr (with_best mr ref) in
  let new' := opened o' mn (with_best mn new) in
  bind (first_element inf_loss ref') (fun pr =>
  bind (first_element inf_loss new') (fun pn =>
  subtract (mkenv (fun _ => Raise TypeError) (fun _ => Raise TypeError)
              (fun _ _ => Raise ValueError)
              (fun _ _ => Ok (nth 0 (zps t) 0, nth 1 (zps t) 0)) (l_back W) (l_solve W))
    (Is (seen ref' pr)) (Is (seen new' pn)) false beta shift iterative false))))).

Definition subtract_cut_pixels (fuel : nat) (o o' : choices) (inf_loss : R) (beta shift iterative : bool)
  (ref new : mimg) : option (res (plane C * plane R * plane (option R) * mask)) :=
  match build W fuel o ref, build W fuel o' new with
  | Some r, Some n => Some (bind r (fun r => bind n (fun n =>
                        subtract_cut o o' inf_loss beta shift iterative r n)))
  | _, _ => None
  end.
End CutChain.
