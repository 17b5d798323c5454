(** Model of [subtract] on two images with what their interpolated images have become by then
    (properimage/operations.py 56-426, utils.py 141-243, single_image.py 741-959, 1241-1256):
    Model/Chain.v's subtraction, with the methods of Model/Live.v. align=False and
    fitted_psf=False; the images were in no matching before. *)
From Coq Require Import ZArith List Bool Arith Reals.
From Coquelicot Require Import Complex.
From Verif.Model Require Import Py Plane Ma Interp Coadd Subtract Filter Sources Stamps Cut KL Session Transparency Chain CutChain Live.
Import ListNotations.
Local Open Scope R_scope.

Definition lstate : Type := live picture (plane R) (res (plane C)) (res (plane R)).

(** The image of which interped_hat is the spectrum: that of its first use
    (single_image.py:1241-1256). *)
Definition spectral (p : picture) : plane (option R) := match pic_hat p with Some h => h | None => pic_now p end.

(** What subtract reads of an image (operations.py:141-201, 400-411). Simplification: the
    background (operations.py:206-207) is taken of [spectral] and not of the image as it is; the
    theorems show that they are the same. A nan pixel is 0 here. *)
Definition l_seen (x : built) (p : picture) (q : plane R) : dimg :=
  let d := bu_data x in
  mkdimg (shape (m_dat d))
    (fun i j => if px (m_msk d) i j then 0
                else match px (m_dat d) i j with Some v => v | None => 0 end)
    (Full (m_msk d)) (px (numbers (spectral p))) (b_rms (bu_back x)) q (fun _ _ => 0).

Section LiveSub.
Variable W : libs.

Local Notation "'do' x <- m ; k" := (lbind _ _ _ _ m (fun x => k)) (at level 200, x pattern, m at level 100, k at level 200).

(** The sources and the zero point from the matching (utils.py:203, 224, operations.py:150-151),
    and the PSF (operations.py:155-156, 183-184). *)
Definition l_turn (o : choices) (x : built) (loss : R) (stars : list src) (z : R)
  : LM picture (plane R) (res (plane C)) (res (plane R)) (plane R) :=
  do _ <- l_update_sources _ _ _ _ (live_lib W o x) (Some stars);
  do _ <- lupd _ _ _ _ (set_zp _ _ _ (Some z));
  do ab <- l_get_variable_psf _ _ _ _ (live_lib W o x) (Some loss) None;
  match snd ab with [] => lraise _ _ _ _ IndexError | p :: _ => lret _ _ _ _ (numbers p) end.

(** The result and the two images afterwards, the reference first. What is left when it raises
    is not modelled. *)
Definition subtract_live (o o' : choices) (loss : R) (beta shift iterative : bool) (x y : built) (s t : lstate)
  : res ((plane C * plane R * plane (option R) * mask) * (lstate * lstate)) :=
  if negb (shape_eqb (shape (m_dat (bu_data y))) (shape (m_dat (bu_data x)))) then Raise ValueError
  else
  let '(cr, s1) := l_best_sources _ _ _ _ (live_lib W o x) s in
  let '(cn, t1) := l_best_sources _ _ _ _ (live_lib W o' y) t in
  bind cr (fun cr =>
  bind cn (fun cn =>
  bind (transparency (l_query W) (l_sort W) (l_lsqr W)
          [mkcat false false (map row_of cr); mkcat false false (map row_of cn)] None) (fun tr =>
  let kr := map src_of (rows (mcat tr)) in
  let kn := match cats tr with c :: _ => map src_of (rows c) | [] => cn end in
  let '(pr, s2) := l_turn o x loss kr (nth 0 (zps tr) 0) s1 in
  let '(pn, t2) := l_turn o' y loss kn (nth 1 (zps tr) 0) t1 in
  bind pr (fun pr =>
  bind pn (fun pn =>
  bind (subtract (mkenv (fun _ => Raise TypeError) (fun _ => Raise TypeError)
              (fun _ _ => Raise ValueError)
              (fun _ _ => Ok (nth 0 (zps tr) 0, nth 1 (zps tr) 0)) (l_back W) (l_solve W))
    (Is (l_seen x (fst s2) pr)) (Is (l_seen y (fst t2) pn)) false beta shift iterative false) (fun r =>
  let keep (u : lstate) : lstate := (mkpicture (pic_now (fst u)) (Some (spectral (fst u))), snd u) in
  Ok (r, (keep s2, keep t2)))))))).
End LiveSub.
