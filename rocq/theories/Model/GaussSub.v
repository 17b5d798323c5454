(** Model of the default mode of subtract, fitted_psf=True (properimage/operations.py 103-426,
    136-170 in particular), on SingleImageGaussPSF images built from pixels (Model/Chain.v,
    Model/GaussImage.v). *)
From Coq Require Import ZArith List Bool Arith Reals.
From Flocq Require Import Core.
From Coquelicot Require Import Complex.
From Verif.Model Require Import Py Plane Ma Interp Subtract Sources Stamps KL Session Transparency Chain Gauss GaussImage.
Import ListNotations.
Local Open Scope R_scope.

(** astropy.modeling.models.Gaussian2D.evaluate. A width of zero, which gives nan or 0 in numpy,
    is excluded by the theorems. *)
Definition gauss2d (xw yw th x0 y0 am x y : R) : R :=
  let a := (cos th ^ 2 / xw ^ 2 + sin th ^ 2 / yw ^ 2) / 2 in
  let b := (sin (2 * th) / xw ^ 2 - sin (2 * th) / yw ^ 2) / 2 in
  let c := (sin th ^ 2 / xw ^ 2 + cos th ^ 2 / yw ^ 2) / 2 in
  am * exp (- (a * (x - x0) ^ 2 + b * (x - x0) * (y - y0) + c * (y - y0) ^ 2)).

(** The half-widths of Gaussian2D.bounding_box, along x and along y: those of an ellipse with
    axes of 5.5 standard deviations (astropy.modeling.utils.ellipse_extent, whose arc tangents
    give this in closed form), rounded up by Model.render. *)
Definition reach (p q th : R) : nat := Z.to_nat (Zceil (11 / 2 * sqrt ((p * cos th) ^ 2 + (q * sin th) ^ 2))).

(** Gaussian2D(x_mean=0, y_mean=0, ...).render() (single_image.py:1498-1507): the array over the
    bounding box; x runs along the columns. *)
Definition render_stamp (xw yw th am : R) : plane R :=
  let dx := reach xw yw th in let dy := reach yw xw th in
  mkplane (2 * dy + 1) (2 * dx + 1) (fun i j => gauss2d xw yw th 0 0 am (INR j - INR dx) (INR i - INR dy)).

(** operations.py:162-170: x_mean = shape[0] / 2, y_mean = shape[1] / 2, no bounding box,
    render(np.zeros(shape)); x runs along the columns. *)
Definition render_frame (sh : nat * nat) (xw yw th : R) (i j : nat) : R :=
  gauss2d xw yw th (INR (fst sh) / 2) (INR (snd sh) / 2) 1 (INR j) (INR i).

Section GaussModel.
Variables NI FT IM : Type.
Variable L : lib NI FT IM.
Variable fitter : start -> plane R -> gaussian.
Variable stats : list R -> R * R * R.

(** single_image.py:1474-1507: the second item of the list that get_variable_psf returns, the
    model with the means of the widths and of the angle (the first is in Model/Gauss.v). *)
Definition gauss_model : M NI FT IM (R * R * R) := fun s =>
  match n_sources NI FT IM L s with
  | (Raise e, s1) => (Raise e, s1)
  | (Ok n, s1) =>
      (if no_file NI FT IM n s1 then Raise IOError else
       match fit_all fitter (firstn n (stored NI FT IM s1)) with
       | Raise e => Raise e
       | Ok gs =>
           if Nat.ltb (length (stored NI FT IM s1)) n then Raise AttributeError
           else
             let mean f := fst (fst (stats (map f gs))) in
             Ok (mean xw, mean yw, mean th)
       end, s1)
  end.
End GaussModel.

(** What subtract reads of an image once its Gaussian is known (operations.py:141-203,
    400-411). *)
Definition seen_gauss (x : built) (g : R * R * R) : dimg :=
  let '(a, b, t) := g in
  let u := Chain.seen x (render_stamp a b t 1) in
  mkdimg (d_shape u) (d_data u) (d_mask u) (d_interped u) (d_var u) (d_stamp u) (render_frame (d_shape u) a b t).

(** operations.py:56-426 with align=False and fitted_psf=True, on two SingleImageGaussPSF. As
    subtract_built of Model/Chain.v, with the Gaussians; inf_loss is not used. *)
Definition subtract_gauss (W : libs) (fitter : start -> plane R -> gaussian) (stats : list R -> R * R * R)
  (beta shift iterative : bool) (ref new : built) : res (plane C * plane R * plane (option R) * mask) :=
  if negb (shape_eqb (shape (m_dat (bu_data new))) (shape (m_dat (bu_data ref)))) then Raise ValueError
  else
  bind (fst (Session.best_sources _ _ _ (bu_lib ref) (bu_attr ref))) (fun cr =>
  bind (fst (Session.best_sources _ _ _ (bu_lib new) (bu_attr new))) (fun cn =>
  bind (transparency (l_query W) (l_sort W) (l_lsqr W)
          [mkcat false false (map row_of cr); mkcat false false (map row_of cn)] None) (fun t =>
  let ref' := with_best (map src_of (rows (mcat t))) ref in
  let new' := with_best (match cats t with c :: _ => map src_of (rows c) | [] => cn end) new in
  bind (fst (gauss_model _ _ _ (bu_lib ref') fitter stats (bu_attr ref'))) (fun gr =>
  bind (fst (gauss_model _ _ _ (bu_lib new') fitter stats (bu_attr new'))) (fun gn =>
  subtract (mkenv (fun _ => Raise TypeError) (fun _ => Raise TypeError)
              (fun _ _ => Raise ValueError)
              (fun _ _ => Ok (nth 0 (zps t) 0, nth 1 (zps t) 0)) (l_back W) (l_solve W))
    (Is (seen_gauss ref' gr)) (Is (seen_gauss new' gn)) false beta shift iterative true))))).
