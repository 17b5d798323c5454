(** Model of SingleImageGaussPSF.get_variable_psf (properimage/single_image.py 1441-1507) and
    of fit_gaussian2d (properimage/utils.py 395-412), on the attributes of Model/Session.v. *)
From Coq Require Import ZArith List Bool Arith Reals.
From Verif.Model Require Import Py Plane Sources KL Session.
Import ListNotations.
Local Open Scope R_scope.

(** Where a fit starts: a Gaussian and a constant. *)
Record start : Type := mkstart {
  g_x : R; g_y : R; g_xw : R; g_yw : R; g_th : R; g_am : R; g_back : R }.

(** What is read of a fitted Gaussian. *)
Record gaussian : Type := mkgauss { xw : R; yw : R; th : R; am : R }.

(** The cells, row by row. *)
Definition cells (p : plane R) : list R :=
  map (fun c => px p (fst c) (snd c)) (list_prod (seq 0 (nr p)) (seq 0 (nc p))).

Definition max_of (l : list R) : R := match l with [] => 0 | x :: t => fold_right Rmax x t end.
Definition min_of (l : list R) : R := match l with [] => 0 | x :: t => fold_right Rmin x t end.

(** utils.py:395-412. [fitter] is LevMarLSQFitter on the cells. max and min of an empty array
    raise. *)
Definition fit_gaussian2d (fitter : start -> plane R -> gaussian) (arr : plane R) : res gaussian :=
  match cells arr with
  | [] => Raise ValueError
  | c => Ok (fitter (mkstart (INR (nc arr) / 2) (INR (nr arr) / 2) 1 1 (PI / 4) (max_of c - min_of c) (min_of c)) arr)
  end.

Section Gauss.
Variables NI FT IM : Type.
Variable L : lib NI FT IM.
Variable fitter : start -> plane R -> gaussian.
(** sigma_clipped_stats: mean, median, deviation *)
Variable stats : list R -> R * R * R.
(** Gaussian2D(...).render(), from the widths, the angle and the amplitude, centred on 0 *)
Variable render : R -> R -> R -> R -> plane (option R).

(** Each stamp in turn; the first failure ends it. *)
Fixpoint fit_all (l : list (plane R)) : res (list gaussian) :=
  match l with
  | [] => Ok []
  | p :: t => bind (fit_gaussian2d fitter p) (fun g => bind (fit_all t) (fun r => Ok (g :: r)))
  end.

(** single_image.py:1474-1507. A missing stamp loads as None, which has no shape. The list
    returned has the rendered model first (the model itself, its second item, is left out). *)
Definition gauss_psf (l : option R) (sh : option (nat * nat)) : M NI FT IM (fieldset * list (plane (option R))) :=
  fun s =>
  match n_sources NI FT IM L s with
  | (Raise e, s1) => (Raise e, s1)
  | (Ok n, s1) =>
      (if no_file NI FT IM n s1 then Raise IOError else
       match fit_all (firstn n (stored NI FT IM s1)) with
       | Raise e => Raise e
       | Ok gs =>
           if Nat.ltb (length (stored NI FT IM s1)) n then Raise AttributeError
           else
             let mean f := fst (fst (stats (map f gs))) in
             Ok (NoField, [render (mean xw) (mean yw) (mean th) 1])
       end, s1)
  end.
End Gauss.
