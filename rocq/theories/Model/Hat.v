(** Model of [interped_hat], the transform of the interpolated image that subtract and
    s_hat_comp read (properimage/single_image.py 1313-1382), together with the extraction of
    stamps that changes that image (753-959).

    Exact numbers; [None] is nan. interped is computed at its first access from the pixels,
    which never change; here it is there from the beginning. *)
From Coq Require Import ZArith List Bool Arith Reals.
From Coquelicot Require Import Complex.
From Verif.Model Require Import Py Plane Sources Stamps Interp Cut.
Import ListNotations.
Local Open Scope R_scope.

(** numpy's fft2(x, norm="ortho"): every cell is nan when one of [x] is. *)
Definition transform (im : plane (option R)) : plane (option C) :=
  match whole im with
  | Some p => pmap Some (fft2_ortho (pmap RtoC p))
  | None => pmap (fun _ => None) im
  end.

(** The attributes _interped and _interped_hat. *)
Record spectrum : Type := mkspectrum {
  sp_interped : plane (option R);
  sp_hat : option (plane (option C)) }.

(** single_image.py:1377-1382 *)
Definition interped_hat (s : spectrum) : plane (option C) * spectrum :=
  match sp_hat s with
  | Some h => (h, s)
  | None => let h := transform (sp_interped s) in (h, mkspectrum (sp_interped s) (Some h))
  end.

(** What is done with the image: reading interped_hat (subtract and s_hat_comp do), and an
    extraction of stamps, which may raise. *)
Inductive step : Type :=
| AskHat
| Extract (pk : picks) (rms : R) (sh : nat * nat) (sources : list src).

Definition step_exec stats label (c : step) (s : spectrum) : spectrum :=
  match c with
  | AskHat => snd (interped_hat s)
  | Extract pk rms sh sources =>
      mkspectrum (fst (cut_stamps stats label pk (sp_interped s) rms sh sources)) (sp_hat s)
  end.

Definition steps_exec stats label (cs : list step) (s : spectrum) : spectrum :=
  fold_left (fun s c => step_exec stats label c s) cs s.
