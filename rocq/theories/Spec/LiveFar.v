(** Words used in the statements about what any history does to the interpolated image. *)
From Coq Require Import List Reals.
From Verif.Model Require Import Py Plane Sources Session Chain.
Import ListNotations.
Local Open Scope R_scope.

(** The shapes of the stamps a call asks for. *)
Definition asks_shape (c : call) : list (nat * nat) :=
  match c with CGetPSF _ (Some q) => [q] | CSetStampShape q => [q] | _ => [] end.

(** The sources a call brings. *)
Definition brings (c : call) : list src :=
  match c with CUpdateSources (Some l) => l | _ => [] end.

(** A call that neither needs the stamps nor the PSF. *)
Definition idle (c : call) : Prop :=
  match c with
  | CBestSources | CSetZp _ | CUpdateSources (Some _) | CSetInfLoss _ | CSetStampShape _ | CClean => True
  | _ => False
  end.

(** The sources that the image has by itself. *)
Definition own_sources (x : built) : list src :=
  match fst (Session.best_sources _ _ _ (bu_lib x) (bu_attr x)) with Ok c => c | Raise _ => [] end.
