(** Words used in the statements about the flux ratio that subtract takes from transparency. *)
From Coq Require Import ZArith List Bool Arith Reals Permutation.
From Verif.Model Require Import Py Transparency Subtract.
From Verif.Spec Require Import Transparency.
Import ListNotations.
Local Open Scope R_scope.

(** Flux of source i of a catalogue. *)
Definition flux_of (c : cat) (i : nat) : R := r_flux (nth i (rows c) (mkrow 0 0 0 0 false)).

(** Mean magnitude of the sources [f i], for [i] in [l]. *)
Definition mean_mag (c : cat) (f : nat -> nat) (l : list nat) : R :=
  sumR (fun i => mag_of c (f i)) l / INR (length l).

(** [a] and [b] are the catalogues of the reference [x] and of the new image [y], matched
    before by no call; [l] are the sources of [a] that are also in [b], source i of [a] being
    source [partner i] of [b]; subtract uses the zero points that transparency computes from
    these catalogues. *)
Definition measured (e : env) (x y : dimg) (a b : cat) (l : list nat) (partner : nat -> nat) : Prop :=
  has_id a = false /\ positive a /\ positive b /\ l <> [] /\
  exists query sort_cat lsqr o,
    nearest query /\ (forall l, Permutation (sort_cat l) l) /\ solves lsqr /\
    common query a [b] l /\ (forall i, In i l -> matched query a b i (partner i)) /\
    transparency query sort_cat lsqr [a; b] None = Ok o /\
    e_transp e x y = Ok (nth 0 (zps o) 0, nth 1 (zps o) 0).
