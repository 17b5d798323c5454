(** Words used in the statements about repeated operations. *)
From Coq Require Import ZArith List Bool Arith Reals Permutation.
From Verif.Model Require Import Py Transparency.
From Verif.Spec Require Import Transparency.
Import ListNotations.
Local Open Scope R_scope.

(** No point of [A] has two points of [B] at the same distance, within the radius. *)
Definition no_ties (A B : list pt) (r : R) : Prop :=
  forall a j j' b b', In a A -> nth_error B j = Some b -> nth_error B j' = Some b' ->
    dist a b < r -> dist a b = dist a b' -> j = j'.

(** The matching of two catalogues has no ties in either direction. *)
Definition clear_match (c d : cat) : Prop :=
  no_ties (map xy (rows c)) (map xy (rows d)) 2 /\ no_ties (map xy (rows d)) (map xy (rows c)) 2.

(** The catalogues that are left after calling transparency on the images [k] times. *)
Fixpoint after_runs (run : list cat -> res outcome) (k : nat) (images : list cat) : res (list cat) :=
  match k with
  | O => Ok images
  | S k => bind (run images) (fun t => after_runs run k (mcat t :: cats t))
  end.

(** Where a source is, and how bright. *)
Definition place (r : row) : R * R * R := (r_x r, r_y r, r_flux r).

(** A catalogue without identifiers, or with identifiers that tell its sources apart and are
    not the one of sources without a partner. *)
Definition good_ids (c : cat) : Prop :=
  has_id c = false \/ (NoDup (map r_id (rows c)) /\ ~ In (-13133)%Z (map r_id (rows c))).

(** The same sources, in any order. *)
Definition same_sources (c d : cat) : Prop := Permutation (map place (rows c)) (map place (rows d)).

(** The catalogue of the first image can be matched with the others without ties. *)
Definition clear_first (cs : list cat) : Prop :=
  match cs with a :: bs => Forall (clear_match a) bs | [] => True end.

Definition stars (c : cat) : nat := length (rows c).

(** What an operation answers, without what it leaves. *)
Definition answer {A B} (r : option (res (A * B))) : option (res A) :=
  match r with
  | Some (Ok (a, _)) => Some (Ok a)
  | Some (Raise e) => Some (Raise e)
  | None => None
  end.
