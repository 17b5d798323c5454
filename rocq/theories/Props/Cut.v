(** C132: what extracting the star stamps does to the interpolated image. *)
From Coq Require Import ZArith List Bool Arith Reals Lia Lra.
From Flocq Require Import Core.Raux.
From Verif.Model Require Import Py Plane Sources FindS Stamps Interp Cut.
From Verif.Spec Require Import FindS Stamps Cut CutNan.
From Verif.Proof Require Import Stamps StampsLoop StampsMain StampsExample Cut CutIntact CutLoop CutMain CutLeft CutEx CutNan.
Import ListNotations.
Local Open Scope R_scope.

(** The image afterwards, when no two stamps overlap: a stamp that is inside the frame lost its
    level there, or became nan when it has none; nothing else changed. *)
Theorem C132_left : forall stats label pk image rms sh sources left ex,
  (0 < fst sh)%nat -> (0 < snd sh)%nat -> apart sh sources ->
  cut_stamps stats label pk (intact image) rms sh sources = (left, Ok ex) ->
  forall i j, (i < nr image)%nat -> (j < nc image)%nat ->
  (forall s, In s sources -> in_stamp sh s (Z.of_nat i) (Z.of_nat j) -> inner image sh s ->
     (has_level image rms sh s -> px left i j = Some (px image i j - level_of image rms sh s)) /\
     (~ has_level image rms sh s -> px left i j = None)) /\
  ((forall s, In s sources -> in_stamp sh s (Z.of_nat i) (Z.of_nat j) -> ~ inner image sh s) ->
     px left i j = Some (px image i j)).
Proof. exact C132_left_lm. Qed.
Print Assumptions C132_left.

(** A pixel that is in no stamp does not change, and the shape does not change, whatever
    happens. *)
Theorem C132_untouched : forall stats label pk image rms sh sources left r,
  (0 < fst sh)%nat -> (0 < snd sh)%nat ->
  cut_stamps stats label pk image rms sh sources = (left, r) ->
  shape left = shape image /\
  forall i j, (forall s, In s sources -> ~ in_stamp sh s (Z.of_nat i) (Z.of_nat j)) -> px left i j = px image i j.
Proof. exact C132_untouched_lm. Qed.
Print Assumptions C132_untouched.

(** The sources are taken one after the other, each from the image the ones before it left. *)
Theorem C132_in_turn : forall stats label pk image rms sh before s after left ex,
  cut_stamps stats label pk image rms sh (before ++ s :: after) = (left, Ok ex) ->
  exists mid1 mid2 ex1 ex2 ex3,
    cut_stamps stats label pk image rms sh before = (mid1, Ok ex1) /\
    cut_stamps stats label pk mid1 rms sh [s] = (mid2, Ok ex2) /\
    cut_stamps stats label pk mid2 rms sh after = (left, Ok ex3) /\
    ex_stamps ex = ex_stamps ex1 ++ ex_stamps ex2 ++ ex_stamps ex3 /\
    ex_pos ex = ex_pos ex1 ++ ex_pos ex2 ++ ex_pos ex3.
Proof. exact C132_in_turn_lm. Qed.
Print Assumptions C132_in_turn.

(** The image may hold nan, as an extraction leaves it. A source with a nan in its window is
    skipped. One with a nan around the window has a stamp that is all nan, and becomes nan in the
    image when it is inside the frame. One without nan in its stamp is cut as from any image
    without nan that has the same pixels there. *)
Theorem C132_nan : forall stats label pk image rms sh s left ex,
  (0 < fst sh)%nat -> (0 < snd sh)%nat ->
  cut_stamps stats label pk image rms sh [s] = (left, Ok ex) ->
  (nan_in image (in_window sh s) -> ex_stamps ex = [] /\
     forall i j, (i < nr image)%nat -> (j < nc image)%nat -> px left i j = px image i j) /\
  (~ nan_in image (in_window sh s) -> nan_in image (in_stamp sh s) ->
     (forall p i j, In p (ex_stamps ex) -> px p i j = None) /\
     forall i j, (i < nr image)%nat -> (j < nc image)%nat -> in_stamp sh s (Z.of_nat i) (Z.of_nat j) ->
       (inside image sh s -> px left i j = None) /\ (~ inside image sh s -> px left i j = px image i j)) /\
  (forall clean, shape clean = shape image ->
     (forall i j, (i < nr image)%nat -> (j < nc image)%nat -> in_stamp sh s (Z.of_nat i) (Z.of_nat j) ->
        px image i j = Some (px clean i j)) ->
     exists left', cut_stamps stats label pk (intact clean) rms sh [s] = (left', Ok ex) /\
       forall i j, (i < nr image)%nat -> (j < nc image)%nat -> in_stamp sh s (Z.of_nat i) (Z.of_nat j) ->
         px left i j = px left' i j).
Proof. exact C132_nan_lm. Qed.
Print Assumptions C132_nan.

Example C132_nan_case : forall stats label,
  (exists left ex p, cut_stamps stats label (mkpicks false None) (holed 7 10) 1 (1, 1)%nat [mid] = (left, Ok ex) /\
     ~ nan_in (holed 7 10) (in_window (1, 1)%nat mid) /\ nan_in (holed 7 10) (in_stamp (1, 1)%nat mid) /\
     inside (holed 7 10) (1, 1)%nat mid /\ ex_stamps ex = [p]) /\
  (exists left ex, cut_stamps stats label (mkpicks false None) (holed 10 10) 1 (1, 1)%nat [mid] = (left, Ok ex) /\
     nan_in (holed 10 10) (in_window (1, 1)%nat mid)).
Proof. exact C132_nan_case_lm. Qed.

(** The interpolated image does change. *)
Theorem C132_unchanged_refuted : forall stats label, exists image rms sh sources left ex i j,
  (0 < fst sh)%nat /\ (0 < snd sh)%nat /\ apart sh sources /\ (i < nr image)%nat /\ (j < nc image)%nat /\
  cut_stamps stats label (mkpicks false None) (intact image) rms sh sources = (left, Ok ex) /\
  px left i j <> Some (px image i j).
Proof. exact C132_unchanged_refuted_lm. Qed.
Print Assumptions C132_unchanged_refuted.

(** Cutting at (10, 10) from [raised] (even rows 2, odd rows 1): inside the stamp one less,
    outside as before. *)
Example C132_case : forall stats label, exists left ex,
  cut_stamps stats label (mkpicks false None) (intact raised) 1 (1, 1)%nat [mid] = (left, Ok ex) /\
  inner raised (1, 1)%nat mid /\ has_level raised 1 (1, 1)%nat mid /\ level_of raised 1 (1, 1)%nat mid = 1 /\
  px left 10 10 = Some 1 /\ px left 10 14 = Some 2.
Proof.
  intros stats label. destruct (one_cut stats label None raised mid good_raised_mid) as (left & ex & E & _ & L).
  exists left, ex. split; [exact E|]. split; [now apply inner_mid|]. split; [apply raised_level|].
  split; [apply raised_level|]. rewrite L, !cut_raised by lia. cbn. split; f_equal; lra.
Qed.
