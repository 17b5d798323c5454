(** C32-C35, C80, C81: the star stamps. *)
From Coq Require Import ZArith List Bool Arith Reals Lia Lra Sorting.Sorted.
From Flocq Require Import Core.Raux.
From Verif.Model Require Import Py Plane Sources FindS Stamps Interp Cut.
From Verif.Spec Require Import FindS Stamps Percentile Cut.
From Verif.Proof Require Import Stamps StampsLoop StampsMain StampsExample Percentile.
From Verif.Proof Require Import Cut CutIntact CutLoop CutMain CutLeft CutEx StarEx.
Import ListNotations.
Local Open Scope R_scope.

(** Every stored stamp has the shape reported afterwards, six more than before on each axis. The
    interpolated image keeps its shape. *)
Theorem C32_shapes : forall stats label pk image rms sh sources left ex,
  (0 < fst sh)%nat -> (0 < snd sh)%nat ->
  cut_stamps stats label pk image rms sh sources = (left, Ok ex) ->
  ex_shape ex = (fst sh + 6, snd sh + 6)%nat /\
  (forall p, In p (ex_stamps ex) -> shape p = ex_shape ex) /\ shape left = shape image.
Proof. exact C32_shapes_lm. Qed.
Print Assumptions C32_shapes.

(** The un-grown stamp is the centre of the grown one. *)
Theorem C32_centre : forall image rms sh pos small,
  view image rms sh pos = Ok small ->
  exists big, view image rms (fst sh + 6, snd sh + 6)%nat pos = Ok big /\
    forall i j, (i < fst sh)%nat -> (j < snd sh)%nat -> px small i j = px big (i + 3) (j + 3).
Proof. exact C32_centre_lm. Qed.
Print Assumptions C32_centre.

(** Otherwise, when no two stamps overlap, the extraction succeeds and, without strict picking,
    keeps every source. *)
Theorem C32_extraction_succeeds : forall stats label pk image rms sh sources,
  (0 < fst sh)%nat -> (0 < snd sh)%nat -> private_pick pk = false -> apart sh sources ->
  (forall s, In s sources ->
     overlaps image sh (s_y s, s_x s) /\
     ~ flat_border (window image rms sh (s_y s, s_x s) 0) (35 / 10 * rms) /\
     ~ flat_border (window image rms sh (s_y s, s_x s) 1) (35 / 10 * rms)) ->
  exists left ex, cut_stamps stats label pk (intact image) rms sh sources = (left, Ok ex) /\
    ex_pos ex = map (fun s => (s_y s, s_x s)) sources /\ ex_sources ex = sources /\
    length (ex_stamps ex) = length sources.
Proof. exact C32_extraction_succeeds_lm. Qed.
Print Assumptions C32_extraction_succeeds.

(** A source inside the frame of the image always has a window that meets the image. *)
Theorem C32_inside_overlaps : forall (image : plane R) (sh : nat * nat) y x,
  (0 < fst sh)%nat -> (0 < snd sh)%nat ->
  0 <= y <= INR (nr image) - 1 -> 0 <= x <= INR (nc image) - 1 ->
  overlaps image sh (y, x).
Proof. exact C32_inside_overlaps_lm. Qed.
Print Assumptions C32_inside_overlaps.

(** The image [stripes] (20x20, even rows 1, odd rows 0), noise level 1 and sources at
    (10, 10) and (10, 3), with initial stamps of one cell. *)
Example C32_case : overlaps stripes (1, 1)%nat (s_y mid, s_x mid) /\
  ~ flat_border (window stripes 1 (1, 1)%nat (s_y mid, s_x mid) 0) (35 / 10 * 1) /\
  ~ flat_border (window stripes 1 (1, 1)%nat (s_y mid, s_x mid) 1) (35 / 10 * 1) /\
  apart (1, 1)%nat [mid; side] /\
  forall stats label, exists left ex,
    cut_stamps stats label (mkpicks false None) (intact stripes) 1 (1, 1)%nat [mid; side] = (left, Ok ex) /\
    length (ex_stamps ex) = 2%nat.
Proof.
  split; [exact stripes_overlap|]. split; [apply stripes_not_flat; lia|].
  split; [apply stripes_not_flat; lia|]. split; [exact pair_apart|]. exact stripes_pair.
Qed.

(** A single source raises TypeError exactly when the border of the stamp, or of the stamp
    one cell larger on each side, is constant and equal to 3.5 rms. *)
Theorem C32_flat_border : forall stats label pk image rms sh s,
  (0 < fst sh)%nat -> (0 < snd sh)%nat ->
  overlaps image sh (s_y s, s_x s) ->
  (snd (cut_stamps stats label pk (intact image) rms sh [s]) = Raise TypeError <->
   flat_border (window image rms sh (s_y s, s_x s) 0) (35 / 10 * rms) \/
   flat_border (window image rms sh (s_y s, s_x s) 1) (35 / 10 * rms)).
Proof. exact C32_flat_border_lm. Qed.
Print Assumptions C32_flat_border.

(** A source whose window misses the image spoils any catalogue, and so does one with such a
    border if no two stamps overlap. *)
Theorem C32_one_spoils_all : forall stats label pk image rms sh sources s,
  (0 < fst sh)%nat -> (0 < snd sh)%nat -> In s sources ->
  ~ overlaps image sh (s_y s, s_x s) \/
  (apart sh sources /\
   (flat_border (window image rms sh (s_y s, s_x s) 0) (35 / 10 * rms) \/
    flat_border (window image rms sh (s_y s, s_x s) 1) (35 / 10 * rms))) ->
  exists e, snd (cut_stamps stats label pk (intact image) rms sh sources) = Raise e.
Proof. exact C32_one_spoils_all_lm. Qed.
Print Assumptions C32_one_spoils_all.

(** A constant image at 3.5 times the noise level. *)
Example C32_flat_case : forall stats label,
  snd (cut_stamps stats label (mkpicks false None) (intact (mkplane 20 20 (fun _ _ => 7))) 2 (1, 1)%nat [mid])
  = Raise TypeError.
Proof. intros. apply flat_spoils. Qed.

(** Bookkeeping: the kept sources are given by an increasing list of catalogue indices; the
    q-th position is that of the q-th kept source. The catalogue is reduced to the kept sources
    iff there are at least 15 of them. *)
Theorem C33_bookkeeping : forall stats label pk image rms sh sources left ex,
  cut_stamps stats label pk image rms sh sources = (left, Ok ex) ->
  exists idx, StronglySorted lt idx /\
    ex_n ex = length idx /\ length (ex_pos ex) = length idx /\ length (ex_stamps ex) = length idx /\
    (forall q k, nth_error idx q = Some k ->
       exists s, nth_error sources k = Some s /\ nth_error (ex_pos ex) q = Some (s_y s, s_x s)) /\
    ((15 <= length idx)%nat -> length (ex_sources ex) = length idx /\
       forall q k, nth_error idx q = Some k -> nth_error (ex_sources ex) q = nth_error sources k) /\
    ((length idx < 15)%nat -> ex_sources ex = sources).
Proof. exact C33_bookkeeping_lm. Qed.
Print Assumptions C33_bookkeeping.

(** When no two stamps overlap, a source is kept exactly when it is kept alone in the
    catalogue, with the same stamp. *)
Theorem C33_alone : forall stats label pk image rms sh sources left ex,
  (0 < fst sh)%nat -> (0 < snd sh)%nat -> apart sh sources ->
  cut_stamps stats label pk (intact image) rms sh sources = (left, Ok ex) ->
  exists idx, StronglySorted lt idx /\ length (ex_stamps ex) = length idx /\
    (forall q k, nth_error idx q = Some k ->
       exists s p left1 ex1, nth_error sources k = Some s /\
         nth_error (ex_pos ex) q = Some (s_y s, s_x s) /\ nth_error (ex_stamps ex) q = Some p /\
         cut_stamps stats label pk (intact image) rms sh [s] = (left1, Ok ex1) /\ ex_stamps ex1 = [p]) /\
    (forall k s, nth_error sources k = Some s -> ~ In k idx ->
       exists left1 ex1, cut_stamps stats label pk (intact image) rms sh [s] = (left1, Ok ex1) /\ ex_stamps ex1 = []).
Proof. exact C33_alone_lm. Qed.
Print Assumptions C33_alone.

(** Cutting again from the image and the catalogue that were left, when no two stamps overlap,
    the first stamps are finite and the second cutting returns, gives the same positions, stamps
    and catalogue, and leaves the image as it is. *)
Theorem C33_repeatable : forall stats label pk image rms sh sources left ex left' ex',
  (0 < fst sh)%nat -> (0 < snd sh)%nat -> apart sh sources ->
  cut_stamps stats label pk (intact image) rms sh sources = (left, Ok ex) -> all_finite ex ->
  cut_stamps stats label (ex_picks ex) left rms sh (ex_sources ex) = (left', Ok ex') ->
  ex_pos ex' = ex_pos ex /\ ex_stamps ex' = ex_stamps ex /\ ex_sources ex' = ex_sources ex /\
  ex_n ex' = ex_n ex /\ ex_shape ex' = ex_shape ex /\ plane_eq left' left.
Proof. exact C33_repeatable_lm. Qed.
Print Assumptions C33_repeatable.

(** [raised] is [stripes] plus 1, so that the first cutting changes it. *)
Example C33_again_case : forall stats label, exists left ex left' ex',
  cut_stamps stats label (mkpicks false None) (intact raised) 1 (1, 1)%nat [mid] = (left, Ok ex) /\ all_finite ex /\
  cut_stamps stats label (ex_picks ex) left 1 (1, 1)%nat (ex_sources ex) = (left', Ok ex').
Proof. exact raised_again. Qed.

(** With strict_star_pick=True only finite star-like stamps are stored, however small the
    catalogue and whatever the image. *)
Theorem C34_strict_always : forall stats label public image rms sh sources left ex p,
  (0 < fst sh)%nat -> (0 < snd sh)%nat ->
  cut_stamps stats label (mkpicks true public) image rms sh sources = (left, Ok ex) ->
  In p (ex_stamps ex) -> exists q, plane_eq p (pmap Some q) /\ star_like stats label q.
Proof. exact C34_strict_always_lm. Qed.
Print Assumptions C34_strict_always.

Example C34_case : exists left ex p,
  cut_stamps quiet none (mkpicks true None) (intact starry) 1 one [mid] = (left, Ok ex) /\ ex_stamps ex = [p] /\ apart one [mid].
Proof. exact (star_accepted None). Qed.

(** A source that is not stored then has a stamp that is not star-like or not finite, if no two
    stamps overlap. *)
Theorem C34_rejected : forall stats label public image rms sh sources left ex s,
  (0 < fst sh)%nat -> (0 < snd sh)%nat -> apart sh sources ->
  cut_stamps stats label (mkpicks true public) (intact image) rms sh sources = (left, Ok ex) ->
  In s sources ->
  (exists k, nth_error (ex_pos ex) k = Some (s_y s, s_x s)) \/
  (exists q, plane_eq (normalised (window image rms sh (s_y s, s_x s) 3)) (pmap Some q) /\
             ~ star_like stats label q) \/
  (forall i j, px (normalised (window image rms sh (s_y s, s_x s) 3)) i j = None).
Proof. exact C34_rejected_lm. Qed.
Print Assumptions C34_rejected.

Example C34_rejected_case : apart one [mid] /\ exists left ex,
  cut_stamps quiet none (mkpicks true None) (intact stripes) 1 one [mid] = (left, Ok ex) /\ ex_stamps ex = [].
Proof.
  split; [apply apart_single|]. destruct (stripes_cut_rejected quiet none None) as (left & ex & E & N & _).
  exists left, ex. now split.
Qed.

(** The announced disabling for at most 20 candidates does not happen: the attribute
    strict_star_pick becomes False but the source is still rejected by the strict criteria. *)
Theorem C34_disabled_refuted : forall stats label, exists image rms sh sources left left' ex ex',
  (length sources <= 20)%nat /\
  cut_stamps stats label (mkpicks true None) (intact image) rms sh sources = (left, Ok ex) /\
  cut_stamps stats label (mkpicks false None) (intact image) rms sh sources = (left', Ok ex') /\
  public_pick (ex_picks ex) = Some false /\
  length (ex_stamps ex') = length sources /\ ex_stamps ex = [].
Proof. exact C34_disabled_refuted_lm. Qed.
Print Assumptions C34_disabled_refuted.

(** Every stored stamp sums to one, or none of its cells is finite. *)
Theorem C35_unit_sum : forall stats label pk image rms sh sources left ex p,
  (0 < fst sh)%nat -> (0 < snd sh)%nat ->
  cut_stamps stats label pk image rms sh sources = (left, Ok ex) -> In p (ex_stamps ex) ->
  (exists q, plane_eq p (pmap Some q) /\ sumR (values q) = 1) \/ (forall i j, px p i j = None).
Proof. exact C35_unit_sum_lm. Qed.
Print Assumptions C35_unit_sum.

Example C35_case : exists left ex p,
  cut_stamps quiet none (mkpicks true None) (intact starry) 1 one [mid] = (left, Ok ex) /\ In p (ex_stamps ex).
Proof.
  destruct (star_accepted None) as (left & ex & p & E & S & _). exists left, ex, p. rewrite S. split; [exact E|now left].
Qed.

(** When no two stamps overlap, the stamp stored for a source is exactly its window with three
    more cells on each side, minus the median of the cells below the 70th percentile, divided by
    the sum: the initial shift by the minimum has no effect. *)
Theorem C80_stamp_formula : forall stats label pk image rms sh sources left ex k pos p,
  (0 < fst sh)%nat -> (0 < snd sh)%nat -> apart sh sources ->
  cut_stamps stats label pk (intact image) rms sh sources = (left, Ok ex) ->
  nth_error (ex_pos ex) k = Some pos -> nth_error (ex_stamps ex) k = Some p ->
  plane_eq p (normalised (window image rms sh pos 3)).
Proof. exact C80_stamp_formula_lm. Qed.
Print Assumptions C80_stamp_formula.

(** In general the window is taken from the image as the sources before it left it. *)
Theorem C80_in_turn : forall stats label pk now image rms sh s left ex p,
  (0 < fst sh)%nat -> (0 < snd sh)%nat -> shape now = shape image ->
  (forall i j, (i < nr image)%nat -> (j < nc image)%nat -> in_stamp sh s (Z.of_nat i) (Z.of_nat j) ->
     px now i j = Some (px image i j)) ->
  cut_stamps stats label pk now rms sh [s] = (left, Ok ex) -> ex_stamps ex = [p] ->
  plane_eq p (normalised (window image rms sh (s_y s, s_x s) 3)).
Proof. exact C80_in_turn_lm. Qed.
Print Assumptions C80_in_turn.

(** When stamps overlap the formula fails: the second stamp is cut from pixels the first one
    changed. *)
Theorem C80_overlap_refuted : forall stats label, exists image rms sh sources left ex k pos p,
  (0 < fst sh)%nat /\ (0 < snd sh)%nat /\ interior image sh sources /\
  cut_stamps stats label (mkpicks false None) (intact image) rms sh sources = (left, Ok ex) /\
  nth_error (ex_pos ex) k = Some pos /\ nth_error (ex_stamps ex) k = Some p /\
  ~ plane_eq p (normalised (window image rms sh pos 3)).
Proof. exact C80_overlap_refuted_lm. Qed.
Print Assumptions C80_overlap_refuted.

(** The stamp of the source of [stripes]: 7 x 7 cells, 1/21 in the three bright rows. *)
Example C80_case : forall i j, (i < 7)%nat -> (j < 7)%nat ->
  px (normalised (window stripes 1 (1, 1)%nat (10, 10) 3)) i j =
  Some (if Nat.odd i then 1 / 21 else 0 / 21).
Proof.
  intros i j Hi Hj. change (window stripes 1 (1, 1)%nat (10, 10) 3) with swin.
  rewrite stripes_stamp by assumption. unfold b2r. now destruct (Nat.odd i).
Qed.

(** The median of the statements about stamps. *)
Theorem C80_median : forall l v, l <> [] -> (v = median l <-> is_median l v).
Proof. exact C80_median_lm. Qed.
Print Assumptions C80_median.

(** Multiplying the image by a positive number and adding a constant does not change the
    stamps of sources whose windows are inside the image and do not overlap, whatever the noise
    level. *)
Theorem C81_scale_and_level : forall stats label pk image rms rms' a c sh sources left left' ex ex',
  (0 < fst sh)%nat -> (0 < snd sh)%nat -> 0 < a -> private_pick pk = false ->
  interior image sh sources -> apart sh sources ->
  cut_stamps stats label pk (intact image) rms sh sources = (left, Ok ex) ->
  cut_stamps stats label pk (intact (pmap (fun x => a * x + c) image)) rms' sh sources = (left', Ok ex') ->
  ex_pos ex' = ex_pos ex /\ Forall2 plane_eq (ex_stamps ex') (ex_stamps ex).
Proof. exact C81_scale_and_level_lm. Qed.
Print Assumptions C81_scale_and_level.

(** And a constant added to the image changes such a stamp. *)
Theorem C81_overlap_refuted : forall stats label, exists image rms sh sources c left left' ex ex',
  (0 < fst sh)%nat /\ (0 < snd sh)%nat /\ interior image sh sources /\
  cut_stamps stats label (mkpicks false None) (intact image) rms sh sources = (left, Ok ex) /\
  cut_stamps stats label (mkpicks false None) (intact (pmap (fun x => 1 * x + c) image)) rms sh sources = (left', Ok ex') /\
  ~ Forall2 plane_eq (ex_stamps ex') (ex_stamps ex).
Proof. exact C81_overlap_refuted_lm. Qed.
Print Assumptions C81_overlap_refuted.

Example C81_case : interior stripes (1, 1)%nat [mid; side] /\ apart (1, 1)%nat [mid; side].
Proof.
  split; [|exact pair_apart].
  intros s [<-|[<-|[]]]; cbn [mid side s_x s_y fst snd]; rewrite ?start_mid, ?start_side; cbn; lia.
Qed.
