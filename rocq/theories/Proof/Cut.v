(** Facts about cutting stamps out of the interpolated image in place. *)
From Coq Require Import ZArith List Bool Arith Reals Lia Lra FunctionalExtensionality Sorting.Sorted.
From Flocq Require Import Core.Raux.
From Verif.Model Require Import Py Plane Sources FindS Stamps Interp Cut.
From Verif.Spec Require Import FindS Stamps Cut.
From Verif.Proof Require Import FindSMain SourcesMain Stamps StampsLoop StampsMain.
Import ListNotations.
Local Open Scope R_scope.

Definition num (x : option R) : R := match x with Some x => x | None => 0 end.
Definition numb (im : plane (option R)) : plane R := pmap num im.

(** The image continued by a constant, and the windows [view] gives. *)
Definition oframe (im : plane (option R)) (fill : R) (r c : Z) : option R :=
  if in_axis (nr im) r && in_axis (nc im) c then px im (Z.to_nat r) (Z.to_nat c) else Some fill.

Definition owin (im : plane (option R)) (fill : R) (sh : nat * nat) (pos : R * R) (k : nat) : plane (option R) :=
  mkplane (fst sh + 2 * k) (snd sh + 2 * k) (fun i j =>
    if (i <? fst sh + 2 * k)%nat && (j <? snd sh + 2 * k)%nat then
      oframe im fill (start (fst pos) (fst sh) - Z.of_nat k + Z.of_nat i)
                     (start (snd pos) (snd sh) - Z.of_nat k + Z.of_nat j)
    else Some 0).

Lemma view_window im fill sh pos k : overlaps (numb im) sh pos ->
  view im fill (fst sh + 2 * k, snd sh + 2 * k)%nat pos = Ok (owin im fill sh pos k).
Proof.
  intros (A & B & C & D). cbn [numb pmap nr nc] in *.
  assert (N1 : no_overlap (nr im) (fst sh) (fst pos) = false) by (apply no_overlap_iff; auto).
  assert (N2 : no_overlap (nc im) (snd sh) (snd pos) = false) by (apply no_overlap_iff; auto).
  unfold view. cbn [fst snd].
  rewrite (no_overlap_grow _ _ _ k N1), (no_overlap_grow _ _ _ k N2). cbn [orb].
  rewrite !first_index_grow. reflexivity.
Qed.

Lemma view_window0 im fill sh pos : overlaps (numb im) sh pos -> view im fill sh pos = Ok (owin im fill sh pos 0).
Proof.
  intros H. rewrite <- (view_window im fill sh pos 0 H). f_equal. destruct sh. cbn [fst snd]. f_equal; lia.
Qed.

Lemma view_none im fill sh pos : ~ overlaps (numb im) sh pos -> view im fill sh pos = Raise NoOverlapError.
Proof.
  intros H. unfold view.
  destruct (no_overlap (nr im) (fst sh) (fst pos)) eqn:N1; [reflexivity|].
  destruct (no_overlap (nc im) (snd sh) (snd pos)) eqn:N2; [reflexivity|].
  apply no_overlap_iff in N1, N2. exfalso. apply H. unfold overlaps. cbn [numb pmap nr nc]. tauto.
Qed.

(** How many times the window grows. *)
Definition steps (im : plane (option R)) rms sh pos : nat :=
  if check_margin_nan rms (owin im rms sh pos 0)
  then if check_margin_nan rms (owin im rms sh pos 1) then 3 else 2 else 1.

Lemma grow_view_result im rms sh pos : (0 < fst sh)%nat -> (0 < snd sh)%nat -> overlaps (numb im) sh pos ->
  grow_view 4 im rms sh pos sh (owin im rms sh pos 0) = Some (Ok (owin im rms sh pos (steps im rms sh pos))).
Proof.
  intros Hr Hc O. set (w := owin im rms sh pos).
  assert (Ne : forall k, Nat.eqb (nr (w k)) 0 || Nat.eqb (nc (w k)) 0 = false).
  { intros k. apply orb_false_iff. rewrite !Nat.eqb_neq. cbn. lia. }
  assert (Ex : forall k, view im rms
     (fst (fst sh + 2 * k, snd sh + 2 * k) + 2, snd (fst sh + 2 * k, snd sh + 2 * k) + 2)%nat pos = Ok (w (S k))).
  { intros k. cbn [fst snd]. unfold w. rewrite <- (view_window im rms sh pos (S k) O). f_equal. f_equal; lia. }
  assert (Step : forall fuel k, grow_view (S fuel) im rms sh pos (fst sh + 2 * k, snd sh + 2 * k)%nat (w k) =
     if (if Nat.leb 3 (S k) then false else check_margin_nan rms (w k))
     then grow_view fuel im rms sh pos (fst sh + 2 * S k, snd sh + 2 * S k)%nat (w (S k)) else Some (Ok (w (S k)))).
  { intros fuel k. cbn [grow_view]. rewrite (Ne k), (Ex k). cbn [fst snd].
    replace (Nat.leb 6 (fst sh + 2 * k + 2 - fst sh)) with (Nat.leb 3 (S k)).
    - replace (fst sh + 2 * k + 2)%nat with (fst sh + 2 * S k)%nat by lia.
      now replace (snd sh + 2 * k + 2)%nat with (snd sh + 2 * S k)%nat by lia.
    - destruct (Nat.leb 3 (S k)) eqn:E; symmetry; [apply Nat.leb_le in E; apply Nat.leb_le; lia|].
      apply Nat.leb_gt in E. apply Nat.leb_gt. lia. }
  assert (E0 : grow_view 4 im rms sh pos sh (w 0%nat) =
    grow_view 4 im rms sh pos (fst sh + 2 * 0, snd sh + 2 * 0)%nat (w 0%nat)).
  { f_equal. destruct sh. cbn [fst snd]. f_equal; lia. }
  unfold steps. fold w. rewrite E0, Step. cbn [Nat.leb].
  destruct (check_margin_nan rms (w 0%nat)); [|reflexivity].
  rewrite Step. cbn [Nat.leb]. destruct (check_margin_nan rms (w 1%nat)); [|reflexivity].
  rewrite Step. reflexivity.
Qed.

Section One.
Variables (stats : plane R -> R * R * R) (label : plane bool -> plane nat * nat).
Variables (pk : picks) (rms : R) (sh : nat * nat).
Hypothesis Hr : (0 < fst sh)%nat.
Hypothesis Hc : (0 < snd sh)%nat.

Lemma cut_one_none im s : ~ overlaps (numb im) sh (s_y s, s_x s) ->
  cut_one stats label pk im rms sh s = (im, Raise NoOverlapError).
Proof. intros N. unfold cut_one. now rewrite view_none. Qed.

Lemma cut_one_some im s : overlaps (numb im) sh (s_y s, s_x s) ->
  cut_one stats label pk im rms sh s =
  if any_nan (owin im rms sh (s_y s, s_x s) 0) then (im, Ok None)
  else
    let k := steps im rms sh (s_y s, s_x s) in
    let lev := levelled (owin im rms sh (s_y s, s_x s) k) in
    (write im (s_y s, s_x s) lev, if Nat.eqb k 3 then judge stats label pk lev else Raise TypeError).
Proof.
  intros O. unfold cut_one. rewrite view_window0 by exact O.
  destruct (any_nan _); [reflexivity|]. rewrite grow_view_result by assumption.
  cbn zeta. f_equal. cbn [owin nr nc].
  assert (K : (steps im rms sh (s_y s, s_x s) = 1 \/ steps im rms sh (s_y s, s_x s) = 2 \/ steps im rms sh (s_y s, s_x s) = 3)%nat).
  { unfold steps. destruct (check_margin_nan _ _); [destruct (check_margin_nan _ _)|]; auto. }
  destruct K as [K|[K|K]]; rewrite K; unfold STAMP_PADSIZE; cbn [Nat.eqb].
  - destruct (_ =? 0)%Z eqn:Q; [apply Z.eqb_eq in Q; exfalso; lia|reflexivity].
  - destruct (_ =? 0)%Z eqn:Q; [apply Z.eqb_eq in Q; exfalso; lia|reflexivity].
  - replace (Z.of_nat (fst sh) - Z.of_nat (fst sh + 2 * 3) + Z.of_nat 6)%Z with 0%Z by lia.
    now replace (Z.of_nat (snd sh) - Z.of_nat (snd sh + 2 * 3) + Z.of_nat 6)%Z with 0%Z by lia.
Qed.

Lemma steps_cases im pos : (1 <= steps im rms sh pos <= 3)%nat.
Proof. unfold steps. destruct (check_margin_nan _ _); [destruct (check_margin_nan _ _)|]; lia. Qed.

Lemma levelled_shape w : nr (levelled w) = nr w /\ nc (levelled w) = nc w.
Proof.
  unfold levelled, whole. destruct (any_nan w); [cbn; auto|].
  unfold subtract_level. destruct (filter _ _); cbn; auto.
Qed.

(** Where it writes. *)
Lemma write_dims im pos w : nr (write im pos w) = nr im /\ nc (write im pos w) = nc im.
Proof. unfold write. destruct (shares _ _ _); cbn; auto. Qed.

Lemma write_out im s k i j : (k <= 3)%nat ->
  ~ in_stamp sh s (Z.of_nat i) (Z.of_nat j) ->
  px (write im (s_y s, s_x s) (levelled (owin im rms sh (s_y s, s_x s) k))) i j = px im i j.
Proof.
  intros Hk N. unfold write. destruct (levelled_shape (owin im rms sh (s_y s, s_x s) k)) as [Sr Sc].
  unfold shape. rewrite Sr, Sc. destruct (shares im _ _) eqn:Sh; [|reflexivity]. cbn [px].
  destruct (_ && _) eqn:B; [|reflexivity]. exfalso. apply N.
  unfold shares in Sh. cbn [fst snd owin nr nc] in Sh, B. rewrite !first_index_grow in Sh, B.
  rewrite !andb_true_iff, !Z.leb_le in Sh. rewrite !andb_true_iff, !Nat.leb_le, !Nat.ltb_lt in B.
  unfold in_stamp. change (start (s_y s) (fst sh)) with (first_index (s_y s) (fst sh)).
  change (start (s_x s) (snd sh)) with (first_index (s_x s) (snd sh)). lia.
Qed.

Lemma cut_dims im s : nr (fst (cut_one stats label pk im rms sh s)) = nr im /\
  nc (fst (cut_one stats label pk im rms sh s)) = nc im.
Proof.
  assert (overlaps (numb im) sh (s_y s, s_x s) \/ ~ overlaps (numb im) sh (s_y s, s_x s)) as [O|N] by (unfold overlaps; lia).
  - rewrite cut_one_some by exact O. destruct (any_nan _); [cbn; auto|]. cbn zeta. cbn [fst]. apply write_dims.
  - rewrite cut_one_none by exact N. cbn; auto.
Qed.

Lemma cut_out im s i j : ~ in_stamp sh s (Z.of_nat i) (Z.of_nat j) ->
  px (fst (cut_one stats label pk im rms sh s)) i j = px im i j.
Proof.
  intros N.
  assert (overlaps (numb im) sh (s_y s, s_x s) \/ ~ overlaps (numb im) sh (s_y s, s_x s)) as [O|O] by (unfold overlaps; lia).
  - rewrite cut_one_some by exact O. destruct (any_nan _); [reflexivity|]. cbn zeta. cbn [fst].
    apply write_out; [|exact N]. pose proof (steps_cases im (s_y s, s_x s)). lia.
  - rewrite cut_one_none by exact O. reflexivity.
Qed.

(** Two images that agree on the stamp of a source. *)
Definition agree (s : src) (a b : plane (option R)) : Prop :=
  nr a = nr b /\ nc a = nc b /\
  forall i j, (i < nr a)%nat -> (j < nc a)%nat -> in_stamp sh s (Z.of_nat i) (Z.of_nat j) -> px a i j = px b i j.

Lemma owin_agree s a b k : (k <= 3)%nat -> agree s a b ->
  owin a rms sh (s_y s, s_x s) k = owin b rms sh (s_y s, s_x s) k.
Proof.
  intros Hk (Ea & Eb & H). unfold owin. f_equal. extensionality i. extensionality j.
  destruct (_ && _) eqn:B; [|reflexivity]. rewrite !andb_true_iff, !Nat.ltb_lt in B.
  unfold oframe. rewrite <- Ea, <- Eb. cbn [fst snd].
  destruct (in_axis (nr a) _ && in_axis (nc a) _) eqn:X; [|reflexivity].
  unfold in_axis in X. rewrite !andb_true_iff, !Z.leb_le, !Z.ltb_lt in X.
  apply H; [lia|lia|]. unfold in_stamp. rewrite !Z2Nat.id by lia. lia.
Qed.

Lemma overlaps_agree s a b : agree s a b -> (overlaps (numb a) sh (s_y s, s_x s) <-> overlaps (numb b) sh (s_y s, s_x s)).
Proof. intros (Ea & Eb & _). unfold overlaps. cbn [numb pmap nr nc]. rewrite Ea, Eb. tauto. Qed.

Lemma steps_agree s a b : agree s a b -> steps a rms sh (s_y s, s_x s) = steps b rms sh (s_y s, s_x s).
Proof. intros A. unfold steps. now rewrite !(owin_agree s a b) by (lia || exact A). Qed.

Lemma write_in s im k i j : (k <= 3)%nat -> (i < nr im)%nat -> (j < nc im)%nat ->
  forall a, nr a = nr im -> nc a = nc im ->
  in_stamp sh s (Z.of_nat i) (Z.of_nat j) ->
  (px im i j = px a i j) ->
  forall w, px (write im (s_y s, s_x s) w) i j = px (write a (s_y s, s_x s) w) i j.
Proof.
  intros Hk Hi Hj a Er Ec _ E w. unfold write, shares. rewrite Er, Ec.
  destruct (_ && _ && _); [|exact E]. cbn [px]. destruct (_ && _ && _); [reflexivity|exact E].
Qed.

Lemma cut_agree s a b : agree s a b ->
  snd (cut_one stats label pk a rms sh s) = snd (cut_one stats label pk b rms sh s) /\
  agree s (fst (cut_one stats label pk a rms sh s)) (fst (cut_one stats label pk b rms sh s)).
Proof.
  intros A. pose proof (overlaps_agree s a b A) as Ov.
  assert (overlaps (numb a) sh (s_y s, s_x s) \/ ~ overlaps (numb a) sh (s_y s, s_x s)) as [O|O] by (unfold overlaps; lia).
  - rewrite !cut_one_some by tauto. rewrite (owin_agree s a b 0) by (lia || exact A).
    destruct (any_nan _); [cbn; auto|]. cbn zeta. rewrite (steps_agree s a b A).
    set (k := steps b rms sh (s_y s, s_x s)). assert (Hk : (k <= 3)%nat) by (unfold k; apply steps_cases).
    rewrite (owin_agree s a b k Hk A). split; [reflexivity|]. cbn [fst].
    destruct A as (Ea & Eb & H). set (w := levelled _).
    destruct (write_dims a (s_y s, s_x s) w) as [Xa Ya]. destruct (write_dims b (s_y s, s_x s) w) as [Xb Yb].
    split; [congruence|]. split; [congruence|]. intros i j Hi Hj I. rewrite Xa in Hi. rewrite Ya in Hj.
    apply (write_in s a k i j); auto.
  - rewrite !cut_one_none by tauto. split; [reflexivity|exact A].
Qed.
End One.
