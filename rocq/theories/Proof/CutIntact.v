(** One source of an image that was not cut yet. *)
From Coq Require Import ZArith List Bool Arith Reals Lia Lra FunctionalExtensionality Sorting.Sorted.
From Flocq Require Import Core.Raux.
From Verif.Model Require Import Py Plane Sources FindS Stamps Interp Cut.
From Verif.Spec Require Import FindS Stamps Cut.
From Verif.Proof Require Import FindSMain SourcesMain Stamps StampsLoop StampsMain Cut.
Import ListNotations.
Local Open Scope R_scope.

Lemma any_nan_false {p : plane (option R)} :
  (forall i j, (i < nr p)%nat -> (j < nc p)%nat -> px p i j <> None) -> any_nan p = false.
Proof.
  intros H. apply not_true_is_false. unfold any_nan. intros X. apply existsb_exists in X. destruct X as (i & I & X).
  apply existsb_exists in X. destruct X as (j & J & X). apply in_seq in I, J.
  specialize (H i j ltac:(lia) ltac:(lia)). destruct (px p i j); [discriminate|contradiction].
Qed.

Lemma any_nan_true {p : plane (option R)} i j : (i < nr p)%nat -> (j < nc p)%nat -> px p i j = None -> any_nan p = true.
Proof.
  intros Hi Hj E. unfold any_nan. apply existsb_exists. exists i. split; [apply in_seq; lia|].
  apply existsb_exists. exists j. split; [apply in_seq; lia|]. now rewrite E.
Qed.

Lemma whole_some (q : plane R) : whole (pmap Some q) = Some q.
Proof.
  unfold whole. rewrite any_nan_false by (intros; cbn; discriminate). destruct q. reflexivity.
Qed.

Lemma plane_eq_refl {A} (p : plane A) : plane_eq p p.
Proof. split; auto. Qed.

Lemma tidy_eq (p : plane R) : plane_eq (tidy p) p.
Proof.
  split; [reflexivity|]. intros i j Hi Hj. cbn [tidy nr nc px] in *. apply Nat.ltb_lt in Hi, Hj. now rewrite Hi, Hj.
Qed.

Lemma tidy_ext (p q : plane R) : plane_eq p q -> tidy p = tidy q.
Proof.
  intros [S E]. unfold shape in S. injection S as Sr Sc. unfold tidy. rewrite <- Sr, <- Sc. f_equal.
  extensionality i. extensionality j. destruct (_ && _) eqn:B; [|reflexivity].
  rewrite andb_true_iff, !Nat.ltb_lt in B. apply E; tauto.
Qed.

Lemma flat_ext p q v : plane_eq p q -> flat_border p v -> flat_border q v.
Proof.
  intros [S E] F. unfold shape in S. injection S as Sr Sc. intros i j Hi Hj B.
  rewrite <- E by congruence. apply F; rewrite ?Sr, ?Sc; auto.
Qed.

Lemma normalised_ext w w' : plane_eq w' w -> plane_eq (normalised w') (normalised w).
Proof.
  intros E. apply (normalised_affine 1 0); [lra|]. eapply plane_eq_trans; [exact E|].
  split; [reflexivity|]. intros i j _ _. cbn [px pmap]. ring.
Qed.

Section Intact.
Variables (stats : plane R -> R * R * R) (label : plane bool -> plane nat * nat).
Variables (pk : picks) (image : plane R) (rms : R) (sh : nat * nat).
Hypothesis Hr : (0 < fst sh)%nat.
Hypothesis Hc : (0 < snd sh)%nat.
Variable s : src.
Let pos := (s_y s, s_x s).
Let w := window image rms sh pos.
Let T := 35 / 10 * rms.

(** The window as [view] gives it, as numbers. *)
Definition twin (im : plane R) rms sh pos k : plane R := numb (owin (intact im) rms sh pos k).
Let t := twin image rms sh pos.

Lemma owin_intact k : owin (intact image) rms sh pos k = pmap Some (t k).
Proof.
  unfold t, twin, numb, pmap, owin. cbn [nr nc px]. f_equal. extensionality i. extensionality j.
  destruct (_ && _); [|reflexivity]. unfold oframe. destruct (_ && _); reflexivity.
Qed.

Lemma twin_window k : plane_eq (t k) (w k).
Proof.
  split; [reflexivity|]. intros i j Hi Hj. cbn [t twin numb pmap owin nr nc px window w] in *.
  apply Nat.ltb_lt in Hi, Hj. rewrite Hi, Hj. cbn [andb].
  unfold oframe, frame, in_axis. cbn [intact pmap nr nc px]. destruct (_ && _ && _); reflexivity.
Qed.

Lemma window_nan k : any_nan (owin (intact image) rms sh pos k) = false.
Proof. rewrite owin_intact. apply any_nan_false. intros; cbn; discriminate. Qed.

Lemma check_intact k : check_margin_nan rms (owin (intact image) rms sh pos k) = check_margin rms (t k).
Proof.
  rewrite owin_intact. unfold check_margin_nan. cbn [px pmap nr nc].
  match goal with |- (if existsb is_nan ?l then _ else _) = _ => assert (N : existsb is_nan l = false) end.
  { apply not_true_is_false. intros X. apply existsb_exists in X. destruct X as (x & I & X).
    rewrite !in_app_iff, !in_map_iff in I.
    destruct I as [I|[I|[I|I]]]; destruct I as (a & <- & _); discriminate. }
  rewrite N. reflexivity.
Qed.

Lemma check_flat k : check_margin_nan rms (owin (intact image) rms sh pos k) = false <-> flat_border (w k) T.
Proof.
  rewrite check_intact, check_margin_flat by (unfold t; cbn; lia). split; apply flat_ext.
  - apply twin_window.
  - apply plane_eq_sym, twin_window.
Qed.

(** The window minus its level. *)
Definition tlev (im : plane R) rms sh pos : option (plane R) := option_map tidy (subtract_level (twin im rms sh pos 3)).
Definition tstamp (im : plane R) rms sh pos : plane (option R) :=
  match tlev im rms sh pos with Some q => unit_sum q | None => pmap (fun _ => None) (twin im rms sh pos 3) end.

Lemma levelled_intact k : levelled (owin (intact image) rms sh pos k) =
  match subtract_level (t k) with Some q => pmap Some (tidy q) | None => pmap (fun _ => None) (t k) end.
Proof.
  rewrite owin_intact. unfold levelled. rewrite whole_some. destruct (subtract_level (t k)); reflexivity.
Qed.

Lemma judge_intact : judge stats label pk (levelled (owin (intact image) rms sh pos 3)) =
  if private_pick pk
  then bind (strict stats label (tlev image rms sh pos))
         (fun ok => Ok (if ok : bool then Some (tstamp image rms sh pos) else None))
  else Ok (Some (tstamp image rms sh pos)).
Proof.
  rewrite levelled_intact. unfold judge, tstamp, tlev. fold t. destruct (subtract_level (t 3%nat)) as [q|].
  - now rewrite whole_some.
  - unfold whole. rewrite (any_nan_true 0 0) by (unfold t; cbn; lia || reflexivity). reflexivity.
Qed.

Lemma overlaps_intact : overlaps (numb (intact image)) sh pos <-> overlaps image sh pos.
Proof. unfold overlaps. reflexivity. Qed.

Lemma cut_no_overlap : ~ overlaps image sh pos ->
  cut_one stats label pk (intact image) rms sh s = (intact image, Raise NoOverlapError).
Proof. intros N. apply cut_one_none. exact N. Qed.

Lemma cut_flat : overlaps image sh pos -> flat_border (w 0%nat) T \/ flat_border (w 1%nat) T ->
  snd (cut_one stats label pk (intact image) rms sh s) = Raise TypeError.
Proof.
  intros O F. rewrite cut_one_some by assumption. fold pos. rewrite window_nan. cbn zeta. cbn [snd].
  destruct (Nat.eqb _ 3) eqn:K; [|reflexivity]. exfalso. apply Nat.eqb_eq in K. unfold steps in K.
  rewrite <- !check_flat in F. destruct (check_margin_nan rms (owin (intact image) rms sh pos 0)); [|discriminate].
  destruct (check_margin_nan rms (owin (intact image) rms sh pos 1)); [|discriminate]. destruct F; discriminate.
Qed.

Lemma steps_normal : ~ flat_border (w 0%nat) T -> ~ flat_border (w 1%nat) T -> steps (intact image) rms sh pos = 3%nat.
Proof.
  intros F0 F1. rewrite <- check_flat in F0, F1. unfold steps.
  destruct (check_margin_nan rms (owin (intact image) rms sh pos 0)); [|congruence].
  destruct (check_margin_nan rms (owin (intact image) rms sh pos 1)); [|congruence]. reflexivity.
Qed.

Lemma cut_normal : overlaps image sh pos -> ~ flat_border (w 0%nat) T -> ~ flat_border (w 1%nat) T ->
  cut_one stats label pk (intact image) rms sh s =
  (write (intact image) pos (levelled (owin (intact image) rms sh pos 3)),
   if private_pick pk
   then bind (strict stats label (tlev image rms sh pos))
          (fun ok => Ok (if ok : bool then Some (tstamp image rms sh pos) else None))
   else Ok (Some (tstamp image rms sh pos))).
Proof.
  intros O F0 F1. rewrite cut_one_some by assumption. fold pos. rewrite window_nan. cbn zeta.
  rewrite (steps_normal F0 F1). cbn [Nat.eqb]. now rewrite judge_intact.
Qed.

Lemma cut_cases :
  snd (cut_one stats label pk (intact image) rms sh s) = Raise NoOverlapError \/
  snd (cut_one stats label pk (intact image) rms sh s) = Raise TypeError \/
  (overlaps image sh pos /\ ~ flat_border (w 0%nat) T /\ ~ flat_border (w 1%nat) T).
Proof.
  assert (overlaps image sh pos \/ ~ overlaps image sh pos) as [O|N] by (unfold overlaps; lia);
    [|left; now rewrite cut_no_overlap].
  destruct (flat_dec (w 0%nat) T) as [F|N0]; try (cbn; lia); [right; left; apply cut_flat; auto|].
  destruct (flat_dec (w 1%nat) T) as [F|N1]; try (cbn; lia); [right; left; apply cut_flat; auto|].
  right; right. auto.
Qed.

Lemma cut_one_ok v : snd (cut_one stats label pk (intact image) rms sh s) = Ok v ->
  overlaps image sh pos /\ ~ flat_border (w 0%nat) T /\ ~ flat_border (w 1%nat) T /\
  (v = Some (tstamp image rms sh pos) \/ v = None).
Proof.
  intros H. destruct cut_cases as [E|[E|(O & F0 & F1)]]; [congruence|congruence|].
  repeat (split; [assumption|]). rewrite cut_normal in H by assumption. cbn [snd] in H.
  destruct (private_pick pk); [|injection H as <-; now left].
  destruct (strict _ _ _) as [[]|]; cbn in H; [injection H as <-; now left| |discriminate].
  injection H as <-. now right.
Qed.

(** The level of the window. *)
Lemma subtract_twin :
  (has_level image rms sh s -> exists q, subtract_level (t 3%nat) = Some q /\
     plane_eq q (pmap (fun x => x - level_of image rms sh s) (w 3%nat))) /\
  (~ has_level image rms sh s -> subtract_level (t 3%nat) = None).
Proof.
  pose proof (subtract_level_spec (t 3%nat)) as H. rewrite (values_ext _ _ (twin_window 3)) in H.
  unfold has_level, level_of, stamp_window. fold pos. change (window image rms sh pos 3) with (w 3%nat).
  destruct (faint (values (w 3%nat))) as [|y l] eqn:F.
  - split; [congruence|auto].
  - split; [intros _|intros N; exfalso; apply N; discriminate]. destruct H as (q & E & P). exists q. split; [exact E|].
    eapply plane_eq_trans; [exact P|]. destruct (twin_window 3) as [S X]. split; [exact S|].
    intros i j Hi Hj. cbn [px pmap nr nc] in *. now rewrite X.
Qed.

Lemma tlev_level :
  (has_level image rms sh s -> exists q, tlev image rms sh pos = Some (tidy q) /\
     plane_eq q (pmap (fun x => x - level_of image rms sh s) (w 3%nat))) /\
  (~ has_level image rms sh s -> tlev image rms sh pos = None).
Proof.
  destruct subtract_twin as [Y N]. unfold tlev. fold t. split; intros H.
  - destruct (Y H) as (q & -> & P). exists q. now split.
  - now rewrite (N H).
Qed.

Lemma tstamp_normalised : plane_eq (tstamp image rms sh pos) (normalised (w 3%nat)).
Proof.
  apply plane_eq_trans with (normalised (t 3%nat)); [|apply normalised_ext, twin_window].
  apply plane_eq_trans with (stamp_of (t 3%nat)); [|apply stamp_of_normalised].
  unfold tstamp, stamp_of, tlev. fold t. destruct (subtract_level (t 3%nat)) as [q|]; cbn [option_map]; [|apply plane_eq_refl].
  destruct (tidy_eq q) as [S E]. split; [exact S|]. intros i j Hi Hj. unfold unit_sum. cbn [px pmap].
  rewrite (values_ext _ _ (tidy_eq q)). rewrite E; [reflexivity|exact Hi|exact Hj].
Qed.

Lemma tlev_dims q : tlev image rms sh pos = Some q -> nr q = (fst sh + 6)%nat /\ nc q = (snd sh + 6)%nat.
Proof.
  unfold tlev. unfold subtract_level. destruct (filter _ _); [discriminate|]. cbn [option_map]. intros [= <-].
  cbn. split; lia.
Qed.

(** What the image is afterwards. *)
Lemma cut_writes : overlaps image sh pos -> ~ flat_border (w 0%nat) T -> ~ flat_border (w 1%nat) T ->
  forall i j, (i < nr image)%nat -> (j < nc image)%nat ->
  in_stamp sh s (Z.of_nat i) (Z.of_nat j) ->
  let x := px (fst (cut_one stats label pk (intact image) rms sh s)) i j in
  (inner image sh s -> (has_level image rms sh s -> x = Some (px image i j - level_of image rms sh s)) /\
                       (~ has_level image rms sh s -> x = None)) /\
  (~ inner image sh s -> x = Some (px image i j)).
Proof.
  intros O F0 F1 i j Hi Hj I. rewrite cut_normal by assumption. cbn [fst]. cbn zeta.
  unfold write. destruct (levelled_shape (owin (intact image) rms sh pos 3)) as [Sr Sc].
  pose proof (levelled_intact 3) as LI. set (lev := levelled _) in *.
  change (nr (owin (intact image) rms sh pos 3)) with (fst sh + 6)%nat in Sr.
  change (nc (owin (intact image) rms sh pos 3)) with (snd sh + 6)%nat in Sc.
  unfold shape. rewrite Sr, Sc.
  assert (Fi : forall p side, first_index p (side + 6) = (start p side - 3)%Z).
  { intros p side. change 6%nat with (2 * 3)%nat. rewrite first_index_grow. reflexivity. }
  assert (SI : shares (intact image) (fst sh + 6, snd sh + 6)%nat pos = true <-> inner image sh s).
  { unfold shares, inner, interior. cbn [nr nc fst snd intact pmap pos].
    rewrite !Fi, !andb_true_iff, !Z.leb_le. split.
    - intros H x [<-|[]]. lia.
    - intros H. specialize (H s (or_introl eq_refl)). lia. }
  destruct (shares _ _ _) eqn:Sh.
  - assert (In1 : inner image sh s) by (apply SI; reflexivity). split; [intros _|tauto].
    assert (In2 := In1 s (or_introl eq_refl)). unfold in_stamp in I.
    cbn [px pos fst snd]. rewrite !Fi.
    match goal with |- context[if ?b then _ else _] => replace b with true; [|symmetry] end.
    2:{ rewrite !andb_true_iff, !Nat.leb_le, !Nat.ltb_lt. lia. }
    rewrite LI. destruct subtract_twin as [Y N].
    split.
    + intros Hl. destruct (Y Hl) as (q & E & P). rewrite E. cbn [px pmap]. f_equal.
      apply (plane_eq_trans _ _ _ (tidy_eq q)) in P. destruct P as [PS PE]. rewrite PE.
      * cbn [px pmap w window pos fst snd]. unfold frame.
        match goal with |- (if ?b then _ else _) - _ = _ => replace b with true; [|symmetry] end.
        { f_equal. f_equal; lia. }
        rewrite !andb_true_iff, !Z.leb_le, !Z.ltb_lt. lia.
      * unfold shape in PS. injection PS as PS _. cbn [nr tidy]. rewrite PS. cbn [nr w window pmap]. lia.
      * unfold shape in PS. injection PS as _ PS. cbn [nc tidy]. rewrite PS. cbn [nc w window pmap]. lia.
    + intros Hl. rewrite (N Hl). reflexivity.
  - split; [intros X; apply SI in X; discriminate|]. reflexivity.
Qed.
End Intact.
