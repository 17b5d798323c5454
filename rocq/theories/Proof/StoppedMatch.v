(** Matching again gives every image the same catalogue in the same order. *)
From Coq Require Import ZArith List Bool Arith Reals Lia Lra Permutation FinFun.
From Verif.Model Require Import Py Transparency.
From Verif.Spec Require Import Transparency Again Stopped.
From Verif.Proof Require Import Transparency TransparencyFresh TransparencyMain TransparencyAgain.
Import ListNotations.
Set Bullet Behavior "Strict Subproofs".

Section Match.
Variable query : list pt -> list pt -> R -> list (option nat).
Hypothesis N : nearest query.

Lemma id_or_none mc b j z : nth_error (ids_for query mc b) j = Some z ->
  z = (-13133)%Z \/ exists i, nth_error (map r_id (rows mc)) i = Some z.
Proof.
  unfold ids_for, matching. cbn [fst]. rewrite nth_error_map. destruct (nth_error (seq _ _) j) as [j0|]; [|discriminate]. cbn [option_map].
  intros X. injection X as <-. unfold match_one. destruct (nth j0 _ None) as [i|]; [|now left]. destruct (nth i _ None) as [k|]; [|now left].
  destruct (k =? j0); [|now left]. destruct (nth_error (map r_id (rows mc)) i) as [z|] eqn:E.
  - right. exists i. now rewrite E, (nth_error_nth _ _ _ E).
  - left. apply nth_overflow. now apply nth_error_None.
Qed.

(** The identifier of a source does not depend on the order of its catalogue. *)
Lemma id_same mc mc' b b' j j' r r' : ids_fine mc -> map place (rows mc') = map place (rows mc) -> map r_id (rows mc') = map r_id (rows mc) ->
  same_sources b b' -> clear_match mc b -> nth_error (rows b) j = Some r -> nth_error (rows b') j' = Some r' -> xy r' = xy r ->
  nth j' (ids_for query mc' b') 0%Z = nth j (ids_for query mc b) 0%Z.
Proof.
  intros F Ep Ei P Cl Er Er' Ex.
  assert (F' : ids_fine mc') by (unfold ids_fine; now rewrite Ei).
  pose proof (clear_same mc mc' b b' Ep P Cl) as Cl'. destruct Cl as [T1 T2]. destruct Cl' as [T1' T2'].
  assert (Hj : j < length (rows b)) by (apply nth_error_Some; congruence).
  assert (Hj' : j' < length (rows b')) by (apply nth_error_Some; congruence).
  pose proof (List.nth_error_nth' (ids_for query mc b) 0%Z (n := j)) as A. rewrite ids_length in A. specialize (A Hj).
  pose proof (List.nth_error_nth' (ids_for query mc' b') 0%Z (n := j')) as A'. rewrite ids_length in A'. specialize (A' Hj').
  set (z := nth j (ids_for query mc b) 0%Z) in *. set (z' := nth j' (ids_for query mc' b') 0%Z) in *.
  assert (Eb : nth_error (map xy (rows b)) j = Some (xy r)) by now rewrite nth_error_map, Er.
  assert (Eb' : nth_error (map xy (rows b')) j' = Some (xy r)) by now rewrite nth_error_map, Er', <- Ex.
  pose proof (place_xy _ _ Ep) as Exy. pose proof (place_xy_perm _ _ P) as Pxy.
  destruct (id_or_none mc b j z A) as [Z|(i & Ez)].
  - destruct (id_or_none mc' b' j' z' A') as [Z'|(i & Ez')]; [congruence|].
    apply (ids_iff query N mc' b' i j' z' F' Ez') in A'.
    rewrite Exy in A', T1', T2'. rewrite Ei in Ez'.
    assert (M : mutual query (map xy (rows mc)) (map xy (rows b)) 2 i j).
    { apply (mutual_perm query query N N (map xy (rows mc)) (map xy (rows b')) (map xy (rows b)) 2 i j' j (xy r)); auto. now apply Permutation_sym. }
    apply (ids_iff query N mc b i j z' F Ez') in M. congruence.
  - apply (ids_iff query N mc b i j z F Ez) in A.
    assert (M : mutual query (map xy (rows mc')) (map xy (rows b')) 2 i j').
    { rewrite Exy. apply (mutual_perm query query N N (map xy (rows mc)) (map xy (rows b)) (map xy (rows b')) 2 i j j' (xy r)); auto. }
    rewrite <- Ei in Ez. apply (ids_iff query N mc' b' i j' z F' Ez) in M. congruence.
Qed.

Definition bare (r : row) : R * R * R * bool := (place r, r_det r).

Lemma bare_places b b' : Permutation (map bare (rows b)) (map bare (rows b')) -> same_sources b b'.
Proof.
  intros P. unfold same_sources. apply (Permutation_map fst) in P. rewrite !map_map in P. exact P.
Qed.

Lemma with_id_bare z r r' : bare r = bare r' -> with_id z r = with_id z r'.
Proof. unfold bare, place, with_id. intros X. injection X as -> -> -> ->. reflexivity. Qed.

(** The rows before they are sorted. *)
Lemma rows_same mc mc' b b' : ids_fine mc -> map place (rows mc') = map place (rows mc) -> map r_id (rows mc') = map r_id (rows mc) ->
  Permutation (map bare (rows b)) (map bare (rows b')) -> clear_match mc b ->
  Permutation (set_ids (ids_for query mc b) (rows b)) (set_ids (ids_for query mc' b') (rows b')).
Proof.
  intros F Ep Ei P Cl. pose proof (bare_places _ _ P) as Ps.
  apply Permutation_nth_error in P as (Ln & f & Inj & Hf). rewrite !map_length in Ln.
  apply Permutation_nth_error. split; [rewrite !set_ids_length by apply ids_length; exact Ln|]. exists f. split; [exact Inj|].
  intros j'. specialize (Hf j'). rewrite !nth_error_map in Hf.
  destruct (nth_error (rows b') j') as [r'|] eqn:E'; destruct (nth_error (rows b) (f j')) as [r|] eqn:E; try discriminate.
  - cbn [option_map] in Hf. injection Hf as X. assert (Xb : bare r' = bare r) by (unfold bare, place; congruence). clear X.
    assert (Hj : f j' < length (rows b)) by (apply nth_error_Some; congruence).
    assert (Hj' : j' < length (rows b')) by (apply nth_error_Some; congruence).
    pose proof (set_ids_nth (ids_for query mc b) (rows b) (f j') row0) as A. pose proof (set_ids_nth (ids_for query mc' b') (rows b') j' row0) as A'.
    rewrite A' by (try apply ids_length; exact Hj'). rewrite A by (try apply ids_length; exact Hj).
    rewrite (id_same mc mc' b b' (f j') j' r r' F Ep Ei Ps Cl E E'); [|unfold bare, place in Xb; unfold xy; congruence].
    f_equal. apply with_id_bare. rewrite (nth_error_nth _ _ row0 E), (nth_error_nth _ _ row0 E'). exact Xb.
  - assert (X : length (rows b') <= j') by now apply nth_error_None. assert (Y : length (rows b) <= f j') by now apply nth_error_None.
    transitivity (@None row); [|symmetry]; apply nth_error_None; rewrite set_ids_length by apply ids_length; assumption.
Qed.
End Match.

Section Twice.
Variable query : list pt -> list pt -> R -> list (option nat).
Hypothesis N : nearest query.
Variable sort_cat : list row -> list row.
Hypothesis SP : forall l, Permutation (sort_cat l) l.
Hypothesis SC : canonical sort_cat.
Variable lsqr : nat -> nat -> (nat -> nat -> R) -> list R -> list R.

(** The catalogue of a run, as it was or as the run left it. *)
Definition as_was (b k b' : cat) : Prop := b' = b \/ b' = k.

Lemma newcat_bare mc b : Permutation (map bare (rows b)) (map bare (rows (newcat query sort_cat mc b))).
Proof.
  unfold newcat. cbn [rows]. transitivity (map bare (set_ids (ids_for query mc b) (rows b))).
  - assert (E : map bare (set_ids (ids_for query mc b) (rows b)) = map bare (rows b)).
    { pose proof (ids_length query mc b) as Ln. generalize dependent (ids_for query mc b). induction (rows b) as [|r l IH]; intros [|z ids] Ln; try discriminate; [reflexivity|].
      cbn. f_equal. apply IH. now injection Ln. }
    now rewrite E.
  - apply Permutation_map, Permutation_sym, SP.
Qed.

Lemma newcat_again mc mc' b b' : ids_fine mc -> map place (rows mc') = map place (rows mc) -> map r_id (rows mc') = map r_id (rows mc) ->
  clear_match mc b -> as_was b (newcat query sort_cat mc b) b' ->
  newcat query sort_cat mc' b' = newcat query sort_cat mc b.
Proof.
  intros F Ep Ei Cl Hb. unfold newcat at 1 2. f_equal.
  - now destruct Hb as [->| ->].
  - apply SC. apply Permutation_sym. apply (rows_same query N mc mc' b b' F Ep Ei); [|exact Cl].
    destruct Hb as [->| ->]; [apply Permutation_refl|apply newcat_bare].
Qed.

(** What the first catalogue keeps. *)
Lemma first_ids a bs t : good_ids a -> transparency_of query sort_cat lsqr a bs = Ok t ->
  forall a', as_was a (mcat t) a' ->
  good_ids a' /\ map place (rows a') = map place (rows a) /\
  map place (rows (with_source_ids a')) = map place (rows (with_source_ids a)) /\
  map r_id (rows (with_source_ids a')) = map r_id (rows (with_source_ids a)).
Proof.
  intros G E a' [->| ->]; [auto|]. destruct (run_leaves query sort_cat SP lsqr a bs t G E) as (P & G' & _).
  destruct (fine_ids a G) as (F & E1). destruct (fine_ids (mcat t) G') as (F' & E1').
  split; [exact G'|]. split; [exact P|]. split; [congruence|].
  revert E. rewrite transparency_unfold. cbv zeta. set (mc := with_source_ids a) in *.
  assert (Ld : length (map (detf query mc bs) (rows mc)) = length (rows mc)) by apply map_length.
  destruct (set_dets_place _ _ Ld) as [Pp Pi].
  assert (Hi : has_id mc = true).
  { unfold mc, with_source_ids, append_ids. destruct (has_id a) eqn:X; [exact X|reflexivity]. }
  assert (K : map r_id (rows (with_source_ids (mkcat (has_id mc) true (set_dets (map (detf query mc bs) (rows mc)) (rows mc))))) = map r_id (rows mc)).
  { unfold with_source_ids at 1, append_ids. cbn [has_id rows]. rewrite Hi. cbn [rows]. exact Pi. }
  destruct (_ =? 0).
  - intros X. injection X as <-. cbn [mcat]. destruct (has_id a && has_det a); [exact K|reflexivity].
  - destruct (mapM _ _) as [mm|e]; [|discriminate]. cbn [bind]. intros X. injection X as <-. cbn [mcat]. exact K.
Qed.

Lemma cats_are a bs t : transparency_of query sort_cat lsqr a bs = Ok t -> cats t = map (newcat query sort_cat (with_source_ids a)) bs.
Proof.
  rewrite transparency_unfold. cbv zeta. destruct (_ =? 0).
  - intros X. injection X as <-. reflexivity.
  - destruct (mapM _ _) as [mm|e]; [|discriminate]. cbn [bind]. intros X. injection X as <-. reflexivity.
Qed.

(** Some of the images keep what an earlier run left, some what they had: the zero points and the
    catalogues are the same again. *)
Lemma matching_twice : forall a bs t a' bs',
  good_ids a -> Forall (clear_match a) bs ->
  transparency query sort_cat lsqr (a :: bs) None = Ok t ->
  a' = a \/ a' = mcat t ->
  length bs' = length bs -> (forall k b c b', nth_error bs k = Some b -> nth_error (cats t) k = Some c -> nth_error bs' k = Some b' -> b' = b \/ b' = c) ->
  exists t', transparency query sort_cat lsqr (a' :: bs') None = Ok t' /\ zps t' = zps t /\ meanmags t' = meanmags t /\
    cats t' = cats t /\ map place (rows (mcat t')) = map place (rows a).
Proof.
  intros a bs t a' bs' G Cl E Ha Ln Hb. change (transparency_of query sort_cat lsqr a bs = Ok t) in E.
  destruct (first_ids a bs t G E a' Ha) as (G' & Pa & Pm & Im). destruct (fine_ids a G) as (F & E1).
  pose proof (cats_are a bs t E) as Ec. set (mc := with_source_ids a) in *. set (mc' := with_source_ids a') in *.
  assert (Hb' : Forall2 (fun b b' => as_was b (newcat query sort_cat mc b) b') bs bs').
  { apply Forall2_nth_error; [now symmetry|]. intros k b b' E2 E3. apply (Hb k b _ b' E2); [|exact E3]. rewrite Ec, nth_error_map, E2. reflexivity. }
  assert (Cm : Forall (clear_match mc) bs).
  { eapply Forall_impl; [|exact Cl]. intros b C. apply (clear_same a mc b b); auto. apply Permutation_refl. }
  assert (Sm : Forall2 same_sources bs bs').
  { clear - Hb' SP. induction Hb' as [|b b' l l' H _ IH]; constructor; [|exact IH]. destruct H as [->| ->]; [apply Permutation_refl|]. apply bare_places, newcat_bare. }
  destruct (C48_total_lm query sort_cat lsqr (a' :: bs') None SP) as [(t' & E')|(X & _)]; [|discriminate].
  exists t'. split; [exact E'|]. change (transparency_of query sort_cat lsqr a' bs' = Ok t') in E'.
  destruct (zps_same query query sort_cat sort_cat lsqr N N SP SP a a' bs bs' t t' G G' Pa Sm Cl E E') as [Z1 Z2].
  split; [exact Z1|]. split; [exact Z2|]. split; [|now rewrite <- Pa; apply (run_leaves query sort_cat SP lsqr a' bs' t' G' E')].
  rewrite Ec, (cats_are a' bs' t' E'). fold mc'. clear - Hb' Cm F Pm Im N SP SC.
  induction Hb' as [|b b' l l' H _ IH]; [reflexivity|]. inversion Cm as [|? ? C1 C2]; subst. cbn [map]. f_equal; [|now apply IH].
  now apply newcat_again.
Qed.
End Twice.

(** Some of the images keep what an earlier run left, some what they had: the zero points and the
    catalogues are the same again. *)
Lemma C128_matching_lm : forall query sort_cat lsqr a bs t a' bs',
  nearest query -> (forall l, Permutation (sort_cat l) l) -> canonical sort_cat ->
  good_ids a -> Forall (clear_match a) bs ->
  transparency query sort_cat lsqr (a :: bs) None = Ok t ->
  a' = a \/ a' = mcat t ->
  length bs' = length bs -> (forall k b c b', nth_error bs k = Some b -> nth_error (cats t) k = Some c -> nth_error bs' k = Some b' -> b' = b \/ b' = c) ->
  exists t', transparency query sort_cat lsqr (a' :: bs') None = Ok t' /\ zps t' = zps t /\ meanmags t' = meanmags t /\
    cats t' = cats t /\ map place (rows (mcat t')) = map place (rows a).
Proof. intros query sort_cat lsqr a bs t a' bs' N SP SC. apply (matching_twice query N sort_cat SP SC lsqr). Qed.
