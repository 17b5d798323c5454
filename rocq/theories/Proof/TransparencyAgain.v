(** Calling transparency again on the same images. *)
From Coq Require Import ZArith List Bool Arith Reals Lia Lra Permutation FinFun.
From Verif.Model Require Import Py Transparency.
From Verif.Spec Require Import Transparency Again.
From Verif.Proof Require Import Transparency TransparencyFresh TransparencyMain.
Import ListNotations.
Set Bullet Behavior "Strict Subproofs".

Lemma dist_sym a b : dist a b = dist b a.
Proof. unfold dist. f_equal. ring. Qed.

Section Again.
Variable query : list pt -> list pt -> R -> list (option nat).
Hypothesis N : nearest query.
Variable sort_cat : list row -> list row.
Hypothesis SP : forall l, Permutation (sort_cat l) l.
Variable lsqr : nat -> nat -> (nat -> nat -> R) -> list R -> list R.

(** Without ties the index found is that of the nearest point. *)
Lemma query_nearest A B r i a j b : no_ties A B r -> nth_error A i = Some a -> nth_error B j = Some b ->
  (dist a b < r)%R -> (forall b', In b' B -> (dist a b <= dist a b')%R) ->
  nth_error (query A B r) i = Some (Some j).
Proof.
  intros T Ea Eb Lt Mn. destruct (N A B r) as (Ln & H). specialize (H i a Ea).
  destruct (nth i (query A B r) None) as [j'|] eqn:E.
  - destruct H as (b' & Eb' & Lt' & Mn'). rewrite (T a j j' b b' (nth_error_In _ _ Ea) Eb Eb' Lt).
    + now apply nth_some_error.
    + apply Rle_antisym; [apply Mn; eapply nth_error_In; eauto|now apply (Mn' j)].
  - specialize (H j b Eb). lra.
Qed.

Lemma no_ties_perm A B B' r : Permutation B B' -> no_ties A B r -> no_ties A B' r.
Proof.
  intros P T a j j' b b' Ia Eb Eb' Lt E. apply Permutation_nth_error in P as (_ & f & Inj & Hf).
  rewrite Hf in Eb, Eb'. apply Inj. exact (T a _ _ b b' Ia Eb Eb' Lt E).
Qed.

Lemma no_ties_incl A A' B r : incl A' A -> no_ties A B r -> no_ties A' B r.
Proof. intros I T a j j' b b' Ia. apply T. now apply I. Qed.

Lemma ids_length mc c : length (ids_for query mc c) = length (rows c).
Proof. unfold ids_for. now rewrite matching_len, map_length. Qed.


Lemma set_ids_place ids l : length ids = length l -> map place (set_ids ids l) = map place l.
Proof.
  revert l. induction ids as [|z ids IH]; intros [|r l] H; try discriminate; [reflexivity|].
  cbn. f_equal. apply IH. now injection H.
Qed.

Lemma set_dets_place bs l : length bs = length l -> map place (set_dets bs l) = map place l /\ map r_id (set_dets bs l) = map r_id l.
Proof.
  revert l. induction bs as [|z bs IH]; intros [|r l] H; try discriminate; [split; reflexivity|].
  destruct (IH l) as [A B]; [now injection H|]. cbn. split; f_equal; assumption.
Qed.

Lemma place_xy l l' : map place l = map place l' -> map xy l = map xy l'.
Proof.
  intros H. assert (E : forall l, map xy l = map fst (map place l)) by (intros x; rewrite map_map; reflexivity).
  now rewrite !E, H.
Qed.

Lemma place_xy_perm l l' : Permutation (map place l) (map place l') -> Permutation (map xy l) (map xy l').
Proof.
  intros H. assert (E : forall l, map xy l = map fst (map place l)) by (intros x; rewrite map_map; reflexivity).
  rewrite !E. now apply Permutation_map.
Qed.

(** Identifiers that tell the sources apart. *)
Definition ids_fine (c : cat) : Prop := NoDup (map r_id (rows c)) /\ ~ In (-13133)%Z (map r_id (rows c)).

Lemma fine_ids c : good_ids c -> ids_fine (with_source_ids c) /\ map place (rows (with_source_ids c)) = map place (rows c).
Proof.
  intros G. unfold with_source_ids, append_ids. destruct (has_id c) eqn:E.
  - destruct G as [G|G]; [congruence|]. now split.
  - assert (Ln : length (map Z.of_nat (seq 0 (length (rows c)))) = length (rows c)) by now rewrite map_length, seq_length.
    unfold ids_fine. cbn [rows]. rewrite set_ids_ids by exact Ln. repeat split.
    + apply FinFun.Injective_map_NoDup; [intros u v; lia|apply seq_NoDup].
    + intros I. apply in_map_iff in I as (? & ? & _). lia.
    + now apply set_ids_place.
Qed.

Lemma ids_iff mc c i j z : ids_fine mc -> nth_error (map r_id (rows mc)) i = Some z ->
  (nth_error (ids_for query mc c) j = Some z <-> mutual query (map xy (rows mc)) (map xy (rows c)) 2 i j).
Proof.
  intros [U S] E. unfold ids_for.
  exact (proj1 (C44_one_to_one_lm query (map xy (rows mc)) (map r_id (rows mc)) (map xy (rows c)) 2 N
          ltac:(now rewrite !map_length) U S) i j z E).
Qed.

(** The brightness found for a matched source. *)
Lemma flux_matched mc c i j r : ids_fine mc -> nth_error (rows mc) i = Some r ->
  mutual query (map xy (rows mc)) (map xy (rows c)) 2 i j ->
  flux_of (r_id r) (newcat query sort_cat mc c) = Ok (r_flux (nth j (rows c) row0)).
Proof.
  intros F Er M. pose proof (map_nth_error r_id i (rows mc) Er) as Ei.
  destruct (mutual_bounds query N _ _ _ _ _ M) as (_ & Hj). rewrite map_length in Hj.
  unfold flux_of, newcat. cbn [rows]. set (s := set_ids (ids_for query mc c) (rows c)).
  assert (K : forall j', j' < length (rows c) -> nth_error s j' = Some (with_id (nth j' (ids_for query mc c) 0%Z) (nth j' (rows c) row0))).
  { intros j' Hj'. apply set_ids_nth; trivial. apply ids_length. }
  assert (Ej : nth j (ids_for query mc c) 0%Z = r_id r) by (apply nth_error_nth; now apply (ids_iff mc c i j)).
  assert (Un : filter (fun r' => Z.eqb (r_id r') (r_id r)) s = [with_id (r_id r) (nth j (rows c) row0)]).
  { apply filter_unique with j.
    - now rewrite (K j Hj), Ej.
    - cbn. apply Z.eqb_refl.
    - intros j' r' E G. assert (Hj' : j' < length (rows c)).
      { rewrite <- (set_ids_length (ids_for query mc c) (rows c) (ids_length mc c)). apply nth_error_Some. fold s. now rewrite E. }
      rewrite (K j' Hj') in E. injection E as <-. cbn [r_id with_id] in G. apply Z.eqb_eq in G.
      assert (E' : nth_error (ids_for query mc c) j' = Some (r_id r)).
      { rewrite <- G. apply List.nth_error_nth'. now rewrite ids_length. }
      apply (ids_iff mc c i j' (r_id r) F Ei) in E'. exact (mutual_fun_r query _ _ _ _ _ _ E' M). }
  assert (P : Permutation (filter (fun r' => Z.eqb (r_id r') (r_id r)) (sort_cat s)) [with_id (r_id r) (nth j (rows c) row0)]).
  { rewrite <- Un. apply filter_perm, SP. }
  apply Permutation_sym in P. apply Permutation_length_1_inv in P. rewrite P. reflexivity.
Qed.

(** What a run leaves. *)
Lemma run_leaves a bs t : good_ids a -> transparency_of query sort_cat lsqr a bs = Ok t ->
  map place (rows (mcat t)) = map place (rows a) /\ good_ids (mcat t) /\ Forall2 same_sources bs (cats t).
Proof.
  intros G. destruct (fine_ids a G) as (F & E1). rewrite transparency_unfold. cbv zeta. set (mc := with_source_ids a) in *.
  assert (Nw : Forall2 same_sources bs (map (newcat query sort_cat mc) bs)).
  { clear - SP. induction bs as [|b bs IH]; constructor; [|exact IH]. unfold same_sources, newcat. cbn [rows].
    rewrite <- (set_ids_place (ids_for query mc b) (rows b)) by apply ids_length. apply Permutation_map, Permutation_sym, SP. }
  assert (Ld : length (map (detf query mc bs) (rows mc)) = length (rows mc)) by apply map_length.
  destruct (set_dets_place _ _ Ld) as [Pp Pi].
  assert (G1 : good_ids (mkcat (has_id mc) true (set_dets (map (detf query mc bs) (rows mc)) (rows mc)))).
  { right. cbn [rows]. rewrite Pi. exact F. }
  destruct (_ =? 0).
  - intros X. injection X as <-. cbn [mcat cats]. destruct (has_id a && has_det a); cbn [rows]; [rewrite Pp|]; auto.
  - destruct (mapM _ _) as [mm|e]; [|discriminate]. cbn [bind]. intros X. injection X as <-. cbn [mcat cats rows].
    rewrite Pp. auto.
Qed.
End Again.

(** Matches do not depend on the order of the second catalogue. *)
Lemma mutual_perm query query' (N : nearest query) (N' : nearest query') A B B' r i j j' b : no_ties A B r -> no_ties B A r -> Permutation B B' ->
  nth_error B j = Some b -> nth_error B' j' = Some b -> mutual query A B r i j -> mutual query' A B' r i j'.
Proof.
  intros T1 T2 P Eb Eb' M. destruct (C44_within_radius_lm query A B r i j N M) as (a & b0 & Ea & Eb0 & Lt & M1 & M2).
  rewrite Eb in Eb0. injection Eb0 as <-. split.
  - apply (query_nearest query' N' A B' r i a j' b); auto; [now apply (no_ties_perm A B)|].
    intros b' Ib. apply (Permutation_in _ (Permutation_sym P)) in Ib. apply In_nth_error in Ib as [k Ek]. now apply (M1 k).
  - apply (query_nearest query' N' B' A r j' b i a); auto.
    + apply (no_ties_incl B); [|exact T2]. intros x Ix. exact (Permutation_in _ (Permutation_sym P) Ix).
    + now rewrite dist_sym.
    + intros a' Ia. apply In_nth_error in Ia as [k Ek]. rewrite (dist_sym b a), (dist_sym b a'). now apply (M2 k).
Qed.

Lemma clear_same mc mc' b b' : map place (rows mc') = map place (rows mc) -> same_sources b b' -> clear_match mc b -> clear_match mc' b'.
Proof.
  intros E P [T1 T2]. apply place_xy in E. apply place_xy_perm in P. unfold clear_match. rewrite E. split.
  - now apply (no_ties_perm _ (map xy (rows b))).
  - apply (no_ties_incl (map xy (rows b))); [|exact T2]. intros x I. exact (Permutation_in _ (Permutation_sym P) I).
Qed.

(** Which sources have a partner, and how bright it is, depends on the places only. *)
Lemma partner_same query query' sort_cat sort_cat' (N : nearest query) (N' : nearest query')
  (SP : forall l, Permutation (sort_cat l) l) (SP' : forall l, Permutation (sort_cat' l) l) mc mc' b b' i r r' : ids_fine mc -> ids_fine mc' -> map place (rows mc') = map place (rows mc) ->
  same_sources b b' -> clear_match mc b -> nth_error (rows mc) i = Some r -> nth_error (rows mc') i = Some r' ->
  existsb (Z.eqb (r_id r)) (ids_for query mc b) = true ->
  existsb (Z.eqb (r_id r')) (ids_for query' mc' b') = true /\
  flux_of (r_id r) (newcat query sort_cat mc b) = flux_of (r_id r') (newcat query' sort_cat' mc' b').
Proof.
  intros F F' E P [T1 T2] Er Er' D. apply existsb_exists in D as (z & Iz & Ez). apply Z.eqb_eq in Ez. subst z.
  apply In_nth_error in Iz as [j Ej]. apply (ids_iff query N mc b i j (r_id r) F (map_nth_error r_id i (rows mc) Er)) in Ej.
  destruct (mutual_bounds query N _ _ _ _ _ Ej) as (_ & Hj). rewrite map_length in Hj.
  pose proof (List.nth_error_nth' (rows b) row0 Hj) as Eb.
  assert (exists j', nth_error (map place (rows b')) j' = Some (place (nth j (rows b) row0))) as [j' Eb'].
  { apply In_nth_error. apply (Permutation_in _ P). apply in_map. now apply nth_In. }
  rewrite nth_error_map in Eb'. destruct (nth_error (rows b') j') as [s'|] eqn:Es; [|discriminate]. cbn in Eb'. injection Eb' as Px Py Pf.
  assert (M' : mutual query' (map xy (rows mc')) (map xy (rows b')) 2 i j').
  { rewrite (place_xy _ _ E). apply (mutual_perm query query' N N' (map xy (rows mc)) (map xy (rows b)) (map xy (rows b')) 2 i j j' (xy (nth j (rows b) row0))); auto.
    - now apply place_xy_perm.
    - now rewrite nth_error_map, Eb.
    - rewrite nth_error_map, Es. cbn. unfold xy. now rewrite Px, Py. }
  split.
  - apply existsb_exists. exists (r_id r'). split; [|apply Z.eqb_refl]. apply nth_error_In with j'.
    now apply (ids_iff query' N' mc' b' i j' (r_id r') F' (map_nth_error r_id i (rows mc') Er')).
  - rewrite (flux_matched query N sort_cat SP mc b i j r F Er Ej), (flux_matched query' N' sort_cat' SP' mc' b' i j' r' F' Er' M').
    now rewrite (nth_error_nth' _ _ _ _ Es), Pf.
Qed.

Lemma mapM_same {A B} (f g : A -> res B) l : (forall a, In a l -> f a = g a) -> mapM f l = mapM g l.
Proof.
  induction l as [|a l IH]; intros H; [reflexivity|]. cbn. rewrite (H a (or_introl eq_refl)), IH; [reflexivity|].
  intros b I. apply H. now right.
Qed.

Lemma mapM_same2 {A A' B} (f : A -> res B) (g : A' -> res B) l l' : Forall2 (fun a b => f a = g b) l l' -> mapM f l = mapM g l'.
Proof. induction 1 as [|a b l l' E _ IH]; [reflexivity|]. cbn. now rewrite E, IH. Qed.


Lemma Forall2_nth_error {A B} (P : A -> B -> Prop) l l' : length l = length l' ->
  (forall i a b, nth_error l i = Some a -> nth_error l' i = Some b -> P a b) -> Forall2 P l l'.
Proof.
  revert l'. induction l as [|a l IH]; intros [|b l'] E H; try discriminate; constructor.
  - now apply (H 0).
  - apply IH; [now injection E|]. intros i x y X Y. now apply (H (S i)).
Qed.

Lemma filter2 {A B} (f : A -> bool) (g : B -> bool) (P : A -> B -> Prop) l l' :
  Forall2 (fun a b => g b = f a /\ (f a = true -> P a b)) l l' -> Forall2 P (filter f l) (filter g l').
Proof.
  induction 1 as [|a b l l' [E H] _ IH]; [constructor|]. cbn. rewrite E. destruct (f a); [|exact IH]. constructor; [now apply H|exact IH].
Qed.

Lemma map_same2 {A B C} (f : A -> C) (g : B -> C) l l' : Forall2 (fun a b => f a = g b) l l' -> map f l = map g l'.
Proof. induction 1 as [|a b l l' E _ IH]; [reflexivity|]. cbn. now rewrite E, IH. Qed.

(** Zero points depend on the places and brightnesses only. *)
Lemma zps_same query query' sort_cat sort_cat' lsqr (N : nearest query) (N' : nearest query')
  (SP : forall l, Permutation (sort_cat l) l) (SP' : forall l, Permutation (sort_cat' l) l) a a' bs bs' t t' : good_ids a -> good_ids a' -> map place (rows a') = map place (rows a) ->
  Forall2 same_sources bs bs' -> Forall (clear_match a) bs ->
  transparency_of query sort_cat lsqr a bs = Ok t -> transparency_of query' sort_cat' lsqr a' bs' = Ok t' ->
  zps t' = zps t /\ meanmags t' = meanmags t.
Proof.
  intros G G' E P Cl. destruct (fine_ids a G) as (F & E1). destruct (fine_ids a' G') as (F' & E1').
  rewrite !transparency_unfold. cbv zeta. set (mc := with_source_ids a) in *. set (mc' := with_source_ids a') in *.
  assert (Em : map place (rows mc') = map place (rows mc)) by congruence.
  assert (Cm : Forall (clear_match mc) bs).
  { eapply Forall_impl; [|exact Cl]. intros b C. apply (clear_same a mc b b); auto. apply Permutation_refl. }
  assert (Ln : length bs' = length bs) by (symmetry; clear - P; induction P; cbn; congruence).
  assert (H : Forall2 (fun r r' => detf query' mc' bs' r' = detf query mc bs r /\ (detf query mc bs r = true ->
      r_flux r = r_flux r' /\
      Forall2 (fun c c' => flux_of (r_id r) c = flux_of (r_id r') c') (map (newcat query sort_cat mc) bs) (map (newcat query' sort_cat' mc') bs')))
    (rows mc) (rows mc')).
  { apply Forall2_nth_error; [rewrite <- (map_length place), <- (map_length place (rows mc')); now rewrite Em|].
    intros i r r' Er Er'.
    assert (Pr : place r' = place r).
    { pose proof (map_nth_error place i (rows mc) Er) as A. pose proof (map_nth_error place i (rows mc') Er') as B. congruence. }
    injection Pr as _ _ Pf. unfold detf. clear Ln Cl. induction P as [|b b' bs bs' P1 P2 IH]; [cbn; auto|].
    inversion Cm as [|? ? C1 C2]; subst. destruct (IH C2) as [D Hf]. cbn [forallb map].
    pose proof (partner_same query query' sort_cat sort_cat' N N' SP SP' mc mc' b b' i r r' F F' Em P1 C1 Er Er') as K1.
    assert (K2 : existsb (Z.eqb (r_id r')) (ids_for query' mc' b') = true -> existsb (Z.eqb (r_id r)) (ids_for query mc b) = true).
    { intros X. apply (partner_same query' query sort_cat' sort_cat N' N SP' SP mc' mc b' b i r' r); auto; [now apply Permutation_sym|now apply (clear_same mc mc' b b')]. }
    rewrite D. split.
    - destruct (existsb (Z.eqb (r_id r)) (ids_for query mc b)) eqn:X; [now rewrite (proj1 (K1 eq_refl))|].
      destruct (existsb (Z.eqb (r_id r')) (ids_for query' mc' b')) eqn:Y; [|reflexivity]. discriminate (K2 eq_refl).
    - intros X. apply andb_prop in X as [X Y]. destruct (Hf Y) as [_ Z]. split; [now symmetry|].
      constructor; [exact (proj2 (K1 X))|exact Z]. }
  apply filter2 in H. set (fo := filter (detf query mc bs) (rows mc)) in *. set (fo' := filter (detf query' mc' bs') (rows mc')) in *.
  assert (Lf : length fo' = length fo) by (symmetry; clear - H; induction H; cbn; congruence).
  rewrite Lf, Ln. destruct (length fo =? 0).
  - intros X Y. injection X as <-. injection Y as <-. now split.
  - assert (Mg : map (fun r => mag (r_flux r)) (map (with_det true) fo) = map (fun r => mag (r_flux r)) (map (with_det true) fo')).
    { rewrite !map_map. apply map_same2. clear - H. induction H as [|r r' l l' [A _] _ IH]; constructor; [|exact IH]. cbn. now rewrite A. }
    assert (Mm : forall cs cs', cs = map (newcat query sort_cat mc) bs -> cs' = map (newcat query' sort_cat' mc') bs' ->
       mapM (fun r => mapM (fun c => bind (flux_of (r_id r) c) (fun f => Ok (mag f))) cs) (map (with_det true) fo) =
       mapM (fun r => mapM (fun c => bind (flux_of (r_id r) c) (fun f => Ok (mag f))) cs') (map (with_det true) fo')).
    { intros cs cs' -> ->. apply mapM_same2. clear - H. induction H as [|r r' l l' [_ A] _ IH]; cbn [map]; constructor; [|exact IH].
      apply mapM_same2. cbn [with_det r_id]. clear - A. induction A as [|c c' l l' X _ IH]; constructor; [now rewrite X|exact IH]. }
    rewrite <- (Mm _ _ eq_refl eq_refl), <- Mg. destruct (mapM _ _) as [mm|e]; [|discriminate]. cbn [bind].
    intros X Y. injection X as <-. injection Y as <-. now split.
Qed.


Lemma same_trans l1 l2 l3 : Forall2 same_sources l1 l2 -> Forall2 same_sources l2 l3 -> Forall2 same_sources l1 l3.
Proof.
  intros H. revert l3. induction H as [|a b l l' X _ IH]; intros l3 Y; inversion Y; subst; [constructor|].
  constructor; [eapply Permutation_trans; eauto|now apply IH].
Qed.

Lemma same_refl l : Forall2 same_sources l l.
Proof. induction l; constructor; [apply Permutation_refl|assumption]. Qed.

(** Zero points depend on where the sources are and how bright they are, not on the order of the
    other catalogues, on the identifiers and flags that earlier calls left, or on how the search
    visits the points. *)
Lemma C119_zero_points_lm : forall query query' sort_cat sort_cat' lsqr a a' bs bs' t t',
  nearest query -> nearest query' -> (forall l, Permutation (sort_cat l) l) -> (forall l, Permutation (sort_cat' l) l) ->
  good_ids a -> good_ids a' -> map place (rows a') = map place (rows a) ->
  Forall2 same_sources bs bs' -> Forall (clear_match a) bs ->
  transparency query sort_cat lsqr (a :: bs) None = Ok t -> transparency query' sort_cat' lsqr (a' :: bs') None = Ok t' ->
  zps t' = zps t /\ meanmags t' = meanmags t.
Proof. intros query query' sort_cat sort_cat' lsqr a a' bs bs' t t' N N' SP SP' G G' E P C R R'. exact (zps_same query query' sort_cat sort_cat' lsqr N N' SP SP' a a' bs bs' t t' G G' E P C R R'). Qed.

(** Calling transparency again on the same images, once or many times, gives the same zero
    points. *)
Lemma C119_again_lm : forall query sort_cat lsqr a bs t k images,
  nearest query -> (forall l, Permutation (sort_cat l) l) ->
  good_ids a -> Forall (clear_match a) bs ->
  transparency query sort_cat lsqr (a :: bs) None = Ok t ->
  after_runs (fun l => transparency query sort_cat lsqr l None) k (a :: bs) = Ok images ->
  exists t', transparency query sort_cat lsqr images None = Ok t' /\ zps t' = zps t /\ meanmags t' = meanmags t.
Proof.
  intros query sort_cat lsqr a bs t k images N SP G Cl E.
  assert (H : forall k a1 bs1, good_ids a1 -> map place (rows a1) = map place (rows a) -> Forall2 same_sources bs bs1 ->
    after_runs (fun l => transparency query sort_cat lsqr l None) k (a1 :: bs1) = Ok images ->
    exists a2 bs2, images = a2 :: bs2 /\ good_ids a2 /\ map place (rows a2) = map place (rows a) /\ Forall2 same_sources bs bs2).
  { clear k. induction k as [|k IH]; intros a1 bs1 G1 E1 P1 R.
    - injection R as <-. eauto 8.
    - cbn [after_runs] in R. destruct (transparency query sort_cat lsqr (a1 :: bs1) None) as [t1|] eqn:T1; [|discriminate].
      cbn [bind] in R. destruct (run_leaves query sort_cat SP lsqr a1 bs1 t1 G1 T1) as (Q1 & Q2 & Q3).
      apply (IH _ _ Q2) in R; [exact R|congruence|now apply (same_trans bs bs1)]. }
  intros R. destruct (H k a bs G eq_refl (same_refl bs) R) as (a2 & bs2 & -> & G2 & E2 & P2).
  destruct (C48_total_lm query sort_cat lsqr (a2 :: bs2) None SP) as [(t' & T')|(X & _)]; [|discriminate].
  exists t'. split; [exact T'|]. exact (zps_same query query sort_cat sort_cat lsqr N N SP SP a a2 bs bs2 t t' G G2 E2 P2 Cl E T').
Qed.
