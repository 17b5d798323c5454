(** Lemmas behind Props/Stamps.v. *)
From Coq Require Import ZArith List Bool Arith Reals Lia Lra Sorting.Sorted.
From Flocq Require Import Core.Raux.
From Verif.Model Require Import Py Plane Sources FindS Stamps.
From Verif.Spec Require Import FindS Stamps.
From Verif.Proof Require Import FindSMain SourcesMain Stamps StampsLoop.
Import ListNotations.
Local Open Scope R_scope.

Lemma nth_F2 {A B} (P : A -> B -> Prop) l m : Forall2 P l m -> forall k a b,
  nth_error l k = Some a -> nth_error m k = Some b -> P a b.
Proof.
  induction 1 as [|x y l m H F IH]; intros [|k] a b E1 E2; cbn in *; try discriminate.
  - congruence.
  - eauto.
Qed.

Lemma F2_nth_l {A B} (P : A -> B -> Prop) l m : Forall2 P l m -> forall k b,
  nth_error m k = Some b -> exists a, nth_error l k = Some a /\ P a b.
Proof.
  induction 1 as [|x y l m H F IH]; intros [|k] b E; cbn in *; try discriminate.
  - exists x. split; congruence.
  - eauto.
Qed.

Lemma F2_nth_r {A B} (P : A -> B -> Prop) l m : Forall2 P l m -> forall k a,
  nth_error l k = Some a -> exists b, nth_error m k = Some b /\ P a b.
Proof.
  induction 1 as [|x y l m H F IH]; intros [|k] b E; cbn in *; try discriminate.
  - exists y. split; congruence.
  - eauto.
Qed.

Lemma pos_nth (l : list src) q b : nth_error l q = Some b ->
  nth_error (map (fun s => (s_y s, s_x s)) l) q = Some (s_y b, s_x b).
Proof. intros H. exact (map_nth_error (fun s => (s_y s, s_x s)) q l H). Qed.

Lemma plane_eq_sym {A} (p q : plane A) : plane_eq p q -> plane_eq q p.
Proof.
  intros [S E]. unfold shape in S. injection S as Hr Hc. split; [unfold shape; congruence|].
  intros i j Hi Hj. symmetry. apply E; congruence.
Qed.

Lemma plane_eq_trans {A} (p q r : plane A) : plane_eq p q -> plane_eq q r -> plane_eq p r.
Proof.
  intros [S E] [S' E']. split; [congruence|]. unfold shape in S. injection S as Hr Hc.
  intros i j Hi Hj. rewrite E, E'; congruence.
Qed.

(** Stored stamps and their sources. *)
Lemma stored stats label pk image rms sh sources ex : (0 < fst sh)%nat -> (0 < snd sh)%nat ->
  extract_stamps stats label pk image rms sh sources = Ok ex ->
  forall q p, nth_error (ex_stamps ex) q = Some p ->
  exists s, In s sources /\ nth_error (ex_pos ex) q = Some (s_y s, s_x s) /\
    p = stamp_of (window image rms sh (s_y s, s_x s) 3) /\
    one_stamp stats label pk image rms sh s = Ok (Some p).
Proof.
  intros Hr Hc H q p E. apply extract_ok in H. destruct H as (v & F & Hp & Hs & _).
  rewrite Hs in E.
  assert (L : length sources = length v) by (eapply F2_len; eauto).
  assert (Q : (q < length (kept 0 v))%nat) by (rewrite kept_length; apply nth_error_Some; congruence).
  destruct (nth_error (kept 0 v) q) as [k|] eqn:K; [|apply nth_error_None in K; lia].
  destruct (kept_nth sources v L _ _ _ K) as (a & b & E1 & E2 & E3 & E4).
  assert (a = p) by congruence. subst a. exists b.
  split; [eapply nth_error_In; eauto|]. split; [rewrite Hp; now apply pos_nth|].
  pose proof (nth_F2 _ _ _ F _ _ _ E3 E1) as O. split; [|exact O].
  destruct (one_ok stats label pk image rms sh Hr Hc b _ O) as (_ & _ & _ & [X|X]); [congruence|discriminate].
Qed.

(** Every stored stamp has the shape reported afterwards, six more than before on each axis. *)
Lemma C32_shapes_lm : forall stats label pk image rms sh sources ex,
  (0 < fst sh)%nat -> (0 < snd sh)%nat ->
  extract_stamps stats label pk image rms sh sources = Ok ex ->
  ex_shape ex = (fst sh + 6, snd sh + 6)%nat /\
  forall p, In p (ex_stamps ex) -> shape p = ex_shape ex.
Proof.
  intros stats label pk image rms sh sources ex Hr Hc H.
  pose proof (extract_ok _ _ _ _ _ _ _ _ H) as (v & _ & _ & _ & _ & Sh & _).
  split; [exact Sh|]. intros p I. apply In_nth_error in I. destruct I as [q E].
  destruct (stored _ _ _ _ _ _ _ _ Hr Hc H q p E) as (s & _ & _ & -> & _).
  destruct (stamp_of_normalised (window image rms sh (s_y s, s_x s) 3)) as [S _].
  rewrite S, Sh. unfold normalised, shape. cbn. f_equal; lia.
Qed.

(** The un-grown stamp is the centre of the grown one. *)
Lemma C32_centre_lm : forall image rms sh pos small,
  extract_array image rms sh pos = Ok small ->
  exists big, extract_array image rms (fst sh + 6, snd sh + 6)%nat pos = Ok big /\
    forall i j, (i < fst sh)%nat -> (j < snd sh)%nat -> px small i j = px big (i + 3) (j + 3).
Proof.
  intros image rms sh pos small H.
  assert (overlaps image sh pos \/ ~ overlaps image sh pos) as [O|N] by (unfold overlaps; lia).
  - rewrite extract_overlap0 in H by exact O. injection H as <-.
    exists (window image rms sh pos 3). split.
    + rewrite <- (extract_overlap image rms sh pos 3 O). reflexivity.
    + intros i j _ _. cbn [window px]. f_equal; lia.
  - rewrite extract_no_overlap in H by exact N. discriminate.
Qed.

(** A single source raises TypeError exactly when the border of the stamp, or of the stamp
    one cell larger on each side, is constant and equal to 3.5 rms. *)
Lemma C32_flat_border_lm : forall stats label pk image rms sh s,
  (0 < fst sh)%nat -> (0 < snd sh)%nat ->
  overlaps image sh (s_y s, s_x s) ->
  (extract_stamps stats label pk image rms sh [s] = Raise TypeError <->
   flat_border (window image rms sh (s_y s, s_x s) 0) (35 / 10 * rms) \/
   flat_border (window image rms sh (s_y s, s_x s) 1) (35 / 10 * rms)).
Proof.
  intros stats label pk image rms sh s Hr Hc O. split.
  - intros H. apply extract_raise in H. destruct H as (t & [<-|[]] & E).
    destruct (one_cases stats label pk image rms sh Hr Hc s) as [X|[X|(_ & N0 & N1)]].
    + congruence.
    + destruct (flat_dec (window image rms sh (s_y s, s_x s) 0) (35 / 10 * rms)) as [F|F0];
        [cbn; lia|cbn; lia|now left|].
      destruct (flat_dec (window image rms sh (s_y s, s_x s) 1) (35 / 10 * rms)) as [F|F1];
        [cbn; lia|cbn; lia|now right|].
      exfalso. rewrite one_normal in E by assumption.
      destruct (private_pick pk); [|discriminate].
      destruct (strict _ _ _) as [b|e] eqn:S; cbn in E; [discriminate|].
      apply strict_not_type in S. injection E as ->. destruct S; discriminate.
    + exfalso. rewrite one_normal in E by assumption.
      destruct (private_pick pk); [|discriminate].
      destruct (strict _ _ _) as [b|e] eqn:S; cbn in E; [discriminate|].
      apply strict_not_type in S. injection E as ->. destruct S; discriminate.
  - intros F. unfold extract_stamps. cbn [length Nat.leb stamp_loop].
    now rewrite one_flat by assumption.
Qed.

(** Such a source, or one whose window misses the image, spoils any catalogue. *)
Lemma C32_one_spoils_all_lm : forall stats label pk image rms sh sources s,
  (0 < fst sh)%nat -> (0 < snd sh)%nat -> In s sources ->
  ~ overlaps image sh (s_y s, s_x s) \/
  flat_border (window image rms sh (s_y s, s_x s) 0) (35 / 10 * rms) \/
  flat_border (window image rms sh (s_y s, s_x s) 1) (35 / 10 * rms) ->
  exists e, extract_stamps stats label pk image rms sh sources = Raise e.
Proof.
  intros stats label pk image rms sh sources s Hr Hc I H.
  destruct (extract_stamps stats label pk image rms sh sources) as [ex|e] eqn:E; [|eauto].
  exfalso. apply extract_ok in E. destruct E as (v & F & _).
  apply In_nth_error in I. destruct I as [k K].
  destruct (F2_nth_r _ _ _ F _ _ K) as (o & _ & O).
  destruct (one_ok stats label pk image rms sh Hr Hc s o O) as (A & B & C & _). tauto.
Qed.

(** Otherwise the extraction succeeds and, without strict picking, keeps every source. *)
Lemma C32_extraction_succeeds_lm : forall stats label pk image rms sh sources,
  (0 < fst sh)%nat -> (0 < snd sh)%nat -> private_pick pk = false ->
  (forall s, In s sources ->
     overlaps image sh (s_y s, s_x s) /\
     ~ flat_border (window image rms sh (s_y s, s_x s) 0) (35 / 10 * rms) /\
     ~ flat_border (window image rms sh (s_y s, s_x s) 1) (35 / 10 * rms)) ->
  exists ex, extract_stamps stats label pk image rms sh sources = Ok ex /\
    ex_pos ex = map (fun s => (s_y s, s_x s)) sources /\ ex_sources ex = sources /\
    length (ex_stamps ex) = length sources.
Proof.
  intros stats label pk image rms sh sources Hr Hc Pk H.
  set (f := fun s => stamp_of (window image rms sh (s_y s, s_x s) 3)).
  assert (F : Forall2 (fun s o => one_stamp stats label pk image rms sh s = Ok o) sources
                (map (fun s => Some (f s)) sources)).
  { revert H. clear -Hr Hc Pk. induction sources as [|s l IH]; intros H; cbn; constructor.
    - destruct (H s (or_introl eq_refl)) as (A & B & C). rewrite one_normal by assumption.
      now rewrite Pk.
    - apply IH. intros; apply H; now right. }
  destruct (extract_total _ _ _ _ _ _ _ _ F) as [ex E]. exists ex. split; [exact E|].
  apply extract_ok in E. destruct E as (v & F' & -> & -> & -> & _).
  assert (v = map (fun s => Some (f s)) sources).
  { clear - F F'. revert v F'. induction F as [|s o l v E F IH]; intros v' F'; inversion F'; subst; [reflexivity|].
    f_equal; [congruence|auto]. }
  subst v.
  assert (P : pick sources (map (fun s => Some (f s)) sources) = sources)
    by (clear; induction sources as [|s l IH]; cbn; [reflexivity|now rewrite IH]).
  rewrite P. split; [reflexivity|]. split; [destruct (Nat.leb _ _); reflexivity|].
  rewrite <- (pick_length sources) by now rewrite map_length. now rewrite P.
Qed.

(** A source inside the frame of the image always has a window that meets the image. *)
Lemma C32_inside_overlaps_lm : forall (image : plane R) (sh : nat * nat) y x,
  (0 < fst sh)%nat -> (0 < snd sh)%nat ->
  0 <= y <= INR (nr image) - 1 -> 0 <= x <= INR (nc image) - 1 ->
  overlaps image sh (y, x).
Proof.
  intros image sh y x Hr Hc Hy Hx.
  assert (G : forall p s n, (0 < s)%nat -> 0 <= p <= INR n - 1 ->
    (0 < start p s + Z.of_nat s /\ start p s < Z.of_nat n)%Z).
  { intros p s n Hs Hp. unfold start.
    pose proof (Zceil_ub (p - INR s / 2)) as U. pose proof (Zceil_lb (p - INR s / 2)) as L.
    assert (S1 : 1 <= INR s) by (apply (le_INR 1); lia).
    split; apply lt_IZR; rewrite ?plus_IZR, <- ?INR_IZR_INZ; lra. }
  destruct (G y (fst sh) (nr image) Hr Hy), (G x (snd sh) (nc image) Hc Hx).
  unfold overlaps. cbn [fst snd]. auto.
Qed.

(** Bookkeeping: the kept sources are given by an increasing list of catalogue indices; the
    q-th position and the q-th stamp are those of the q-th kept source, which is kept, with the
    same stamp, when it is alone in the catalogue; a dropped one is dropped when alone. The
    catalogue is reduced to the kept sources iff there are at least 15 of them. *)
Lemma C33_bookkeeping_lm : forall stats label pk image rms sh sources ex,
  extract_stamps stats label pk image rms sh sources = Ok ex ->
  exists idx, StronglySorted lt idx /\
    ex_n ex = length idx /\ length (ex_pos ex) = length idx /\ length (ex_stamps ex) = length idx /\
    (forall q k, nth_error idx q = Some k ->
       exists s p ex1, nth_error sources k = Some s /\
         nth_error (ex_pos ex) q = Some (s_y s, s_x s) /\ nth_error (ex_stamps ex) q = Some p /\
         extract_stamps stats label pk image rms sh [s] = Ok ex1 /\ ex_stamps ex1 = [p]) /\
    (forall k s, nth_error sources k = Some s -> ~ In k idx ->
       exists ex1, extract_stamps stats label pk image rms sh [s] = Ok ex1 /\ ex_stamps ex1 = []) /\
    ((15 <= length idx)%nat -> length (ex_sources ex) = length idx /\
       forall q k, nth_error idx q = Some k -> nth_error (ex_sources ex) q = nth_error sources k) /\
    ((length idx < 15)%nat -> ex_sources ex = sources).
Proof.
  intros stats label pk image rms sh sources ex H.
  apply extract_ok in H. destruct H as (v & F & Hp & Hs & Hc & _ & Hn & _).
  assert (L : length sources = length v) by (eapply F2_len; eauto).
  assert (KL : length (kept 0 v) = length (somes v)) by apply kept_length.
  exists (kept 0 v). split; [apply kept_sorted|]. split; [congruence|].
  split; [rewrite Hp, map_length, pick_length by exact L; congruence|].
  split; [congruence|]. split; [|split; [|split]].
  - intros q k K. destruct (kept_nth sources v L _ _ _ K) as (a & b & E1 & E2 & E3 & E4).
    rewrite Nat.sub_0_r in E1, E3.
    destruct (extract_single _ _ _ _ _ _ _ _ (nth_F2 _ _ _ F _ _ _ E3 E1)) as (ex1 & X & Y).
    exists b, a, ex1. split; [exact E3|]. split; [rewrite Hp; now apply pos_nth|].
    split; [now rewrite Hs|]. split; [exact X|exact Y].
  - intros k s K N. destruct (F2_nth_r _ _ _ F _ _ K) as (o & Eo & O).
    destruct (extract_single _ _ _ _ _ _ _ _ O) as (ex1 & X & Y). exists ex1. split; [exact X|].
    rewrite Y. destruct o as [a|]; [|reflexivity]. exfalso. apply N. apply kept_in.
    split; [lia|]. exists a. now rewrite Nat.sub_0_r.
  - intros G. rewrite Hc. rewrite KL in G. apply Nat.leb_le in G. rewrite G.
    split; [rewrite pick_length by exact L; congruence|].
    intros q k K. destruct (kept_nth sources v L _ _ _ K) as (a & b & E1 & E2 & E3 & E4).
    rewrite Nat.sub_0_r in E3. congruence.
  - intros G. rewrite Hc. rewrite KL in G. apply Nat.leb_gt in G. now rewrite G.
Qed.

Lemma pick_again {A} (f : src -> res (option A)) l v :
  Forall2 (fun s o => f s = Ok o) l v ->
  exists v', Forall2 (fun s o => f s = Ok o) (pick l v) v' /\
    somes v' = somes v /\ pick (pick l v) v' = pick l v.
Proof.
  induction 1 as [|s o l v E F (v' & F' & S & P)]; [exists []; cbn; auto|].
  destruct o as [a|]; cbn [pick somes].
  - exists (Some a :: v'). split; [now constructor|]. cbn. now rewrite S, P.
  - exists v'. auto.
Qed.

(** Extracting again with the same stamp shape from the catalogue that was left behind gives
    the same positions, the same stamps and the same catalogue. *)
Lemma C33_repeatable_lm : forall stats label pk image rms sh sources ex,
  extract_stamps stats label pk image rms sh sources = Ok ex ->
  exists ex', extract_stamps stats label (ex_picks ex) image rms sh (ex_sources ex) = Ok ex' /\
    ex_pos ex' = ex_pos ex /\ ex_stamps ex' = ex_stamps ex /\ ex_sources ex' = ex_sources ex /\
    ex_n ex' = ex_n ex /\ ex_shape ex' = ex_shape ex.
Proof.
  intros stats label pk image rms sh sources ex H.
  apply extract_ok in H. destruct H as (v & F & Hp & Hs & Hc & Hsh & Hn & Hk).
  assert (F2 : Forall2 (fun s o => one_stamp stats label (ex_picks ex) image rms sh s = Ok o) sources v).
  { clear - F Hk. induction F as [|s o l v E F IH]; constructor; auto. rewrite <- E. now apply one_pick. }
  assert (G : exists v', Forall2 (fun s o => one_stamp stats label (ex_picks ex) image rms sh s = Ok o) (ex_sources ex) v' /\
     somes v' = somes v /\ pick (ex_sources ex) v' = pick sources v).
  { rewrite Hc. destruct (Nat.leb 15 _).
    - now apply pick_again.
    - exists v. auto. }
  destruct G as (v' & F' & S & P). destruct (extract_total _ _ _ _ _ _ _ _ F') as [ex' E].
  exists ex'. split; [exact E|]. apply extract_ok in E.
  destruct E as (w & Fw & -> & -> & -> & -> & -> & _).
  assert (w = v').
  { clear - F' Fw. revert w Fw. induction F' as [|s o l v E F IH]; intros w Fw; inversion Fw; subst; [reflexivity|].
    f_equal; [congruence|auto]. }
  subst w. rewrite S, P, Hp, Hs, Hsh, Hn. repeat (split; [reflexivity|]).
  split; [|split; reflexivity]. rewrite Hc. destruct (Nat.leb 15 _); reflexivity.
Qed.

(** With strict_star_pick=True the strict criteria decide for every source, however small the
    catalogue: a source is stored with a finite star-like stamp, or it is not stored and its
    stamp is not star-like or not finite. *)
Lemma C34_strict_always_lm : forall stats label public image rms sh sources ex,
  (0 < fst sh)%nat -> (0 < snd sh)%nat ->
  extract_stamps stats label (mkpicks true public) image rms sh sources = Ok ex ->
  (forall p, In p (ex_stamps ex) -> exists q, plane_eq p (pmap Some q) /\ star_like stats label q) /\
  (forall s, In s sources ->
     (exists k, nth_error (ex_pos ex) k = Some (s_y s, s_x s)) \/
     (exists q, plane_eq (normalised (window image rms sh (s_y s, s_x s) 3)) (pmap Some q) /\
                ~ star_like stats label q) \/
     (forall i j, px (normalised (window image rms sh (s_y s, s_x s) 3)) i j = None)).
Proof.
  intros stats label public image rms sh sources ex Hr Hc H. split.
  - intros p I. apply In_nth_error in I. destruct I as [k E].
    destruct (stored _ _ _ _ _ _ _ _ Hr Hc H k p E) as (s & _ & _ & Ep & O).
    destruct (one_ok _ _ _ _ _ _ Hr Hc _ _ O) as (A & B & C & _).
    rewrite one_normal in O by assumption. cbn [private_pick] in O.
    unfold strict in O. unfold stamp_of in *.
    set (w := window image rms sh (s_y s, s_x s) 3) in *.
    destruct (subtract_level w) as [lev|] eqn:Lv; [|discriminate].
    destruct (Req_EM_T (sumR (values lev)) 0) as [Z|NZ] eqn:Q.
    { destruct (existsb _ _); discriminate. }
    set (q := pmap (fun x => x / sumR (values lev)) lev) in *.
    assert (D : nr lev = nr w /\ nc lev = nc w).
    { pose proof (subtract_level_spec w) as Sp. rewrite Lv in Sp.
      destruct (faint (values w)); [discriminate|]. destruct Sp as (p' & [= <-] & [Sh _]).
      unfold shape in Sh. injection Sh as X Y. split; [exact X|exact Y]. }
    destruct D as [D1 D2].
    destruct (strict_finite stats label q) as [[]|] eqn:SF; cbn in O; [|discriminate|discriminate].
    exists q. split.
    + rewrite Ep. unfold unit_sum. split; [reflexivity|]. intros i j _ _. cbn [px pmap q]. rewrite ?Q.
      reflexivity.
    + apply strict_finite_true; [| |exact SF]; cbn [nr nc q pmap]; rewrite ?D1, ?D2; cbn; lia.
  - intros s I. pose proof (extract_ok _ _ _ _ _ _ _ _ H) as (v & F & Hp & Hs & _).
    assert (L : length sources = length v) by (eapply F2_len; eauto).
    apply In_nth_error in I. destruct I as [k K].
    destruct (F2_nth_r _ _ _ F _ _ K) as (o & Eo & O).
    destruct o as [p|].
    + left. assert (In k (kept 0 v)).
      { apply kept_in. split; [lia|]. exists p. now rewrite Nat.sub_0_r. }
      apply In_nth_error in H0. destruct H0 as [q Q]. exists q.
      destruct (kept_nth sources v L _ _ _ Q) as (a & b & E1 & E2 & E3 & E4).
      rewrite Nat.sub_0_r in E3. rewrite Hp. rewrite K in E3. injection E3 as <-. now apply pos_nth.
    + right. destruct (one_ok _ _ _ _ _ _ Hr Hc _ _ O) as (A & B & C & _).
      rewrite one_normal in O by assumption. cbn [private_pick] in O.
      set (w := window image rms sh (s_y s, s_x s) 3) in *.
      destruct (stamp_of_normalised w) as [NSh NE].
      unfold strict in O. unfold stamp_of in *.
      destruct (subtract_level w) as [lev|] eqn:Lv; [|discriminate].
      assert (D : nr lev = nr w /\ nc lev = nc w).
      { pose proof (subtract_level_spec w) as Sp. rewrite Lv in Sp.
        destruct (faint (values w)); [discriminate|]. destruct Sp as (p' & [= <-] & [Sh _]).
        unfold shape in Sh. injection Sh as X Y. split; [exact X|exact Y]. }
      destruct D as [D1 D2].
      destruct (Req_EM_T (sumR (values lev)) 0) as [Z|NZ] eqn:Q.
      * right. intros i j. pose proof (subtract_level_spec w) as Sp. rewrite Lv in Sp.
        unfold normalised. cbn [px pmap]. destruct (faint (values w)) as [|y t] eqn:Fw; [reflexivity|].
        destruct Sp as (p' & [= <-] & E). rewrite <- (values_ext _ _ E).
        destruct (Req_EM_T (sumR (values lev)) 0); [reflexivity|contradiction].
      * left. set (q := pmap (fun x => x / sumR (values lev)) lev) in *. exists q. split.
        { split.
          - rewrite <- NSh. reflexivity.
          - intros i j Hi Hj. rewrite <- NE.
            + unfold unit_sum. cbn [px pmap q]. rewrite ?Q. reflexivity.
            + cbn [nr unit_sum pmap]. rewrite D1. exact Hi.
            + cbn [nc unit_sum pmap]. rewrite D2. exact Hj. }
        intros SL. apply strict_finite_true in SL;
          [|cbn [nr nc q pmap]; rewrite ?D1, ?D2; cbn; lia|cbn [nr nc q pmap]; rewrite ?D1, ?D2; cbn; lia].
        rewrite SL in O. discriminate.
Qed.

(** Every stored stamp sums to one, or none of its cells is finite. *)
Lemma C35_unit_sum_lm : forall stats label pk image rms sh sources ex p,
  (0 < fst sh)%nat -> (0 < snd sh)%nat ->
  extract_stamps stats label pk image rms sh sources = Ok ex -> In p (ex_stamps ex) ->
  (exists q, plane_eq p (pmap Some q) /\ sumR (values q) = 1) \/ (forall i j, px p i j = None).
Proof.
  intros stats label pk image rms sh sources ex p Hr Hc H I.
  apply In_nth_error in I. destruct I as [k E].
  destruct (stored _ _ _ _ _ _ _ _ Hr Hc H k p E) as (s & _ & _ & -> & _).
  apply stamp_of_cases.
Qed.

(** The stamp stored for a source is exactly its window with three more cells on each side,
    minus the median of the cells below the 70th percentile, divided by the sum: the initial
    shift by the minimum has no effect. *)
Lemma C80_stamp_formula_lm : forall stats label pk image rms sh sources ex k pos p,
  (0 < fst sh)%nat -> (0 < snd sh)%nat ->
  extract_stamps stats label pk image rms sh sources = Ok ex ->
  nth_error (ex_pos ex) k = Some pos -> nth_error (ex_stamps ex) k = Some p ->
  plane_eq p (normalised (window image rms sh pos 3)).
Proof.
  intros stats label pk image rms sh sources ex k pos p Hr Hc H Ek Ep.
  destruct (stored _ _ _ _ _ _ _ _ Hr Hc H k p Ep) as (s & _ & E & -> & _).
  assert (pos = (s_y s, s_x s)) by congruence. subst pos. apply stamp_of_normalised.
Qed.

Lemma sumR_sub_affine a c lev l :
  sumR (map (fun x => x - (a * lev + c)) (map (fun x => a * x + c) l)) =
  a * sumR (map (fun x => x - lev) l).
Proof. unfold sumR. induction l as [|x l IH]; cbn; [ring|]. rewrite IH. ring. Qed.

Lemma normalised_affine a c w w' : 0 < a -> plane_eq w' (pmap (fun x => a * x + c) w) ->
  plane_eq (normalised w') (normalised w).
Proof.
  intros Ha E. pose proof E as [Sh Ep]. pose proof (values_ext _ _ E) as V. rewrite values_pmap in V.
  split; [exact Sh|]. intros i j Hi Hj. unfold normalised. cbn [px pmap].
  rewrite (Ep i j Hi Hj). cbn [px pmap]. rewrite V, (faint_affine a c) by exact Ha.
  destruct (faint (values w)) as [|y t] eqn:F; [reflexivity|]. cbn [map].
  change ((a * y + c) :: map (fun x => a * x + c) t) with (map (fun x => a * x + c) (y :: t)).
  rewrite (median_affine a c) by (exact Ha || discriminate).
  rewrite !values_pmap, V, sumR_sub_affine.
  set (lev := median (y :: t)). set (tot := sumR (map (fun x => x - lev) (values w))).
  destruct (Req_EM_T (a * tot) 0) as [Z|NZ], (Req_EM_T tot 0) as [Z'|NZ']; try reflexivity.
  - exfalso. apply Rmult_integral in Z. destruct Z; [lra|contradiction].
  - exfalso. apply NZ. rewrite Z'. ring.
  - f_equal. field. split; [exact NZ'|lra].
Qed.

Lemma window_affine a c image rms rms' sh s sources : interior image sh sources -> In s sources ->
  plane_eq (window (pmap (fun x => a * x + c) image) rms' sh (s_y s, s_x s) 3)
           (pmap (fun x => a * x + c) (window image rms sh (s_y s, s_x s) 3)).
Proof.
  intros H I. specialize (H s I). split; [reflexivity|]. intros i j Hi Hj.
  cbn [window px pmap nr nc fst snd] in *. unfold frame. cbn [nr nc px pmap fst snd].
  match goal with |- (if ?b then _ else _) = _ => replace b with true; [reflexivity|symmetry] end.
  rewrite !andb_true_iff, !Z.leb_le, !Z.ltb_lt. lia.
Qed.

(** Multiplying the image by a positive number and adding a constant does not change the
    stamps of sources whose windows are inside the image, whatever the noise level. *)
Lemma C81_scale_and_level_lm : forall stats label pk image rms rms' a c sh sources ex ex',
  (0 < fst sh)%nat -> (0 < snd sh)%nat -> 0 < a -> private_pick pk = false ->
  interior image sh sources ->
  extract_stamps stats label pk image rms sh sources = Ok ex ->
  extract_stamps stats label pk (pmap (fun x => a * x + c) image) rms' sh sources = Ok ex' ->
  ex_pos ex' = ex_pos ex /\ Forall2 plane_eq (ex_stamps ex') (ex_stamps ex).
Proof.
  intros stats label pk image rms rms' a c sh sources ex ex' Hr Hc Ha Pk In1 E E'.
  assert (G : forall im r e, extract_stamps stats label pk im r sh sources = Ok e ->
     ex_pos e = map (fun s => (s_y s, s_x s)) sources /\
     ex_stamps e = map (fun s => stamp_of (window im r sh (s_y s, s_x s) 3)) sources).
  { intros im r e X. apply extract_ok in X. destruct X as (v & F & -> & -> & _).
    assert (v = map (fun s => Some (stamp_of (window im r sh (s_y s, s_x s) 3))) sources).
    { clear - F Pk Hr Hc. induction F as [|s o l v O F IH]; [reflexivity|]. cbn. f_equal; [|exact IH].
      pose proof O as O'. destruct (one_ok _ _ _ _ _ _ Hr Hc _ _ O) as (A & B & C & _).
      rewrite one_normal, Pk in O' by assumption. congruence. }
    subst v. split.
    - f_equal. clear. induction sources as [|s l IH]; cbn; [reflexivity|now rewrite IH].
    - clear. induction sources as [|s l IH]; cbn; [reflexivity|now rewrite IH]. }
  destruct (G _ _ _ E) as [-> ->], (G _ _ _ E') as [-> ->]. split; [reflexivity|].
  assert (Al : forall s, In s sources ->
    plane_eq (stamp_of (window (pmap (fun x => a * x + c) image) rms' sh (s_y s, s_x s) 3))
             (stamp_of (window image rms sh (s_y s, s_x s) 3))).
  { intros s I. pose proof (window_affine a c image rms rms' sh s sources In1 I) as W.
    pose proof (normalised_affine a c _ _ Ha W) as N.
    pose proof (stamp_of_normalised (window (pmap (fun x => a * x + c) image) rms' sh (s_y s, s_x s) 3)) as S1.
    pose proof (stamp_of_normalised (window image rms sh (s_y s, s_x s) 3)) as S2.
    eapply plane_eq_trans; [exact S1|]. eapply plane_eq_trans; [exact N|]. now apply plane_eq_sym. }
  clear - Al. induction sources as [|s l IH]; cbn; constructor.
  - apply Al. now left.
  - apply IH. intros; apply Al; now right.
Qed.
