(** Lemmas behind Props/Stamps.v and Props/Cut.v. *)
From Coq Require Import ZArith List Bool Arith Reals Lia Lra Sorting.Sorted.
From Flocq Require Import Core.Raux.
From Verif.Model Require Import Py Plane Sources FindS Stamps Interp Cut.
From Verif.Spec Require Import FindS Stamps Cut.
From Verif.Proof Require Import FindSMain SourcesMain Stamps StampsLoop StampsMain Cut CutIntact CutLoop.
Import ListNotations.
Local Open Scope R_scope.

Lemma overlaps_dec (image : plane R) sh pos : overlaps image sh pos \/ ~ overlaps image sh pos.
Proof. unfold overlaps; lia. Qed.

(** A stamp that is kept, whatever the image. *)
Lemma cut_some stats label pk im rms sh s p : (0 < fst sh)%nat -> (0 < snd sh)%nat ->
  snd (cut_one stats label pk im rms sh s) = Ok (Some p) ->
  exists lev, lev = levelled (owin im rms sh (s_y s, s_x s) 3) /\
    nr lev = (fst sh + 6)%nat /\ nc lev = (snd sh + 6)%nat /\ judge stats label pk lev = Ok (Some p).
Proof.
  intros Hr Hc H. destruct (overlaps_dec (numb im) sh (s_y s, s_x s)) as [O|N].
  - rewrite cut_one_some in H by assumption. destruct (any_nan _); [discriminate|]. cbn zeta in H. cbn [snd] in H.
    destruct (Nat.eqb _ 3) eqn:K; [|discriminate]. apply Nat.eqb_eq in K. rewrite K in H.
    exists (levelled (owin im rms sh (s_y s, s_x s) 3)). split; [reflexivity|].
    destruct (levelled_shape (owin im rms sh (s_y s, s_x s) 3)) as [A B]. rewrite A, B.
    split; [cbn; lia|]. split; [cbn; lia|exact H].
  - rewrite cut_one_none in H by assumption. discriminate.
Qed.

(** The array [judge] gets, as numbers. *)
Lemma whole_dims w p : whole w = Some p -> nr p = nr w /\ nc p = nc w.
Proof. unfold whole. destruct (any_nan w); [discriminate|]. intros [= <-]. auto. Qed.

Lemma judge_stamp stats label pk w p : judge stats label pk w = Ok (Some p) ->
  p = match whole w with Some q => unit_sum q | None => pmap (fun _ => None) w end.
Proof.
  unfold judge. destruct (private_pick pk); [|now intros [= <-]].
  destruct (strict _ _ _) as [[]|]; cbn; try discriminate. now intros [= <-].
Qed.

Lemma turn_of stats label pk rms sh l : forall im v last, turns stats label pk rms sh im l v last ->
  forall k s o, nth_error l k = Some s -> nth_error v k = Some o ->
  exists mid, nr mid = nr mid /\ snd (cut_one stats label pk mid rms sh s) = Ok o.
Proof.
  induction l as [|a l IH]; intros im v last H k s o E1 E2; inversion H as [|? ? o' im1 ? v' ? E F]; subst;
    destruct k; cbn in *; try discriminate.
  - injection E1 as <-. injection E2 as <-. exists im. split; [reflexivity|]. now rewrite E.
  - eapply IH; eauto.
Qed.

Lemma kept_source stats label pk rms sh im sources left ex q p :
  cut_stamps stats label pk im rms sh sources = (left, Ok ex) -> nth_error (ex_stamps ex) q = Some p ->
  exists v k s, turns stats label pk rms sh im sources v left /\ ex = result sh pk sources v /\
    nth_error sources k = Some s /\ nth_error v k = Some (Some p) /\ nth_error (ex_pos ex) q = Some (s_y s, s_x s).
Proof.
  intros H E. apply cut_ok in H. destruct H as (v & T & ->). cbn [result ex_stamps] in E.
  pose proof (turns_len _ _ _ _ _ _ _ _ _ T) as L.
  assert (Q : (q < length (kept 0 v))%nat) by (rewrite kept_length; apply nth_error_Some; congruence).
  destruct (nth_error (kept 0 v) q) as [k|] eqn:K; [|apply nth_error_None in K; lia].
  destruct (kept_nth sources v L _ _ _ K) as (a & b & E1 & E2 & E3 & E4). rewrite Nat.sub_0_r in E1, E3.
  assert (a = p) by congruence. subst a. exists v, k, b. split; [exact T|]. split; [reflexivity|].
  split; [exact E3|]. split; [exact E1|]. cbn [result ex_pos]. now apply pos_nth.
Qed.

Lemma kept_mid stats label pk rms sh im sources left ex p :
  cut_stamps stats label pk im rms sh sources = (left, Ok ex) -> In p (ex_stamps ex) ->
  exists mid s, snd (cut_one stats label pk mid rms sh s) = Ok (Some p).
Proof.
  intros H I. apply In_nth_error in I. destruct I as [q E].
  destruct (kept_source _ _ _ _ _ _ _ _ _ _ _ H E) as (v & k & s & T & _ & E1 & E2 & _).
  destruct (turn_of _ _ _ _ _ _ _ _ _ T _ _ _ E1 E2) as (mid & _ & X). exists mid, s. exact X.
Qed.

(** Every stored stamp has the shape reported afterwards, six more than before on each axis. The
    interpolated image keeps its shape. *)
Lemma C32_shapes_lm : forall stats label pk image rms sh sources left ex,
  (0 < fst sh)%nat -> (0 < snd sh)%nat ->
  cut_stamps stats label pk image rms sh sources = (left, Ok ex) ->
  ex_shape ex = (fst sh + 6, snd sh + 6)%nat /\
  (forall p, In p (ex_stamps ex) -> shape p = ex_shape ex) /\ shape left = shape image.
Proof.
  intros stats label pk image rms sh sources left ex Hr Hc H.
  pose proof (proj1 (cut_ok _ _ _ _ _ _ _ _ _) H) as (v & T & E). split; [now rewrite E|]. split.
  - intros p I. destruct (kept_mid _ _ _ _ _ _ _ _ _ _ H I) as (mid & s & X).
    destruct (cut_some _ _ _ _ _ _ _ _ Hr Hc X) as (lev & _ & A & B & J). rewrite E. cbn [result ex_shape].
    apply judge_stamp in J. destruct (whole lev) as [q|] eqn:W; subst p; unfold shape; cbn.
    + apply whole_dims in W. destruct W as [-> ->]. congruence.
    + congruence.
  - destruct (turns_out _ _ _ _ _ Hr Hc _ _ _ _ T) as (A & B & _). unfold shape. congruence.
Qed.

(** The un-grown stamp is the centre of the grown one. *)
Lemma C32_centre_lm : forall image rms sh pos small,
  view image rms sh pos = Ok small ->
  exists big, view image rms (fst sh + 6, snd sh + 6)%nat pos = Ok big /\
    forall i j, (i < fst sh)%nat -> (j < snd sh)%nat -> px small i j = px big (i + 3) (j + 3).
Proof.
  intros image rms sh pos small H.
  destruct (overlaps_dec (numb image) sh pos) as [O|N].
  - rewrite view_window0 in H by exact O. injection H as <-.
    exists (owin image rms sh pos 3). split.
    + rewrite <- (view_window image rms sh pos 3 O). reflexivity.
    + intros i j Hi Hj. cbn [owin px].
      replace (i <? fst sh + 2 * 0)%nat with true by (symmetry; apply Nat.ltb_lt; lia).
      replace (j <? snd sh + 2 * 0)%nat with true by (symmetry; apply Nat.ltb_lt; lia).
      replace (i + 3 <? fst sh + 2 * 3)%nat with true by (symmetry; apply Nat.ltb_lt; lia).
      replace (j + 3 <? snd sh + 2 * 3)%nat with true by (symmetry; apply Nat.ltb_lt; lia).
      cbn [andb]. f_equal; lia.
  - rewrite view_none in H by exact N. discriminate.
Qed.

Lemma strict_exn stats label o e : strict stats label o = Raise e -> e <> TypeError /\ e <> NoOverlapError.
Proof. intros S. apply strict_not_type in S. destruct S; subst; split; discriminate. Qed.

Lemma strict_pick stats label (pk : picks) (o : option (plane R)) (x : plane (option R)) e :
  (if private_pick pk then bind (strict stats label o) (fun ok => Ok (if ok : bool then Some x else None)) else Ok (Some x))
  = Raise e -> e <> TypeError /\ e <> NoOverlapError.
Proof.
  destruct (private_pick pk); [|discriminate]. destruct (strict _ _ _) as [b|e'] eqn:S; cbn; [discriminate|].
  intros [= ->]. exact (strict_exn _ _ _ _ S).
Qed.

Lemma single_turn stats label pk rms sh im s o im1 : cut_one stats label pk im rms sh s = (im1, Ok o) ->
  exists ex, cut_stamps stats label pk im rms sh [s] = (im1, Ok ex) /\ ex = result sh pk [s] [o] /\
    ex_stamps ex = match o with Some p => [p] | None => [] end.
Proof.
  intros E. exists (result sh pk [s] [o]). split.
  - apply cut_ok. exists [o]. split; [|reflexivity]. econstructor; [exact E|constructor].
  - split; [reflexivity|]. destruct o; reflexivity.
Qed.

Lemma single_raise stats label pk rms sh im s e im1 : cut_one stats label pk im rms sh s = (im1, Raise e) ->
  cut_stamps stats label pk im rms sh [s] = (im1, Raise e).
Proof.
  intros E. unfold cut_stamps. cbn [length Nat.leb cut_loop].
  rewrite (cut_pick stats label _ pk) by reflexivity. now rewrite E.
Qed.

(** A single source raises TypeError exactly when the border of the stamp, or of the stamp
    one cell larger on each side, is constant and equal to 3.5 rms. *)
Lemma C32_flat_border_lm : forall stats label pk image rms sh s,
  (0 < fst sh)%nat -> (0 < snd sh)%nat ->
  overlaps image sh (s_y s, s_x s) ->
  (snd (cut_stamps stats label pk (intact image) rms sh [s]) = Raise TypeError <->
   flat_border (window image rms sh (s_y s, s_x s) 0) (35 / 10 * rms) \/
   flat_border (window image rms sh (s_y s, s_x s) 1) (35 / 10 * rms)).
Proof.
  intros stats label pk image rms sh s Hr Hc O. split.
  - intros H. destruct (cut_stamps _ _ _ _ _ _ _) as [left r] eqn:E. cbn [snd] in H. subst r.
    apply cut_raise in E. destruct E as (pre & t & post & v & mid & Es & T & X).
    destruct pre as [|a pre]; [|destruct pre; discriminate]. injection Es as -> _. inversion T; subst.
    destruct (flat_dec (window image rms sh (s_y t, s_x t) 0) (35 / 10 * rms)) as [F|F0];
      [cbn; lia|cbn; lia|now left|].
    destruct (flat_dec (window image rms sh (s_y t, s_x t) 1) (35 / 10 * rms)) as [F|F1];
      [cbn; lia|cbn; lia|now right|].
    exfalso. rewrite cut_normal in X by assumption. injection X as _ X. apply strict_pick in X. now apply X.
  - intros F. pose proof (cut_flat stats label pk image rms sh Hr Hc s O F) as X.
    destruct (cut_one stats label pk (intact image) rms sh s) as [im1 r] eqn:E. cbn [snd] in X. subst r.
    now rewrite (single_raise _ _ _ _ _ _ _ _ _ E).
Qed.

(** A source whose window misses the image spoils any catalogue, and so does one with such a
    border if no two stamps overlap. *)
Lemma C32_one_spoils_all_lm : forall stats label pk image rms sh sources s,
  (0 < fst sh)%nat -> (0 < snd sh)%nat -> In s sources ->
  ~ overlaps image sh (s_y s, s_x s) \/
  (apart sh sources /\
   (flat_border (window image rms sh (s_y s, s_x s) 0) (35 / 10 * rms) \/
    flat_border (window image rms sh (s_y s, s_x s) 1) (35 / 10 * rms))) ->
  exists e, snd (cut_stamps stats label pk (intact image) rms sh sources) = Raise e.
Proof.
  intros stats label pk image rms sh sources s Hr Hc I H.
  destruct (cut_stamps stats label pk (intact image) rms sh sources) as [left [ex|e]] eqn:E; cbn [snd]; [|eauto].
  exfalso. apply cut_ok in E. destruct E as (v & T & _). destruct H as [N|[Ap F]].
  - assert (G : forall l im v last, turns stats label pk rms sh im l v last -> nr im = nr image -> nc im = nc image -> In s l -> False).
    { clear -Hr Hc N. induction l as [|a l IH]; intros im v last T A B I; [destruct I|].
      inversion T as [|? ? o im1 ? v' ? E F]; subst. destruct (cut_dims stats label pk rms sh Hr Hc im a) as [X Y].
      rewrite E in X, Y. cbn [fst] in X, Y. destruct I as [->|I].
      - rewrite cut_one_none in E; [discriminate|]. unfold overlaps in *. cbn [numb pmap nr nc]. now rewrite A, B.
      - apply (IH im1 v' last); congruence. }
    exact (G _ _ _ _ T eq_refl eq_refl I).
  - pose proof (turns_apart _ _ _ _ _ Hr Hc (intact image) _ _ _ _ Ap (fun s _ => agree_refl sh s _) T) as F2.
    apply In_nth_error in I. destruct I as [k K]. destruct (F2_nth_r _ _ _ F2 _ _ K) as (o & _ & O).
    destruct (cut_one_ok stats label pk image rms sh Hr Hc s o O) as (A & B & C & _). tauto.
Qed.

Lemma F2_fun {A B} (f : A -> res B) l : forall v w,
  Forall2 (fun s o => f s = Ok o) l v -> Forall2 (fun s o => f s = Ok o) l w -> w = v.
Proof.
  induction l as [|s l IH]; intros v w F G; inversion F; inversion G; subst; [reflexivity|].
  f_equal; [congruence|auto].
Qed.

(** Otherwise, when no two stamps overlap, the extraction succeeds and, without strict picking,
    keeps every source. *)
Lemma C32_extraction_succeeds_lm : forall stats label pk image rms sh sources,
  (0 < fst sh)%nat -> (0 < snd sh)%nat -> private_pick pk = false -> apart sh sources ->
  (forall s, In s sources ->
     overlaps image sh (s_y s, s_x s) /\
     ~ flat_border (window image rms sh (s_y s, s_x s) 0) (35 / 10 * rms) /\
     ~ flat_border (window image rms sh (s_y s, s_x s) 1) (35 / 10 * rms)) ->
  exists left ex, cut_stamps stats label pk (intact image) rms sh sources = (left, Ok ex) /\
    ex_pos ex = map (fun s => (s_y s, s_x s)) sources /\ ex_sources ex = sources /\
    length (ex_stamps ex) = length sources.
Proof.
  intros stats label pk image rms sh sources Hr Hc Pk Ap H.
  set (f := fun s => tstamp image rms sh (s_y s, s_x s)).
  assert (F : Forall2 (fun s o => snd (cut_one stats label pk (intact image) rms sh s) = Ok o) sources
                (map (fun s => Some (f s)) sources)).
  { revert H. clear -Hr Hc Pk. induction sources as [|s l IH]; intros H; cbn [map]; constructor.
    - destruct (H s (or_introl eq_refl)) as (A & B & C). rewrite cut_normal by assumption. cbn [snd].
      now rewrite Pk.
    - apply IH. intros; apply H; now right. }
  destruct (apart_turns _ _ _ _ _ Hr Hc (intact image) _ (intact image) _ Ap (fun s _ => agree_refl sh s _) F) as [left T].
  exists left, (result sh pk sources (map (fun s => Some (f s)) sources)).
  split; [apply cut_ok; eauto|].
  assert (P : pick sources (map (fun s => Some (f s)) sources) = sources)
    by (clear; induction sources as [|s l IH]; cbn; [reflexivity|now rewrite IH]).
  cbn [result ex_pos ex_sources ex_stamps]. rewrite P. split; [reflexivity|].
  split; [destruct (Nat.leb _ _); reflexivity|].
  rewrite <- (pick_length sources) by now rewrite map_length. now rewrite P.
Qed.

(** Bookkeeping: the kept sources are given by an increasing list of catalogue indices; the
    q-th position is that of the q-th kept source. The catalogue is reduced to the kept sources
    iff there are at least 15 of them. *)
Lemma C33_bookkeeping_lm : forall stats label pk image rms sh sources left ex,
  cut_stamps stats label pk image rms sh sources = (left, Ok ex) ->
  exists idx, StronglySorted lt idx /\
    ex_n ex = length idx /\ length (ex_pos ex) = length idx /\ length (ex_stamps ex) = length idx /\
    (forall q k, nth_error idx q = Some k ->
       exists s, nth_error sources k = Some s /\ nth_error (ex_pos ex) q = Some (s_y s, s_x s)) /\
    ((15 <= length idx)%nat -> length (ex_sources ex) = length idx /\
       forall q k, nth_error idx q = Some k -> nth_error (ex_sources ex) q = nth_error sources k) /\
    ((length idx < 15)%nat -> ex_sources ex = sources).
Proof.
  intros stats label pk image rms sh sources left ex H.
  apply cut_ok in H. destruct H as (v & T & ->). cbn [result ex_pos ex_stamps ex_sources ex_n].
  pose proof (turns_len _ _ _ _ _ _ _ _ _ T) as L.
  assert (KL : length (kept 0 v) = length (somes v)) by apply kept_length.
  exists (kept 0 v). split; [apply kept_sorted|]. split; [congruence|].
  split; [rewrite map_length, pick_length by exact L; congruence|].
  split; [congruence|]. split; [|split].
  - intros q k K. destruct (kept_nth sources v L _ _ _ K) as (a & b & E1 & E2 & E3 & E4).
    rewrite Nat.sub_0_r in E1, E3. exists b. split; [exact E3|]. now apply pos_nth.
  - intros G. rewrite KL in G. apply Nat.leb_le in G. rewrite G.
    split; [rewrite pick_length by exact L; congruence|].
    intros q k K. destruct (kept_nth sources v L _ _ _ K) as (a & b & E1 & E2 & E3 & E4).
    rewrite Nat.sub_0_r in E3. congruence.
  - intros G. rewrite KL in G. apply Nat.leb_gt in G. now rewrite G.
Qed.

Lemma alone stats label pk image rms sh s o :
  snd (cut_one stats label pk image rms sh s) = Ok o ->
  exists left1 ex1, cut_stamps stats label pk image rms sh [s] = (left1, Ok ex1) /\
    ex_stamps ex1 = match o with Some p => [p] | None => [] end.
Proof.
  destruct (cut_one stats label pk image rms sh s) as [im1 r] eqn:E. cbn [snd]. intros ->.
  destruct (single_turn _ _ _ _ _ _ _ _ _ E) as (ex & X & _ & Y). exists im1, ex. auto.
Qed.

(** When no two stamps overlap, a source is kept exactly when it is kept alone in the
    catalogue, with the same stamp. *)
Lemma C33_alone_lm : forall stats label pk image rms sh sources left ex,
  (0 < fst sh)%nat -> (0 < snd sh)%nat -> apart sh sources ->
  cut_stamps stats label pk (intact image) rms sh sources = (left, Ok ex) ->
  exists idx, StronglySorted lt idx /\ length (ex_stamps ex) = length idx /\
    (forall q k, nth_error idx q = Some k ->
       exists s p left1 ex1, nth_error sources k = Some s /\
         nth_error (ex_pos ex) q = Some (s_y s, s_x s) /\ nth_error (ex_stamps ex) q = Some p /\
         cut_stamps stats label pk (intact image) rms sh [s] = (left1, Ok ex1) /\ ex_stamps ex1 = [p]) /\
    (forall k s, nth_error sources k = Some s -> ~ In k idx ->
       exists left1 ex1, cut_stamps stats label pk (intact image) rms sh [s] = (left1, Ok ex1) /\ ex_stamps ex1 = []).
Proof.
  intros stats label pk image rms sh sources left ex Hr Hc Ap H.
  apply cut_ok in H. destruct H as (v & T & ->). cbn [result ex_pos ex_stamps].
  pose proof (turns_len _ _ _ _ _ _ _ _ _ T) as L.
  pose proof (turns_apart _ _ _ _ _ Hr Hc (intact image) _ _ _ _ Ap (fun s _ => agree_refl sh s _) T) as F.
  exists (kept 0 v). split; [apply kept_sorted|]. split; [now rewrite kept_length|]. split.
  - intros q k K. destruct (kept_nth sources v L _ _ _ K) as (a & b & E1 & E2 & E3 & E4).
    rewrite Nat.sub_0_r in E1, E3.
    destruct (alone _ _ _ _ _ _ _ _ (nth_F2 _ _ _ F _ _ _ E3 E1)) as (left1 & ex1 & X & Y).
    exists b, a, left1, ex1. split; [exact E3|]. split; [now apply pos_nth|]. auto.
  - intros k s K N. destruct (F2_nth_r _ _ _ F _ _ K) as (o & Eo & O).
    destruct (alone _ _ _ _ _ _ _ _ O) as (left1 & ex1 & X & Y). exists left1, ex1. split; [exact X|].
    rewrite Y. destruct o as [a|]; [|reflexivity]. exfalso. apply N. apply kept_in.
    split; [lia|]. exists a. now rewrite Nat.sub_0_r.
Qed.

(** With strict_star_pick=True only finite star-like stamps are stored, however small the
    catalogue and whatever the image. *)
Lemma C34_strict_always_lm : forall stats label public image rms sh sources left ex p,
  (0 < fst sh)%nat -> (0 < snd sh)%nat ->
  cut_stamps stats label (mkpicks true public) image rms sh sources = (left, Ok ex) ->
  In p (ex_stamps ex) -> exists q, plane_eq p (pmap Some q) /\ star_like stats label q.
Proof.
  intros stats label public image rms sh sources left ex p Hr Hc H I.
  destruct (kept_mid _ _ _ _ _ _ _ _ _ _ H I) as (mid & s & X).
  destruct (cut_some _ _ _ _ _ _ _ _ Hr Hc X) as (lev & _ & A & B & J).
  pose proof (judge_stamp _ _ _ _ _ J) as Ep. unfold judge in J. cbn [private_pick] in J.
  destruct (whole lev) as [w|] eqn:W; [|discriminate]. apply whole_dims in W. destruct W as [W1 W2].
  unfold strict in J. destruct (Req_EM_T (sumR (values w)) 0) as [Z|NZ] eqn:Q.
  { destruct (existsb _ _); discriminate. }
  set (q := pmap (fun x => x / sumR (values w)) w) in *.
  destruct (strict_finite stats label q) as [[]|] eqn:SF; cbn in J; [|discriminate|discriminate].
  exists q. split.
  - rewrite Ep. unfold unit_sum. split; [reflexivity|]. intros i j _ _. cbn [px pmap q]. rewrite ?Q. reflexivity.
  - apply strict_finite_true; [| |exact SF]; cbn [nr nc q pmap]; rewrite ?W1, ?W2, ?A, ?B; lia.
Qed.

(** A source that is not stored then has a stamp that is not star-like or not finite, if no two
    stamps overlap. *)
Lemma C34_rejected_lm : forall stats label public image rms sh sources left ex s,
  (0 < fst sh)%nat -> (0 < snd sh)%nat -> apart sh sources ->
  cut_stamps stats label (mkpicks true public) (intact image) rms sh sources = (left, Ok ex) ->
  In s sources ->
  (exists k, nth_error (ex_pos ex) k = Some (s_y s, s_x s)) \/
  (exists q, plane_eq (normalised (window image rms sh (s_y s, s_x s) 3)) (pmap Some q) /\
             ~ star_like stats label q) \/
  (forall i j, px (normalised (window image rms sh (s_y s, s_x s) 3)) i j = None).
Proof.
  intros stats label public image rms sh sources left ex s Hr Hc Ap H I.
  apply cut_ok in H. destruct H as (v & T & ->). cbn [result ex_pos].
  pose proof (turns_len _ _ _ _ _ _ _ _ _ T) as L.
  pose proof (turns_apart _ _ _ _ _ Hr Hc (intact image) _ _ _ _ Ap (fun s _ => agree_refl sh s _) T) as F.
  apply In_nth_error in I. destruct I as [k K].
  destruct (F2_nth_r _ _ _ F _ _ K) as (o & Eo & O).
  destruct o as [p|].
  - left. assert (J : In k (kept 0 v)).
    { apply kept_in. split; [lia|]. exists p. now rewrite Nat.sub_0_r. }
    apply In_nth_error in J. destruct J as [q Q]. exists q.
    destruct (kept_nth sources v L _ _ _ Q) as (a & b & E1 & E2 & E3 & E4).
    rewrite Nat.sub_0_r in E3. rewrite K in E3. injection E3 as <-. now apply pos_nth.
  - right. destruct (cut_one_ok _ _ _ _ _ _ Hr Hc _ _ O) as (A & B & C & _).
    rewrite cut_normal in O by assumption. cbn [private_pick snd] in O.
    pose proof (tstamp_normalised image rms sh s) as [NSh NE]. set (w := window image rms sh (s_y s, s_x s) 3) in *.
    unfold tstamp in NSh, NE. unfold strict in O.
    destruct (tlev image rms sh (s_y s, s_x s)) as [lev|] eqn:Lv; [|discriminate].
    destruct (tlev_dims image rms sh Hr Hc s lev Lv) as [D1 D2].
    destruct (Req_EM_T (sumR (values lev)) 0) as [Z|NZ] eqn:Q.
    * right. intros i j. destruct (tlev_level image rms sh s) as [Y N]. fold w in Y.
      assert (Hl : has_level image rms sh s).
      { unfold has_level. destruct (faint (values (stamp_window image rms sh s))) eqn:Fa; [|discriminate].
        rewrite N in Lv; [discriminate|]. unfold has_level. congruence. }
      destruct (Y Hl) as (q & E & P). rewrite E in Lv. injection Lv as <-.
      unfold normalised. cbn [px pmap]. unfold has_level, stamp_window in Hl. fold w in Hl.
      destruct (faint (values w)) as [|y t] eqn:Fw; [reflexivity|].
      assert (V : values (pmap (fun x => x - median (y :: t)) w) = values (tidy q)).
      { rewrite (values_ext _ _ (tidy_eq q)). rewrite (values_ext _ _ P). unfold level_of, stamp_window. fold w. now rewrite Fw. }
      rewrite V. destruct (Req_EM_T (sumR (values (tidy q))) 0); [reflexivity|contradiction].
    * left. set (q := pmap (fun x => x / sumR (values lev)) lev) in *. exists q. split.
      { split.
        - rewrite <- NSh. reflexivity.
        - intros i j Hi Hj. rewrite <- NE.
          + unfold unit_sum. cbn [px pmap q]. rewrite ?Q. reflexivity.
          + cbn [nr unit_sum pmap]. rewrite D1. cbn [normalised pmap nr w window] in Hi. lia.
          + cbn [nc unit_sum pmap]. rewrite D2. cbn [normalised pmap nc w window] in Hj. lia. }
      intros SL. apply strict_finite_true in SL;
        [|cbn [nr nc q pmap]; rewrite ?D1, ?D2; lia|cbn [nr nc q pmap]; rewrite ?D1, ?D2; lia].
      rewrite SL in O. discriminate.
Qed.

(** Every stored stamp sums to one, or none of its cells is finite. *)
Lemma C35_unit_sum_lm : forall stats label pk image rms sh sources left ex p,
  (0 < fst sh)%nat -> (0 < snd sh)%nat ->
  cut_stamps stats label pk image rms sh sources = (left, Ok ex) -> In p (ex_stamps ex) ->
  (exists q, plane_eq p (pmap Some q) /\ sumR (values q) = 1) \/ (forall i j, px p i j = None).
Proof.
  intros stats label pk image rms sh sources left ex p Hr Hc H I.
  destruct (kept_mid _ _ _ _ _ _ _ _ _ _ H I) as (mid & s & X).
  destruct (cut_some _ _ _ _ _ _ _ _ Hr Hc X) as (lev & _ & A & B & J).
  apply judge_stamp in J. subst p. destruct (whole lev) as [w|]; [|right; reflexivity].
  unfold unit_sum. destruct (Req_EM_T (sumR (values w)) 0) as [Z|NZ]; [right; reflexivity|].
  left. exists (pmap (fun x => x / sumR (values w)) w). split; [split; reflexivity|].
  rewrite values_pmap. unfold sumR in *. set (t := fold_right Rplus 0 (values w)) in *.
  assert (G : forall l, fold_right Rplus 0 (map (fun x => x / t) l) = fold_right Rplus 0 l / t).
  { induction l as [|x l IH]; cbn; [field; exact NZ|]. rewrite IH. field. exact NZ. }
  rewrite G. unfold t in *. field. exact NZ.
Qed.

(** When no two stamps overlap, the stamp stored for a source is exactly its window with three
    more cells on each side, minus the median of the cells below the 70th percentile, divided by
    the sum: the initial shift by the minimum has no effect. *)
Lemma C80_stamp_formula_lm : forall stats label pk image rms sh sources left ex k pos p,
  (0 < fst sh)%nat -> (0 < snd sh)%nat -> apart sh sources ->
  cut_stamps stats label pk (intact image) rms sh sources = (left, Ok ex) ->
  nth_error (ex_pos ex) k = Some pos -> nth_error (ex_stamps ex) k = Some p ->
  plane_eq p (normalised (window image rms sh pos 3)).
Proof.
  intros stats label pk image rms sh sources left ex k pos p Hr Hc Ap H Ek Ep.
  destruct (kept_source _ _ _ _ _ _ _ _ _ _ _ H Ep) as (v & q & s & T & _ & E1 & E2 & E3).
  pose proof (turns_apart _ _ _ _ _ Hr Hc (intact image) _ _ _ _ Ap (fun s _ => agree_refl sh s _) T) as F.
  pose proof (nth_F2 _ _ _ F _ _ _ E1 E2) as O.
  destruct (cut_one_ok _ _ _ _ _ _ Hr Hc _ _ O) as (_ & _ & _ & [X|X]); [|discriminate]. injection X as ->.
  assert (pos = (s_y s, s_x s)) by congruence. subst pos. apply tstamp_normalised.
Qed.

(** In general the window is taken from the image as the sources before it left it. *)
Lemma C80_in_turn_lm : forall stats label pk now image rms sh s left ex p,
  (0 < fst sh)%nat -> (0 < snd sh)%nat -> shape now = shape image ->
  (forall i j, (i < nr image)%nat -> (j < nc image)%nat -> in_stamp sh s (Z.of_nat i) (Z.of_nat j) ->
     px now i j = Some (px image i j)) ->
  cut_stamps stats label pk now rms sh [s] = (left, Ok ex) -> ex_stamps ex = [p] ->
  plane_eq p (normalised (window image rms sh (s_y s, s_x s) 3)).
Proof.
  intros stats label pk now image rms sh s left ex p Hr Hc S H E Es.
  unfold shape in S. injection S as Sr Sc.
  apply cut_ok in E. destruct E as (v & T & ->). inversion T as [|? ? o im1 ? v' ? X F]; subst. inversion F; subst.
  assert (o = Some p) by (destruct o; cbn in Es; congruence). subst o.
  assert (A : agree sh s now (intact image)).
  { split; [exact Sr|]. split; [exact Sc|]. intros i j Hi Hj J. apply H; congruence. }
  destruct (cut_agree stats label pk rms sh Hr Hc s _ _ A) as [Y _]. rewrite X in Y. cbn [snd] in Y. symmetry in Y.
  destruct (cut_one_ok _ _ _ _ _ _ Hr Hc _ _ Y) as (_ & _ & _ & [Z|Z]); [|discriminate]. injection Z as ->.
  apply tstamp_normalised.
Qed.

(** Multiplying the image by a positive number and adding a constant does not change the
    stamps of sources whose windows are inside the image and do not overlap, whatever the noise
    level. *)
Lemma C81_scale_and_level_lm : forall stats label pk image rms rms' a c sh sources left left' ex ex',
  (0 < fst sh)%nat -> (0 < snd sh)%nat -> 0 < a -> private_pick pk = false ->
  interior image sh sources -> apart sh sources ->
  cut_stamps stats label pk (intact image) rms sh sources = (left, Ok ex) ->
  cut_stamps stats label pk (intact (pmap (fun x => a * x + c) image)) rms' sh sources = (left', Ok ex') ->
  ex_pos ex' = ex_pos ex /\ Forall2 plane_eq (ex_stamps ex') (ex_stamps ex).
Proof.
  intros stats label pk image rms rms' a c sh sources left left' ex ex' Hr Hc Ha Pk In1 Ap E E'.
  assert (G : forall im r lf e, cut_stamps stats label pk (intact im) r sh sources = (lf, Ok e) ->
     ex_pos e = map (fun s => (s_y s, s_x s)) sources /\
     ex_stamps e = map (fun s => tstamp im r sh (s_y s, s_x s)) sources).
  { intros im r lf e X. apply cut_ok in X. destruct X as (v & T & ->). cbn [result ex_pos ex_stamps].
    pose proof (turns_apart _ _ _ _ _ Hr Hc (intact im) _ _ _ _ Ap (fun s _ => agree_refl sh s _) T) as F.
    assert (v = map (fun s => Some (tstamp im r sh (s_y s, s_x s))) sources).
    { clear - F Pk Hr Hc. induction F as [|s o l v O F IH]; [reflexivity|]. cbn [map]. f_equal; [|exact IH].
      pose proof O as O'. destruct (cut_one_ok _ _ _ _ _ _ Hr Hc _ _ O) as (A & B & C & _).
      rewrite cut_normal, Pk in O' by assumption. cbn [snd] in O'. congruence. }
    subst v. split.
    - f_equal. clear. induction sources as [|s l IH]; cbn; [reflexivity|now rewrite IH].
    - clear. induction sources as [|s l IH]; cbn; [reflexivity|now rewrite IH]. }
  destruct (G _ _ _ _ E) as [-> ->], (G _ _ _ _ E') as [-> ->]. split; [reflexivity|].
  assert (Al : forall s, In s sources ->
    plane_eq (tstamp (pmap (fun x => a * x + c) image) rms' sh (s_y s, s_x s)) (tstamp image rms sh (s_y s, s_x s))).
  { intros s I. pose proof (window_affine a c image rms rms' sh s sources In1 I) as W.
    pose proof (normalised_affine a c _ _ Ha W) as N.
    pose proof (tstamp_normalised (pmap (fun x => a * x + c) image) rms' sh s) as S1.
    pose proof (tstamp_normalised image rms sh s) as S2.
    eapply plane_eq_trans; [exact S1|]. eapply plane_eq_trans; [exact N|]. now apply plane_eq_sym. }
  clear - Al. induction sources as [|s l IH]; cbn; constructor.
  - apply Al. now left.
  - apply IH. intros; apply Al; now right.
Qed.
