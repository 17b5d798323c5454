(** Matching: mutual nearest neighbours; the structure of [transparency]. *)
From Coq Require Import ZArith List Bool Arith Reals Lia Lra Permutation.
From Verif.Model Require Import Py Transparency.
From Verif.Spec Require Import Transparency.
From Verif.Proof Require Import LeastSquares.
Import ListNotations.

Lemma nth_error_nth' {A} (l : list A) i d a : nth_error l i = Some a -> nth i l d = a.
Proof. apply nth_error_nth. Qed.

Lemma nth_some_error {A} (l : list (option A)) i a : nth i l None = Some a -> nth_error l i = Some (Some a).
Proof.
  intros H. destruct (nth_error l i) as [x|] eqn:E.
  - apply nth_error_nth with (d := None) in E. congruence.
  - apply nth_error_None in E. rewrite nth_overflow in H by trivial. discriminate.
Qed.

Section Match.
Variable query : list pt -> list pt -> R -> list (option nat).
Hypothesis N : nearest query.

Lemma mutual_fun_r A B r i j j' : mutual query A B r i j -> mutual query A B r i j' -> j = j'.
Proof. intros (H & _) (H' & _). congruence. Qed.

Lemma mutual_fun_l A B r i i' j : mutual query A B r i j -> mutual query A B r i' j -> i = i'.
Proof. intros (_ & H) (_ & H'). congruence. Qed.

Lemma query_some A B r i j : nth_error (query A B r) i = Some (Some j) ->
  exists a b, nth_error A i = Some a /\ nth_error B j = Some b /\ (dist a b < r)%R /\
    forall j' b', nth_error B j' = Some b' -> (dist a b <= dist a b')%R.
Proof.
  intros H. destruct (N A B r) as (L & V).
  assert (Hi : i < length A) by (rewrite <- L; apply nth_error_Some; now rewrite H).
  destruct (nth_error A i) as [a|] eqn:E; [|apply nth_error_None in E; lia].
  specialize (V i a E). rewrite (nth_error_nth' _ _ _ _ H) in V.
  destruct V as (b & E' & D & M). exists a, b. auto.
Qed.

Lemma match_one_spec ids A B r j : j < length B ->
  match_one ids (query A B r) (query B A r) j =
  match nth j (query B A r) None with
  | Some i => if match nth i (query A B r) None with Some j' => j' =? j | None => false end
              then nth i ids sentinel else sentinel
  | None => sentinel
  end.
Proof.
  intros _. unfold match_one. destruct (nth j _ None) as [i|]; [|reflexivity].
  now destruct (nth i _ None).
Qed.

Lemma match_one_mutual ids A B r i j : mutual query A B r i j ->
  match_one ids (query A B r) (query B A r) j = nth i ids sentinel.
Proof.
  intros (H1 & H2). unfold match_one. rewrite (nth_error_nth' _ _ _ _ H2), (nth_error_nth' _ _ _ _ H1).
  now rewrite Nat.eqb_refl.
Qed.

Lemma match_one_none ids A B r j : (forall i, ~ mutual query A B r i j) ->
  match_one ids (query A B r) (query B A r) j = sentinel.
Proof.
  intros H. unfold match_one. destruct (nth j _ None) as [i|] eqn:E; [|reflexivity].
  destruct (nth i _ None) as [j'|] eqn:E'; [|reflexivity].
  destruct (Nat.eqb_spec j' j) as [->|]; [|reflexivity].
  elim (H i). split; now apply nth_some_error.
Qed.

Lemma mutual_dec A B r j : {i | mutual query A B r i j} + {forall i, ~ mutual query A B r i j}.
Proof.
  destruct (nth_error (query B A r) j) as [[i|]|] eqn:E.
  - destruct (nth_error (query A B r) i) as [[j'|]|] eqn:E'.
    + destruct (Nat.eq_dec j' j) as [->|Hn].
      * left. exists i. now split.
      * right. intros i' (H1 & H2). rewrite E in H2. injection H2 as <-. congruence.
    + right. intros i' (H1 & H2). congruence.
    + right. intros i' (H1 & H2). congruence.
  - right. intros i' (H1 & H2). congruence.
  - right. intros i' (H1 & H2). congruence.
Qed.

Lemma matching_len ids A B r : length (fst (matching query A ids B r)) = length B.
Proof. unfold matching. cbn [fst]. now rewrite map_length, seq_length. Qed.

Lemma matching_nth ids A B r j : j < length B ->
  nth_error (fst (matching query A ids B r)) j = Some (match_one ids (query A B r) (query B A r) j).
Proof.
  intros H. unfold matching, crossmatch. cbn [fst]. rewrite nth_error_map.
  rewrite (nth_error_nth' (seq 0 (length B)) j 0 j) || idtac.
  assert (E : nth_error (seq 0 (length B)) j = Some j).
  { rewrite (nth_error_nth' (seq 0 (length B)) j 0 (nth j (seq 0 (length B)) 0)) || idtac.
    destruct (nth_error (seq 0 (length B)) j) as [x|] eqn:E.
    - apply nth_error_nth with (d := 0) in E. rewrite seq_nth in E by trivial. cbn in E. now subst.
    - apply nth_error_None in E. rewrite seq_length in E. lia. }
  now rewrite E.
Qed.

Lemma mutual_bounds A B r i j : mutual query A B r i j -> i < length A /\ j < length B.
Proof.
  intros (H1 & H2). destruct (N A B r) as (L & _). destruct (N B A r) as (L' & _). split.
  - rewrite <- L. apply nth_error_Some. now rewrite H1.
  - rewrite <- L'. apply nth_error_Some. now rewrite H2.
Qed.

(* ------------------------------------------------------------------ *)
(** ** transparency with fresh identifiers *)

Variable sort_cat : list row -> list row.
Hypothesis SP : forall l, Permutation (sort_cat l) l.
Variable lsqr : nat -> nat -> (nat -> nat -> R) -> list R -> list R.

Definition ids_for (mc c : cat) : list Z :=
  fst (matching query (map xy (rows mc)) (map r_id (rows mc)) (map xy (rows c)) 2%R).

Lemma process_eq mc c : process_image query sort_cat mc c =
  (ids_for mc c, mkcat true (has_det c) (sort_cat (set_ids (ids_for mc c) (rows c)))).
Proof.
  unfold process_image, ids_for, append_ids. cbv zeta. destruct (has_id c) eqn:E; cbn [has_id has_det rows]; now rewrite ?E.
Qed.

Lemma set_ids_length ids l : length ids = length l -> length (set_ids ids l) = length l.
Proof. intros H. unfold set_ids. rewrite map_length, combine_length, H. apply Nat.min_id. Qed.

Lemma set_ids_ids ids l : length ids = length l -> map r_id (set_ids ids l) = ids.
Proof.
  revert l. induction ids as [|z ids IH]; intros [|r l] H; try discriminate; [reflexivity|].
  cbn. f_equal. apply IH. now injection H.
Qed.

Lemma set_ids_xy ids l : length ids = length l -> map xy (set_ids ids l) = map xy l.
Proof.
  revert l. induction ids as [|z ids IH]; intros [|r l] H; try discriminate; [reflexivity|].
  cbn. f_equal. apply IH. now injection H.
Qed.

Lemma set_ids_nth ids l i d : length ids = length l -> i < length l ->
  nth_error (set_ids ids l) i = Some (with_id (nth i ids 0%Z) (nth i l d)).
Proof.
  revert l i. induction ids as [|z ids IH]; intros [|r l] i H Hi; try discriminate; cbn in Hi; [lia|].
  destruct i as [|i]; [reflexivity|]. cbn. apply IH; [now injection H|lia].
Qed.

Lemma set_dets_nth bs l i d : length bs = length l -> i < length l ->
  nth_error (set_dets bs l) i = Some (with_det (nth i bs false) (nth i l d)).
Proof.
  revert l i. induction bs as [|z ids IH]; intros [|r l] i H Hi; try discriminate; cbn in Hi; [lia|].
  destruct i as [|i]; [reflexivity|]. cbn. apply IH; [now injection H|lia].
Qed.

Definition row0 : row := mkrow 0 0 0 0 false.

(** Filtering by the new "detected" field. *)
Lemma filter_dets (f : row -> bool) l :
  filter r_det (set_dets (map f l) l) = map (with_det true) (filter f l).
Proof.
  induction l as [|r l IH]; [reflexivity|]. cbn [map combine set_dets filter].
  unfold set_dets in *. cbn [combine map filter fst snd]. cbn [with_det r_det].
  destruct (f r); cbn [map]; now rewrite IH.
Qed.

Definition detf (mc : cat) (imgs : list cat) (r : row) : bool :=
  forallb (fun c => existsb (Z.eqb (r_id r)) (ids_for mc c)) imgs.

Definition newcat (mc c : cat) : cat := mkcat true (has_det c) (sort_cat (set_ids (ids_for mc c) (rows c))).

(** The program with its helper structures unfolded. *)
Lemma transparency_unfold mc0 imgs :
  let mc := with_source_ids mc0 in
  let found := filter (detf mc imgs) (rows mc) in
  let p := S (length imgs) in
  let q := length found in
  let mc' := mkcat (has_id mc) true (set_dets (map (detf mc imgs) (rows mc)) (rows mc)) in
  transparency_of query sort_cat lsqr mc0 imgs =
  if q =? 0 then Ok (mkout (repeat 1%R p) None (map (newcat mc) imgs) (if has_id mc0 && has_det mc0 then mc' else mc0))
  else bind (mapM (fun r => mapM (fun c => bind (flux_of (r_id r) c) (fun f => Ok (mag f))) (map (newcat mc) imgs)) (map (with_det true) found))
    (fun mm => let P := lsqr (p * q) (p + q) (design p q) (map (fun r => mag (r_flux r)) (map (with_det true) found) ++ concat mm) in
       Ok (mkout (firstn p P) (Some (skipn p P)) (map (newcat mc) imgs) mc')).
Proof.
  cbv zeta. unfold transparency_of. cbv zeta. set (mc := with_source_ids mc0).
  assert (E1 : map snd (map (process_image query sort_cat mc) imgs) = map (newcat mc) imgs).
  { rewrite map_map. apply map_ext. intros c. now rewrite process_eq. }
  assert (E2 : map (fun r => forallb (fun d => existsb (Z.eqb (r_id r)) (fst d)) (map (process_image query sort_cat mc) imgs)) (rows mc)
               = map (detf mc imgs) (rows mc)).
  { apply map_ext. intros r. unfold detf. clear. induction imgs as [|c imgs IH]; [reflexivity|].
    cbn [map forallb]. rewrite process_eq, IH. reflexivity. }
  rewrite E1, E2.
  set (mc' := match append_dets _ mc with Ok c => c | Raise _ => _ end).
  assert (E3 : mc' = mkcat (has_id mc) true (set_dets (map (detf mc imgs) (rows mc)) (rows mc))).
  { unfold mc', append_dets. destruct (has_det mc) eqn:E; [now rewrite ?E|reflexivity]. }
  rewrite E3. cbn [rows]. rewrite filter_dets, map_length. reflexivity.
Qed.

End Match.
