(** [transparency] for a master that has no identifiers yet. *)
From Coq Require Import ZArith List Bool Arith Reals Lia Lra Permutation.
From Verif.Model Require Import Py Transparency.
From Verif.Spec Require Import Transparency.
From Verif.Proof Require Import LeastSquares Transparency.
Import ListNotations.

Lemma filter_map {A B} (f : B -> bool) (g : A -> B) s : filter f (map g s) = map g (filter (fun a => f (g a)) s).
Proof. induction s as [|a s IH]; [reflexivity|]. cbn. rewrite IH. now destruct (f (g a)). Qed.

Lemma filter_nth {A} (f : A -> bool) l d :
  filter f l = map (fun i => nth i l d) (filter (fun i => f (nth i l d)) (seq 0 (length l))).
Proof.
  induction l as [|a l IH]; [reflexivity|]. cbn [length seq filter nth].
  rewrite <- seq_shift.
  rewrite filter_map. cbn [nth]. destruct (f a); cbn [map nth]; rewrite map_map, IH; reflexivity.
Qed.

Lemma filter_unique {A} (f : A -> bool) l j r : nth_error l j = Some r -> f r = true ->
  (forall j' r', nth_error l j' = Some r' -> f r' = true -> j' = j) -> filter f l = [r].
Proof.
  revert j. induction l as [|a l IH]; intros j E F U; [destruct j; discriminate|].
  assert (NO : forall l', (forall j' r', nth_error l' j' = Some r' -> f r' = true -> False) -> filter f l' = []).
  { clear. induction l' as [|b l' IH]; [reflexivity|]. intros H. cbn. destruct (f b) eqn:E.
    - elim (H 0 b eq_refl E).
    - apply IH. intros j' r'. apply (H (S j') r'). }
  destruct j as [|j].
  - cbn in E. injection E as ->. cbn. rewrite F. f_equal. apply NO. intros j' r' E' F'.
    specialize (U (S j') r' E' F'). discriminate.
  - cbn. destruct (f a) eqn:Fa.
    + specialize (U 0 a eq_refl Fa). discriminate.
    + apply (IH j); trivial. intros j' r' E' F'. specialize (U (S j') r' E' F'). lia.
Qed.

Lemma filter_perm {A} (f : A -> bool) l l' : Permutation l l' -> Permutation (filter f l) (filter f l').
Proof.
  induction 1; cbn; trivial.
  - destruct (f x); [now constructor|trivial].
  - destruct (f x), (f y); try apply Permutation_refl. apply perm_swap.
  - now transitivity (filter f l').
Qed.

Lemma mapM_ok {A B} (f : A -> res B) (g : A -> B) l : (forall a, In a l -> f a = Ok (g a)) -> mapM f l = Ok (map g l).
Proof.
  induction l as [|a l IH]; intros H; [reflexivity|]. cbn. rewrite H by now left. cbn.
  rewrite IH by (intros; apply H; now right). reflexivity.
Qed.

Lemma filter_seq_order f n : forall a b i i', a < b -> nth_error (filter f (seq 0 n)) a = Some i ->
  nth_error (filter f (seq 0 n)) b = Some i' -> i < i'.
Proof.
  generalize 0 as s. induction n as [|n IH]; intros s a b i i' Hab Ea Eb; [destruct a; discriminate|].
  cbn [seq filter] in *. destruct (f s).
  - destruct b as [|b]; [lia|]. cbn in Eb. destruct a as [|a].
    + injection Ea as <-. apply nth_error_In in Eb. apply filter_In in Eb. destruct Eb as (Eb & _). apply in_seq in Eb. lia.
    + apply (IH (S s) a b); trivial. lia.
  - apply (IH (S s) a b); trivial.
Qed.

Section Fresh.
Variable query : list pt -> list pt -> R -> list (option nat).
Hypothesis N : nearest query.
Variable sort_cat : list row -> list row.
Hypothesis SP : forall l, Permutation (sort_cat l) l.
Variable lsqr : nat -> nat -> (nat -> nat -> R) -> list R -> list R.
Variable mc0 : cat.
Hypothesis F : has_id mc0 = false.
Variable imgs : list cat.

Local Notation n := (length (rows mc0)).
Local Notation mc := (with_source_ids mc0).

Lemma fresh_rows : rows mc = set_ids (map Z.of_nat (seq 0 n)) (rows mc0).
Proof. unfold with_source_ids, append_ids. rewrite F. reflexivity. Qed.

Lemma ids_len : length (map Z.of_nat (seq 0 n)) = length (rows mc0).
Proof. now rewrite map_length, seq_length. Qed.

Lemma fresh_len : length (rows mc) = n.
Proof. rewrite fresh_rows. apply set_ids_length, ids_len. Qed.

Lemma fresh_xy : map xy (rows mc) = map xy (rows mc0).
Proof. rewrite fresh_rows. apply set_ids_xy, ids_len. Qed.

Lemma fresh_ids : map r_id (rows mc) = map Z.of_nat (seq 0 n).
Proof. rewrite fresh_rows. apply set_ids_ids, ids_len. Qed.

Lemma fresh_nth i : i < n -> nth i (rows mc) row0 = with_id (Z.of_nat i) (nth i (rows mc0) row0).
Proof.
  intros H. rewrite fresh_rows. apply nth_error_nth. rewrite (set_ids_nth _ _ i row0 ids_len H). f_equal. f_equal.
  change 0%Z with (Z.of_nat 0). rewrite map_nth, seq_nth by trivial. reflexivity.
Qed.

Lemma fresh_id_nth i : i < n -> nth i (map r_id (rows mc)) sentinel = Z.of_nat i.
Proof.
  intros H. rewrite fresh_ids. rewrite (nth_indep _ sentinel (Z.of_nat 0)) by (rewrite ids_len; exact H).
  rewrite map_nth, seq_nth by trivial. reflexivity.
Qed.

Lemma ids_for_spec c j : j < length (rows c) ->
  (forall i, matched query mc0 c i j -> nth_error (ids_for query mc c) j = Some (Z.of_nat i)) /\
  ((forall i, ~ matched query mc0 c i j) -> nth_error (ids_for query mc c) j = Some sentinel).
Proof.
  intros Hj. unfold ids_for. rewrite fresh_xy.
  assert (Hj' : j < length (map xy (rows c))) by now rewrite map_length.
  rewrite (matching_nth query _ _ _ _ j Hj'). split.
  - intros i M. f_equal. rewrite (match_one_mutual query _ _ _ _ i j M).
    apply fresh_id_nth. destruct (mutual_bounds query N _ _ _ _ _ M) as (B & _). now rewrite map_length in B.
  - intros H. f_equal. now apply match_one_none.
Qed.

Lemma ids_for_len c : length (ids_for query mc c) = length (rows c).
Proof. unfold ids_for. rewrite matching_len. apply map_length. Qed.

Lemma matched_bounds c i j : matched query mc0 c i j -> i < n /\ j < length (rows c).
Proof. intros M. destruct (mutual_bounds query N _ _ _ _ _ M) as (A & B). now rewrite map_length in A, B. Qed.

Lemma ids_for_iff c i j : nth_error (ids_for query mc c) j = Some (Z.of_nat i) <-> matched query mc0 c i j.
Proof.
  split.
  - intros E. assert (Hj : j < length (rows c)).
    { rewrite <- ids_for_len. apply nth_error_Some. now rewrite E. }
    destruct (ids_for_spec c j Hj) as (A & B).
    destruct (mutual_dec query (map xy (rows mc0)) (map xy (rows c)) 2 j) as [(i' & M)|M].
    + rewrite (A i' M) in E. injection E as E. apply Nat2Z.inj in E. now subst.
    + rewrite (B M) in E. injection E as E. unfold sentinel in E. lia.
  - intros M. destruct (matched_bounds c i j M) as (_ & Hj). now apply ids_for_spec.
Qed.

Definition detected i : bool := detf query mc imgs (nth i (rows mc) row0).
Definition L : list nat := filter detected (seq 0 n).

Lemma detected_iff i : i < n -> (detected i = true <-> forall c, In c imgs -> exists j, matched query mc0 c i j).
Proof.
  intros Hi. unfold detected, detf. rewrite forallb_forall, (fresh_nth i Hi). cbn [r_id with_id].
  split; intros H c Hc; specialize (H c Hc).
  - apply existsb_exists in H. destruct H as (z & Hz & E). apply Z.eqb_eq in E. subst z.
    apply In_nth_error in Hz. destruct Hz as (j & Hz). exists j. now apply ids_for_iff.
  - destruct H as (j & M). apply existsb_exists. exists (Z.of_nat i). split; [|apply Z.eqb_refl].
    apply nth_error_In with j. now apply ids_for_iff.
Qed.

Lemma L_common : common query mc0 imgs L.
Proof.
  split; [apply NoDup_filter, seq_NoDup|]. split; [intros a b i i'; apply filter_seq_order|].
  intros i. unfold L. rewrite filter_In, in_seq. split.
  - intros (Hi & D). split; [lia|]. apply detected_iff; [lia|exact D].
  - intros (Hi & D). split; [lia|]. now apply detected_iff.
Qed.

Lemma found_eq : filter (detf query mc imgs) (rows mc) = map (fun i => nth i (rows mc) row0) L.
Proof. rewrite (filter_nth _ _ row0), fresh_len. reflexivity. Qed.

Definition partner (c : cat) (i : nat) : nat :=
  match nth i (query (map xy (rows mc0)) (map xy (rows c)) 2%R) None with Some j => j | None => 0 end.

Lemma partner_matched c i j : matched query mc0 c i j -> partner c i = j.
Proof. intros (H & _). unfold partner. now rewrite (nth_error_nth' _ _ _ _ H). Qed.

Lemma flux_found c i j : matched query mc0 c i j ->
  flux_of (Z.of_nat i) (newcat query sort_cat mc c) = Ok (r_flux (nth j (rows c) row0)).
Proof.
  intros M. destruct (matched_bounds c i j M) as (Hi & Hj). unfold flux_of, newcat. cbn [rows].
  set (s := set_ids (ids_for query mc c) (rows c)).
  assert (U : filter (fun r => Z.eqb (r_id r) (Z.of_nat i)) s = [with_id (Z.of_nat i) (nth j (rows c) row0)]).
  { assert (K : forall j', j' < length (rows c) -> nth_error s j' = Some (with_id (nth j' (ids_for query mc c) 0%Z) (nth j' (rows c) row0))).
    { intros j' Hj'. apply set_ids_nth; trivial. apply ids_for_len. }
    assert (Ej : nth j (ids_for query mc c) 0%Z = Z.of_nat i).
    { apply nth_error_nth. now apply ids_for_iff. }
    apply filter_unique with j.
    - rewrite (K j Hj), Ej. reflexivity.
    - cbn. apply Z.eqb_refl.
    - intros j' r' E G. assert (Hj' : j' < length (rows c)).
      { rewrite <- (set_ids_length (ids_for query mc c) (rows c) (ids_for_len c)). apply nth_error_Some. fold s. now rewrite E. }
      rewrite (K j' Hj') in E. injection E as <-. cbn in G. apply Z.eqb_eq in G.
      assert (E' : nth_error (ids_for query mc c) j' = Some (Z.of_nat i)).
      { rewrite <- G. destruct (nth_error (ids_for query mc c) j') as [z|] eqn:E.
        - f_equal. symmetry. now apply nth_error_nth.
        - apply nth_error_None in E. rewrite ids_for_len in E. lia. }
      apply ids_for_iff in E'. apply (mutual_fun_r query _ _ _ _ _ _ E' M). }
  assert (P : Permutation (filter (fun r => Z.eqb (r_id r) (Z.of_nat i)) (sort_cat s)) [with_id (Z.of_nat i) (nth j (rows c) row0)]).
  { rewrite <- U. apply filter_perm, SP. }
  apply Permutation_sym in P. apply Permutation_length_1_inv in P. rewrite P. reflexivity.
Qed.

Definition mags : list R :=
  map (mag_of mc0) L ++ flat_map (fun i => map (fun c => mag_of c (partner c i)) imgs) L.

Lemma in_L i : In i L -> i < n /\ forall c, In c imgs -> matched query mc0 c i (partner c i).
Proof.
  intros H. apply L_common in H. destruct H as (Hi & H). split; [exact Hi|]. intros c Hc.
  destruct (H c Hc) as (j & M). now rewrite (partner_matched c i j M).
Qed.

Lemma mag_of_eq c i : mag_of c i = mag (r_flux (nth i (rows c) row0)).
Proof. unfold mag_of, mag, row0. lra. Qed.

Lemma fresh_result :
  transparency_of query sort_cat lsqr mc0 imgs =
  Ok (let p := S (length imgs) in let q := length L in
      if q =? 0 then mkout (repeat 1%R p) None (map (newcat query sort_cat mc) imgs) mc0
      else let P := lsqr (p * q) (p + q) (design p q) mags in
           mkout (firstn p P) (Some (skipn p P)) (map (newcat query sort_cat mc) imgs)
             (mkcat true true (set_dets (map (detf query mc imgs) (rows mc)) (rows mc)))).
Proof.
  rewrite transparency_unfold. cbv zeta. rewrite found_eq, map_length, F. cbn [andb].
  destruct (length L =? 0) eqn:E; [reflexivity|].
  assert (I : has_id mc = true) by (unfold with_source_ids, append_ids; now rewrite F).
  rewrite I.
  rewrite (mapM_ok _ (fun r => map (fun c => mag_of c (partner c (Z.to_nat (r_id r)))) imgs)).
  - cbn [bind]. f_equal.
    assert (M : map (fun r => mag (r_flux r)) (map (with_det true) (map (fun i => nth i (rows mc) row0) L)) ++
                concat (map (fun r => map (fun c => mag_of c (partner c (Z.to_nat (r_id r)))) imgs)
                            (map (with_det true) (map (fun i => nth i (rows mc) row0) L))) = mags).
    { unfold mags. rewrite !map_map. f_equal.
      - apply map_ext_in. intros i Hi. apply in_L in Hi. destruct Hi as (Hi & _). rewrite (fresh_nth i Hi), mag_of_eq. reflexivity.
      - rewrite flat_map_concat_map. f_equal. apply map_ext_in. intros i Hi. apply in_L in Hi. destruct Hi as (Hi & _).
        rewrite (fresh_nth i Hi). cbn [with_det with_id r_id]. rewrite Nat2Z.id. reflexivity. }
    rewrite M. reflexivity.
  - intros r Hr. apply in_map_iff in Hr. destruct Hr as (r1 & <- & Hr). apply in_map_iff in Hr. destruct Hr as (i & <- & Hi).
    apply in_L in Hi. destruct Hi as (Hi & M). rewrite (fresh_nth i Hi). cbn [with_det with_id r_id]. rewrite Nat2Z.id.
    assert (G : forall l, incl l imgs -> mapM (fun c => bind (flux_of (Z.of_nat i) c) (fun f => Ok (mag f))) (map (newcat query sort_cat mc) l)
                = Ok (map (fun c => mag_of c (partner c i)) l)); [|apply G; apply incl_refl].
    induction l as [|c l IH]; intros Hl; [reflexivity|]. cbn [map mapM].
    rewrite (flux_found c i (partner c i)) by (apply M, Hl; now left). cbn [bind].
    rewrite IH by (intros x Hx; apply Hl; now right). cbn [bind]. now rewrite mag_of_eq.
Qed.

Lemma mags_len : length mags = S (length imgs) * length L.
Proof.
  unfold mags. rewrite app_length, map_length.
  assert (E : length (flat_map (fun i => map (fun c => mag_of c (partner c i)) imgs) L) = length imgs * length L).
  { induction L as [|i l IH]; [cbn; lia|]. cbn. rewrite app_length, map_length, IH. lia. }
  rewrite E. lia.
Qed.

End Fresh.

Lemma flat_map_nth {A B} (f : A -> list B) w l d0 d r k : (forall a, In a l -> length (f a) = w) ->
  r < length l -> k < w -> nth (r * w + k) (flat_map f l) d = nth k (f (nth r l d0)) d.
Proof.
  revert r. induction l as [|a l IH]; intros r H Hr Hk; cbn in Hr; [lia|].
  cbn [flat_map]. pose proof (H a (or_introl eq_refl)) as Ha. destruct r as [|r].
  - rewrite app_nth1 by (cbn; lia). reflexivity.
  - rewrite app_nth2 by (rewrite Ha; cbn; lia). rewrite Ha. replace (S r * w + k - w) with (r * w + k) by (cbn; lia).
    cbn [nth]. apply IH; trivial; [|lia]. intros; apply H; now right.
Qed.
