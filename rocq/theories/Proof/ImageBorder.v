(** The border search. *)
From Coq Require Import ZArith List Bool Arith String Lia.
From Coq Require Import SpecFloat.
From Verif.Model Require Import Py Plane Ma Image.
From Verif.Spec Require Import Image.
Import ListNotations.
Set Bullet Behavior "Strict Subproofs".

Lemma feqb_zero v : feqb v fzero = true <-> exists s, v = S754_zero s.
Proof.
  unfold feqb, fzero. destruct v as [s|s| |s m e]; cbn [fcmp].
  - split; [now exists s|reflexivity].
  - split; [destruct s; discriminate|intros [? ?]; discriminate].
  - split; [discriminate|intros [? ?]; discriminate].
  - split; [|intros [? ?]; discriminate]. cbn [fexp fnum].
    assert (P : (0 < Zpos m * 2 ^ (e - Z.min e 0))%Z) by (apply Z.mul_pos_pos; [lia|apply Z.pow_pos_nonneg; lia]).
    destruct s; cbn [cond_Zopp]; destruct (Z.compare_spec (Zpos m * 2 ^ (e - Z.min e 0)) 0) as [H|H|H]; try lia;
      destruct (Z.compare_spec (- (Zpos m * 2 ^ (e - Z.min e 0))) 0) as [H'|H'|H']; try lia; discriminate.
Qed.

Lemma fltb_zero v : fltb fzero v = true <-> v = S754_infinity false \/ exists m e, v = S754_finite false m e.
Proof.
  unfold fltb, fzero. destruct v as [s|s| |s m e]; cbn [fcmp].
  - split; [cbn; discriminate|]. intros [H|(m & e & H)]; discriminate.
  - destruct s; split; try discriminate; auto. intros [H|(m & e & H)]; discriminate.
  - split; [cbn; discriminate|]. intros [H|(m & e & H)]; discriminate.
  - cbn [fexp fnum].
    assert (P : (0 < Zpos m * 2 ^ (e - Z.min 0 e))%Z) by (apply Z.mul_pos_pos; [lia|apply Z.pow_pos_nonneg; lia]).
    destruct s; cbn [cond_Zopp].
    + split; [|intros [H|(m' & e' & H)]; discriminate].
      destruct (Z.compare_spec 0 (- (Zpos m * 2 ^ (e - Z.min 0 e)))) as [H'|H'|H']; try lia; discriminate.
    + split; [right; eauto|]. intros _.
      destruct (Z.compare_spec 0 (Zpos m * 2 ^ (e - Z.min 0 e))) as [H'|H'|H']; try lia; reflexivity.
Qed.

Lemma first_pos_zeros zs : forall acc k v rest, feqb acc fzero = true ->
  (forall z, In z zs -> feqb z fzero = true) -> fltb fzero v = true ->
  first_pos_from acc k (zs ++ v :: rest) = Some (k + List.length zs).
Proof.
  induction zs as [|z zs IH]; intros acc k v rest A Z V; cbn [app first_pos_from List.length].
  - apply feqb_zero in A as [s ->]. pose proof V as V0.
    assert (E : f4_add (S754_zero s) v = v).
    { apply fltb_zero in V as [->|(m & e & ->)]; reflexivity. }
    rewrite E, V0. f_equal. lia.
  - apply feqb_zero in A as [s ->]. assert (Zz : feqb z fzero = true) by (apply Z; now left).
    apply feqb_zero in Zz as [s' ->].
    assert (E : exists s'', f4_add (S754_zero s) (S754_zero s') = S754_zero s'').
    { unfold f4_add. cbn. destruct (Bool.eqb s s'); eauto. }
    destruct E as [s'' ->]. replace (fltb fzero (S754_zero s'')) with false by reflexivity.
    rewrite IH; trivial.
    + f_equal. lia.
    + intros x Hx. apply Z. now right.
Qed.

(** The sum of two values neither of which is positive is not positive. *)
Lemma not_pos_cases v : fltb fzero v = false <->
  v = S754_nan \/ v = S754_infinity true \/ (exists s, v = S754_zero s) \/ (exists m e, v = S754_finite true m e).
Proof.
  split.
  - intros H. destruct v as [s|s| |s m e]; eauto 6.
    + destruct s; auto. discriminate.
    + destruct s; eauto 6. exfalso.
      enough (fltb fzero (S754_finite false m e) = true) by congruence.
      apply fltb_zero. eauto.
  - intros H. destruct (fltb fzero v) eqn:E; trivial. exfalso.
    apply fltb_zero in E. destruct E as [->|(m & e & ->)];
      destruct H as [H|[H|[[s H]|(m' & e' & H)]]]; discriminate.
Qed.

Lemma round_neg m e : fltb fzero (SpecFloat.binary_round 24 128 true m e) = false.
Proof.
  unfold SpecFloat.binary_round. match goal with |- context [let '(_, _) := ?x in _] => destruct x as [mz ez] end.
  unfold SpecFloat.binary_round_aux.
  destruct (shr_fexp _ _ _ _ _) as [mrs e']. destruct (shr_fexp _ _ _ _ _) as [mrs'' e''].
  destruct (shr_m mrs''); try reflexivity.
  destruct (_ <=? _)%Z; [|reflexivity]. apply not_pos_cases. eauto 6.
Qed.

Lemma add_not_pos x y : fltb fzero x = false -> fltb fzero y = false -> fltb fzero (f4_add x y) = false.
Proof.
  intros Hx Hy. apply not_pos_cases in Hx. pose proof Hy as Hy0. apply not_pos_cases in Hy. unfold f4_add.
  destruct Hx as [->|[->|[[s ->]|(m & e & ->)]]].
  - reflexivity.
  - destruct Hy as [->|[->|[[s' ->]|(m' & e' & ->)]]]; reflexivity.
  - destruct Hy as [->|[->|[[s' ->]|(m' & e' & ->)]]]; cbn [SFadd]; try reflexivity.
    + now destruct (Bool.eqb s s').
    + exact Hy0.
  - destruct Hy as [->|[->|[[s' ->]|(m' & e' & ->)]]]; cbn [SFadd]; try reflexivity.
    + apply not_pos_cases. eauto 6.
    + cbn [cond_Zopp Z.add Z.opp]. cbv zeta. cbn [SpecFloat.binary_normalize]. apply round_neg.
Qed.

Lemma first_pos_never line : forall acc k, fltb fzero acc = false ->
  (forall v, In v line -> fltb fzero v = false) -> first_pos_from acc k line = None.
Proof.
  induction line as [|v t IH]; intros acc k A H; cbn [first_pos_from]; [reflexivity|].
  rewrite add_not_pos; trivial; [|apply H; now left]. apply IH.
  - apply add_not_pos; trivial. apply H; now left.
  - intros w Hw. apply H. now right.
Qed.

Theorem border_unbound nsum p : (forall j, j < nc p -> fltb fzero (px p (nr p / 2) j) = false) ->
  border_window nsum p = Raise UnboundLocalError.
Proof.
  intros H. unfold border_window. cbv zeta. unfold first_pos. rewrite first_pos_never; [reflexivity|reflexivity|].
  intros v Hv. unfold row_line in Hv. apply in_map_iff in Hv as (j & <- & Hj). apply in_seq in Hj. apply H. lia.
Qed.

(* ------------------------------------------------------------------ *)

Lemma in_cells {A} (p : plane A) v : In v (cells p) <-> exists i j, i < nr p /\ j < nc p /\ v = px p i j.
Proof.
  unfold cells. rewrite in_flat_map. split.
  - intros (i & Hi & H). apply in_map_iff in H as (j & <- & Hj). apply in_seq in Hi, Hj.
    exists i, j. repeat split; lia.
  - intros (i & j & Hi & Hj & ->). exists i. split; [apply in_seq; lia|].
    apply in_map_iff. exists j. split; [reflexivity|apply in_seq; lia].
Qed.

Lemma first_nonzero_none n f : (forall d, d < n -> feqb (f d) fzero = true) -> first_nonzero n f = None.
Proof.
  intros H. unfold first_nonzero.
  destruct (find _ _) as [d|] eqn:E; [|reflexivity]. exfalso.
  apply find_some in E as [Hd E]. apply in_seq in Hd. rewrite H in E by lia. discriminate.
Qed.

Lemma find_first (g : nat -> bool) n : forall a d, a <= d < a + n -> g d = true -> (forall x, a <= x < d -> g x = false) ->
  find g (seq a n) = Some d.
Proof.
  induction n as [|n IH]; intros a d Hd G L; [lia|]. cbn [seq find].
  destruct (Nat.eq_dec a d) as [->|N]; [now rewrite G|].
  rewrite L by lia. apply IH; trivial; [lia|]. intros x Hx. apply L. lia.
Qed.

Lemma first_nonzero_some n f d : d < n -> feqb (f d) fzero = false ->
  (forall x, x < d -> feqb (f x) fzero = true) -> first_nonzero n f = Some d.
Proof.
  intros Hd F L. unfold first_nonzero. apply find_first; [lia|now rewrite F|].
  intros x Hx. rewrite L by lia. reflexivity.
Qed.

Lemma split_seq n k : k < n -> seq 0 n = seq 0 k ++ k :: seq (S k) (n - k - 1).
Proof.
  intros H. replace n with (k + S (n - k - 1)) at 1 by lia. rewrite seq_app. reflexivity.
Qed.

(** A line that is zero up to [k] and positive at [k]. *)
Lemma first_pos_at f n k : k < n -> (forall x, x < k -> feqb (f x) fzero = true) -> fltb fzero (f k) = true ->
  first_pos (map f (seq 0 n)) = Some k.
Proof.
  intros H Z P. rewrite (split_seq n k H), map_app. cbn [map]. unfold first_pos.
  rewrite first_pos_zeros; trivial.
  - now rewrite map_length, seq_length.
  - intros z Hz. apply in_map_iff in Hz as (x & <- & Hx). apply in_seq in Hx. apply Z. lia.
Qed.

Lemma rev_map_seq {A} (f : nat -> A) n : rev (map f (seq 0 n)) = map (fun x => f (n - 1 - x)) (seq 0 n).
Proof.
  apply nth_ext with (d := f 0) (d' := f (n - 1 - 0)).
  - now rewrite rev_length, !map_length.
  - intros k Hk. rewrite rev_length, map_length, seq_length in Hk.
    rewrite rev_nth by (rewrite map_length, seq_length; exact Hk).
    rewrite map_length, seq_length.
    rewrite (map_nth f). rewrite (map_nth (fun x => f (n - 1 - x)) (seq 0 n) 0).
    rewrite !seq_nth by lia. f_equal. lia.
Qed.

Section Framed.
Variable nsum : list pix -> pix.
Variable SL : sum_like nsum.
Variable p : plane pix.
Variable V32 : forall i j, float32 (px p i j).
Variables t b l r : nat.
Variable F : framed p t b l r.

Local Notation h := (nr p).
Local Notation w := (nc p).

Lemma inside i j : t <= i < h - b -> l <= j < w - r -> fltb fzero (px p i j) = true.
Proof.
  intros Hi Hj. destruct F as (A & B & H). specialize (H i j).
 
  replace (t <=? i) with true in H by (symmetry; apply Nat.leb_le; lia).
  replace (i <? h - b) with true in H by (symmetry; apply Nat.ltb_lt; lia).
  replace (l <=? j) with true in H by (symmetry; apply Nat.leb_le; lia).
  replace (j <? w - r) with true in H by (symmetry; apply Nat.ltb_lt; lia).
  apply H; lia.
Qed.

Lemma outside i j : i < h -> j < w -> (i < t \/ h - b <= i \/ j < l \/ w - r <= j) -> feqb (px p i j) fzero = true.
Proof.
  intros Hi Hj O. destruct F as (A & B & H). specialize (H i j Hi Hj).
  destruct (Nat.leb_spec t i), (Nat.ltb_spec i (h - b)), (Nat.leb_spec l j), (Nat.ltb_spec j (w - r));
    cbn [andb] in H; trivial; lia.
Qed.

Lemma either i j : i < h -> j < w -> feqb (px p i j) fzero = true \/ fltb fzero (px p i j) = true.
Proof.
  intros Hi Hj.
  destruct (Nat.lt_ge_cases i t); [left; apply outside; lia|].
  destruct (Nat.lt_ge_cases i (h - b)); [|left; apply outside; lia].
  destruct (Nat.lt_ge_cases j l); [left; apply outside; lia|].
  destruct (Nat.lt_ge_cases j (w - r)); [|left; apply outside; lia].
  right. apply inside; lia.
Qed.

(** The blocks the loops sum. *)
Lemma block_zero r0 r1 c0 c1 :
  let rl := slice_bound (Z.of_nat h) r0 in let rh := slice_bound (Z.of_nat h) r1 in
  let cl := slice_bound (Z.of_nat w) c0 in let ch := slice_bound (Z.of_nat w) c1 in
  (0 <= rl -> rh <= Z.of_nat h -> 0 <= cl -> ch <= Z.of_nat w ->
   (forall i j : nat, rl <= Z.of_nat i < rh -> cl <= Z.of_nat j < ch -> (i < t \/ h - b <= i \/ j < l \/ w - r <= j)%nat) ->
   feqb (block nsum p r0 r1 c0 c1) fzero = true)%Z.
Proof.
  cbv zeta. intros A1 A2 A3 A4 H. unfold block. apply SL. intros v Hv.
  apply in_cells in Hv as (i & j & Hi & Hj & ->). unfold slice_plane in *. cbn [nr nc px] in *.
 
  apply outside; [lia|lia|]. apply H; lia.
Qed.

Lemma block_pos r0 r1 c0 c1 i j :
  let rl := slice_bound (Z.of_nat h) r0 in let rh := slice_bound (Z.of_nat h) r1 in
  let cl := slice_bound (Z.of_nat w) c0 in let ch := slice_bound (Z.of_nat w) c1 in
  (0 <= rl -> rh <= Z.of_nat h -> 0 <= cl -> ch <= Z.of_nat w ->
   rl <= Z.of_nat i < rh -> cl <= Z.of_nat j < ch -> (t <= i < h - b /\ l <= j < w - r)%nat ->
   feqb (block nsum p r0 r1 c0 c1) fzero = false)%Z.
Proof.
  cbv zeta. intros A1 A2 A3 A4 Hi Hj (Ii & Ij). unfold block. apply SL.
  - intros v Hv. apply in_cells in Hv as (i' & j' & Hi' & Hj' & ->). unfold slice_plane in *. cbn [nr nc px] in *.
    split; [apply V32|]. apply either; lia.
  - exists (px p i j). split; [|now apply inside].
    apply in_cells. unfold slice_plane. cbn [nr nc px].
    exists (i - Z.to_nat (slice_bound (Z.of_nat h) r0)), (j - Z.to_nat (slice_bound (Z.of_nat w) c0)).
    split; [lia|]. split; [lia|]. f_equal; lia.
Qed.

Lemma sb_all n m : slice_bound (Z.of_nat n) (Z.of_nat (n + m)) = Z.of_nat n.
Proof. unfold slice_bound. destruct (Z.ltb_spec (Z.of_nat (n + m)) 0); lia. Qed.
Lemma sb_all' n m : slice_bound (Z.of_nat n) (Z.of_nat (m + n)) = Z.of_nat n.
Proof. unfold slice_bound. destruct (Z.ltb_spec (Z.of_nat (m + n)) 0); lia. Qed.
Lemma sb_0 n : slice_bound (Z.of_nat n) 0 = 0%Z.
Proof. unfold slice_bound. cbn. lia. Qed.
Lemma sb_nat n d : slice_bound (Z.of_nat n) (Z.of_nat d) = Z.of_nat (Nat.min d n).
Proof. unfold slice_bound. destruct (Z.ltb_spec (Z.of_nat d) 0); lia. Qed.
Lemma sb_neg n d : slice_bound (Z.of_nat n) (- Z.of_nat d - 1) = Z.of_nat (n - d - 1).
Proof. unfold slice_bound. destruct (Z.ltb_spec (- Z.of_nat d - 1) 0); lia. Qed.

Theorem border_framed : t <= h / 2 < h - b -> l <= w / 2 < w - r ->
  border_window nsum p =
  Ok (Z.of_nat (if t + 1 <? l then t + 1 else l), (Z.of_nat h - Z.of_nat (Nat.min b r))%Z,
      Z.of_nat (if l + 1 <? t then l + 1 else t), (Z.of_nat w - Z.of_nat r)%Z).
Proof.
  intros Mr Mc. unfold border_window. cbv zeta.
  assert (Hh : t + b < h) by apply F. assert (Hw : l + r < w) by apply F.
  assert (E1 : first_pos (row_line p (h / 2)) = Some l).
  { unfold row_line. apply first_pos_at; [lia| |apply inside; lia].
    intros x Hx. apply outside; lia. }
  assert (E2 : first_pos (rev (row_line p (h / 2))) = Some r).
  { unfold row_line. rewrite rev_map_seq. apply first_pos_at; [lia| |apply inside; lia].
    intros x Hx. apply outside; lia. }
  assert (E3 : first_pos (col_line p (w / 2)) = Some t).
  { unfold col_line. apply (first_pos_at (fun i => px p i (w / 2))); [lia| |apply inside; lia].
    intros x Hx. apply outside; lia. }
  rewrite E1, E2, E3.
  set (all := Z.of_nat (h + w)).
  assert (B1 : first_nonzero l (fun d => block nsum p 0 (Z.of_nat d) 0 all) = if t + 1 <? l then Some (t + 1) else None).
  { unfold all. destruct (Nat.ltb_spec (t + 1) l).
    - apply first_nonzero_some; [lia| |].
      + apply (block_pos _ _ _ _ t l); rewrite ?sb_0, ?sb_nat, ?sb_all, ?sb_all'; lia.
      + intros x Hx. apply block_zero; rewrite ?sb_0, ?sb_nat, ?sb_all, ?sb_all'; lia.
    - apply first_nonzero_none. intros x Hx.
      apply block_zero; rewrite ?sb_0, ?sb_nat, ?sb_all, ?sb_all'; lia. }
  assert (B2 : first_nonzero r (fun d => block nsum p (- Z.of_nat d - 1) all 0 all) = if b <? r then Some b else None).
  { unfold all. destruct (Nat.ltb_spec b r).
    - apply first_nonzero_some; [lia| |].
      + apply (block_pos _ _ _ _ (h - b - 1) l); rewrite ?sb_0, ?sb_neg, ?sb_all, ?sb_all'; lia.
      + intros x Hx. apply block_zero; rewrite ?sb_0, ?sb_neg, ?sb_all, ?sb_all'; lia.
    - apply first_nonzero_none. intros x Hx.
      apply block_zero; rewrite ?sb_0, ?sb_neg, ?sb_all, ?sb_all'; lia. }
  assert (B3 : first_nonzero t (fun d => block nsum p 0 all 0 (Z.of_nat d)) = if l + 1 <? t then Some (l + 1) else None).
  { unfold all. destruct (Nat.ltb_spec (l + 1) t).
    - apply first_nonzero_some; [lia| |].
      + apply (block_pos _ _ _ _ t l); rewrite ?sb_0, ?sb_nat, ?sb_all, ?sb_all'; lia.
      + intros x Hx. apply block_zero; rewrite ?sb_0, ?sb_nat, ?sb_all, ?sb_all'; lia.
    - apply first_nonzero_none. intros x Hx.
      apply block_zero; rewrite ?sb_0, ?sb_nat, ?sb_all, ?sb_all'; lia. }
  assert (B4 : first_nonzero r (fun d => block nsum p 0 all (- Z.of_nat d - 1) all) = None).
  { unfold all. apply first_nonzero_none. intros x Hx.
    apply block_zero; rewrite ?sb_0, ?sb_neg, ?sb_all, ?sb_all'; lia. }
  rewrite B1, B2, B3, B4.
  destruct (Nat.ltb_spec (t + 1) l), (Nat.ltb_spec b r), (Nat.ltb_spec (l + 1) t);
    repeat f_equal; lia.
Qed.

End Framed.
