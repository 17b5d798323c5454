(** Lemmas about [plot.primes] and the subplot grid. *)
From Coq Require Import ZArith Reals List Bool String Arith Lia Lra Sorted Permutation.
From Flocq Require Import Core.Core IEEE754.BinarySingleNaN.
From Verif.Model Require Import Py Chunk Plot.
From Verif.Spec Require Import Plot.
From Verif.Proof Require Import Chunk.
Import ListNotations.
Local Open Scope nat_scope.

Lemma divisors_spec n d : In d (divisors n) <-> 2 <= d < n /\ Nat.divide d n.
Proof.
  unfold divisors, nrange. rewrite filter_In, in_seq, Nat.eqb_eq.
  split.
  - intros [H1 H2]. assert (d <> 0) by lia.
    apply Nat.mod_divide in H2; [|assumption]. split; [|assumption].
    assert (d <= n / 2) by lia. destruct n as [|n]; [simpl in H0; lia|].
    assert (2 * (S n / 2) <= S n) by (apply Nat.mul_div_le; lia). lia.
  - intros [H1 [k Hk]]. split.
    + assert (2 <= k) by nia. assert (d <= n / 2); [|lia].
      apply Nat.div_le_lower_bound; nia.
    + apply Nat.mod_divide; [lia|]. exists k; assumption.
Qed.

Lemma prims_spec n p : In p (prims n) <-> prime_factor p n /\ p < n.
Proof.
  unfold prims. rewrite filter_In, divisors_spec, forallb_forall. unfold prime_factor, prime.
  split.
  - intros [[H1 H2] H3]. repeat split; try lia; try assumption.
    intros d Hd. destruct (Nat.eq_dec d 0) as [->|H0].
    { destruct Hd as [k ->]. lia. }
    destruct (Nat.eq_dec d 1) as [->|H1']; [now left|]. right.
    assert (d <= p) by (apply Nat.divide_pos_le; [lia|assumption]).
    specialize (H3 d). rewrite divisors_spec in H3.
    assert (Hx : (d =? p) || negb (p mod d =? 0) = true).
    { apply H3. split; [lia|]. now apply Nat.divide_trans with p. }
    apply orb_true_iff in Hx. destruct Hx as [Hx|Hx]; [now apply Nat.eqb_eq|].
    apply negb_true_iff, Nat.eqb_neq in Hx. exfalso; apply Hx. now apply Nat.mod_divide.
  - intros [[[H1 H2] H3] H4]. repeat split; try lia; try assumption.
    intros od Hod. apply divisors_spec in Hod. apply orb_true_iff.
    destruct (Nat.eq_dec od p) as [->|Hn]; [left; apply Nat.eqb_refl|]. right.
    apply negb_true_iff, Nat.eqb_neq. intros Hm. apply Nat.mod_divide in Hm; [|lia].
    apply H2 in Hm. lia.
Qed.

Lemma filter_sorted {A} (R : A -> A -> Prop) f l :
  StronglySorted R l -> StronglySorted R (filter f l).
Proof.
  induction 1 as [|a l H IH HF]; simpl; [constructor|].
  destruct (f a); [|assumption]. constructor; [assumption|].
  rewrite Forall_forall in *. intros x Hx. apply filter_In in Hx. now apply HF.
Qed.

Lemma seq_sorted len : forall a, StronglySorted lt (seq a len).
Proof.
  induction len; intros a; simpl; constructor; [apply IHlen|].
  apply Forall_forall. intros x Hx. apply in_seq in Hx. lia.
Qed.

Lemma prims_sorted n : StronglySorted lt (prims n).
Proof. unfold prims, divisors, nrange. now apply filter_sorted, filter_sorted, seq_sorted. Qed.

Lemma sorted_NoDup l : StronglySorted lt l -> NoDup l.
Proof.
  induction 1 as [|a l H IH HF]; constructor; [|assumption].
  intros Hin. rewrite Forall_forall in HF. specialize (HF _ Hin). lia.
Qed.

Lemma sorted_last l a : StronglySorted lt (l ++ [a]) -> forall x, In x l -> x < a.
Proof.
  induction l as [|b l IH]; simpl; intros HS x Hx; [easy|].
  inversion_clear HS as [|? ? HS' HF]. destruct Hx as [->|Hx]; [|now apply IH].
  rewrite Forall_forall in HF. apply HF. apply in_or_app; right; now left.
Qed.

Lemma sorted_init l a : StronglySorted lt (l ++ [a]) -> StronglySorted lt l.
Proof.
  induction l as [|b l IH]; simpl; intros HS; [constructor|].
  inversion_clear HS as [|? ? HS' HF]. constructor; [now apply IH|].
  rewrite Forall_forall in *. intros x Hx. apply HF. apply in_or_app; now left.
Qed.

Lemma prime_exists n : 2 <= n -> exists p, prime_factor p n.
Proof.
  induction n as [n IH] using (well_founded_induction lt_wf). intros Hn.
  destruct (prims n) as [|p l] eqn:E.
  - exists n. split; [|apply Nat.divide_refl]. split; [assumption|].
    intros d Hd. destruct (Nat.eq_dec d 1); [now left|]. right.
    assert (d <= n) by (apply Nat.divide_pos_le; [lia|assumption]).
    assert (d <> 0) by (intros ->; destruct Hd; lia).
    destruct (Nat.eq_dec d n); [assumption|].
    destruct (IH d) as [q [Hq1 Hq2]]; [lia|lia|].
    assert (Hin : In q (prims n)).
    { apply prims_spec. split; [split; [assumption|now apply Nat.divide_trans with d]|].
      apply Nat.divide_pos_le in Hq2; lia. }
    rewrite E in Hin. destruct Hin.
  - exists p. assert (Hin : In p (prims n)) by (rewrite E; now left).
    now apply prims_spec in Hin.
Qed.

Lemma prims_nil n : prims n = [] <-> n = 0 \/ n = 1 \/ prime n.
Proof.
  split.
  - intros E. destruct (le_lt_dec 2 n) as [Hn|Hn]; [|lia].
    right; right. destruct (prime_exists n Hn) as [p [Hp1 Hp2]].
    assert (p <= n) by (apply Nat.divide_pos_le; [lia|assumption]).
    destruct (Nat.eq_dec p n) as [->|Hpn]; [assumption|].
    assert (Hin : In p (prims n)) by (apply prims_spec; split; [split; assumption|lia]).
    rewrite E in Hin. destruct Hin.
  - intros H. destruct (prims n) as [|p l] eqn:E; [reflexivity|].
    assert (Hin : In p (prims n)) by (rewrite E; now left).
    apply prims_spec in Hin. destruct Hin as [[Hp1 Hp2] Hp3].
    destruct H as [->|[->|Hn]].
    + lia.
    + destruct Hp1; lia.
    + apply Hn in Hp2. destruct Hp1; lia.
Qed.

Lemma primes_prime n : prims n = [] -> primes n = n.
Proof. intros E. unfold primes. now rewrite E. Qed.

Lemma max_in l : l <> [] -> In (fold_right max 0 l) l /\ forall x, In x l -> x <= fold_right max 0 l.
Proof.
  induction l as [|a l IH]; intros H; [easy|]. destruct l as [|b l].
  - simpl. rewrite Nat.max_0_r. split; [now left|]. intros x [->|[]]; lia.
  - destruct IH as [H1 H2]; [easy|]. set (m := fold_right max 0 (b :: l)) in *.
    change (fold_right max 0 (a :: b :: l)) with (max a m). split.
    + destruct (Nat.max_spec a m) as [[_ ->]|[_ ->]]; [right; assumption|now left].
    + intros x [->|Hx]; [lia|]. apply H2 in Hx. lia.
Qed.

Lemma primes_few n : prims n <> [] -> List.length (prims n) <= 3 ->
  In (primes n) (prims n) /\ forall x, In x (prims n) -> x <= primes n.
Proof.
  intros H1 H2. unfold primes. destruct (4 <=? List.length (prims n)) eqn:E.
  { apply Nat.leb_le in E. lia. }
  destruct (List.length (prims n) =? 0) eqn:E0.
  { apply Nat.eqb_eq in E0. destruct (prims n); easy. }
  now apply max_in.
Qed.

Lemma primes_many n : 4 <= List.length (prims n) ->
  exists l p q, prims n = l ++ [p; q] /\ primes n = p * q /\ p < q /\ forall x, In x l -> x < p.
Proof.
  intros H. unfold primes. pose proof (prims_sorted n) as HS.
  assert (E : 4 <=? List.length (prims n) = true) by now apply Nat.leb_le.
  rewrite E. destruct (rev (prims n)) as [|q [|p l]] eqn:Er.
  - apply (f_equal (@List.length nat)) in Er. rewrite rev_length in Er. simpl in Er. lia.
  - apply (f_equal (@List.length nat)) in Er. rewrite rev_length in Er. simpl in Er. lia.
  - assert (Ep : prims n = rev l ++ [p; q]).
    { rewrite <- (rev_involutive (prims n)), Er. simpl. now rewrite <- app_assoc. }
    exists (rev l), p, q. rewrite Ep in HS.
    replace (rev l ++ [p; q]) with ((rev l ++ [p]) ++ [q]) in HS by (now rewrite <- app_assoc).
    split; [assumption|]. split; [simpl; lia|]. split.
    + apply (sorted_last _ _ HS). apply in_or_app; right; now left.
    + apply sorted_last. now apply sorted_init in HS.
Qed.

Lemma coprime_primes p q : prime p -> prime q -> p <> q -> Nat.gcd p q = 1.
Proof.
  intros [Hp1 Hp2] [Hq1 Hq2] Hn.
  destruct (Hp2 (Nat.gcd p q) (Nat.gcd_divide_l p q)) as [H|H]; [assumption|].
  destruct (Hq2 (Nat.gcd p q) (Nat.gcd_divide_r p q)) as [H'|H']; lia.
Qed.

Lemma mul_divide p q n : Nat.gcd p q = 1 -> Nat.divide p n -> Nat.divide q n ->
  Nat.divide (p * q) n.
Proof.
  intros Hg Hp [k ->].
  rewrite Nat.mul_comm in Hp. apply Nat.gauss in Hp; [|assumption].
  destruct Hp as [j ->]. exists j. lia.
Qed.

Lemma primes_divides n : Nat.divide (primes n) n.
Proof.
  destruct (prims n) as [|a l] eqn:E.
  { rewrite primes_prime by assumption. apply Nat.divide_refl. }
  destruct (le_lt_dec 4 (List.length (prims n))) as [H|H].
  - destruct (primes_many n H) as (l' & p & q & E' & -> & Hpq & _).
    assert (Hp : In p (prims n)) by (rewrite E'; apply in_or_app; right; simpl; auto).
    assert (Hq : In q (prims n)) by (rewrite E'; apply in_or_app; right; simpl; auto).
    apply prims_spec in Hp, Hq. destruct Hp as [[? ?] ?], Hq as [[? ?] ?].
    apply mul_divide; [|assumption|assumption]. apply coprime_primes; [assumption..|lia].
  - destruct (primes_few n) as [H1 _]; [now rewrite E|lia|].
    apply prims_spec in H1. now destruct H1 as [[_ H1] _].
Qed.

(** With a non-prime n >= 2 the model's list is the list of prime factors. *)
Lemma prims_factors n P : 2 <= n -> prime_factors n P -> ~ prime n -> Permutation P (prims n).
Proof.
  intros Hn [HN HP] Hnp. apply NoDup_Permutation; [assumption|apply sorted_NoDup, prims_sorted|].
  intros x. rewrite HP, prims_spec. split; [|tauto]. intros Hx. split; [assumption|].
  destruct Hx as [Hx1 Hx2]. assert (x <= n) by (apply Nat.divide_pos_le; [lia|assumption]).
  destruct (Nat.eq_dec x n) as [->|]; [contradiction|lia].
Qed.

Lemma prime_dec n : 2 <= n -> prime n \/ prims n <> [].
Proof.
  intros Hn. destruct (prims n) eqn:E; [|now right]. left.
  apply prims_nil in E. destruct E as [->|[->|E]]; [lia|lia|assumption].
Qed.

Lemma prime_one_factor n P : prime n -> prime_factors n P -> P = [n].
Proof.
  intros Hp [HN HP].
  assert (H : forall x, In x P <-> In x [n]).
  { intros x. rewrite HP. unfold prime_factor. simpl. split.
    - intros [[H1 H2] H3]. apply Hp in H3. left. lia.
    - intros [<-|[]]. split; [assumption|apply Nat.divide_refl]. }
  assert (HPm : Permutation P [n]) by (apply NoDup_Permutation; [assumption|repeat constructor; easy|assumption]).
  now apply Permutation_length_1_inv, eq_sym in HPm || apply Permutation_sym, Permutation_length_1_inv in HPm.
Qed.

(** ** Rounding *)
Lemma f64_round_correct x : fin x -> (0 <= V x)%R ->
  (Rabs (IZR (f64_round x) - V x) <= / 2)%R /\
  (Rabs (IZR (f64_round x) - V x) = / 2 -> Z.even (f64_round x) = true)%R.
Proof.
  unfold fin, V. destruct x as [s|s| |s m e He]; cbn [B2R is_finite f64_round]; try easy; intros _ Hpos.
  - rewrite Rminus_0_r, Rabs_R0. split; [lra|]. intros H; lra.
  - assert (Hs : s = false).
    { destruct s; [|reflexivity]. exfalso. unfold F2R in Hpos. simpl in Hpos.
      assert (0 < bpow radix2 e)%R by apply bpow_gt_0.
      assert (IZR (Z.neg m) < 0)%R by (apply IZR_lt; lia). nra. }
    subst s. unfold F2R in *; cbn [Fnum Fexp cond_Zopp] in *. destruct (0 <=? e)%Z eqn:E0.
    + apply Z.leb_le in E0. rewrite mult_IZR.
      replace (IZR (2 ^ e)) with (bpow radix2 e).
      2:{ rewrite <- (IZR_Zpower radix2) by assumption. reflexivity. }
      replace (IZR (Z.pos m) * bpow radix2 e - IZR (Z.pos m) * bpow radix2 e)%R with 0%R by ring.
      rewrite Rabs_R0. split; [lra|]. intros H; lra.
    + apply Z.leb_gt in E0.
      set (d := (2 ^ (- e))%Z). assert (Hd : (0 < d)%Z) by (unfold d; apply Z.pow_pos_nonneg; lia).
      set (q := (Z.pos m / d)%Z). set (r := (Z.pos m mod d)%Z).
      assert (Hm : (Z.pos m = d * q + r)%Z) by (apply Z.div_mod; lia).
      assert (Hr : (0 <= r < d)%Z) by (apply Z.mod_pos_bound; lia).
      assert (Hb : (bpow radix2 e = / IZR d)%R).
      { unfold d. replace e with (- (- e))%Z at 1 by lia. rewrite bpow_opp. f_equal.
        rewrite <- (IZR_Zpower radix2) by lia. reflexivity. }
      assert (Hv : (IZR (Z.pos m) * bpow radix2 e = IZR q + IZR r / IZR d)%R).
      { rewrite Hb, Hm, plus_IZR, mult_IZR. field. apply IZR_neq. lia. }
      rewrite Hv. clearbody q r. clear Hv Hb Hm.
      assert (HdR : (0 < IZR d)%R) by now apply IZR_lt.
      set (f := (IZR r / IZR d)%R).
      assert (Hf : (IZR r = f * IZR d)%R) by (unfold f; field; lra).
      destruct (2 * r <? d)%Z eqn:E1; [|destruct (d <? 2 * r)%Z eqn:E2].
      * apply Z.ltb_lt, IZR_lt in E1. rewrite mult_IZR, Hf in E1.
        assert (0 <= IZR r)%R by (apply IZR_le; lia).
        assert (0 <= f)%R by (unfold f; apply Rmult_le_pos; [lra|left; now apply Rinv_0_lt_compat]).
        assert (f < / 2)%R by nra.
        replace (IZR q - (IZR q + f))%R with (- f)%R by ring.
        rewrite Rabs_Ropp, Rabs_pos_eq by lra. split; [lra|]. intros; lra.
      * apply Z.ltb_lt, IZR_lt in E2. rewrite mult_IZR, Hf in E2.
        assert (IZR r < IZR d)%R by (apply IZR_lt; lia).
        assert (f < 1)%R by nra. assert (/ 2 < f)%R by nra.
        rewrite plus_IZR. replace (IZR q + 1 - (IZR q + f))%R with (1 - f)%R by ring.
        rewrite Rabs_pos_eq by lra. split; [lra|]. intros; lra.
      * apply Z.ltb_ge in E1, E2. assert (Hd2 : (d = 2 * r)%Z) by lia.
        assert (f = / 2)%R.
        { unfold f. rewrite Hd2, mult_IZR. field. apply IZR_neq. lia. }
        destruct (Z.even q) eqn:Eq.
        -- replace (IZR q - (IZR q + f))%R with (- f)%R by ring.
           rewrite Rabs_Ropp, Rabs_pos_eq by lra. split; [lra|]. intros; assumption.
        -- rewrite plus_IZR. replace (IZR q + 1 - (IZR q + f))%R with (1 - f)%R by ring.
           rewrite Rabs_pos_eq by lra. split; [lra|]. intros _.
           rewrite Z.even_add, Eq. reflexivity.
Qed.

Lemma format_half z : (Z.abs z < 2 ^ 52)%Z -> rnd (IZR z + / 2) = (IZR z + / 2)%R.
Proof.
  intros H. unfold rnd. apply round_generic; [apply valid_rnd_N|].
  replace (IZR z + / 2)%R with (F2R (Float radix2 (2 * z + 1) (-1))).
  2:{ unfold F2R. cbn [Fnum Fexp]. rewrite plus_IZR, mult_IZR. change (bpow radix2 (-1)) with (/ 2)%R. lra. }
  apply generic_format_FLT with (emin := (-1074)%Z) (prec := 53%Z).
  exists (Float radix2 (2 * z + 1) (-1)); [reflexivity|cbn [Fnum]; change (Zpower radix2 53) with (2 ^ 53)%Z; lia|cbn [Fexp]; lia].
Qed.

Lemma sqrt_correct n : (n <= 2 ^ 53)%Z -> (0 <= n)%Z ->
  V (f64_sqrt (f64_of_Z n)) = rnd (sqrt (IZR n)) /\ fin (f64_sqrt (f64_of_Z n)).
Proof.
  intros H H0. destruct (of_Z_correct n) as [Hv Hf]; [lia|].
  unfold f64_sqrt. destruct (Bsqrt_correct 53 1024 p53 e1024 mode_NE (f64_of_Z n)) as (H1 & H2 & _).
  split.
  - unfold V at 1. rewrite H1. fold (V (f64_of_Z n)). rewrite Hv. reflexivity.
  - unfold fin. rewrite H2. unfold fin in Hf.
    destruct (f64_of_Z n) as [s|s| |s m e He] eqn:E; try easy. destruct s; [|reflexivity].
    exfalso. cbn [V B2R cond_Zopp Z.opp] in Hv. unfold V in Hv. cbn [B2R cond_Zopp Z.opp] in Hv. unfold F2R in Hv. cbn [Fnum Fexp] in Hv.
    assert (0 < bpow radix2 e)%R by apply bpow_gt_0.
    assert (IZR (Z.neg m) < 0)%R by (apply IZR_lt; lia).
    assert (0 <= IZR n)%R by now apply IZR_le. nra.
Qed.

(** The two sides chosen for a prime number of panels. *)
Lemma prime_grid n : (1 <= n <= 2 ^ 53)%Z ->
  let s := f64_sqrt (f64_of_Z n) in
  let a := f64_round s in
  let b := f64_round (f64_add s (f64_of_Z 1)) in
  (1 <= a /\ 2 <= b /\ n <= a * b)%Z.
Proof.
  intros Hn s a b.
  destruct (sqrt_correct n) as [Hs Hfs]; [lia|lia|]. fold s in Hs, Hfs.
  set (k := Z.sqrt n). destruct (Z.sqrt_spec n) as [Hk1 Hk2]; [lia|]. fold k in Hk1, Hk2.
  assert (Hk0 : (1 <= k)%Z) by (change 1%Z with (Z.sqrt 1); apply Z.sqrt_le_mono; lia).
  assert (Hkb : (k <= 2 ^ 27)%Z) by nia.
  set (x := sqrt (IZR n)) in *.
  assert (Hxx : (x * x = IZR n)%R) by (apply sqrt_sqrt, IZR_le; lia).
  assert (Hx0 : (0 <= x)%R) by apply sqrt_pos.
  assert (HkR : (1 <= IZR k <= 134217728)%R) by (split; apply IZR_le; lia).
  assert (Hkx : (IZR k <= x < IZR k + 1)%R).
  { apply IZR_le in Hk1. apply IZR_lt in Hk2. unfold Z.succ in Hk2.
    rewrite mult_IZR in Hk1, Hk2. rewrite plus_IZR in Hk2. split; nra. }
  assert (HVl : (IZR k <= V s)%R).
  { rewrite Hs. rewrite <- (rnd_IZR k) by lia. apply rnd_mono; lra. }
  assert (HVu : (V s <= IZR k + 1)%R).
  { rewrite Hs. replace (IZR k + 1)%R with (IZR (k + 1)) by (rewrite plus_IZR; reflexivity).
    rewrite <- (rnd_IZR (k + 1)) by lia. apply rnd_mono. rewrite plus_IZR. lra. }
  destruct (of_Z_correct 1) as [H1v H1f]; [lia|].
  destruct (add_correct s (f64_of_Z 1)) as [Ht Hft]; [assumption|assumption| |].
  { rewrite H1v. rewrite Rabs_pos_eq by lra.
    apply Rle_trans with (IZR 134217731); [lra|]. 
    apply Rle_trans with (Rabs (IZR 134217731)); [apply RRle_abs|].
    apply IZR_le_1000. vm_compute; discriminate. }
  set (t := f64_add s (f64_of_Z 1)) in *. rewrite H1v in Ht.
  assert (HTl : (IZR k + 1 <= V t)%R).
  { rewrite Ht. replace (IZR k + 1)%R with (IZR (k + 1)) by (rewrite plus_IZR; reflexivity).
    rewrite <- (rnd_IZR (k + 1)) by lia. apply rnd_mono. rewrite plus_IZR. lra. }
  destruct (f64_round_correct s Hfs) as [Ha1 Ha2]; [lra|]. fold a in Ha1, Ha2.
  destruct (f64_round_correct t Hft) as [Hb1 Hb2]; [lra|]. fold b in Hb1, Hb2.
  assert (Hak : (k <= a)%Z).
  { apply Z.lt_succ_r. unfold Z.succ. apply lt_IZR. rewrite plus_IZR.
    apply Rabs_le_inv in Ha1. lra. }
  assert (Hbk : (k + 1 <= b)%Z).
  { apply Z.lt_succ_r. unfold Z.succ. apply lt_IZR. rewrite !plus_IZR.
    apply Rabs_le_inv in Hb1. lra. }
  split; [lia|]. split; [lia|].
  destruct (Z_le_gt_dec n (k * k + k)) as [Hc|Hc]; [nia|].
  assert (Hxh : (IZR k + / 2 <= x)%R).
  { assert (HcR : (IZR (k * k + k + 1) <= IZR n)%R) by (apply IZR_le; lia).
    rewrite !plus_IZR, mult_IZR in HcR. nra. }
  assert (HVh : (IZR k + / 2 <= V s)%R).
  { rewrite Hs. rewrite <- (format_half k) by lia. now apply rnd_mono. }
  assert (HTh : (IZR k + 1 + / 2 <= V t)%R).
  { rewrite Ht. replace (IZR k + 1)%R with (IZR (k + 1)) by (rewrite plus_IZR; reflexivity).
    rewrite <- (format_half (k + 1)) by lia. apply rnd_mono. rewrite plus_IZR. lra. }
  assert (Hn2 : (n <= k * k + 2 * k)%Z) by (unfold Z.succ in Hk2; nia).
  destruct (Z.eq_dec a k) as [Hea|Hea].
  - (* a tie rounded down: then the other side is k+2 *)
    assert (HVe : (V s = IZR k + / 2)%R).
    { rewrite Hea in Ha1. apply Rabs_le_inv in Ha1. lra. }
    assert (Hev : Z.even k = true).
    { rewrite <- Hea. apply Ha2. rewrite Hea, HVe.
      replace (IZR k - (IZR k + / 2))%R with (- / 2)%R by ring. rewrite Rabs_Ropp, Rabs_pos_eq; lra. }
    assert (Hb3 : (k + 2 <= b)%Z).
    { destruct (Z.eq_dec b (k + 1)) as [Heb|]; [exfalso|lia].
      assert (HTe : (V t = IZR k + 1 + / 2)%R).
      { rewrite Heb in Hb1. apply Rabs_le_inv in Hb1. rewrite plus_IZR in Hb1. lra. }
      assert (Heb2 : Z.even b = true).
      { apply Hb2. rewrite Heb, HTe, plus_IZR.
        replace (IZR k + 1 - (IZR k + 1 + / 2))%R with (- / 2)%R by ring.
        rewrite Rabs_Ropp, Rabs_pos_eq; lra. }
      rewrite Heb, Z.even_add, Hev in Heb2. discriminate. }
    nia.
  - nia.
Qed.

(** Composite numbers fill their grid exactly. *)
Lemma primes_range n : 2 <= n -> ~ prime n -> 2 <= primes n < n.
Proof.
  intros Hn Hnp. destruct (prime_dec n Hn) as [?|Hne]; [contradiction|].
  pose proof (primes_divides n) as Hd.
  assert (Hle : primes n <= n) by (apply Nat.divide_pos_le; [lia|assumption]).
  destruct (le_lt_dec 4 (List.length (prims n))) as [H|H].
  - destruct (primes_many n H) as (l & p & q & E & Ep & Hpq & Hl).
    assert (Hp : In p (prims n)) by (rewrite E; apply in_or_app; right; simpl; auto).
    assert (Hq : In q (prims n)) by (rewrite E; apply in_or_app; right; simpl; auto).
    assert (Hr : exists r, In r l).
    { destruct l as [|r l]; [rewrite E in H; simpl in H; lia|]. exists r; now left. }
    destruct Hr as [r Hr]. assert (Hrp := Hl r Hr).
    assert (Hr' : In r (prims n)) by (rewrite E; apply in_or_app; now left).
    apply prims_spec in Hp, Hq, Hr'.
    destruct Hp as [[Hp1 Hp2] Hp3], Hq as [[Hq1 Hq2] Hq3], Hr' as [[Hr1 Hr2] Hr3].
    rewrite Ep. assert (Hpqr : Nat.divide (p * q * r) n).
    { apply mul_divide; [|rewrite <- Ep; assumption|assumption].
      rewrite Nat.gcd_comm.
      assert (G1 : Nat.gcd r p = 1) by (apply coprime_primes; [assumption..|lia]).
      assert (G2 : Nat.gcd r q = 1) by (apply coprime_primes; [assumption..|lia]).
      destruct (proj2 Hr1 (Nat.gcd r (p * q)) (Nat.gcd_divide_l _ _)) as [G|G]; [assumption|].
      exfalso. assert (Hrpq : Nat.divide r (p * q)) by (rewrite <- G at 1; apply Nat.gcd_divide_r).
      apply Nat.gauss in Hrpq; [|assumption]. apply (proj2 Hq1) in Hrpq.
      destruct Hr1; lia. }
    apply Nat.divide_pos_le in Hpqr; [|lia]. destruct Hp1, Hq1, Hr1. nia.
  - destruct (primes_few n Hne) as [H1 _]; [lia|].
    apply prims_spec in H1. destruct H1 as [[[H1 _] _] H2]. lia.
Qed.

Lemma composite_not_prime n : composite n <-> 2 <= n /\ ~ prime n.
Proof.
  split.
  - intros (a & b & Ha & Hb & ->). split; [nia|]. intros [_ H].
    destruct (H a) as [H1|H1]; [exists b; lia|lia|nia].
  - intros [Hn Hp]. pose proof (primes_range n Hn Hp) as Hr.
    destruct (primes_divides n) as [k Hk]. exists k, (primes n). nia.
Qed.
