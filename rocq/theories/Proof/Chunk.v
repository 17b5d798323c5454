(** Lemmas about [chunk_it]. *)
From Coq Require Import ZArith List Bool Reals Lia Lra Permutation Sorted.
From Flocq Require Import Core.Core IEEE754.BinarySingleNaN Relative.
From Verif.Model Require Import Py Chunk.
Import ListNotations.
Local Open Scope Z_scope.

(** ** Binary64 operations as rounded real operations *)

Definition rnd (x : R) : R := round radix2 (SpecFloat.fexp 53 1024) ZnearestE x.
Definition V (x : f64) : R := @B2R 53 1024 x.
Definition fin (x : f64) : Prop := @is_finite 53 1024 x = true.

#[local] Existing Instance p53.
#[local] Existing Instance e1024.
#[local] Instance vexp : Valid_exp (SpecFloat.fexp 53 1024) := @fexp_correct 53 1024 p53.
#[local] Instance mexp : Monotone_exp (SpecFloat.fexp 53 1024) := @fexp_monotone 53 1024.

Lemma rnd_mono x y : (x <= y)%R -> (rnd x <= rnd y)%R.
Proof. intros H. apply round_le; auto with typeclass_instances. Qed.

Lemma rnd_0 : rnd 0 = 0%R.
Proof. apply round_0; auto with typeclass_instances. Qed.

Lemma rnd_opp x : rnd (- x) = (- rnd x)%R.
Proof. unfold rnd. apply round_NE_opp. Qed.

Lemma format_IZR z : Z.abs z <= 2 ^ 53 ->
  generic_format radix2 (SpecFloat.fexp 53 1024) (IZR z).
Proof.
  intros H. apply (generic_format_FLT radix2 (SpecFloat.emin 53 1024) 53).
  destruct (Z.eq_dec (Z.abs z) (2 ^ 53)) as [E|E].
  - apply (FLT_spec _ _ _ _ (Float radix2 (z / 2) 1)).
    + unfold F2R; simpl Fnum; simpl Fexp. change (bpow radix2 1) with 2%R.
      rewrite <- mult_IZR. f_equal. 
      assert (z = 2 ^ 53 \/ z = - 2 ^ 53) as [-> | ->] by lia; reflexivity.
    + simpl Fnum. assert (z = 2 ^ 53 \/ z = - 2 ^ 53) as [-> | ->] by lia; reflexivity.
    + simpl. unfold SpecFloat.emin. lia.
  - apply (FLT_spec _ _ _ _ (Float radix2 z 0)).
    + unfold F2R; simpl. ring.
    + simpl Fnum. change (Zpower radix2 53) with (2 ^ 53). lia.
    + simpl. unfold SpecFloat.emin. lia.
Qed.

Lemma rnd_IZR z : Z.abs z <= 2 ^ 53 -> rnd (IZR z) = IZR z.
Proof. intros H. apply round_generic; auto with typeclass_instances. now apply format_IZR. Qed.

Lemma format_bpow e : -1000 <= e <= 1000 ->
  generic_format radix2 (SpecFloat.fexp 53 1024) (bpow radix2 e).
Proof.
  intros H. apply generic_format_bpow.
  unfold SpecFloat.fexp, SpecFloat.emin. lia.
Qed.

Lemma rnd_small x : (Rabs x <= bpow radix2 1000)%R ->
  (Rabs (rnd x) < bpow radix2 1024)%R.
Proof.
  intros H. apply Rle_lt_trans with (bpow radix2 1000).
  - apply abs_round_le_generic; auto with typeclass_instances.
    apply format_bpow. lia.
  - apply bpow_lt. lia.
Qed.

Lemma add_correct x y : fin x -> fin y -> (Rabs (V x + V y) <= bpow radix2 1000)%R ->
  V (f64_add x y) = rnd (V x + V y) /\ fin (f64_add x y).
Proof.
  intros Fx Fy H.
  generalize (@Bplus_correct 53 1024 p53 e1024 mode_NE x y Fx Fy).
  rewrite Rlt_bool_true.
  - intros [H1 [H2 _]]. split; assumption.
  - apply (rnd_small _ H).
Qed.

Lemma div_correct x y : fin x -> V y <> 0%R -> (Rabs (V x / V y) <= bpow radix2 1000)%R ->
  V (f64_div x y) = rnd (V x / V y) /\ fin (f64_div x y).
Proof.
  intros Fx Hy H.
  generalize (@Bdiv_correct 53 1024 p53 e1024 mode_NE x y Hy).
  rewrite Rlt_bool_true.
  - intros [H1 [H2 _]]. split; [assumption|]. unfold fin, f64_div. rewrite H2. exact Fx.
  - apply (rnd_small _ H).
Qed.

Lemma IZR_le_1000 z : Z.abs z <= 2 ^ 53 -> (Rabs (IZR z) <= bpow radix2 1000)%R.
Proof.
  intros H. rewrite <- abs_IZR.
  apply Rle_trans with (bpow radix2 53).
  - change (bpow radix2 53) with (IZR (2 ^ 53)). apply IZR_le. exact H.
  - apply bpow_le. lia.
Qed.

Lemma of_Z_correct z : Z.abs z <= 2 ^ 53 -> V (f64_of_Z z) = IZR z /\ fin (f64_of_Z z).
Proof.
  intros H.
  generalize (@binary_normalize_correct 53 1024 p53 e1024 mode_NE z 0 false).
  cbv zeta.
  assert (F2R (Float radix2 z 0) = IZR z) as E by (unfold F2R; simpl; ring).
  rewrite E. rewrite Rlt_bool_true.
  - intros [H1 [H2 _]]. split; [|exact H2].
    change (V (f64_of_Z z) = rnd (IZR z)) in H1. rewrite H1. now apply rnd_IZR.
  - apply rnd_small. now apply IZR_le_1000.
Qed.

Lemma int_correct x : f64_int x = Ztrunc (V x).
Proof.
  apply eq_IZR. unfold f64_int. rewrite (@Btrunc_correct 53 1024 e1024 x).
  unfold round, scaled_mantissa, cexp, F2R, FIX_exp; simpl.
  rewrite 2!Rmult_1_r. reflexivity.
Qed.

Lemma ltZ_correct x n : fin x -> Z.abs n <= 2 ^ 53 ->
  f64_ltZ x n = Rlt_bool (V x) (IZR n).
Proof.
  intros Fx H. unfold f64_ltZ. destruct (of_Z_correct n H) as [E F].
  rewrite (@Bltb_correct 53 1024 x (f64_of_Z n) Fx F).
  change (@B2R 53 1024 (f64_of_Z n)) with (V (f64_of_Z n)). rewrite E. reflexivity.
Qed.

(** ** The loop, independently of the arithmetic *)

Section Loop.
Variable A : Type.
Variable sq : list A.
Variable a : f64.
Notation n := (Z.of_nat (length sq)).

Fixpoint it (k : nat) (x : f64) : f64 :=
  match k with O => x | S k' => it k' (f64_add x a) end.

Lemma it_S k x : it (S k) x = f64_add (it k x) a.
Proof. revert x; induction k as [|k IH]; intros x; [reflexivity|]. cbn [it]. rewrite <- IH. reflexivity. Qed.

Definition piece (x : f64) (k : nat) : list A :=
  pyslice sq (f64_int (it k x)) (f64_int (it (S k) x)).

Lemma loop_none fuel : forall x out, chunk_loop fuel sq a x out = None ->
  forall k, (k <= fuel)%nat -> f64_ltZ (it k x) n = true.
Proof.
  induction fuel as [|fuel IH]; intros x out H k Hk.
  - cbn [chunk_loop] in H. assert (k = 0)%nat as -> by lia. cbn [it].
    destruct (f64_ltZ x n); [reflexivity|discriminate].
  - cbn [chunk_loop] in H. destruct (f64_ltZ x n) eqn:E; [|discriminate].
    destruct k as [|k]; [exact E|]. cbn [it]. eapply IH; [exact H|lia].
Qed.

Lemma loop_none_conv fuel : forall x out,
  (forall k, (k <= fuel)%nat -> f64_ltZ (it k x) n = true) ->
  chunk_loop fuel sq a x out = None.
Proof.
  induction fuel as [|fuel IH]; intros x out H; cbn [chunk_loop].
  - assert (f64_ltZ x n = true) as E by (apply (H 0%nat); lia). rewrite E. reflexivity.
  - assert (f64_ltZ x n = true) as E by (apply (H 0%nat); lia). rewrite E.
    apply IH. intros k Hk. apply (H (S k)). lia.
Qed.

Lemma loop_some fuel : forall x out r, chunk_loop fuel sq a x out = Some r ->
  exists K, (K <= fuel)%nat /\ r = out ++ map (piece x) (List.seq 0 K) /\
    (forall k, (k < K)%nat -> f64_ltZ (it k x) n = true) /\ f64_ltZ (it K x) n = false.
Proof.
  induction fuel as [|fuel IH]; intros x out r H; cbn [chunk_loop] in H.
  - destruct (f64_ltZ x n) eqn:E; [discriminate|]. injection H as <-.
    exists 0%nat. cbn. rewrite app_nil_r. repeat split; auto; lia.
  - destruct (f64_ltZ x n) eqn:E.
    + destruct (IH _ _ _ H) as [K [HK [Hr [Hlt Hge]]]].
      exists (S K). split; [lia|]. split; [|split].
      * rewrite Hr, <- app_assoc. f_equal. cbn [List.seq map app]. f_equal.
        rewrite <- seq_shift, map_map. reflexivity.
      * intros [|k] Hk; [exact E|]. cbn [it]. apply Hlt. lia.
      * exact Hge.
    + injection H as <-. exists 0%nat. cbn. rewrite app_nil_r. repeat split; auto; lia.
Qed.
End Loop.

(** ** Slices *)

Lemma pyslice_pos {A} (l : list A) a b : 0 <= a -> 0 <= b ->
  pyslice l a b = firstn (Z.to_nat b - Z.to_nat a) (skipn (Z.to_nat a) l).
Proof.
  intros Ha Hb. unfold pyslice, slice_bound.
  destruct (Z.ltb_spec a 0); [lia|]. destruct (Z.ltb_spec b 0); [lia|].
  set (n := length l).
  destruct (Z.le_gt_cases (Z.of_nat n) a) as [Hn|Hn].
  - rewrite !skipn_all2; [now rewrite !firstn_nil|fold n; lia|fold n; lia].
  - rewrite (Z.min_l a) by lia.
    destruct (Z.le_gt_cases b (Z.of_nat n)) as [Hn'|Hn'].
    + rewrite Z.min_l by lia. f_equal. lia.
    + rewrite Z.min_r by lia.
      rewrite !firstn_all2; [reflexivity| |]; rewrite skipn_length; fold n; lia.
Qed.

Lemma pyslice_concat {A} (l : list A) (f : nat -> Z) K :
  (forall k, (k <= K)%nat -> 0 <= f k) ->
  (forall k, (k < K)%nat -> f k <= f (S k)) ->
  f 0%nat = 0 ->
  concat (map (fun k => pyslice l (f k) (f (S k))) (List.seq 0 K)) =
  firstn (Z.to_nat (f K)) l.
Proof.
  induction K as [|K IH]; intros Hp Hm H0.
  - cbn. rewrite H0. reflexivity.
  - rewrite seq_S, map_app, concat_app. cbn [plus map concat].
    rewrite IH; [|intros; apply Hp; lia|intros; apply Hm; lia|exact H0].
    rewrite app_nil_r. rewrite pyslice_pos by (apply Hp; lia).
    assert (f K <= f (S K)) as Hle by (apply Hm; lia).
    assert (0 <= f K) as HK by (apply Hp; lia).
    replace (Z.to_nat (f (S K))) with (Z.to_nat (f K) + (Z.to_nat (f (S K)) - Z.to_nat (f K)))%nat at 2 by lia.
    set (x := Z.to_nat (f K)). set (y := (Z.to_nat (f (S K)) - x)%nat).
    rewrite <- (firstn_skipn x l) at 3.
    rewrite firstn_app. rewrite firstn_firstn. rewrite Nat.min_r by lia.
    f_equal. rewrite firstn_length.
    destruct (Nat.le_gt_cases x (length l)).
    + rewrite Nat.min_l by lia. f_equal. lia.
    + rewrite skipn_all2 by lia. now rewrite !firstn_nil.
Qed.

(** ** The boundaries, in real numbers *)

Definition u : R := bpow radix2 (-53).
Lemma u_val : u = (/ 9007199254740992)%R.
Proof. unfold u. simpl. reflexivity. Qed.

Lemma rnd_V x : rnd (V x) = V x.
Proof. apply round_generic; auto with typeclass_instances. apply generic_format_B2R. Qed.

Lemma rnd_rel x : (bpow radix2 (-1000) <= x)%R -> (Rabs (rnd x - x) <= u * x)%R.
Proof.
  intros H.
  generalize (relative_error_N_FLT radix2 (SpecFloat.emin 53 1024) 53 eq_refl (fun t => negb (Z.even t)) x).
  assert (0 < x)%R as Hx by (apply Rlt_le_trans with (2 := H); apply bpow_gt_0).
  rewrite (Rabs_pos_eq x) by lra.
  intros G. apply Rle_trans with (/ 2 * bpow radix2 (-53 + 1) * x)%R.
  - apply G. apply Rle_trans with (2 := H). apply bpow_le. unfold SpecFloat.emin. lia.
  - apply Rmult_le_compat_r; [lra|]. unfold u.
    rewrite (bpow_plus radix2 (-53) 1). change (bpow radix2 1) with 2%R. lra.
Qed.

Section Bounds.
Variables n num : Z.
Hypothesis Hn : 1 <= n < 2 ^ 52.
Hypothesis Hnum : 1 <= num <= 2 ^ 52.

Definition avg : f64 := f64_div (f64_of_Z n) (f64_of_Z num).
Notation Nr := (IZR n).
Notation Mr := (IZR num).
Notation X k := (V (it avg k f64_zero)).

Lemma N1 : (1 <= Nr)%R. Proof. apply IZR_le; lia. Qed.
Lemma N52 : (Nr <= 4503599627370496)%R. Proof. apply (IZR_le n 4503599627370496); lia. Qed.
Lemma M1 : (1 <= Mr)%R. Proof. apply IZR_le; lia. Qed.
Lemma M52 : (Mr <= 4503599627370496)%R. Proof. apply (IZR_le num 4503599627370496); lia. Qed.
Lemma M26 : num <= 2 ^ 26 -> (Mr <= 67108864)%R. Proof. intros; apply (IZR_le num 67108864); lia. Qed.

Lemma q_bounds : (bpow radix2 (-1000) <= Nr / Mr)%R /\ (Nr / Mr <= Nr)%R.
Proof.
  pose proof N1; pose proof M1; pose proof M52. split.
  - apply Rle_trans with (bpow radix2 (-52)); [apply bpow_le; lia|].
    change (bpow radix2 (-52)) with (/ 4503599627370496)%R.
    unfold Rdiv. apply Rle_trans with (1 * / Mr)%R.
    + rewrite Rmult_1_l. apply Rinv_le; lra.
    + apply Rmult_le_compat_r; [|lra]. left; apply Rinv_0_lt_compat; lra.
  - apply Rmult_le_reg_r with Mr; [lra|]. unfold Rdiv. rewrite Rmult_assoc, Rinv_l by lra. nra.
Qed.

Lemma avg_correct : V avg = rnd (Nr / Mr) /\ fin avg.
Proof.
  destruct (of_Z_correct n) as [E1 F1]; [lia|].
  destruct (of_Z_correct num) as [E2 F2]; [lia|].
  unfold avg. pose proof M1. pose proof N1.
  rewrite <- E1, <- E2. apply div_correct; [exact F1|rewrite E2; lra|].
  rewrite E1, E2. destruct q_bounds as [L U].
  rewrite Rabs_pos_eq.
  - apply Rle_trans with (1 := U). rewrite <- (Rabs_pos_eq Nr) by lra. apply IZR_le_1000. lia.
  - apply Rle_trans with (2 := L). apply bpow_ge_0.
Qed.

Notation A := (V avg).

Lemma A_err : (Nr / Mr * (1 - u) <= A <= Nr / Mr * (1 + u))%R.
Proof.
  destruct avg_correct as [-> _]. destruct q_bounds as [L _].
  generalize (rnd_rel _ L). intros H. apply Rabs_le_inv in H. lra.
Qed.

Lemma A_le_n : (A <= Nr)%R.
Proof.
  destruct avg_correct as [-> _]. destruct q_bounds as [_ U].
  rewrite <- (rnd_IZR n) at 2 by lia. now apply rnd_mono.
Qed.

Lemma A_ge : (bpow radix2 (-100) <= A)%R.
Proof.
  pose proof A_err as [L _]. pose proof N1; pose proof M1; pose proof M52.
  apply Rle_trans with (2 := L).
  apply Rle_trans with (/ 4503599627370496 * / 2)%R.
  - apply Rle_trans with (bpow radix2 (-53)); [apply bpow_le; lia|].
    right. simpl. lra.
  - apply Rmult_le_compat; try lra.
    + unfold Rdiv. apply Rle_trans with (1 * / Mr)%R.
      * rewrite Rmult_1_l. apply Rinv_le; lra.
      * apply Rmult_le_compat_r; [|lra]. left; apply Rinv_0_lt_compat; lra.
    + rewrite u_val. lra.
Qed.

Lemma A_pos : (0 < A)%R.
Proof. apply Rlt_le_trans with (2 := A_ge). apply bpow_gt_0. Qed.

Lemma A_floor : (IZR (n / num) <= A)%R.
Proof.
  destruct avg_correct as [-> _].
  rewrite <- (rnd_IZR (n / num)).
  - apply rnd_mono. pose proof M1. apply Rmult_le_reg_r with Mr; [lra|].
    unfold Rdiv. rewrite Rmult_assoc, Rinv_l, Rmult_1_r, <- mult_IZR by lra.
    apply IZR_le. rewrite Z.mul_comm. apply Z.mul_div_le. lia.
  - assert (0 <= n / num <= n); [|lia]. split; [apply Z.div_pos; lia|].
    apply Z.div_le_upper_bound; nia.
Qed.

Lemma A_ceil : (A <= IZR ((n + num - 1) / num))%R.
Proof.
  destruct avg_correct as [-> _].
  rewrite <- (rnd_IZR ((n + num - 1) / num)).
  - apply rnd_mono. pose proof M1. apply Rmult_le_reg_r with Mr; [lra|].
    unfold Rdiv. rewrite Rmult_assoc, Rinv_l, Rmult_1_r, <- mult_IZR by lra.
    apply IZR_le. pose proof (Z.mod_pos_bound (n + num - 1) num).
    pose proof (Z.div_mod (n + num - 1) num). nia.
  - assert (0 <= (n + num - 1) / num <= n); [|lia]. split; [apply Z.div_pos; lia|].
    apply Z.div_le_upper_bound; nia.
Qed.

Lemma X_step k : fin (it avg k f64_zero) -> (0 <= X k <= bpow radix2 100)%R ->
  X (S k) = rnd (X k + A) /\ fin (it avg (S k) f64_zero).
Proof.
  intros F B. rewrite it_S. apply add_correct; [exact F|apply avg_correct|].
  pose proof A_pos. pose proof A_le_n. pose proof N52.
  rewrite Rabs_pos_eq by lra.
  apply Rle_trans with (bpow radix2 100 + bpow radix2 100)%R.
  - apply Rplus_le_compat; [lra|]. apply Rle_trans with (bpow radix2 52); [|apply bpow_le; lia].
    change (bpow radix2 52) with 4503599627370496%R. lra.
  - replace (bpow radix2 100 + bpow radix2 100)%R with (bpow radix2 101).
    + apply bpow_le; lia.
    + change 101 with (100 + 1). rewrite (bpow_plus radix2 100 1). change (bpow radix2 1) with 2%R. lra.
Qed.

(** While the boundary stays below [n] it is finite, non-negative, at most [2n]. *)
Lemma X_range K : (forall k, (k < K)%nat -> f64_ltZ (it avg k f64_zero) n = true) ->
  forall k, (k <= K)%nat -> fin (it avg k f64_zero) /\ (0 <= X k <= 2 * Nr)%R.
Proof.
  intros H. pose proof N1. pose proof A_pos. pose proof A_le_n. pose proof N52.
  induction k as [|k IH]; intros Hk.
  - split; [reflexivity|]. cbn. lra.
  - destruct IH as [F B]; [lia|].
    generalize (H k Hk). rewrite ltZ_correct; [|exact F|lia].
    intros L. assert (X k < Nr)%R as L' by (revert L; case Rlt_bool_spec; [auto|discriminate]).
    destruct (X_step k F) as [E F'].
    { split; [lra|]. apply Rle_trans with (bpow radix2 53); [|apply bpow_le; lia].
      change (bpow radix2 53) with 9007199254740992%R. lra. }
    split; [exact F'|]. cbv beta. rewrite E. split.
    + rewrite <- rnd_0. apply rnd_mono. lra.
    + replace (2 * Nr)%R with (IZR (2 * n)) by (rewrite mult_IZR; reflexivity).
      rewrite <- (rnd_IZR (2 * n)) by lia. apply rnd_mono. rewrite mult_IZR. lra.
Qed.

Lemma X_lt K k : (forall k, (k < K)%nat -> f64_ltZ (it avg k f64_zero) n = true) ->
  (k < K)%nat -> (X k < Nr)%R.
Proof.
  intros H Hk. destruct (X_range K H k) as [F _]; [lia|].
  generalize (H k Hk). rewrite ltZ_correct; [|exact F|lia].
  case Rlt_bool_spec; [auto|discriminate].
Qed.

Lemma X_next K k : (forall k, (k < K)%nat -> f64_ltZ (it avg k f64_zero) n = true) ->
  (k < K)%nat -> X (S k) = rnd (X k + A).
Proof.
  intros H Hk. destruct (X_range K H k) as [F B]; [lia|].
  apply X_step; [exact F|]. pose proof N52. split; [lra|].
  apply Rle_trans with (bpow radix2 53); [|apply bpow_le; lia].
  change (bpow radix2 53) with 9007199254740992%R. lra.
Qed.

Lemma X_mono K k : (forall k, (k < K)%nat -> f64_ltZ (it avg k f64_zero) n = true) ->
  (k < K)%nat -> (X k <= X (S k))%R.
Proof.
  intros H Hk. rewrite (X_next K k H Hk). rewrite <- (rnd_V (it avg k f64_zero)) at 1.
  apply rnd_mono. pose proof A_pos. lra.
Qed.

Lemma X_err K k : (forall k, (k < K)%nat -> f64_ltZ (it avg k f64_zero) n = true) ->
  (k < K)%nat -> ((X k + A) * (1 - u) <= X (S k) <= (X k + A) * (1 + u))%R.
Proof.
  intros H Hk. rewrite (X_next K k H Hk).
  assert (bpow radix2 (-1000) <= X k + A)%R as L.
  { destruct (X_range K H k) as [_ [B _]]; [lia|]. pose proof A_ge.
    apply Rle_trans with (bpow radix2 (-100)); [apply bpow_le; lia|]. cbv beta in B. lra. }
  generalize (rnd_rel _ L). intros G. apply Rabs_le_inv in G. lra.
Qed.

Lemma X_lower K : (forall k, (k < K)%nat -> f64_ltZ (it avg k f64_zero) n = true) ->
  forall k, (k <= K)%nat -> (INR k * A * (1 - INR k * u) <= X k)%R.
Proof.
  intros H. pose proof A_pos as HA. assert (0 < u < 1)%R as Hu by (rewrite u_val; lra).
  induction k as [|k IH]; intros Hk.
  - cbn. lra.
  - destruct (X_err K k H Hk) as [L _]. specialize (IH ltac:(lia)).
    apply Rle_trans with (2 := L). rewrite S_INR. pose proof (pos_INR k) as Hp.
    apply Rle_trans with ((INR k * A * (1 - INR k * u) + A) * (1 - u))%R.
    + set (p := INR k) in *.
      replace ((p * A * (1 - p * u) + A) * (1 - u) )%R with
        (A * ((p + 1) * (1 - (p + 1) * u) + p * u + p * p * u * u))%R by ring.
      replace ((p + 1) * A * (1 - (p + 1) * u))%R with (A * ((p + 1) * (1 - (p + 1) * u)))%R by ring.
      apply Rmult_le_compat_l; [lra|].
      assert (0 <= p * u)%R by (apply Rmult_le_pos; lra).
      assert (0 <= p * p * u * u)%R; [|lra].
      replace (p * p * u * u)%R with ((p * u) * (p * u))%R by ring. apply Rmult_le_pos; lra.
    + apply Rmult_le_compat_r; lra.
Qed.

Lemma X_upper K : (forall k, (k < K)%nat -> f64_ltZ (it avg k f64_zero) n = true) ->
  forall k, (k <= K)%nat -> (INR k * u <= 1)%R -> (X k <= INR k * A * (1 + INR k * u))%R.
Proof.
  intros H. pose proof A_pos as HA. assert (0 < u < 1)%R as Hu by (rewrite u_val; lra).
  induction k as [|k IH]; intros Hk Hku.
  - cbn. lra.
  - destruct (X_err K k H Hk) as [_ L]. pose proof (pos_INR k) as Hp.
    rewrite S_INR in *. specialize (IH ltac:(lia) ltac:(nra)).
    apply Rle_trans with (1 := L).
    apply Rle_trans with ((INR k * A * (1 + INR k * u) + A) * (1 + u))%R.
    + apply Rmult_le_compat_r; lra.
    + set (p := INR k) in *.
      replace ((p * A * (1 + p * u) + A) * (1 + u))%R with
        (A * ((p + 1) * (1 + (p + 1) * u) - p * u * (1 - p * u)))%R by ring.
      replace ((p + 1) * A * (1 + (p + 1) * u))%R with (A * ((p + 1) * (1 + (p + 1) * u)))%R by ring.
      apply Rmult_le_compat_l; [lra|].
      assert (0 <= p * u * (1 - p * u))%R; [|lra].
      apply Rmult_le_pos; [apply Rmult_le_pos; lra|nra].
Qed.

Lemma M_nat : INR (Z.to_nat num) = Mr.
Proof. rewrite INR_IZR_INZ, Z2Nat.id by lia. reflexivity. Qed.

(** At most [num + 1] passes. *)
Lemma count_upper K : num <= 2 ^ 26 -> (forall k, (k < K)%nat -> f64_ltZ (it avg k f64_zero) n = true) ->
  (K <= Z.to_nat num + 1)%nat.
Proof.
  intros H26 H. destruct (Nat.le_gt_cases K (Z.to_nat num + 1)) as [|G]; [assumption|exfalso].
  set (k := (Z.to_nat num + 1)%nat) in *.
  pose proof (X_lt K k H G) as L. cbv beta in L.
  pose proof (X_lower K H k ltac:(lia)) as Lo. cbv beta in Lo.
  assert (INR k = Mr + 1)%R as Ek by (unfold k; rewrite plus_INR, M_nat; reflexivity).
  rewrite Ek in Lo. pose proof N1; pose proof M1; pose proof (M26 H26). pose proof A_err as [AL _].
  assert (0 < u)%R as Hu by (rewrite u_val; lra).
  assert ((Mr + 1) * (Mr + 2) * u <= 1)%R as Hq.
  { rewrite u_val. apply Rmult_le_reg_r with 9007199254740992%R; [lra|].
    rewrite Rmult_assoc, Rinv_l, Rmult_1_r by lra. nra. }
  set (m := Mr) in *.
  assert (0 <= 1 - (m + 1) * u)%R by nra.
  assert (Nr / m * (1 - u) * ((m + 1) * (1 - (m + 1) * u)) <= A * ((m + 1) * (1 - (m + 1) * u)))%R as S1.
  { apply Rmult_le_compat_r; [|exact AL]. apply Rmult_le_pos; lra. }
  assert (Nr <= Nr / m * (1 - u) * ((m + 1) * (1 - (m + 1) * u)))%R as S2.
  { replace Nr with (Nr / m * m)%R at 1 by (field; lra).
    replace (Nr / m * (1 - u) * ((m + 1) * (1 - (m + 1) * u)))%R
      with (Nr / m * ((m + 1) * ((1 - u) * (1 - (m + 1) * u))))%R by ring.
    apply Rmult_le_compat_l; [apply Rlt_le, Rdiv_lt_0_compat; lra|].
    assert (0 <= u * ((m + 1) * u))%R by (apply Rmult_le_pos; [lra|apply Rmult_le_pos; lra]).
    assert (1 - (m + 2) * u <= (1 - u) * (1 - (m + 1) * u))%R by lra.
    assert ((m + 1) * (1 - (m + 2) * u) <= (m + 1) * ((1 - u) * (1 - (m + 1) * u)))%R
      by (apply Rmult_le_compat_l; lra).
    lra. }
  lra.
Qed.

(** At least [num] passes. *)
Lemma count_lower K : num <= 2 ^ 26 -> (forall k, (k < K)%nat -> f64_ltZ (it avg k f64_zero) n = true) ->
  f64_ltZ (it avg K f64_zero) n = false -> (Z.to_nat num <= K)%nat.
Proof.
  intros H26 H E. destruct (Nat.le_gt_cases (Z.to_nat num) K) as [|G]; [assumption|exfalso].
  destruct (X_range K H K) as [F B]; [lia|].
  rewrite ltZ_correct in E; [|exact F|lia].
  assert (Nr <= X K)%R as L by (revert E; case Rlt_bool_spec; [discriminate|auto]).
  cbv beta in L.
  assert (INR K <= Mr - 1)%R as HK.
  { rewrite <- M_nat. replace 1%R with (INR 1) by reflexivity.
    rewrite <- minus_INR by lia. apply le_INR. lia. }
  pose proof (pos_INR K) as Hp.
  pose proof N1; pose proof M1; pose proof (M26 H26). pose proof A_err as [_ AU]. pose proof A_pos.
  assert (u = / 9007199254740992)%R as Hu by exact u_val.
  assert (INR K * u <= 1)%R as Hq by (rewrite Hu; lra).
  pose proof (X_upper K H K ltac:(lia) Hq) as Up. cbv beta in Up.
  set (m := Mr) in *. set (p := INR K) in *.
  assert (0 < u)%R by (rewrite Hu; lra).
  assert (A * (p * (1 + p * u)) <= Nr / m * (1 + u) * ((m - 1) * (1 + (m - 1) * u)))%R as S1.
  { apply Rmult_le_compat; try lra.
    - apply Rmult_le_pos; [lra|]. nra.
    - apply Rmult_le_compat; try lra; nra. }
  assert (Nr / m * (1 + u) * ((m - 1) * (1 + (m - 1) * u)) < Nr)%R as S2.
  { replace Nr with (Nr / m * m)%R at 2 by (field; lra).
    replace (Nr / m * (1 + u) * ((m - 1) * (1 + (m - 1) * u)))%R
      with (Nr / m * ((m - 1) * ((1 + u) * (1 + (m - 1) * u))))%R by ring.
    apply Rmult_lt_compat_l; [apply Rdiv_lt_0_compat; lra|].
    assert (m * m * u <= 1/2)%R as Hmm.
    { rewrite Hu. assert (m * m <= 67108864 * 67108864)%R by (apply Rmult_le_compat; lra). lra. }
    assert ((m - 1) * u <= 1)%R as Hm1 by (rewrite Hu; lra).
    replace ((m - 1) * ((1 + u) * (1 + (m - 1) * u)))%R
      with ((m - 1) + (m - 1) * (m * u) + (m - 1) * (u * ((m - 1) * u)))%R by ring.
    assert ((m - 1) * (m * u) <= 1/2)%R by nra.
    assert ((m - 1) * (u * ((m - 1) * u)) <= (m - 1) * (u * 1))%R.
    { apply Rmult_le_compat_l; [lra|]. apply Rmult_le_compat_l; lra. }
    assert ((m - 1) * (u * 1) <= 1/4)%R by (rewrite Hu; lra).
    lra. }
  lra.
Qed.

(** For any count up to 2^52 each pass advances by at least a quarter of the
    average, so the loop ends. *)
Lemma X_progress K : (forall k, (k < K)%nat -> f64_ltZ (it avg k f64_zero) n = true) ->
  forall k, (k <= K)%nat -> (INR k * (A / 4) <= X k)%R.
Proof.
  intros H. pose proof N1; pose proof M1; pose proof M52. pose proof A_err as [AL _]. pose proof A_pos.
  assert (u = / 9007199254740992)%R as Hu by exact u_val.
  assert (0 < u)%R by (rewrite Hu; lra).
  assert (Nr <= 5 / 4 * Mr * A)%R as Hna.
  { replace Nr with (Nr / Mr * Mr)%R by (field; lra).
    assert (Nr / Mr <= 5 / 4 * A)%R by (rewrite Hu in AL; lra).
    replace (5 / 4 * Mr * A)%R with (5 / 4 * A * Mr)%R by ring. apply Rmult_le_compat_r; lra. }
  assert (u * Nr <= 5 / 8 * A)%R as Hun.
  { apply Rle_trans with (u * (5 / 4 * Mr * A))%R; [apply Rmult_le_compat_l; lra|].
    assert (u * Mr <= 1/2)%R by (rewrite Hu; lra).
    replace (u * (5 / 4 * Mr * A))%R with (u * Mr * (5 / 4 * A))%R by ring.
    apply Rle_trans with (1 / 2 * (5 / 4 * A))%R; [apply Rmult_le_compat_r; lra|lra]. }
  induction k as [|k IH]; intros Hk.
  - cbn. lra.
  - destruct (X_err K k H Hk) as [L _]. specialize (IH ltac:(lia)).
    pose proof (X_lt K k H Hk). rewrite S_INR.
    apply Rle_trans with (2 := L).
    assert (u * X k <= u * Nr)%R by (apply Rmult_le_compat_l; lra).
    assert (u * A <= 1 / 8 * A)%R by (apply Rmult_le_compat_r; rewrite ?Hu; lra).
    lra.
Qed.

Lemma count_any K : (forall k, (k < K)%nat -> f64_ltZ (it avg k f64_zero) n = true) ->
  (K <= 5 * Z.to_nat num + 1)%nat.
Proof.
  intros H. destruct (Nat.le_gt_cases K (5 * Z.to_nat num + 1)) as [|G]; [assumption|exfalso].
  set (k := (5 * Z.to_nat num + 1)%nat) in *.
  pose proof (X_lt K k H G) as L. pose proof (X_progress K H k ltac:(lia)) as Lo.
  assert (INR k = 5 * Mr + 1)%R as Ek.
  { unfold k. rewrite plus_INR, mult_INR, M_nat. simpl. ring. }
  rewrite Ek in Lo. pose proof N1; pose proof M1. pose proof A_err as [AL _]. pose proof A_pos.
  assert (u = / 9007199254740992)%R as Hu by exact u_val.
  assert (Nr / Mr <= 5 / 4 * A)%R as Hq by (rewrite Hu in AL; lra).
  assert (Nr <= 5 / 4 * A * Mr)%R.
  { replace Nr with (Nr / Mr * Mr)%R by (field; lra). apply Rmult_le_compat_r; lra. }
  lra.
Qed.

(** ** Integer boundaries *)

Notation I k := (f64_int (it avg k f64_zero)).

Lemma I_pos K k : (forall k, (k < K)%nat -> f64_ltZ (it avg k f64_zero) n = true) ->
  (k <= K)%nat -> 0 <= I k /\ (IZR (I k) <= X k < IZR (I k) + 1)%R.
Proof.
  intros H Hk. cbv beta. rewrite int_correct. destruct (X_range K H k Hk) as [_ [B _]].
  cbv beta in B. rewrite Ztrunc_floor by exact B. split.
  - apply Zfloor_lub. exact B.
  - split; [apply Zfloor_lb|apply Zfloor_ub].
Qed.

Lemma I_lub K k z : (forall k, (k < K)%nat -> f64_ltZ (it avg k f64_zero) n = true) ->
  (k <= K)%nat -> (IZR z <= X k)%R -> z <= I k.
Proof.
  intros H Hk G. cbv beta. rewrite int_correct. destruct (X_range K H k Hk) as [_ [B _]].
  rewrite Ztrunc_floor by exact B. apply Zfloor_lub. exact G.
Qed.

Lemma I_0 : I 0%nat = 0.
Proof. reflexivity. Qed.

Lemma I_mono K k : (forall k, (k < K)%nat -> f64_ltZ (it avg k f64_zero) n = true) ->
  (k < K)%nat -> I k <= I (S k).
Proof.
  intros H Hk. apply (I_lub K); [exact H|lia|].
  destruct (I_pos K k H) as [_ [L _]]; [lia|].
  apply Rle_trans with (1 := L). now apply (X_mono K).
Qed.

Lemma I_lt K k : (forall k, (k < K)%nat -> f64_ltZ (it avg k f64_zero) n = true) ->
  (k < K)%nat -> I k < n.
Proof.
  intros H Hk. destruct (I_pos K k H) as [_ [L _]]; [lia|].
  pose proof (X_lt K k H Hk). apply lt_IZR. cbv beta in *. lra.
Qed.

Lemma I_end K : (forall k, (k < K)%nat -> f64_ltZ (it avg k f64_zero) n = true) ->
  f64_ltZ (it avg K f64_zero) n = false -> n <= I K.
Proof.
  intros H E. destruct (X_range K H K) as [F _]; [lia|].
  rewrite ltZ_correct in E; [|exact F|lia].
  apply (I_lub K); [exact H|lia|].
  revert E; case Rlt_bool_spec; [discriminate|auto].
Qed.

(** One pass advances by at least [floor(n/num)] and at most [ceil(n/num) + 1]. *)
Lemma I_advance K k : (forall k, (k < K)%nat -> f64_ltZ (it avg k f64_zero) n = true) ->
  (k < K)%nat -> I k + n / num <= I (S k) <= I k + (n + num - 1) / num + 1.
Proof.
  intros H Hk. destruct (I_pos K k H) as [P [L U]]; [lia|].
  pose proof (I_lt K k H Hk) as Lt. cbv beta in *.
  pose proof (X_next K k H Hk) as E. cbv beta in E.
  assert (0 <= n / num <= n) as Q.
  { split; [apply Z.div_pos; lia|]. apply Z.div_le_upper_bound; nia. }
  assert (0 <= (n + num - 1) / num <= n) as Q'.
  { split; [apply Z.div_pos; lia|]. apply Z.div_le_upper_bound; nia. }
  split.
  - apply (I_lub K); [exact H|lia|]. cbv beta. rewrite E.
    rewrite <- (rnd_IZR (f64_int (it avg k f64_zero) + n / num)) by lia. apply rnd_mono.
    rewrite plus_IZR. apply Rplus_le_compat; [lra|apply A_floor].
  - destruct (I_pos K (S k) H) as [_ [L' _]]; [lia|]. cbv beta in L'.
    apply le_IZR. apply Rle_trans with (1 := L'). rewrite E.
    rewrite <- (rnd_IZR (f64_int (it avg k f64_zero) + (n + num - 1) / num + 1)) by lia.
    apply rnd_mono. rewrite !plus_IZR. pose proof A_ceil. lra.
Qed.

Lemma I_first : n < num -> (forall k, (k < 1)%nat -> f64_ltZ (it avg k f64_zero) n = true) -> I 1%nat = 0.
Proof.
  intros Hl H. destruct (I_pos 1 1 H) as [P [L _]]; [lia|].
  pose proof (X_next 1 0 H ltac:(lia)) as E.
  change (X 0) with 0%R in E. rewrite Rplus_0_l, rnd_V in E.
  pose proof A_err as [_ AU]. pose proof N1; pose proof M1; pose proof M52.
  assert (Nr <= Mr - 1)%R as Hnm.
  { rewrite <- (minus_IZR num 1). apply IZR_le. lia. }
  assert (u = / 9007199254740992)%R as Hu by exact u_val.
  assert (A < 1)%R.
  { apply Rle_lt_trans with (1 := AU). apply Rmult_lt_reg_r with Mr; [lra|].
    replace (Nr / Mr * (1 + u) * Mr)%R with (Nr * (1 + u))%R by (field; lra).
    assert (Nr * u <= 1 / 2)%R by (rewrite Hu; lra). lra. }
  assert (I 1 < 1); [|lia].
  apply lt_IZR. lra.
Qed.
End Bounds.

(** ** Negative counts: the boundary stays at or below zero for ever *)

Definition c107 : f64 := @binary_normalize 53 1024 p53 e1024 mode_NE (-1) 107 false.
Definition d52 : f64 := f64_of_Z (- 2 ^ 52).

Lemma c107_val : V c107 = (- bpow radix2 107)%R /\ fin c107.
Proof.
  split; [|reflexivity].
  assert (Bsign c107 = true /\ @Beqb 53 1024 c107 c107 = true) by (split; reflexivity).
  generalize (@binary_normalize_correct 53 1024 p53 e1024 mode_NE (-1) 107 false). cbv zeta.
  assert (F2R (Float radix2 (-1) 107) = (- bpow radix2 107)%R) as E by (unfold F2R; simpl Fnum; simpl Fexp; ring).
  rewrite E. 
  assert (round radix2 (SpecFloat.fexp 53 1024) (round_mode mode_NE) (- bpow radix2 107) = (- bpow radix2 107)%R) as R1.
  { apply round_generic; auto with typeclass_instances. apply generic_format_opp. apply format_bpow. lia. }
  rewrite R1. rewrite Rlt_bool_true.
  - intros [G _]. exact G.
  - rewrite Rabs_Ropp, Rabs_pos_eq by apply bpow_ge_0. apply bpow_lt. lia.
Qed.

Lemma absorb : f64_add c107 d52 = c107.
Proof. apply B2SF_inj. vm_compute. reflexivity. Qed.

Lemma rnd_absorb : rnd (- bpow radix2 107 - IZR (2 ^ 52)) = (- bpow radix2 107)%R.
Proof.
  destruct c107_val as [E F]. destruct (of_Z_correct (- 2 ^ 52)) as [E' F']; [lia|].
  rewrite <- E at 2. rewrite <- absorb.
  destruct (add_correct c107 d52 F F') as [G _].
  - unfold d52. rewrite E, E'. rewrite opp_IZR.
    rewrite <- Ropp_plus_distr, Rabs_Ropp.
    rewrite Rabs_pos_eq.
    + apply Rle_trans with (bpow radix2 107 + bpow radix2 107)%R.
      * apply Rplus_le_compat_l. change (IZR (2 ^ 52)) with (bpow radix2 52). apply bpow_le. lia.
      * replace (bpow radix2 107 + bpow radix2 107)%R with (bpow radix2 108).
        -- apply bpow_le; lia.
        -- change 108 with (107 + 1). rewrite (bpow_plus radix2 107 1). change (bpow radix2 1) with 2%R. lra.
    + apply Rplus_le_le_0_compat; [apply bpow_ge_0|]. apply IZR_le. lia.
  - rewrite G. unfold d52. rewrite E, E', opp_IZR. reflexivity.
Qed.

Section Negative.
Variables n num : Z.
Hypothesis Hn : 1 <= n < 2 ^ 52.
Hypothesis Hnum : - 2 ^ 52 <= num <= -1.

Lemma neg_avg : (- IZR (2 ^ 52) <= V (avg n num) <= 0)%R /\ fin (avg n num).
Proof.
  destruct (of_Z_correct n) as [E1 F1]; [lia|].
  destruct (of_Z_correct num) as [E2 F2]; [lia|].
  assert (1 <= IZR n)%R by (apply IZR_le; lia).
  assert (IZR n <= IZR (2 ^ 52))%R by (apply IZR_le; lia).
  assert (IZR num <= -1)%R by (apply IZR_le; lia).
  assert (- IZR n <= IZR n / IZR num <= 0)%R as B.
  { assert (/ IZR num < 0)%R by (apply Rinv_lt_0_compat; lra).
    assert (IZR num * / IZR num = 1)%R by (apply Rinv_r; lra).
    unfold Rdiv. split; nra. }
  unfold avg. destruct (div_correct (f64_of_Z n) (f64_of_Z num) F1) as [G F].
  - rewrite E2. lra.
  - rewrite E1, E2. apply Rabs_le.
    pose proof (IZR_le_1000 n ltac:(lia)) as L. rewrite Rabs_pos_eq in L by lra. lra.
  - split; [|exact F]. rewrite G, E1, E2. split.
    + rewrite <- opp_IZR. rewrite <- (rnd_IZR (- 2 ^ 52)) by lia. apply rnd_mono.
      rewrite opp_IZR. lra.
    + rewrite <- rnd_0. apply rnd_mono. lra.
Qed.

Lemma neg_range k : fin (it (avg n num) k f64_zero) /\
  (- bpow radix2 107 <= V (it (avg n num) k f64_zero) <= 0)%R.
Proof.
  destruct neg_avg as [B F].
  assert (0 <= bpow radix2 107)%R by apply bpow_ge_0.
  induction k as [|k [IF IB]].
  - split; [reflexivity|]. cbn [it]. change (V f64_zero) with 0%R. lra.
  - rewrite it_S. destruct (add_correct _ _ IF F) as [G F'].
    + apply Rabs_le. assert (IZR (2 ^ 52) <= bpow radix2 107)%R.
      { change (IZR (2 ^ 52)) with (bpow radix2 52). apply bpow_le. lia. }
      assert (bpow radix2 107 + bpow radix2 107 <= bpow radix2 1000)%R.
      { replace (bpow radix2 107 + bpow radix2 107)%R with (bpow radix2 108).
        - apply bpow_le; lia.
        - change 108 with (107 + 1). rewrite (bpow_plus radix2 107 1). change (bpow radix2 1) with 2%R. lra. }
      lra.
    + split; [exact F'|]. rewrite G. split.
      * rewrite <- rnd_absorb. apply rnd_mono. lra.
      * rewrite <- rnd_0. apply rnd_mono. lra.
Qed.

Lemma neg_forever k : f64_ltZ (it (avg n num) k f64_zero) n = true.
Proof.
  destruct (neg_range k) as [F B]. rewrite ltZ_correct; [|exact F|lia].
  apply Rlt_bool_true. assert (1 <= IZR n)%R by (apply IZR_le; lia). lra.
Qed.
End Negative.

(** ** Results about [chunks_made] *)

Section Made.
Variable A : Type.
Variable sq : list A.
Variable num : Z.
Notation n := (Z.of_nat (length sq)).
Hypothesis Hn : n < 2 ^ 52.

Lemma made_empty fuel : sq = [] -> num <> 0 -> chunks_made fuel sq num = Some (Ok []).
Proof.
  intros -> H. unfold chunks_made. destruct (Z.eqb_spec num 0) as [Hz|Hz]; [contradiction|].
  destruct fuel; reflexivity.
Qed.

Lemma made_zero fuel : chunks_made fuel sq 0 = Some (Raise ZeroDivisionError).
Proof. reflexivity. Qed.

Lemma made_negative fuel : sq <> [] -> - 2 ^ 52 <= num < 0 -> chunks_made fuel sq num = None.
Proof.
  intros Hs Hm. unfold chunks_made. destruct (Z.eqb_spec num 0) as [Hz|Hz]; [lia|].
  rewrite loop_none_conv; [reflexivity|]. intros k _. apply neg_forever; [|lia].
  destruct sq; [congruence|]. cbn [length]. cbn [length] in Hn. lia.
Qed.

Hypothesis Hm : 1 <= num <= 2 ^ 52.
Notation I k := (f64_int (it (avg n num) k f64_zero)).

(** The production list, described by its boundaries. *)
Lemma made_pos fuel : sq <> [] ->
  (5 * Z.to_nat num + 1 <= fuel)%nat \/ (num <= 2 ^ 26 /\ (Z.to_nat num + 1 <= fuel)%nat) ->
  exists K, chunks_made fuel sq num = Some (Ok (map (fun k => pyslice sq (I k) (I (S k))) (List.seq 0 K)))
    /\ (forall k, (k < K)%nat -> f64_ltZ (it (avg n num) k f64_zero) n = true)
    /\ f64_ltZ (it (avg n num) K f64_zero) n = false.
Proof.
  intros Hs Hf. unfold chunks_made. destruct (Z.eqb_spec num 0) as [Hz|Hz]; [lia|].
  assert (1 <= n < 2 ^ 52) as Hn' by (destruct sq; [congruence|cbn [length] in *; lia]).
  change (f64_div (f64_of_Z n) (f64_of_Z num)) with (avg n num).
  destruct (chunk_loop fuel sq (avg n num) f64_zero []) as [r|] eqn:E.
  - destruct (loop_some _ _ _ _ _ _ _ E) as [K [_ [Hr [H1 H2]]]]. exists K.
    split; [|split; assumption]. cbn [option_map]. rewrite Hr. reflexivity.
  - exfalso. pose proof (loop_none _ _ _ _ _ _ E) as G.
    assert (forall k, (k < S fuel)%nat -> f64_ltZ (it (avg n num) k f64_zero) n = true) as G'
      by (intros; apply G; lia).
    destruct Hf as [Hf|[H26 Hf]].
    + pose proof (count_any n num Hn' Hm (S fuel) G'). lia.
    + pose proof (count_upper n num Hn' Hm (S fuel) H26 G'). lia.
Qed.
End Made.

(** Everything about one call, gathered. *)
Lemma made_all {A} (sq : list A) num fuel :
  sq <> [] -> Z.of_nat (length sq) < 2 ^ 52 -> 1 <= num <= 2 ^ 52 ->
  (5 * Z.to_nat num + 1 <= fuel)%nat \/ (num <= 2 ^ 26 /\ (Z.to_nat num + 1 <= fuel)%nat) ->
  exists cs, chunks_made fuel sq num = Some (Ok cs)
    /\ concat cs = sq
    /\ (num <= Z.of_nat (length sq) -> forall c, In c cs -> c <> [])
    /\ (Z.of_nat (length sq) < num -> nth_error cs 0 = Some [])
    /\ (num <= 2 ^ 26 -> length cs = Z.to_nat num \/ length cs = S (Z.to_nat num))
    /\ (forall c, In c cs -> Z.of_nat (length c) <= (Z.of_nat (length sq) + num - 1) / num + 1)
    /\ (forall k c, (S k < length cs)%nat -> nth_error cs k = Some c ->
          Z.of_nat (length sq) / num <= Z.of_nat (length c)).
Proof.
  intros Hs Hn Hm Hf. destruct (made_pos A sq num Hn Hm fuel Hs Hf) as [K [E [H1 H2]]].
  set (n := Z.of_nat (length sq)) in *.
  assert (1 <= n < 2 ^ 52) as Hn' by (unfold n in *; destruct sq; [congruence|cbn [length] in *; lia]).
  set (I := fun k => f64_int (it (avg n num) k f64_zero)) in *.
  assert (Ipos : forall k, (k <= K)%nat -> 0 <= I k) by (intros; apply (I_pos n num Hn' Hm K); auto).
  assert (Imono : forall k, (k < K)%nat -> I k <= I (S k)) by (intros; apply (I_mono n num Hn' Hm K); auto).
  assert (Iend : n <= I K) by (apply (I_end n num Hn' Hm K); auto).
  assert (Ilt : forall k, (k < K)%nat -> I k < n) by (intros; apply (I_lt n num Hn' Hm K); auto).
  assert (Iadv : forall k, (k < K)%nat -> I k + n / num <= I (S k) <= I k + (n + num - 1) / num + 1)
    by (intros; apply (I_advance n num Hn' Hm K); auto).
  assert (Hlen : forall k, (k < K)%nat -> Z.of_nat (length (pyslice sq (I k) (I (S k)))) =
                                    Z.min (I (S k)) n - I k).
  { intros k Hk. pose proof (Ipos k ltac:(lia)). pose proof (Ipos (S k) ltac:(lia)).
    pose proof (Imono k Hk). pose proof (Ilt k Hk).
    rewrite pyslice_pos by assumption. rewrite firstn_length, skipn_length. unfold n in *. lia. }
  assert (K0 : K <> 0%nat) by (intros ->; pose proof (I_0 n num); unfold I in Iend; lia).
  exists (map (fun k => pyslice sq (I k) (I (S k))) (List.seq 0 K)).
  split; [exact E|]. split; [|split; [|split; [|split; [|split]]]].
  - rewrite (pyslice_concat sq I K); [|exact Ipos|exact Imono|apply I_0].
    apply firstn_all2. unfold n in *. lia.
  - intros Hle c Hc. apply in_map_iff in Hc as [k [<- Hk]]. apply in_seq in Hk.
    intros Hnil. pose proof (Hlen k ltac:(lia)) as L. rewrite Hnil in L. cbn in L.
    pose proof (Iadv k ltac:(lia)). pose proof (Ilt k ltac:(lia)).
    assert (1 <= n / num) by (apply Z.div_le_lower_bound; lia). lia.
  - intros Hlt. destruct K as [|K]; [congruence|]. cbn [List.seq map nth_error]. f_equal.
    assert (I 1%nat = 0) as -> .
    { apply (I_first n num Hn' Hm Hlt). intros k Hk. apply H1. lia. }
    change (I 0%nat) with 0. unfold pyslice, slice_bound.
    replace (Z.to_nat _) with 0%nat; [reflexivity|]. destruct (Z.ltb_spec 0 0); lia.
  - intros H26. rewrite map_length, seq_length.
    pose proof (count_upper n num Hn' Hm K H26 H1). pose proof (count_lower n num Hn' Hm K H26 H1 H2). lia.
  - intros c Hc. apply in_map_iff in Hc as [k [<- Hk]]. apply in_seq in Hk.
    rewrite Hlen by lia. pose proof (Iadv k ltac:(lia)). lia.
  - intros k c Hk Hc. rewrite map_length, seq_length in Hk.
    rewrite nth_error_map in Hc. rewrite (nth_error_nth' _ 0%nat) in Hc by (rewrite seq_length; lia).
    rewrite seq_nth in Hc by lia. cbn in Hc. injection Hc as <-.
    rewrite Hlen by lia. pose proof (Iadv k ltac:(lia)). pose proof (Ilt (S k) ltac:(lia)). lia.
Qed.
