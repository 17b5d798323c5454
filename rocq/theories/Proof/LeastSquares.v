(** Minimum-norm least squares for the zero-point system: closed form, existence,
    uniqueness. *)
From Coq Require Import ZArith List Bool Arith Reals Lia Lra.
From Verif.Model Require Import Py Transparency.
From Verif.Spec Require Import Transparency.
Import ListNotations.
Local Open Scope R_scope.

Lemma sumR_cons {A} (f : A -> R) a l : sumR f (a :: l) = f a + sumR f l.
Proof. reflexivity. Qed.
Lemma sumR_nil {A} (f : A -> R) : sumR f [] = 0.
Proof. reflexivity. Qed.
Global Opaque sumR.

Lemma sumR_ext {A} (f g : A -> R) l : (forall a, In a l -> f a = g a) -> sumR f l = sumR g l.
Proof.
  induction l as [|a l IH]; intros H; [now rewrite !sumR_nil|]. rewrite !sumR_cons.
  rewrite (H a) by now left. rewrite IH; [reflexivity|]. intros; apply H; now right.
Qed.

Lemma sumR_app {A} (f : A -> R) l k : sumR f (l ++ k) = sumR f l + sumR f k.
Proof. induction l as [|a l IH]; cbn [app]; [rewrite sumR_nil; lra|]. rewrite !sumR_cons, IH. lra. Qed.

Lemma sumR_map {A B} (f : B -> R) (g : A -> B) l : sumR f (map g l) = sumR (fun a => f (g a)) l.
Proof. induction l as [|a l IH]; cbn [map]; [now rewrite !sumR_nil|]. now rewrite !sumR_cons, IH. Qed.

Lemma sumR_plus {A} (f g : A -> R) l : sumR (fun a => f a + g a) l = sumR f l + sumR g l.
Proof. induction l as [|a l IH]; [rewrite !sumR_nil; lra|]. rewrite !sumR_cons, IH. lra. Qed.

Lemma sumR_scal {A} (c : R) (f : A -> R) l : sumR (fun a => c * f a) l = c * sumR f l.
Proof. induction l as [|a l IH]; [rewrite !sumR_nil; lra|]. rewrite !sumR_cons, IH. lra. Qed.

Lemma sumR_const {A} (c : R) (l : list A) : sumR (fun _ => c) l = INR (length l) * c.
Proof.
  induction l as [|a l IH]; [rewrite sumR_nil; cbn; lra|]. rewrite sumR_cons, IH. cbn [length]. rewrite S_INR. lra.
Qed.

Lemma sumR_nonneg {A} (f : A -> R) l : (forall a, In a l -> 0 <= f a) -> 0 <= sumR f l.
Proof.
  induction l as [|a l IH]; intros H; [rewrite sumR_nil; lra|]. rewrite sumR_cons.
  pose proof (H a (or_introl eq_refl)). specialize (IH (fun b Hb => H b (or_intror Hb))). lra.
Qed.

Lemma sumR_zero {A} (f : A -> R) l : (forall a, In a l -> 0 <= f a) -> sumR f l <= 0 ->
  forall a, In a l -> f a = 0.
Proof.
  induction l as [|b l IH]; intros H S a [].
  - subst b. rewrite sumR_cons in S. pose proof (H a (or_introl eq_refl)).
    pose proof (sumR_nonneg f l (fun b Hb => H b (or_intror Hb))). lra.
  - apply IH; trivial; [intros; apply H; now right|].
    rewrite sumR_cons in S. pose proof (H b (or_introl eq_refl)). lra.
Qed.

Lemma seq_shift_n n k : seq n k = map (fun i => (n + i)%nat) (seq 0 k).
Proof.
  revert n. induction k as [|k IH]; intros n; [reflexivity|]. cbn. rewrite (IH (S n)), <- seq_shift, map_map, Nat.add_0_r.
  f_equal. apply map_ext. intros; lia.
Qed.

Lemma sumR_prod (p q : nat) (f : nat -> R) :
  sumR f (seq 0 (p * q)) = sumR (fun k => sumR (fun r => f (k * q + r)%nat) (seq 0 q)) (seq 0 p).
Proof.
  induction p as [|p IH]; [reflexivity|].
  rewrite seq_S, sumR_app. cbn [Nat.add]. replace (S p * q)%nat with (p * q + q)%nat by lia.
  rewrite seq_app, sumR_app, IH. f_equal. cbn [Nat.add]. rewrite (seq_shift_n (p * q)), sumR_map, sumR_cons, sumR_nil. lra.
Qed.

Lemma sumR_delta (n k : nat) (f : nat -> R) : (k < n)%nat ->
  sumR (fun b => (if (b =? k)%nat then 1 else 0) * f b) (seq 0 n) = f k.
Proof.
  induction n as [|n IH]; intros H; [lia|]. rewrite seq_S, sumR_app. cbn [Nat.add].
  rewrite sumR_cons. rewrite sumR_nil.
  destruct (Nat.eq_dec k n) as [->|N].
  - rewrite Nat.eqb_refl. rewrite (sumR_ext _ (fun _ => 0)), sumR_const; [lra|].
    intros a Ha. apply in_seq in Ha. destruct (Nat.eqb_spec a n); [lia|lra].
  - rewrite IH by lia. destruct (Nat.eqb_spec n k); [lia|]. lra.
Qed.

Lemma dot_system p q x k r : (k < p)%nat -> (r < q)%nat ->
  dot (p + q) (system p q (k * q + r)) x = nth k x 0 + nth (p + r) x 0.
Proof.
  intros Hk Hr. unfold dot. rewrite seq_app, sumR_app. cbn [Nat.add]. f_equal.
  - rewrite <- (sumR_delta p k (fun b => nth b x 0)) by trivial. apply sumR_ext. intros b Hb. apply in_seq in Hb.
    unfold system. destruct (Nat.ltb_spec b p); [|lia].
    replace ((k * q + r) / q)%nat with k; [reflexivity|]. apply Nat.div_unique with r; lia.
  - rewrite (seq_shift_n p), sumR_map. rewrite <- (sumR_delta q r (fun b => nth (p + b) x 0)) by trivial.
    apply sumR_ext. intros b Hb. apply in_seq in Hb.
    unfold system. destruct (Nat.ltb_spec (p + b) p); [lia|].
    replace (p + b - p)%nat with b by lia.
    replace ((k * q + r) mod q)%nat with r; [reflexivity|].
    apply Nat.mod_unique with k; lia.
Qed.

Lemma residual_system p q m x :
  residual (p * q) (p + q) (system p q) m x =
  sumR (fun k => sumR (fun r => (nth k x 0 + nth (p + r) x 0 - nth (k * q + r) m 0) ^ 2) (seq 0 q)) (seq 0 p).
Proof.
  unfold residual. rewrite sumR_prod. apply sumR_ext. intros k Hk. apply sumR_ext. intros r Hr.
  apply in_seq in Hk, Hr. rewrite dot_system by lia. reflexivity.
Qed.

Lemma norm2_split p q x : length x = (p + q)%nat ->
  norm2 x = sumR (fun k => nth k x 0 ^ 2) (seq 0 p) + sumR (fun r => nth (p + r) x 0 ^ 2) (seq 0 q).
Proof.
  intros L. unfold norm2.
  assert (E : forall l, sumR (fun v => v ^ 2) l = sumR (fun k => nth k l 0 ^ 2) (seq 0 (length l))).
  { induction l as [|a l IH]; [reflexivity|]. cbn [length seq]. rewrite !sumR_cons, IH. cbn [nth].
    f_equal. rewrite <- seq_shift, sumR_map. reflexivity. }
  rewrite E, L, seq_app, sumR_app. cbn [Nat.add]. f_equal. now rewrite (seq_shift_n p), sumR_map.
Qed.

Section Closed.
Variables p q : nat.
Hypothesis Hp : (0 < p)%nat.
Hypothesis Hq : (0 < q)%nat.
Variable m : list R.

Let M k r := nth (k * q + r) m 0.
Let P := INR p.
Let Q := INR q.

Let P0 : 0 < P. Proof. apply lt_0_INR; exact Hp. Qed.
Let Q0 : 0 < Q. Proof. apply lt_0_INR; exact Hq. Qed.

Definition rowmean k := sumR (fun r => nth (k * q + r) m 0) (seq 0 q) / INR q.
Definition colmean r := sumR (fun k => nth (k * q + r) m 0) (seq 0 p) / INR p.
Definition grand := sumR rowmean (seq 0 p) / INR p.
Definition alpha := INR p * grand / (INR p + INR q).
Definition zc k := rowmean k - alpha.
Definition uc r := colmean r - grand + alpha.
Definition closed : list R := map zc (seq 0 p) ++ map uc (seq 0 q).

Lemma sum_swap (f : nat -> nat -> R) : forall n1 n2,
  sumR (fun k => sumR (f k) (seq 0 n2)) (seq 0 n1) = sumR (fun r => sumR (fun k => f k r) (seq 0 n1)) (seq 0 n2).
Proof.
  induction n1 as [|n1 IH]; intros n2.
  - cbn [seq]. rewrite sumR_nil, (sumR_ext _ (fun _ => 0)) by reflexivity. rewrite sumR_const. lra.
  - rewrite seq_S, sumR_app. cbn [Nat.add]. rewrite IH, sumR_cons. rewrite sumR_nil.
    rewrite Rplus_0_r, <- sumR_plus. apply sumR_ext. intros r _. rewrite sumR_app, sumR_cons, sumR_nil. lra.
Qed.

Lemma grand_col : sumR colmean (seq 0 q) = INR q * grand.
Proof.
  unfold grand, colmean, rowmean.
  rewrite (sumR_ext (fun k => sumR (fun r => nth (k * q + r) m 0) (seq 0 q) / INR q)
                    (fun k => / INR q * sumR (fun r => nth (k * q + r) m 0) (seq 0 q))) by (intros; unfold Rdiv; lra).
  rewrite (sumR_ext (fun r => sumR (fun k => nth (k * q + r) m 0) (seq 0 p) / INR p)
                    (fun r => / INR p * sumR (fun k => nth (k * q + r) m 0) (seq 0 p))) by (intros; unfold Rdiv; lra).
  rewrite !sumR_scal. rewrite (sum_swap (fun k r => nth (k * q + r) m 0)).
  unfold P, Q in *. field. split; lra.
Qed.

Lemma sum_zc : sumR zc (seq 0 p) = INR p * (grand - alpha).
Proof.
  unfold zc. rewrite (sumR_ext _ (fun k => rowmean k + (- alpha))) by (intros; lra).
  rewrite sumR_plus, sumR_const, seq_length. unfold grand. unfold P, Q in *. field. lra.
Qed.

Lemma sum_uc : sumR uc (seq 0 q) = INR q * alpha.
Proof.
  unfold uc. rewrite (sumR_ext _ (fun k => colmean k + (- grand + alpha))) by (intros; lra).
  rewrite sumR_plus, sumR_const, seq_length, grand_col. lra.
Qed.

Let e k r := zc k + uc r - M k r.

Lemma e_row k : sumR (e k) (seq 0 q) = 0.
Proof.
  unfold e. rewrite (sumR_ext _ (fun r => zc k + uc r + (-1) * M k r)) by (intros; lra).
  rewrite !sumR_plus, sumR_scal, sumR_const, seq_length, sum_uc.
  unfold zc, rowmean, M. unfold P, Q in *. field. lra.
Qed.

Lemma e_col r : sumR (fun k => e k r) (seq 0 p) = 0.
Proof.
  unfold e. rewrite (sumR_ext _ (fun k => zc k + uc r + (-1) * M k r)) by (intros; lra).
  rewrite !sumR_plus, sumR_scal, sumR_const, seq_length, sum_zc.
  unfold uc, colmean, M. unfold P, Q in *. field. lra.
Qed.

Lemma balance : sumR uc (seq 0 q) = sumR zc (seq 0 p).
Proof. rewrite sum_uc, sum_zc. unfold alpha. unfold P, Q in *. field. lra. Qed.

Let D (x : list R) := sumR (fun k => sumR (fun r => ((nth k x 0 - zc k) + (nth (p + r) x 0 - uc r)) ^ 2) (seq 0 q)) (seq 0 p).
Let E0 := sumR (fun k => sumR (fun r => e k r ^ 2) (seq 0 q)) (seq 0 p).

Lemma decompose x : residual (p * q) (p + q) (system p q) m x = D x + E0.
Proof.
  rewrite residual_system. unfold D, E0.
  set (a := fun k => nth k x 0 - zc k). set (b := fun r => nth (p + r) x 0 - uc r).
  assert (X : sumR (fun k => sumR (fun r => (a k + b r) * e k r) (seq 0 q)) (seq 0 p) = 0).
  { rewrite (sumR_ext _ (fun k => a k * sumR (e k) (seq 0 q) + sumR (fun r => b r * e k r) (seq 0 q))).
    2:{ intros k _. rewrite <- sumR_scal, <- sumR_plus. apply sumR_ext. intros; lra. }
    rewrite sumR_plus.
    rewrite (sumR_ext (fun k => a k * _) (fun _ => 0)) by (intros; rewrite e_row; lra).
    rewrite sumR_const, (sum_swap (fun k r => b r * e k r)).
    rewrite (sumR_ext (fun r => sumR _ _) (fun _ => 0)).
    - rewrite sumR_const. lra.
    - intros r _. rewrite sumR_scal, e_col. lra. }
  rewrite (sumR_ext _ (fun k => sumR (fun r => (a k + b r) ^ 2) (seq 0 q) +
                                2 * sumR (fun r => (a k + b r) * e k r) (seq 0 q) + sumR (fun r => e k r ^ 2) (seq 0 q))).
  - rewrite !sumR_plus, sumR_scal, X. unfold a, b. lra.
  - intros k _. rewrite <- sumR_scal, <- !sumR_plus. apply sumR_ext. intros r _. unfold a, b, e, M. ring.
Qed.

Lemma D_nonneg x : 0 <= D x.
Proof. apply sumR_nonneg. intros k _. apply sumR_nonneg. intros r _. apply pow2_ge_0. Qed.

Lemma D_zero x : D x <= 0 -> exists t, (forall k, (k < p)%nat -> nth k x 0 = zc k - t) /\
                                        (forall r, (r < q)%nat -> nth (p + r) x 0 = uc r + t).
Proof.
  intros H.
  assert (Z : forall k r, (k < p)%nat -> (r < q)%nat -> nth k x 0 - zc k + (nth (p + r) x 0 - uc r) = 0).
  { intros k r Hk Hr.
    assert (K : sumR (fun r => ((nth k x 0 - zc k) + (nth (p + r) x 0 - uc r)) ^ 2) (seq 0 q) = 0).
    { revert H. unfold D. intros H. apply (sumR_zero _ (seq 0 p)) with (a := k) in H; [exact H| |apply in_seq; lia].
      intros. apply sumR_nonneg. intros; apply pow2_ge_0. }
    assert (K' := Req_le _ _ K). apply (sumR_zero _ (seq 0 q)) with (a := r) in K'; [|intros; apply pow2_ge_0|apply in_seq; lia].
    apply Rsqr_0_uniq. unfold Rsqr. lra. }
  exists (nth (p + 0) x 0 - uc 0). split.
  - intros k Hk. specialize (Z k 0%nat Hk Hq). lra.
  - intros r Hr. pose proof (Z 0%nat r Hp Hr). pose proof (Z 0%nat 0%nat Hp Hq). lra.
Qed.

Lemma norm_closed_gen x t : length x = (p + q)%nat ->
  (forall k, (k < p)%nat -> nth k x 0 = zc k - t) -> (forall r, (r < q)%nat -> nth (p + r) x 0 = uc r + t) ->
  norm2 x = sumR (fun k => zc k ^ 2) (seq 0 p) + sumR (fun r => uc r ^ 2) (seq 0 q) + (P + Q) * t ^ 2.
Proof.
  intros L A B. rewrite (norm2_split p q x L).
  rewrite (sumR_ext _ (fun k => zc k ^ 2 + ((-2 * t) * zc k + t ^ 2))).
  2:{ intros k Hk. apply in_seq in Hk. rewrite A by lia. ring. }
  rewrite (sumR_ext (fun r => nth (p + r) x 0 ^ 2) (fun r => uc r ^ 2 + ((2 * t) * uc r + t ^ 2))).
  2:{ intros k Hk. apply in_seq in Hk. rewrite B by lia. ring. }
  rewrite !sumR_plus, !sumR_scal, !sumR_const, !seq_length, balance. unfold P, Q. ring.
Qed.

Lemma closed_len : length closed = (p + q)%nat.
Proof. unfold closed. now rewrite app_length, !map_length, !seq_length. Qed.

Lemma nth_map_seq' (f : nat -> R) n k : (k < n)%nat -> nth k (map f (seq 0 n)) 0 = f k.
Proof.
  intros H. rewrite (nth_indep _ 0 (f 0%nat)) by (now rewrite map_length, seq_length).
  rewrite map_nth, seq_nth by trivial. reflexivity.
Qed.

Lemma closed_z k : (k < p)%nat -> nth k closed 0 = zc k.
Proof.
  intros H. unfold closed. rewrite app_nth1 by (now rewrite map_length, seq_length). now apply nth_map_seq'.
Qed.

Lemma closed_u r : (r < q)%nat -> nth (p + r) closed 0 = uc r.
Proof.
  intros H. unfold closed. rewrite app_nth2 by (rewrite map_length, seq_length; lia).
  rewrite map_length, seq_length. replace (p + r - p)%nat with r by lia. now apply nth_map_seq'.
Qed.

Lemma D_closed : D closed = 0.
Proof.
  unfold D. rewrite (sumR_ext _ (fun _ => 0)); [rewrite sumR_const; lra|].
  intros k Hk. apply in_seq in Hk. rewrite (sumR_ext _ (fun _ => 0)); [rewrite sumR_const; lra|].
  intros r Hr. apply in_seq in Hr. rewrite closed_z, closed_u by lia. ring.
Qed.

Lemma norm_closed : norm2 closed = sumR (fun k => zc k ^ 2) (seq 0 p) + sumR (fun r => uc r ^ 2) (seq 0 q).
Proof.
  rewrite (norm_closed_gen closed 0); [ring|exact closed_len|..].
  - intros. rewrite closed_z by trivial. ring.
  - intros. rewrite closed_u by trivial. ring.
Qed.

Lemma closed_solution : min_norm_solution (p * q) (p + q) (system p q) m closed.
Proof.
  split; [exact closed_len|]. split.
  - intros y _. rewrite !decompose, D_closed. pose proof (D_nonneg y). lra.
  - intros y L H. rewrite !decompose, D_closed in H.
    destruct (D_zero y) as (t & A & B); [lra|].
    rewrite (norm_closed_gen y t L A B), norm_closed.
    assert (0 <= (P + Q) * t ^ 2); [|lra]. apply Rmult_le_pos; [lra|apply pow2_ge_0].
Qed.

Lemma solution_unique x : min_norm_solution (p * q) (p + q) (system p q) m x -> x = closed.
Proof.
  intros (L & R1 & R2). specialize (R1 closed closed_len). rewrite !decompose, D_closed in R1.
  destruct (D_zero x) as (t & A & B); [lra|].
  specialize (R2 closed closed_len). rewrite !decompose, D_closed in R2.
  specialize (R2 ltac:(pose proof (D_nonneg x); lra)).
  rewrite (norm_closed_gen x t L A B), norm_closed in R2.
  assert (T : t = 0).
  { assert (t ^ 2 <= 0).
    { apply Rmult_le_reg_l with (P + Q); [lra|]. lra. }
    apply Rsqr_0_uniq. unfold Rsqr. pose proof (pow2_ge_0 t). lra. }
  subst t. apply (nth_ext _ _ 0 0); [now rewrite L, closed_len|].
  intros n Hn. rewrite L in Hn. destruct (Nat.lt_ge_cases n p) as [H|H].
  - rewrite A, closed_z by trivial. lra.
  - replace n with (p + (n - p))%nat by lia. rewrite B, closed_u by lia. lra.
Qed.

End Closed.

(** A solver with this property exists. *)
Definition agrees (n c p : nat) (H : nat -> nat -> R) : bool :=
  (p * (c - p) =? n)%nat && (p <? c)%nat &&
  forallb (fun a => forallb (fun b => if Req_EM_T (H a b) (system p (c - p) a b) then true else false) (seq 0 c)) (seq 0 n).

Definition exact_lsqr (n c : nat) (H : nat -> nat -> R) (m : list R) : list R :=
  match find (fun p => agrees n c p H) (seq 1 c) with
  | Some p => closed p (c - p) m
  | None => []
  end.

Lemma residual_ext n c H H' m x : (forall a b, (a < n)%nat -> (b < c)%nat -> H a b = H' a b) ->
  residual n c H m x = residual n c H' m x.
Proof.
  intros K. unfold residual, dot. apply sumR_ext. intros a Ha. apply in_seq in Ha. f_equal. f_equal.
  apply sumR_ext. intros b Hb. apply in_seq in Hb. rewrite K by lia. reflexivity.
Qed.

Lemma min_norm_ext n c H H' m x : (forall a b, (a < n)%nat -> (b < c)%nat -> H a b = H' a b) ->
  min_norm_solution n c H m x -> min_norm_solution n c H' m x.
Proof.
  intros K (A & B & C). split; [exact A|]. split.
  - intros y Hy. rewrite <- !(residual_ext n c H H') by trivial. now apply B.
  - intros y Hy. rewrite <- !(residual_ext n c H H') by trivial. now apply C.
Qed.

Lemma exact_lsqr_solves : solves exact_lsqr.
Proof.
  intros p q m Hp Hq _. unfold exact_lsqr.
  destruct (find _ _) as [p'|] eqn:E.
  - apply find_some in E. destruct E as (Hi & E). apply in_seq in Hi.
    unfold agrees in E. apply andb_prop in E. destruct E as (E & F). apply andb_prop in E. destruct E as (E & L).
    apply Nat.eqb_eq in E. apply Nat.ltb_lt in L.
    apply min_norm_ext with (system p' (p + q - p')).
    + intros a b Ha Hb. rewrite forallb_forall in F. specialize (F a ltac:(apply in_seq; lia)).
      rewrite forallb_forall in F. specialize (F b ltac:(apply in_seq; lia)).
      destruct (Req_EM_T _ _) as [G|]; [now symmetry|discriminate].
    + pose proof (closed_solution p' (p + q - p') ltac:(lia) ltac:(lia) m) as G.
      rewrite E in G. replace (p' + (p + q - p'))%nat with (p + q)%nat in G by lia. exact G.
  - exfalso. apply (find_none _ _) with (x := p) in E; [|apply in_seq; lia].
    unfold agrees in E. replace (p + q - p)%nat with q in E by lia. rewrite Nat.eqb_refl in E.
    destruct (Nat.ltb_spec p (p + q)); [|lia]. cbn [andb] in E.
    assert (T : forallb (fun a => forallb (fun b => if Req_EM_T (system p q a b) (system p q a b) then true else false) (seq 0 (p + q))) (seq 0 (p * q)) = true).
    { apply forallb_forall. intros a _. apply forallb_forall. intros b _. now destruct (Req_EM_T _ _). }
    rewrite T in E. discriminate.
Qed.
