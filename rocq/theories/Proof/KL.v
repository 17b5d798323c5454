(** Finite sums, the covariance matrix and the cut. *)
From Coq Require Import ZArith List Bool Arith Reals Lia Lra.
From Verif.Model Require Import Py Plane KL.
From Verif.Spec Require Import KL.
Import ListNotations.
Local Open Scope R_scope.

Lemma sumn_ext n f g : (forall k, (k < n)%nat -> f k = g k) -> sumn n f = sumn n g.
Proof. induction n as [|n IH]; intros H; [reflexivity|]. cbn. rewrite IH, H; auto. Qed.

Lemma sumn_plus n f g : sumn n (fun k => f k + g k) = sumn n f + sumn n g.
Proof. induction n as [|n IH]; cbn; [ring|]. rewrite IH. ring. Qed.

Lemma sumn_minus n f g : sumn n (fun k => f k - g k) = sumn n f - sumn n g.
Proof. induction n as [|n IH]; cbn; [ring|]. rewrite IH. ring. Qed.

Lemma sumn_scal n a f : sumn n (fun k => a * f k) = a * sumn n f.
Proof. induction n as [|n IH]; cbn; [ring|]. rewrite IH. ring. Qed.

Lemma sumn_scal_r n a f : sumn n (fun k => f k * a) = sumn n f * a.
Proof. induction n as [|n IH]; cbn; [ring|]. rewrite IH. ring. Qed.

Lemma sumn_zero n : sumn n (fun _ => 0) = 0.
Proof. induction n as [|n IH]; cbn; [reflexivity|]. rewrite IH. ring. Qed.

Lemma sumn_swap n m f :
  sumn n (fun i => sumn m (fun j => f i j)) = sumn m (fun j => sumn n (fun i => f i j)).
Proof.
  induction n as [|n IH]; cbn.
  - now rewrite sumn_zero.
  - rewrite IH. now rewrite sumn_plus.
Qed.

Lemma sumn_nonneg n f : (forall k, (k < n)%nat -> 0 <= f k) -> 0 <= sumn n f.
Proof.
  induction n as [|n IH]; cbn; intros H; [lra|].
  pose proof (H n ltac:(lia)). specialize (IH ltac:(intros; apply H; lia)). lra.
Qed.

Lemma sumn_delta n k f : (k < n)%nat -> sumn n (fun l => f l * delta k l) = f k.
Proof.
  unfold delta. induction n as [|n IH]; intros H; [lia|]. cbn.
  destruct (Nat.eq_dec k n) as [->|N].
  - rewrite Nat.eqb_refl. rewrite (sumn_ext n _ (fun _ => 0)).
    + rewrite sumn_zero. ring.
    + intros l Hl. destruct (Nat.eqb_spec n l); [lia|ring].
  - rewrite IH by lia. destruct (Nat.eqb_spec k n); [lia|ring].
Qed.

Lemma sumn_app a b f : sumn (a + b) f = sumn a f + sumn b (fun k => f (a + k)%nat).
Proof.
  induction b as [|b IH]; cbn; [rewrite Nat.add_0_r; ring|].
  rewrite Nat.add_succ_r. cbn. rewrite IH. ring.
Qed.

Lemma sumn_flat a b f : sumn (a * b) f = sumn a (fun i => sumn b (fun j => f (i * b + j)%nat)).
Proof.
  induction a as [|a IH]; [reflexivity|]. cbn [sumn].
  replace (S a * b)%nat with (a * b + b)%nat by lia. now rewrite sumn_app, IH.
Qed.

(** A square of a sum as a double sum. *)
Lemma sumn_square n f : sumn n f * sumn n f = sumn n (fun i => sumn n (fun j => f i * f j)).
Proof.
  rewrite <- sumn_scal_r. apply sumn_ext. intros i _. now rewrite sumn_scal.
Qed.

Lemma flat_px {A} (p : plane A) i j : (j < nc p)%nat -> flat p (i * nc p + j) = px p i j.
Proof.
  intros H. unfold flat.
  rewrite Nat.add_comm, Nat.mod_add, Nat.div_add by lia.
  now rewrite Nat.mod_small, Nat.div_small by lia.
Qed.

Lemma sum_flat (p : plane R) (g : R -> R) :
  sumn (nr p * nc p) (fun k => g (flat p k)) = sum2 (shape p) (fun i j => g (px p i j)).
Proof.
  rewrite sumn_flat. unfold sum2, shape. cbn [fst snd].
  apply sumn_ext; intros i _. apply sumn_ext; intros j Hj. now rewrite flat_px.
Qed.

Lemma sum_flat2 (p q : plane R) (g : R -> R -> R) : shape p = shape q ->
  sumn (nr p * nc p) (fun k => g (flat p k) (flat q k)) =
  sum2 (shape p) (fun i j => g (px p i j) (px q i j)).
Proof.
  intros S. unfold shape in S. injection S as Sr Sc.
  rewrite sumn_flat. unfold sum2, shape. cbn [fst snd].
  apply sumn_ext; intros i _. apply sumn_ext; intros j Hj. rewrite flat_px by exact Hj.
  rewrite Sc. rewrite flat_px by lia. reflexivity.
Qed.

(** * Covariance *)

Definition pmean (P : nat) (m : nat -> nat -> R) (k : nat) : R := sumn P (fun p => m p k) / INR P.
Definition ctr (P : nat) (m : nat -> nat -> R) (p k : nat) : R := m p k - pmean P m k.

Lemma np_cov_ctr P m i j : np_cov P m i j = sumn P (fun p => ctr P m p i * ctr P m p j) / INR (P - 1).
Proof. reflexivity. Qed.

Lemma quad_gram n P (w : nat -> nat -> R) x :
  sumn n (fun i => sumn n (fun j => x i * sumn P (fun p => w p i * w p j) * x j)) =
  sumn P (fun p => sumn n (fun i => x i * w p i) * sumn n (fun i => x i * w p i)).
Proof.
  rewrite (sumn_ext P _ (fun p => sumn n (fun i => sumn n (fun j => x i * w p i * (x j * w p j)))))
    by (intros p _; apply sumn_square).
  rewrite (sumn_swap P n). apply sumn_ext. intros i _.
  rewrite (sumn_swap P n). apply sumn_ext. intros j _.
  rewrite <- sumn_scal, <- sumn_scal_r. apply sumn_ext. intros p _. ring.
Qed.

Lemma gram_sym_form P m i j : gram P m i j = sumn P (fun p => m p i * m p j).
Proof.
  unfold gram. destruct (Nat.le_ge_cases i j) as [H|H].
  - rewrite Nat.min_l, Nat.max_r by exact H. reflexivity.
  - rewrite Nat.min_r, Nat.max_l by exact H. apply sumn_ext. intros; ring.
Qed.

Lemma cov_ok sh stamps c : cov_matrix sh stamps = Ok c ->
  (forall j, (j < length stamps)%nat -> shape (nth j stamps (pconst (0, 0)%nat 0)) = sh) /\
  c = (if Nat.leb (length stamps) 250 then np_cov (fst sh * snd sh) (columns stamps)
       else gram (fst sh * snd sh) (columns stamps)).
Proof.
  unfold cov_matrix. destruct (forallb _ stamps) eqn:F; cbn [negb]; [|discriminate].
  intros H. injection H as <-. split; [|reflexivity].
  intros j Hj. rewrite forallb_forall in F. specialize (F _ (nth_In stamps (pconst (0,0)%nat 0) Hj)).
  apply andb_true_iff in F. destruct F as [F1 F2]. apply Nat.eqb_eq in F1, F2.
  unfold shape. rewrite F1, F2. now destruct sh.
Qed.

Lemma cov_sym sh stamps c i j : cov_matrix sh stamps = Ok c -> c i j = c j i.
Proof.
  intros H. apply cov_ok in H. destruct H as [_ ->]. destruct (Nat.leb _ _).
  - rewrite !np_cov_ctr. f_equal. apply sumn_ext. intros; ring.
  - rewrite !gram_sym_form. apply sumn_ext. intros; ring.
Qed.

(** * The cut *)

Lemma sum_abs_app l m : sum_abs (l ++ m) = sum_abs l + sum_abs m.
Proof. unfold sum_abs. induction l as [|x l IH]; cbn; [ring|]. rewrite IH. ring. Qed.

Lemma sum_abs_nonneg l : 0 <= sum_abs l.
Proof.
  unfold sum_abs. induction l as [|x l IH]; cbn; [lra|]. pose proof (Rabs_pos x). lra.
Qed.

Lemma sum_abs_rev l : sum_abs (rev l) = sum_abs l.
Proof.
  induction l as [|x l IH]; [reflexivity|]. cbn [rev]. rewrite sum_abs_app, IH.
  change (sum_abs (x :: l)) with (Rabs x + sum_abs l). change (sum_abs [x]) with (Rabs x + 0). ring.
Qed.

Lemma power_of_last_rev k l : (k <= length l)%nat -> power_of_last k l = sum_abs (firstn k (rev l)).
Proof.
  intros H. unfold power_of_last. rewrite firstn_rev, sum_abs_rev. reflexivity.
Qed.

(** The loop, started with [pw] left, stops at the first item where at most [L] is left. *)
Lemma cut_loop_spec L tot : 0 < tot -> forall l pw cut, 0 <= L ->
  pw * tot = sum_abs l ->
  l <> [] ->
  let k := cut_loop L pw cut (map (fun v => Rabs v / tot) l) in
  exists q, k = (cut + q)%nat /\ (q < length l)%nat /\
    (pw - L) * tot <= sum_abs (firstn (S q) l) /\
    forall q', (q' < q)%nat -> sum_abs (firstn (S q') l) < (pw - L) * tot.
Proof.
  intros Ht. induction l as [|x l IH]; intros pw cut HL Hp N; [congruence|].
  cbn [map cut_loop]. cbn zeta.
  assert (X : (pw - Rabs x / tot) * tot = sum_abs l).
  { rewrite Rmult_minus_distr_r, Hp. unfold sum_abs. cbn. field. lra. }
  destruct (Rlt_dec L (pw - Rabs x / tot)) as [Lt|Ge].
  - destruct l as [|y l'].
    { exfalso. cbn in X. assert (pw - Rabs x / tot = 0) by (apply (Rmult_eq_reg_r tot); lra). lra. }
    destruct (IH (pw - Rabs x / tot) (S cut) HL X ltac:(discriminate)) as (q & E & Q & S1 & S2).
    exists (S q). split; [lia|]. split; [cbn [length] in *; lia|]. split.
    + change (firstn (S (S q)) (x :: y :: l')) with (x :: firstn (S q) (y :: l')).
      unfold sum_abs in *. cbn [fold_right].
      assert ((pw - Rabs x / tot - L) * tot = (pw - L) * tot - Rabs x) by (field; lra).
      rewrite H in S1. lra.
    + intros [|q'] Hq.
      * cbn. assert (L * tot < (pw - Rabs x / tot) * tot) by (apply Rmult_lt_compat_r; lra).
        assert ((pw - Rabs x / tot) * tot = pw * tot - Rabs x) by (field; lra).
        lra.
      * change (firstn (S (S q')) (x :: y :: l')) with (x :: firstn (S q') (y :: l')).
        unfold sum_abs in *. cbn [fold_right]. specialize (S2 q' ltac:(lia)).
        assert ((pw - Rabs x / tot - L) * tot = (pw - L) * tot - Rabs x) by (field; lra).
        rewrite H in S2. lra.
  - exists 0%nat. split; [lia|]. split; [cbn; lia|]. split; [|intros; lia].
    cbn. assert ((pw - Rabs x / tot) * tot <= L * tot) by (apply Rmult_le_compat_r; lra).
    assert ((pw - Rabs x / tot) * tot = pw * tot - Rabs x) by (field; lra). lra.
Qed.

Lemma kl_cut_spec L vals : 0 <= L -> sum_abs vals <> 0 ->
  let k := kl_cut L vals in
  (1 <= k <= length vals)%nat /\
  (1 - L) * sum_abs vals <= power_of_last k vals /\
  forall k', (1 <= k' < k)%nat -> power_of_last k' vals < (1 - L) * sum_abs vals.
Proof.
  intros HL N. unfold kl_cut. destruct (Req_EM_T (sum_abs vals) 0) as [|_]; [contradiction|].
  pose proof (sum_abs_nonneg vals).
  assert (Nv : rev vals <> []).
  { intros E. apply (f_equal (@rev R)) in E. rewrite rev_involutive in E. cbn in E. subst. cbn in N. lra. }
  destruct (cut_loop_spec L (sum_abs vals) ltac:(lra) (rev vals) 1 1 HL) as (q & E & Q & A & B);
    [rewrite sum_abs_rev; ring|exact Nv|].
  cbn zeta. rewrite rev_length in Q. rewrite E. split; [lia|]. split.
  - rewrite power_of_last_rev by lia. exact A.
  - intros k' Hk. rewrite power_of_last_rev by lia. destruct k' as [|k']; [lia|]. apply B. lia.
Qed.

Lemma kl_cut_antitone L L' vals : 0 <= L -> L <= L' -> (kl_cut L' vals <= kl_cut L vals)%nat.
Proof.
  intros HL HLL. destruct (Req_EM_T (sum_abs vals) 0) as [Z|N].
  - unfold kl_cut. destruct (Req_EM_T _ 0); [lia|contradiction].
  - destruct (kl_cut_spec L vals HL N) as (R1 & A1 & B1).
    destruct (kl_cut_spec L' vals ltac:(lra) N) as (R2 & A2 & B2).
    destruct (Nat.le_gt_cases (kl_cut L' vals) (kl_cut L vals)) as [|G]; [assumption|].
    exfalso. specialize (B2 (kl_cut L vals) ltac:(lia)).
    pose proof (sum_abs_nonneg vals). nra.
Qed.

(** * Reconstruction *)

(** Parseval for orthonormal columns. *)
Lemma parseval n (V : nat -> nat -> R) c :
  (forall k l, (k < n)%nat -> (l < n)%nat -> sumn n (fun j => V j k * V j l) = delta k l) ->
  sumn n (fun j => sumn n (fun k => V j k * c k) * sumn n (fun k => V j k * c k)) =
  sumn n (fun k => c k * c k).
Proof.
  intros H.
  rewrite (sumn_ext n _ (fun j => sumn n (fun k => sumn n (fun l => V j k * c k * (V j l * c l)))))
    by (intros; apply sumn_square).
  rewrite sumn_swap. apply sumn_ext. intros k Hk. rewrite sumn_swap.
  rewrite (sumn_ext n _ (fun l => c k * c l * delta k l)).
  - now rewrite (sumn_delta n k (fun l => c k * c l)).
  - intros l Hl. rewrite <- (H k l Hk Hl), <- sumn_scal. apply sumn_ext. intros; ring.
Qed.

Section Reconstruct.
Variables (n P : nat) (w : nat -> nat -> R) (V : nat -> nat -> R) (lam : nat -> R).
Hypothesis cols : forall k l, (k < n)%nat -> (l < n)%nat -> sumn n (fun j => V j k * V j l) = delta k l.
Hypothesis rows : forall i j, (i < n)%nat -> (j < n)%nat -> sumn n (fun k => V i k * V j k) = delta i j.
Hypothesis eig : forall i k, (i < n)%nat -> (k < n)%nat ->
  sumn n (fun j => sumn P (fun p => w p i * w p j) * V j k) = lam k * V i k.
Let b k p := sumn n (fun j => w p j * V j k).

Lemma b_inner k l : (k < n)%nat -> (l < n)%nat ->
  sumn P (fun p => b k p * b l p) = lam l * delta k l.
Proof.
  intros Hk Hl.
  transitivity (sumn n (fun i => V i k * sumn n (fun j => sumn P (fun p => w p i * w p j) * V j l))).
  - unfold b.
    rewrite (sumn_ext P _ (fun p => sumn n (fun i => sumn n (fun j => w p i * V i k * (w p j * V j l))))).
    + rewrite sumn_swap. apply sumn_ext. intros i _. rewrite sumn_swap, <- sumn_scal.
      apply sumn_ext. intros j _. rewrite <- sumn_scal_r, <- sumn_scal. apply sumn_ext. intros; ring.
    + intros p _. rewrite <- sumn_scal_r. apply sumn_ext. intros i _. now rewrite <- sumn_scal.
  - rewrite (sumn_ext n _ (fun i => lam l * (V i k * V i l))).
    + rewrite sumn_scal. now rewrite cols.
    + intros i Hi. rewrite eig by assumption. ring.
Qed.

Lemma lam_nonneg k : (k < n)%nat -> 0 <= lam k.
Proof.
  intros Hk. pose proof (b_inner k k Hk Hk) as E. unfold delta in E. rewrite Nat.eqb_refl in E.
  rewrite Rmult_1_r in E. rewrite <- E. apply sumn_nonneg. intros p _. apply Rle_0_sqr.
Qed.

(** Every stamp is the combination of all the elements. *)
Lemma expand j p : (j < n)%nat -> sumn n (fun k => V j k * b k p) = w p j.
Proof.
  intros Hj. unfold b.
  rewrite (sumn_ext n _ (fun k => sumn n (fun i => w p i * (V j k * V i k)))).
  - rewrite sumn_swap. rewrite (sumn_ext n _ (fun i => w p i * delta j i)).
    + now apply sumn_delta.
    + intros i Hi. rewrite sumn_scal. now rewrite rows.
  - intros k _. rewrite <- sumn_scal. apply sumn_ext. intros; ring.
Qed.

(** The power in a selection of elements. *)
Lemma selected_power (s : nat -> R) :
  sumn n (fun j => sumn P (fun p =>
     sumn n (fun k => V j k * (s k * b k p)) * sumn n (fun k => V j k * (s k * b k p)))) =
  sumn n (fun k => s k * s k * lam k).
Proof.
  rewrite sumn_swap.
  rewrite (sumn_ext P _ (fun p => sumn n (fun k => s k * b k p * (s k * b k p))))
    by (intros p _; apply (parseval n V (fun k => s k * b k p) cols)).
  rewrite sumn_swap. apply sumn_ext. intros k Hk.
  rewrite (sumn_ext P _ (fun p => s k * s k * (b k p * b k p))) by (intros; ring).
  rewrite sumn_scal, b_inner by assumption. unfold delta. rewrite Nat.eqb_refl. ring.
Qed.
End Reconstruct.
