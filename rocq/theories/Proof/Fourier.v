(** Sums and discrete Fourier transforms. *)
From Coq Require Import Arith ZArith List Bool Reals Lia Lra.
From Coquelicot Require Import Complex.
From Verif.Model Require Import Py Plane.
From Verif.Proof Require Import Coadd.
Import ListNotations.
Set Bullet Behavior "Strict Subproofs".

Lemma csum_ext n f g : (forall i, i < n -> f i = g i) -> csum n f = csum n g.
Proof. induction n as [|n IH]; cbn; intros H; [reflexivity|]. rewrite IH, H; auto. Qed.

Lemma csum_0 n : csum n (fun _ => RtoC 0) = RtoC 0.
Proof. induction n as [|n IH]; cbn; [reflexivity|]. rewrite IH. ring. Qed.

Lemma csum_scale n k f : csum n (fun i => (k * f i)%C) = (k * csum n f)%C.
Proof. induction n as [|n IH]; cbn; [ring|]. rewrite IH. ring. Qed.

Lemma csum_scale_r n k f : csum n (fun i => (f i * k)%C) = (csum n f * k)%C.
Proof. induction n as [|n IH]; cbn; [ring|]. rewrite IH. ring. Qed.

Lemma csum_plus n f g : csum n (fun i => (f i + g i)%C) = (csum n f + csum n g)%C.
Proof. induction n as [|n IH]; cbn; [ring|]. rewrite IH. ring. Qed.

Lemma csum_swap n m f : csum n (fun i => csum m (fun j => f i j)) = csum m (fun j => csum n (fun i => f i j)).
Proof.
  induction n as [|n IH]; cbn.
  - now rewrite csum_0.
  - rewrite IH. now rewrite csum_plus.
Qed.

Lemma csum_const n k : csum n (fun _ => k) = (RtoC (INR n) * k)%C.
Proof.
  induction n as [|n IH]; [cbn; ring|]. cbn [csum]. rewrite IH, S_INR, RtoC_plus. ring.
Qed.

Lemma csum_one n k v : k < n -> csum n (fun i => if i =? k then v else RtoC 0) = v.
Proof.
  induction n as [|n IH]; intros H; [lia|]. cbn. destruct (Nat.eqb_spec n k) as [->|N].
  - rewrite (csum_ext k _ (fun _ => RtoC 0)); [rewrite csum_0; ring|].
    intros i Hi. destruct (Nat.eqb_spec i k); [lia|reflexivity].
  - rewrite IH by lia. ring.
Qed.

(** ** exp(i t) *)
Local Open Scope R_scope.

Lemma cis_0 : cis 0 = RtoC 1.
Proof. unfold cis. now rewrite cos_0, sin_0. Qed.

Lemma cis_plus a b : cis (a + b) = (cis a * cis b)%C.
Proof. unfold cis, Cmult. cbn. rewrite cos_plus, sin_plus. f_equal; ring. Qed.

Lemma cis_2PI_nat n : cis (2 * PI * INR n) = RtoC 1.
Proof.
  unfold cis. replace (2 * PI * INR n) with (0 + 2 * INR n * PI) by ring.
  now rewrite cos_period, sin_period, cos_0, sin_0.
Qed.

Lemma cis_mod t : Cmod (cis t) = 1.
Proof.
  unfold Cmod, cis. cbn [fst snd]. rewrite <- sqrt_1. f_equal.
  pose proof (sin2_cos2 t) as H. unfold Rsqr in H. lra.
Qed.

Lemma cis_neq0 t : cis t <> RtoC 0.
Proof. intros H. apply (f_equal Cmod) in H. rewrite cis_mod, Cmod_0 in H. lra. Qed.

Lemma cis_neg t : (cis (- t) * cis t)%C = RtoC 1.
Proof. rewrite <- cis_plus. replace (- t + t) with 0 by ring. apply cis_0. Qed.

Lemma cis_conj t : Cconj (cis t) = cis (- t).
Proof. unfold cis, Cconj. cbn. now rewrite cos_neg, sin_neg. Qed.

(** Geometric sums. *)
Fixpoint Cpow (z : C) (n : nat) : C := match n with O => RtoC 1 | S n => (z * Cpow z n)%C end.

Lemma geometric w n : ((w - RtoC 1) * csum n (fun k => Cpow w k) = Cpow w n - RtoC 1)%C.
Proof.
  induction n as [|n IH]; cbn; [ring|]. rewrite Cmult_plus_distr_l, IH. ring.
Qed.

Lemma cis_pow t n : Cpow (cis t) n = cis (INR n * t).
Proof.
  induction n as [|n IH].
  - cbn. now rewrite Rmult_0_l, cis_0.
  - rewrite S_INR. cbn [Cpow]. rewrite IH, <- cis_plus. f_equal. ring.
Qed.

Lemma cis_neq1 t : 0 < t < 2 * PI -> cis t <> RtoC 1.
Proof.
  intros [H1 H2] E. unfold cis, RtoC in E. injection E as Ec Es.
  assert (cos t < 1); [|lra].
  destruct (Rle_lt_dec t PI) as [H|H].
  - rewrite <- cos_0. apply cos_decreasing_1; lra.
  - assert (cos t < cos (2 * PI)) as G by (apply cos_increasing_1; lra).
    rewrite cos_2PI in G. exact G.
Qed.

(** Sum over the N-th roots of unity. *)
Lemma root_sum N u : (0 < u < N)%nat ->
  csum N (fun x => cis (2 * PI * (INR u * INR x / INR N))) = RtoC 0.
Proof.
  intros [H1 H2]. assert (0 < INR u < INR N) as Hu.
  { split; [apply (lt_INR 0); exact H1|now apply lt_INR]. }
  set (t := 2 * PI * (INR u / INR N)).
  pose proof PI_RGT_0 as Hpi.
  assert (0 < t < 2 * PI) as Ht.
  { unfold t. assert (0 < INR u / INR N < 1).
    - split; [apply Rdiv_lt_0_compat; lra|]. apply Rmult_lt_reg_r with (INR N); [lra|].
      unfold Rdiv. rewrite Rmult_assoc, Rinv_l by lra. lra.
    - split; [apply Rmult_lt_0_compat; lra|]. rewrite <- (Rmult_1_r (2 * PI)) at 2.
      apply Rmult_lt_compat_l; lra. }
  assert (csum N (fun x => Cpow (cis t) x) = RtoC 0) as E.
  { assert ((cis t - RtoC 1) * csum N (fun x => Cpow (cis t) x) = RtoC 0)%C as E.
    - rewrite geometric, cis_pow. unfold t.
      replace (INR N * (2 * PI * (INR u / INR N))) with (2 * PI * INR u) by (field; lra).
      rewrite cis_2PI_nat. ring.
    - destruct (Ceq_dec (cis t - RtoC 1)%C (RtoC 0)) as [Z|Z].
      + exfalso. apply (cis_neq1 t Ht). apply (f_equal (Cplus (RtoC 1))) in Z.
        rewrite Cplus_0_r in Z. rewrite <- Z. ring.
      + apply (f_equal (Cmult (/ (cis t - RtoC 1))%C)) in E.
        rewrite Cmult_assoc, Cinv_l, Cmult_1_l, Cmult_0_r in E; auto. }
  rewrite <- E. apply csum_ext. intros x _. rewrite cis_pow. f_equal. unfold t. field. lra.
Qed.

Lemma root_sum' N u : (u < N)%nat ->
  csum N (fun x => cis (2 * PI * (INR u * INR x / INR N))) = if (u =? 0)%nat then RtoC (INR N) else RtoC 0.
Proof.
  intros H. destruct (Nat.eqb_spec u 0) as [->|N0].
  - rewrite (csum_ext N _ (fun _ => RtoC 1)).
    + rewrite csum_const. ring.
    + intros x _. cbn [INR]. unfold Rdiv. rewrite !Rmult_0_l, Rmult_0_r. apply cis_0.
  - apply root_sum. lia.
Qed.

(** ** The sum of the cells of a transformed array is its DC term. *)
Lemma psum_ext p q : plane_eq p q -> psum p = psum q.
Proof.
  intros [S H]. unfold psum. unfold shape in S. injection S as S1 S2. rewrite <- S1, <- S2.
  apply csum_ext. intros i Hi. apply csum_ext. auto.
Qed.

Lemma psum_scale k p : psum (pmap (fun z => (k * z)%C) p) = (k * psum p)%C.
Proof.
  unfold psum. cbn. rewrite <- csum_scale. apply csum_ext. intros i _. apply csum_scale.
Qed.

Lemma INR_pos n : (0 < n)%nat -> 0 < INR n.
Proof. intros H. apply (lt_INR 0). exact H. Qed.

Lemma RtoC_inj' x y : RtoC x = RtoC y -> x = y.
Proof. intros H. unfold RtoC in H. now injection H. Qed.

Lemma psum_idft F : (0 < nr F)%nat -> (0 < nc F)%nat ->
  psum (idft_raw F) = (RtoC (INR (nr F) * INR (nc F)) * px F 0 0)%C.
Proof.
  intros H1 H2. unfold psum, idft_raw. cbn [nr nc px].
  set (N := nr F) in *. set (M := nc F) in *.
  transitivity (csum N (fun u => csum M (fun v =>
    (px F u v * (csum N (fun x => cis (2 * PI * (INR u * INR x / INR N)))
               * csum M (fun y => cis (2 * PI * (INR v * INR y / INR M)))))%C))).
  - rewrite (csum_ext N _ (fun x => csum N (fun u => csum M (fun y => csum M (fun v =>
      (px F u v * cis (2 * PI * (INR u * INR x / INR N + INR v * INR y / INR M)))%C))))).
    2:{ intros x _. now rewrite csum_swap. }
    rewrite csum_swap. apply csum_ext. intros u _.
    rewrite (csum_ext N _ (fun x => csum M (fun v => csum M (fun y =>
      (px F u v * cis (2 * PI * (INR u * INR x / INR N + INR v * INR y / INR M)))%C)))).
    2:{ intros x _. now rewrite csum_swap. }
    rewrite csum_swap. apply csum_ext. intros v _.
    rewrite <- csum_scale_r, <- csum_scale. apply csum_ext. intros x _.
    rewrite <- !csum_scale. apply csum_ext. intros y _.
    rewrite Rmult_plus_distr_l, cis_plus. ring.
  - rewrite (csum_ext N _ (fun u => if (u =? 0)%nat then (RtoC (INR N * INR M) * px F 0 0)%C else RtoC 0)).
    + now apply csum_one.
    + intros u Hu. rewrite root_sum' by exact Hu.
      rewrite (csum_ext M _ (fun v => if (v =? 0)%nat
         then (px F u 0%nat * ((if (u =? 0)%nat then RtoC (INR N) else RtoC 0) * RtoC (INR M)))%C else RtoC 0)).
      * rewrite csum_one by exact H2. destruct (Nat.eqb_spec u 0) as [->|_]; [|ring].
        rewrite RtoC_mult. ring.
      * intros v Hv. rewrite root_sum' by exact Hv. destruct (Nat.eqb_spec v 0) as [->|_]; [reflexivity|ring].
Qed.

Lemma psum_ifft2 F : (0 < nr F)%nat -> (0 < nc F)%nat -> psum (ifft2 F) = px F 0 0.
Proof.
  intros H1 H2. unfold ifft2. rewrite psum_scale, psum_idft by assumption.
  pose proof (INR_pos _ H1). pose proof (INR_pos _ H2).
  rewrite Cmult_assoc, <- RtoC_mult, Rinv_l; [ring|].
  apply Rmult_integral_contrapositive; lra.
Qed.

(** ** The transforms depend only on the cells. *)
Lemma idft_ext F G : plane_eq F G -> plane_eq (idft_raw F) (idft_raw G).
Proof.
  intros [S H]. unfold shape in S. injection S as S1 S2. split.
  - unfold shape. cbn. congruence.
  - intros x y _ _. unfold idft_raw. cbn. rewrite <- S1, <- S2. apply csum_ext. intros u Hu.
    apply csum_ext. intros v Hv. now rewrite H.
Qed.

Lemma pmap_ext {A B} (f : A -> B) p q : plane_eq p q -> plane_eq (pmap f p) (pmap f q).
Proof.
  intros [S H]. split; [exact S|]. cbn. intros i j Hi Hj. now rewrite H.
Qed.

Lemma pmap2_ext {A B D} (f : A -> B -> D) p q p' q' : shape p = shape p' ->
  plane_eq p q -> plane_eq p' q' -> plane_eq (pmap2 f p p') (pmap2 f q q').
Proof.
  intros Sp [S H] [S' H']. split; [exact S|]. cbn. unfold shape in *.
  injection Sp as S1 S2. intros i j Hi Hj. rewrite H, H' by lia. reflexivity.
Qed.

Lemma ifft2_ext F G : plane_eq F G -> plane_eq (ifft2 F) (ifft2 G).
Proof.
  intros E. unfold ifft2. destruct (idft_ext F G E) as [S H]. destruct E as [S0 _].
  unfold shape in S0. injection S0 as -> ->. split; [exact S|].
  intros i j Hi Hj. unfold pmap. cbn [px]. f_equal. apply H; assumption.
Qed.

Lemma fourier_shift_ext F G dx dy : plane_eq F G -> plane_eq (fourier_shift F dx dy) (fourier_shift G dx dy).
Proof.
  intros [S H]. unfold shape in S. injection S as S1 S2. split.
  - unfold shape. cbn. congruence.
  - cbn. intros u v Hu Hv. rewrite <- S1, <- S2. now rewrite H.
Qed.
