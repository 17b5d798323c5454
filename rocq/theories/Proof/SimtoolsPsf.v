(** C54, C65, C77, C79: the simulated PSFs and the galaxy profile. *)
From Coq Require Import ZArith List Bool Reals Lia Lra Psatz.
From Flocq Require Import Core.Raux.
From Verif.Model Require Import Py Plane Simtools.
From Verif.Spec Require Import Simtools.
From Verif.Proof Require Import Simtools.
Import ListNotations.
Set Bullet Behavior "Strict Subproofs".
Local Open Scope R_scope.

(** A grid of positive values written over a range of indices. *)
Lemma grid_cells n lo hi (f : Z -> Z -> R) : (- Z.of_nat n <= lo)%Z -> (hi <= Z.of_nat n)%Z ->
  exists a, write_all (pconst (n, n) 0) (flat_map (fun i => map (fun j => (i, j, f i j)) (zrange lo hi)) (zrange lo hi)) = Ok a
  /\ nr a = n /\ nc a = n /\
  forall r c,
    ((forall i j, (lo <= i < hi)%Z -> (lo <= j < hi)%Z -> ~ denotes2 n (i, j) r c) /\ px a r c = 0) \/
    (exists i j, (lo <= i < hi)%Z /\ (lo <= j < hi)%Z /\ denotes2 n (i, j) r c /\ px a r c = f i j).
Proof.
  intros Hlo Hhi. set (ws := flat_map _ _).
  assert (Hws : forall i j v, In (i, j, v) ws <-> (lo <= i < hi)%Z /\ (lo <= j < hi)%Z /\ v = f i j).
  { intros i j v. unfold ws. rewrite in_flat_map. split.
    - intros (i' & Hi & Hj). apply in_map_iff in Hj. destruct Hj as (j' & [= -> -> <-] & Hj).
      apply zrange_In in Hi, Hj. now repeat split.
    - intros (Hi & Hj & ->). exists i. split; [now apply zrange_In|].
      apply in_map_iff. exists j. split; [reflexivity|now apply zrange_In]. }
  destruct (write_all_ok n ws (pconst (n, n) 0)) as (a & Ha & Hr & Hc & Hcell); [reflexivity|reflexivity| |].
  { intros i j v H. apply Hws in H. lia. }
  exists a. split; [assumption|]. split; [assumption|]. split; [assumption|].
  intros r c. destruct (Hcell r c) as [[H1 H2]|(i & j & v & H1 & H2 & H3)].
  - left. split; [|exact H2]. intros i j Hi Hj. apply (H1 i j (f i j)). apply Hws. now repeat split.
  - right. apply Hws in H1. destruct H1 as (Hi & Hj & ->). exists i, j. split; [exact Hi|]. split; [exact Hj|]. split; assumption.
Qed.

Definition width (xf yf : R) : R := if Req_EM_T yf 0 then xf else yf.

Lemma width_pos xf yf : 0 < xf -> 0 <= yf -> 0 < width xf yf /\ Rmax xf (width xf yf) = Rmax xf yf.
Proof.
  intros Hx Hy. unfold width. destruct (Req_EM_T yf 0) as [->|H].
  - split; [assumption|]. rewrite (Rmax_left xf xf), Rmax_left by lra. reflexivity.
  - split; [lra|reflexivity].
Qed.

(** The array before rotation and normalisation. *)
Lemma psf_cells N xf yf n : INR n <= N < INR n + 1 -> (1 <= n)%nat -> 0 < xf -> 0 < yf ->
  exists k t a, (n = 2 * k + 1 \/ n = 2 * k + 2)%nat /\ (t <= n / 2)%nat /\
    (((1 <= t)%nat <-> (2 <= n)%nat /\ 2335 / 1000 <= 5 * Rmax xf yf) /\
     INR t <= 5 * (Rmax xf yf / (2335 / 1000)) /\
     ((t < n / 2)%nat -> 5 * (Rmax xf yf / (2335 / 1000)) < INR t + 1)) /\
    write_all (pconst (n, n) 0) (psf_writes N xf yf) = Ok a /\ nr a = n /\ nc a = n /\
    forall r c,
    let lo := (Z.of_nat k - Z.of_nat t)%Z in let hi := (Z.of_nat k + Z.of_nat t)%Z in
    let f i j := norm_pdf (IZR i) ((N - 1) / 2) (xf / (2335 / 1000)) *
                 norm_pdf (IZR j) ((N - 1) / 2) (yf / (2335 / 1000)) in
    ((forall i j, (lo <= i < hi)%Z -> (lo <= j < hi)%Z -> ~ denotes2 n (i, j) r c) /\ px a r c = 0) \/
    (exists i j, (lo <= i < hi)%Z /\ (lo <= j < hi)%Z /\ denotes2 n (i, j) r c /\ px a r c = f i j).
Proof.
  intros HN Hn Hx Hy.
  destruct (psf_bounds N xf yf n HN Hn Hx Hy) as (k & t & Hk & _ & Hlo & Hhi & Ht & Htouch).
  unfold psf_writes. rewrite Hlo, Hhi.
  assert (Ht2 : (2 * t <= n)%nat) by (pose proof (Nat.mul_div_le n 2); lia).
  edestruct (grid_cells n (Z.of_nat k - Z.of_nat t) (Z.of_nat k + Z.of_nat t)) as (a & Ha & Hr & Hc & Hcell); [lia|lia|].
  exists k, t, a. split; [assumption|]. split; [assumption|]. split; [assumption|].
  split; [exact Ha|]. split; [assumption|]. split; [assumption|]. exact Hcell.
Qed.

Lemma nonneg_cell N xf yf i j : 0 < xf -> 0 < yf ->
  0 < norm_pdf (IZR i) ((N - 1) / 2) (xf / (2335 / 1000)) * norm_pdf (IZR j) ((N - 1) / 2) (yf / (2335 / 1000)).
Proof. intros. apply Rmult_lt_0_compat; apply norm_pdf_pos; apply Rdiv_lt_0_compat; lra. Qed.

Lemma py_int_size N n : INR n <= N < INR n + 1 -> Z.to_nat (py_int N) = n.
Proof.
  intros H. unfold py_int. rewrite (Ztrunc_uniq N (Z.of_nat n)).
  - apply Nat2Z.id.
  - pose proof (pos_INR n). lra.
  - now rewrite <- INR_IZR_INZ.
Qed.

(** C54: without rotation, a PSF of size N >= 2 whose width is not too small for the loop
    to touch a pixel is N x N (N truncated), non-negative and sums to one. *)
Lemma C54_psf_normalised_lm : forall (rotate : plane R -> R -> plane R) (N xf yf : R) (n : nat),
  INR n <= N < INR n + 1 -> (2 <= n)%nat -> 0 < xf -> 0 <= yf -> 2335 / 1000 <= 5 * Rmax xf yf ->
  exists q p, Psf rotate N xf yf 0 = Ok q /\ plane_eq q (pmap Some p) /\ shape p = (n, n) /\
    (forall i j, (i < n)%nat -> (j < n)%nat -> 0 <= px p i j) /\ total p = 1.
Proof.
  intros rotate N xf yf n HN Hn Hx Hy Hw.
  destruct (width_pos xf yf Hx Hy) as [Hy' Hmax].
  destruct (psf_cells N xf (width xf yf) n HN ltac:(lia) Hx Hy')
    as (k & t & a & Hk & Ht & (Htouch & _) & Ha & Hr & Hc & Hcell).
  unfold Psf. fold (width xf yf). rewrite (py_int_size N n HN), Ha. cbn [bind].
  destruct (Req_EM_T 0 0) as [_|]; [|lra].
  rewrite Hmax in Htouch. assert (Ht1 : (1 <= t)%nat) by (apply Htouch; now split).
  assert (Hpos : 0 < total a).
  { assert (Hkn : (k < n)%nat) by lia.
    apply total_pos with (if (t <=? k)%nat then k - t else 0)%nat (if (t <=? k)%nat then k - t else 0)%nat.
    - intros x y _ _. destruct (Hcell x y) as [[_ ->]|(i & j & _ & _ & _ & ->)]; [lra|].
      left. now apply nonneg_cell.
    - rewrite Hr. destruct (t <=? k)%nat; lia.
    - rewrite Hc. destruct (t <=? k)%nat; lia.
    - set (x := (if (t <=? k)%nat then k - t else 0)%nat).
      assert (Hx' : (Z.of_nat k - Z.of_nat t <= Z.of_nat x < Z.of_nat k + Z.of_nat t)%Z /\ (x < n)%nat).
      { unfold x. destruct (Nat.leb_spec t k); lia. }
      destruct (Hcell x x) as [[Hno _]|(i & j & _ & _ & _ & ->)].
      + exfalso. apply (Hno (Z.of_nat x) (Z.of_nat x)); [apply Hx'|apply Hx'|].
        split; simpl; unfold denotes; lia.
      + now apply nonneg_cell. }
  exists (pdiv a (total a)), (pmap (fun x => / total a * x) a).
  split; [reflexivity|]. split; [apply pdiv_some; lra|].
  split; [unfold shape; simpl; now rewrite Hr, Hc|]. split.
  - intros i j Hi Hj. simpl. apply Rmult_le_pos; [left; now apply Rinv_0_lt_compat|].
    destruct (Hcell i j) as [[_ ->]|(i' & j' & _ & _ & _ & ->)]; [lra|]. left. now apply nonneg_cell.
  - rewrite total_scal. field. lra.
Qed.

(** C54: otherwise nothing is written and every pixel is nan. *)
Lemma C54_psf_nan_lm : forall (rotate : plane R -> R -> plane R) (N xf yf : R) (n : nat),
  INR n <= N < INR n + 1 -> (1 <= n)%nat -> 0 < xf -> 0 <= yf ->
  n = 1%nat \/ 5 * Rmax xf yf < 2335 / 1000 ->
  exists q, Psf rotate N xf yf 0 = Ok q /\ shape q = (n, n) /\
    forall i j, (i < n)%nat -> (j < n)%nat -> px q i j = None.
Proof.
  intros rotate N xf yf n HN Hn Hx Hy Hw.
  destruct (width_pos xf yf Hx Hy) as [Hy' Hmax].
  destruct (psf_cells N xf (width xf yf) n HN Hn Hx Hy')
    as (k & t & a & Hk & Ht & (Htouch & _) & Ha & Hr & Hc & Hcell).
  unfold Psf. fold (width xf yf). rewrite (py_int_size N n HN), Ha. cbn [bind].
  destruct (Req_EM_T 0 0) as [_|]; [|lra].
  rewrite Hmax in Htouch. assert (Ht0 : t = 0%nat).
  { destruct t; [reflexivity|]. exfalso. destruct (proj1 Htouch ltac:(lia)) as [H1 H2].
    destruct Hw as [Hw|Hw]; [lia|lra]. }
  eexists. split; [reflexivity|]. split; [unfold shape, pdiv; simpl; now rewrite Hr, Hc|].
  intros i j Hi Hj. unfold pdiv. cbn [pmap px].
  assert (E : total a = 0).
  { unfold total. apply rsum_zero. intros x _. apply rsum_zero. intros y _.
    destruct (Hcell x y) as [[_ ->]|(i' & j' & Hi' & _)]; [reflexivity|]. lia. }
  destruct (Req_EM_T (total a) 0); [reflexivity|contradiction].
Qed.

(** C54: the PSF is never symmetric about its centre. *)
Lemma C54_psf_not_symmetric_lm : forall (rotate : plane R -> R -> plane R) (N xf yf : R) (n : nat),
  INR n <= N < INR n + 1 -> (2 <= n)%nat -> 0 < xf -> 0 <= yf -> 2335 / 1000 <= 5 * Rmax xf yf ->
  exists q i j, Psf rotate N xf yf 0 = Ok q /\ (i < n)%nat /\ (j < n)%nat /\
    px q i j <> px q (n - 1 - i) (n - 1 - j).
Proof.
  intros rotate N xf yf n HN Hn Hx Hy Hw.
  destruct (C54_psf_normalised_lm rotate N xf yf n HN Hn Hx Hy Hw) as (q & p & Hq & _ & _ & _ & _).
  destruct (width_pos xf yf Hx Hy) as [Hy' Hmax].
  destruct (psf_cells N xf (width xf yf) n HN ltac:(lia) Hx Hy')
    as (k & t & a & Hk & Ht & (Htouch & _) & Ha & Hr & Hc & Hcell).
  rewrite Hmax in Htouch. assert (Ht1 : (1 <= t)%nat) by (apply Htouch; now split).
  revert Hq. unfold Psf. fold (width xf yf). rewrite (py_int_size N n HN), Ha. cbn [bind].
  destruct (Req_EM_T 0 0) as [_|]; [|lra]. intros Hq.
  assert (Hnn : forall x y, 0 <= px a x y).
  { intros x y. destruct (Hcell x y) as [[_ ->]|(i & j & _ & _ & _ & ->)]; [lra|]. left. now apply nonneg_cell. }
  cut (exists i, (i < n)%nat /\ px a (n - 1 - i) (n - 1 - i) < px a i i).
  { intros (i & Hi & Hlt). exists (pdiv a (total a)), i, i. repeat split; try assumption.
    assert (Hpos : 0 < total a).
    { apply total_pos with i i; [intros; apply Hnn|now rewrite Hr|now rewrite Hc|].
      pose proof (Hnn (n - 1 - i)%nat (n - 1 - i)%nat). lra. }
    unfold pdiv. cbn [pmap px]. destruct (Req_EM_T (total a) 0); [lra|]. intros H.
    assert (E : px a i i / total a = px a (n - 1 - i) (n - 1 - i) / total a) by congruence.
    apply (f_equal (fun z => z * total a)) in E. unfold Rdiv in E.
    rewrite !Rmult_assoc, Rinv_l in E by lra. lra. }
  clear Hq. destruct (Nat.leb_spec t k) as [Hle|Hgt].
  - exists (k - t)%nat. split; [lia|].
    assert (E : px a (n - 1 - (k - t)) (n - 1 - (k - t)) = 0).
    { destruct (Hcell (n - 1 - (k - t))%nat (n - 1 - (k - t))%nat) as [[_ E]|(i & j & Hi & Hj & [Hd1 Hd2] & _)]; [exact E|].
      exfalso. simpl in Hd1. unfold denotes in Hd1. lia. }
    rewrite E. destruct (Hcell (k - t)%nat (k - t)%nat) as [[Hno _]|(i & j & _ & _ & _ & ->)].
    + exfalso. apply (Hno (Z.of_nat (k - t)) (Z.of_nat (k - t))); [lia|lia|].
      split; simpl; unfold denotes; lia.
    + now apply nonneg_cell.
  - assert (Hn2 : (2 * (n / 2) <= n)%nat) by (apply Nat.mul_div_le; lia).
    assert (Ht' : t = S k /\ n = (2 * k + 2)%nat) by lia. destruct Ht' as [-> ->].
    exists 0%nat. split; [lia|]. replace (2 * k + 2 - 1 - 0)%nat with (2 * k + 1)%nat by lia.
    set (n := (2 * k + 2)%nat) in *.
    destruct (Hcell 0%nat 0%nat) as [[Hno _]|(i & j & Hi & Hj & [Hd1 Hd2] & ->)].
    { exfalso. apply (Hno 0%Z 0%Z); [lia|lia|]. split; simpl; unfold denotes, n; lia. }
    destruct (Hcell (2 * k + 1)%nat (2 * k + 1)%nat) as [[Hno _]|(i' & j' & Hi' & Hj' & [Hd1' Hd2'] & ->)].
    { exfalso. apply (Hno (-1)%Z (-1)%Z); [lia|lia|]. split; simpl; unfold denotes, n; lia. }
    simpl in Hd1, Hd2, Hd1', Hd2'. unfold denotes, n in Hd1, Hd2, Hd1', Hd2'.
    assert (Hi0 : i = 0%Z) by lia. assert (Hj0 : j = 0%Z) by lia. subst i j.
    assert (Hi1 : i' = (-1)%Z) by lia. assert (Hj1 : j' = (-1)%Z) by lia. subst i' j'.
    assert (HN2 : 2 <= N).
    { apply Rle_trans with (INR n); [|apply HN]. unfold n. rewrite plus_INR, mult_INR. simpl.
      pose proof (pos_INR k). lra. }
    apply Rmult_gt_0_lt_compat; try (apply norm_pdf_pos; apply Rdiv_lt_0_compat; lra).
    + apply norm_pdf_lt; [apply Rdiv_lt_0_compat; lra|]. simpl. nra.
    + apply norm_pdf_lt; [apply Rdiv_lt_0_compat; lra|]. simpl. nra.
Qed.

(** C54: after a rotation the PSF sums to one if what the rotation returned does not sum to
    zero. *)
Lemma C54_psf_rotated_lm : forall (rotate : plane R -> R -> plane R) (N xf yf theta : R) (n : nat),
  INR n <= N < INR n + 1 -> (1 <= n)%nat -> 0 < xf -> 0 <= yf -> theta <> 0 ->
  (forall a, total (rotate a theta) <> 0) ->
  exists q p, Psf rotate N xf yf theta = Ok q /\ plane_eq q (pmap Some p) /\ total p = 1.
Proof.
  intros rotate N xf yf theta n HN Hn Hx Hy Hth Hrot.
  destruct (width_pos xf yf Hx Hy) as [Hy' Hmax].
  destruct (psf_cells N xf (width xf yf) n HN Hn Hx Hy')
    as (k & t & a & Hk & Ht & (Htouch & _) & Ha & Hr & Hc & Hcell).
  unfold Psf. fold (width xf yf). rewrite (py_int_size N n HN), Ha. cbn [bind].
  destruct (Req_EM_T theta 0) as [|_]; [contradiction|].
  set (b := rotate a theta). assert (Hb : total b <> 0) by apply Hrot.
  exists (pdiv b (total b)), (pmap (fun x => / total b * x) b). split; [reflexivity|].
  split; [now apply pdiv_some|]. rewrite total_scal. field. assumption.
Qed.

(** Sersic profile *)
Lemma rpow_0 y : rpow 0 y = 0.
Proof. unfold rpow. destruct (Req_EM_T 0 0); [reflexivity|lra]. Qed.

Lemma rpow_nonneg x y : 0 <= rpow x y.
Proof. unfold rpow. destruct (Req_EM_T x 0); [lra|]. left. apply exp_pos. Qed.

Lemma rpow_pos x y : 0 < x -> 0 < rpow x y.
Proof. intros. unfold rpow. destruct (Req_EM_T x 0); [lra|]. apply exp_pos. Qed.

Lemma rpow_mono x y z : 0 <= x -> x <= y -> 0 < z -> rpow x z <= rpow y z.
Proof.
  intros Hx Hxy Hz. destruct (Req_dec x 0) as [->|Hn]; [rewrite rpow_0; apply rpow_nonneg|].
  unfold rpow. destruct (Req_EM_T x 0); [lra|]. destruct (Req_EM_T y 0); [lra|].
  apply Rle_Rpower_l; lra.
Qed.

Lemma sersic_eq re Ie n r : 0 < re -> 0 < Ie ->
  perfilsersic re Ie n r = exp (- (1999 / 1000 * n - 327 / 1000) * rpow (r / re) (1 / n)).
Proof.
  intros Hre HIe. unfold perfilsersic. set (b := 1999 / 1000 * n - 327 / 1000).
  replace (0 / re) with 0 by (field; lra). rewrite rpow_0.
  set (p := rpow (r / re) (1 / n)).
  replace (- b * (p - 1)) with (- b * p + b) by ring. replace (- b * (0 - 1)) with b by ring.
  rewrite exp_plus. field. split; [apply Rgt_not_eq, exp_pos|lra].
Qed.

Lemma radius_nonneg N i j : 0 <= radius N i j.
Proof. apply sqrt_pos. Qed.

Lemma gal_inside N n i j : (i < N - 1)%nat -> (j < N - 1)%nat -> radius N i j <= 2 / 3 * (INR N - 1) ->
  px (gal_sersic N n) i j =
  exp (- (1999 / 1000 * n - 327 / 1000) * rpow (radius N i j / ((INR N - 1) / 6)) (1 / n)).
Proof.
  intros Hi Hj Hr. unfold gal_sersic. cbn [px].
  destruct (Nat.ltb_spec i (N - 1)); [|lia]. destruct (Nat.ltb_spec j (N - 1)); [|lia]. cbn [andb].
  assert (1 <= INR i + 1) by (pose proof (pos_INR i); lra).
  assert (HN : 2 <= INR N) by (change 2 with (INR 2); apply le_INR; lia).
  destruct (Rle_dec (radius N i j) (4 * ((INR N - 1) / 6))); [|lra].
  rewrite sersic_eq by lra. reflexivity.
Qed.

(** C65: zero in the last row and column and beyond 2/3 (N-1) from the centre. *)
Lemma C65_zero_border_lm : forall (N : nat) (n : R) (i j : nat),
  i = (N - 1)%nat \/ j = (N - 1)%nat \/ 2 / 3 * (INR N - 1) < radius N i j ->
  shape (gal_sersic N n) = (N, N) /\ px (gal_sersic N n) i j = 0.
Proof.
  intros N n i j H. split; [reflexivity|]. unfold gal_sersic. cbn [px].
  destruct (Nat.ltb_spec i (N - 1)); [|reflexivity]. destruct (Nat.ltb_spec j (N - 1)); [|reflexivity].
  cbn [andb]. destruct (Rle_dec (radius N i j) (4 * ((INR N - 1) / 6))); [|reflexivity].
  destruct H as [H|[H|H]]; [lia|lia|lra].
Qed.

(** C65: for an index of at least 327/1999 the values lie between 0 and 1 and do not
    increase with the distance from the centre. *)
Lemma C65_values_lm : forall (N : nat) (n : R),
  (2 <= N)%nat -> 327 / 1999 <= n ->
  (forall i j, 0 <= px (gal_sersic N n) i j <= 1) /\
  (forall i j i' j', (i < N - 1)%nat -> (j < N - 1)%nat -> radius N i j <= radius N i' j' ->
     px (gal_sersic N n) i' j' <= px (gal_sersic N n) i j).
Proof.
  intros N n HN Hn.
  assert (Hb : 0 <= 1999 / 1000 * n - 327 / 1000) by lra.
  assert (HNR : 2 <= INR N) by (change 2 with (INR 2); now apply le_INR).
  assert (Hcase : forall i j, px (gal_sersic N n) i j = 0 \/
     (radius N i j <= 2 / 3 * (INR N - 1) /\ px (gal_sersic N n) i j =
  exp (- (1999 / 1000 * n - 327 / 1000) * rpow (radius N i j / ((INR N - 1) / 6)) (1 / n)))).
  { intros i j. destruct (Nat.ltb_spec i (N - 1)) as [Hi|Hi].
    - destruct (Nat.ltb_spec j (N - 1)) as [Hj|Hj].
      + destruct (Rle_lt_dec (radius N i j) (2 / 3 * (INR N - 1))) as [Hr|Hr].
        * right. split; [assumption|]. now apply gal_inside.
        * left. apply C65_zero_border_lm. auto.
      + left. unfold gal_sersic. cbn [px]. destruct (Nat.ltb_spec j (N - 1)); [lia|]. now rewrite andb_false_r.
    - left. unfold gal_sersic. cbn [px]. now destruct (Nat.ltb_spec i (N - 1)); [lia|]. }
  split.
  - intros i j. destruct (Hcase i j) as [->|[_ ->]]; [lra|]. split; [left; apply exp_pos|].
    rewrite <- exp_0. set (p := rpow _ _). assert (0 <= p) by apply rpow_nonneg.
    destruct (Req_dec ((1999 / 1000 * n - 327 / 1000) * p) 0) as [E|E].
    + right. f_equal. lra.
    + left. apply exp_increasing. nra.
  - intros i j i' j' Hi Hj Hr. destruct (Hcase i' j') as [->|[Hr' ->]].
    + destruct (Hcase i j) as [->|[_ ->]]; [lra|]. left; apply exp_pos.
    + rewrite gal_inside by (try assumption; lra).
      set (p := rpow (radius N i j / _) _). set (p' := rpow (radius N i' j' / _) _).
      assert (Hpp : p <= p').
      { apply rpow_mono.
        - apply Rmult_le_pos; [apply radius_nonneg|]. left. apply Rinv_0_lt_compat. lra.
        - apply Rmult_le_compat_r; [|assumption]. left. apply Rinv_0_lt_compat. lra.
        - apply Rdiv_lt_0_compat; lra. }
      destruct (Req_dec ((1999 / 1000 * n - 327 / 1000) * p) ((1999 / 1000 * n - 327 / 1000) * p')) as [E|E].
      * right. f_equal. lra.
      * left. apply exp_increasing. nra.
Qed.

(** C65: for smaller positive indices the profile grows outwards: every pixel inside the
    radius, except the centre, is above 1. *)
Lemma C65_small_index_lm : forall (N : nat) (n : R) (i j : nat),
  0 < n < 327 / 1999 -> (i < N - 1)%nat -> (j < N - 1)%nat ->
  0 < radius N i j <= 2 / 3 * (INR N - 1) -> 1 < px (gal_sersic N n) i j.
Proof.
  intros N n i j Hn Hi Hj Hr. rewrite gal_inside by (try assumption; lra).
  rewrite <- exp_0 at 1. apply exp_increasing.
  assert (HNR : 2 <= INR N) by (change 2 with (INR 2); apply le_INR; lia).
  assert (0 < rpow (radius N i j / ((INR N - 1) / 6)) (1 / n)).
  { apply rpow_pos. apply Rdiv_lt_0_compat; lra. }
  nra.
Qed.

(** C77: an Airy pattern has a nan exactly at the centre of an odd-sized array. *)
Lemma C77_airy_nan_lm : forall (j1 : R -> R) (N : nat) (w : R) (i j : nat),
  w <> 0 -> (i < N)%nat -> (j < N)%nat ->
  shape (airy_patron j1 N w) = (N, N) /\
  (px (airy_patron j1 N w) i j = None <-> N = (2 * i + 1)%nat /\ j = i).
Proof.
  intros j1 N w i j Hw Hi Hj. split; [reflexivity|].
  unfold airy_patron, airy_func. cbn [px].
  assert (Hzero : radius N i j = 0 <-> N = (2 * i + 1)%nat /\ j = i).
  { unfold radius. set (mu := (INR N - 1) / 2). split.
    - intros H. apply sqrt_eq_0 in H.
      2:{ apply Rplus_le_le_0_compat; apply pow2_ge_0. }
      rewrite <- !Rsqr_pow2 in H. destruct (Rplus_sqr_eq_0 _ _ H) as [H1 H2].
      assert (H3 : INR N = INR (2 * i + 1)) by (rewrite plus_INR, mult_INR; simpl; unfold mu in H1; lra).
      apply INR_eq in H3. split; [assumption|]. apply INR_eq. lra.
    - intros [-> ->].
      replace (INR i - mu) with 0 by (unfold mu; rewrite plus_INR, mult_INR; simpl; lra).
      replace (0 ^ 2 + 0 ^ 2) with 0 by ring. apply sqrt_0. }
  rewrite <- Hzero. destruct (Req_EM_T (radius N i j / w) 0) as [E|E].
  - split; [|reflexivity]. intros _. apply (f_equal (fun z => z * w)) in E.
    unfold Rdiv in E. rewrite Rmult_assoc, Rinv_l, Rmult_1_r in E by assumption. lra.
  - split; [discriminate|]. intros H. exfalso. apply E. rewrite H. unfold Rdiv. ring.
Qed.

(** C79: the tail of [astropy_Psf]. *)
Definition tail7 (fwhm : R) : Z := Ztrunc (7 * (fwhm / (2335 / 1000))).

Lemma mu_int_nat N : (1 <= N)%nat -> Ztrunc ((INR N - 1) / 2) = Z.of_nat ((N - 1) / 2).
Proof.
  intros HN. apply Ztrunc_uniq.
  - assert (1 <= INR N) by (change 1 with (INR 1); now apply le_INR). lra.
  - set (k := ((N - 1) / 2)%nat). rewrite <- INR_IZR_INZ.
    assert (Hk : (N = 2 * k + 1 \/ N = 2 * k + 2)%nat).
    { unfold k. pose proof (Nat.div_mod (N - 1) 2 ltac:(lia)) as Hd.
      pose proof (Nat.mod_upper_bound (N - 1) 2 ltac:(lia)). lia. }
    clearbody k. destruct Hk as [->| ->]; rewrite plus_INR, mult_INR; simpl; lra.
Qed.

(** C79: [astropy_Psf] does not clip its tail: it raises IndexError as soon as the tail
    reaches beyond the array... *)
Lemma C79_astropy_psf_index_error_lm : forall (N : nat) (fwhm : R),
  (1 <= N)%nat -> 0 < fwhm ->
  (Z.of_nat N < Z.of_nat ((N - 1) / 2) + Ztrunc (7 * (fwhm / (2335 / 1000))))%Z ->
  astropy_Psf N fwhm = Raise IndexError.
Proof.
  intros N fwhm HN Hf Hbig. unfold astropy_Psf. unfold py_int. rewrite mu_int_nat by assumption.
  set (k := ((N - 1) / 2)%nat) in *. set (T := Ztrunc (7 * (fwhm / (2335 / 1000)))) in *.
  assert (HkN : (k < N)%nat) by (unfold k; apply Nat.lt_le_trans with (S (N - 1)); [|lia]; apply Nat.lt_succ_r, Nat.div_le_upper_bound; lia).
  rewrite write_all_raise with (n := N); [reflexivity|reflexivity|reflexivity|].
  set (lo := (Z.of_nat k - T)%Z). set (hi := (Z.of_nat k + T)%Z) in *.
  exists (hi - 1)%Z, (hi - 1)%Z. eexists. split.
  - apply in_flat_map. exists (hi - 1)%Z. split; [apply zrange_In; lia|].
    apply in_map_iff. exists (hi - 1)%Z. split; [reflexivity|]. apply zrange_In; lia.
  - lia.
Qed.

(** ... and otherwise returns a non-negative array summing to one (nan if the tail is
    empty). *)
Lemma C79_astropy_psf_normalised_lm : forall (N : nat) (fwhm : R),
  (1 <= N)%nat -> 2335 / 7000 <= fwhm ->
  (Z.of_nat ((N - 1) / 2) + Ztrunc (7 * (fwhm / (2335 / 1000))) <= Z.of_nat N)%Z ->
  exists q p, astropy_Psf N fwhm = Ok q /\ plane_eq q (pmap Some p) /\ shape p = (N, N) /\
    (forall i j, (i < N)%nat -> (j < N)%nat -> 0 <= px p i j) /\ total p = 1.
Proof.
  intros N fwhm HN Hf Hfit. unfold astropy_Psf. unfold py_int. rewrite mu_int_nat by assumption.
  set (k := ((N - 1) / 2)%nat) in *. set (T := Ztrunc (7 * (fwhm / (2335 / 1000)))) in *.
  assert (HT : (1 <= T)%Z).
  { unfold T. rewrite Ztrunc_floor by (apply Rmult_le_pos; [lra|]; left; apply Rdiv_lt_0_compat; lra).
    apply Zfloor_lub. simpl. unfold Rdiv. lra. }
  assert (HkN : (k < N)%nat) by (unfold k; apply Nat.lt_le_trans with (S (N - 1)); [|lia]; apply Nat.lt_succ_r, Nat.div_le_upper_bound; lia).
  edestruct (grid_cells N (Z.of_nat k - T) (Z.of_nat k + T)) as (a & Ha & Hr & Hc & Hcell); [lia|lia|].
  rewrite Ha. cbn [bind]. set (mu := (INR N - 1) / 2) in *.
  assert (Hnn : forall x y, 0 <= px a x y).
  { intros x y. destruct (Hcell x y) as [[_ ->]|(i & j & _ & _ & _ & ->)]; [lra|]. left. apply exp_pos. }
  assert (Hpos : 0 < total a).
  { apply total_pos with k k; [intros; apply Hnn|lia|lia|].
    destruct (Hcell k k) as [[Hno _]|(i & j & _ & _ & _ & ->)]; [|apply exp_pos].
    exfalso. apply (Hno (Z.of_nat k) (Z.of_nat k)); [lia|lia|]. split; simpl; unfold denotes; lia. }
  exists (pdiv a (total a)), (pmap (fun x => / total a * x) a).
  split; [reflexivity|]. split; [apply pdiv_some; lra|].
  split; [unfold shape; simpl; now rewrite Hr, Hc|]. split.
  - intros i j Hi Hj. simpl. apply Rmult_le_pos; [left; now apply Rinv_0_lt_compat|]. apply Hnn.
  - rewrite total_scal. field. lra.
Qed.
