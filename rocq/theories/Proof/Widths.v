(** C115: how wide the simulated point spread functions are. *)
From Coq Require Import ZArith List Bool Reals Lia Lra Psatz.
From Flocq Require Import Core.Raux.
From Verif.Model Require Import Py Plane Simtools.
From Verif.Spec Require Import Simtools Widths.
From Verif.Proof Require Import Simtools SimtoolsPsf.
Import ListNotations.
Set Bullet Behavior "Strict Subproofs".
Local Open Scope R_scope.

(** Bounds of ln 2 *)
Lemma sq_up a b x : 0 < x -> exp x <= a -> a * a <= b -> exp (2 * x) <= b.
Proof.
  intros Hx Ha Hb. replace (2 * x) with (x + x) by ring. rewrite exp_plus.
  pose proof (exp_pos x). nra.
Qed.

Lemma sq_lo a b x : 0 <= a -> a <= exp x -> b <= a * a -> b <= exp (2 * x).
Proof.
  intros Hx Ha Hb. replace (2 * x) with (x + x) by ring. rewrite exp_plus.
  pose proof (exp_pos x). nra.
Qed.

Lemma exp_up x : 0 < x < 1 -> exp x <= / (1 - x).
Proof.
  intros Hx. pose proof (exp_ineq1 (- x) ltac:(lra)) as H. rewrite exp_Ropp in H.
  pose proof (exp_pos x). apply Rmult_le_reg_r with (1 - x); [lra|]. rewrite Rinv_l by lra.
  apply Rmult_lt_compat_l with (r := exp x) in H; [|assumption]. rewrite Rinv_r in H by lra. lra.
Qed.

Lemma ln2_lo : 6926 / 10000 < ln 2.
Proof.
  set (x := 6926 / 10000 / 1024).
  assert (H0 : exp x <= 1000676825 / 1000000000).
  { apply Rle_trans with (/ (1 - x)); [apply exp_up; unfold x; lra|]. unfold x. lra. }
  assert (H1 : exp (2 * x) <= 1001354109 / 1000000000) by (apply (sq_up (1000676825 / 1000000000)); [unfold x; lra|exact H0|lra]).
  assert (H2 : exp (2 * (2 * x)) <= 1002710052 / 1000000000) by (apply (sq_up (1001354109 / 1000000000)); [unfold x; lra|exact H1|lra]).
  assert (H3 : exp (2 * (2 * (2 * x))) <= 1005427449 / 1000000000) by (apply (sq_up (1002710052 / 1000000000)); [unfold x; lra|exact H2|lra]).
  assert (H4 : exp (2 * (2 * (2 * (2 * x)))) <= 1010884356 / 1000000000) by (apply (sq_up (1005427449 / 1000000000)); [unfold x; lra|exact H3|lra]).
  assert (H5 : exp (2 * (2 * (2 * (2 * (2 * x))))) <= 1021887182 / 1000000000) by (apply (sq_up (1010884356 / 1000000000)); [unfold x; lra|exact H4|lra]).
  assert (H6 : exp (2 * (2 * (2 * (2 * (2 * (2 * x)))))) <= 1044253413 / 1000000000) by (apply (sq_up (1021887182 / 1000000000)); [unfold x; lra|exact H5|lra]).
  assert (H7 : exp (2 * (2 * (2 * (2 * (2 * (2 * (2 * x))))))) <= 1090465191 / 1000000000) by (apply (sq_up (1044253413 / 1000000000)); [unfold x; lra|exact H6|lra]).
  assert (H8 : exp (2 * (2 * (2 * (2 * (2 * (2 * (2 * (2 * x)))))))) <= 1189114333 / 1000000000) by (apply (sq_up (1090465191 / 1000000000)); [unfold x; lra|exact H7|lra]).
  assert (H9 : exp (2 * (2 * (2 * (2 * (2 * (2 * (2 * (2 * (2 * x))))))))) <= 1413992897 / 1000000000) by (apply (sq_up (1189114333 / 1000000000)); [unfold x; lra|exact H8|lra]).
  assert (H10 : exp (2 * (2 * (2 * (2 * (2 * (2 * (2 * (2 * (2 * (2 * x)))))))))) <= 1999375913 / 1000000000) by (apply (sq_up (1413992897 / 1000000000)); [unfold x; lra|exact H9|lra]).
  replace (2 * (2 * (2 * (2 * (2 * (2 * (2 * (2 * (2 * (2 * x)))))))))) with (6926 / 10000) in H10 by (unfold x; lra).
  rewrite <- (ln_exp (6926 / 10000)). apply ln_increasing; [apply exp_pos|lra].
Qed.

Lemma ln2_up : ln 2 < 6938 / 10000.
Proof.
  set (x := 6938 / 10000 / 1024).
  assert (H0 : 1000677539 / 1000000000 <= exp x).
  { apply Rle_trans with (1 + x); [unfold x; lra|]. left. apply exp_ineq1. unfold x; lra. }
  assert (H1 : 1001355537 / 1000000000 <= exp (2 * x)) by (apply (sq_lo (1000677539 / 1000000000)); [lra|exact H0|lra]).
  assert (H2 : 1002712911 / 1000000000 <= exp (2 * (2 * x))) by (apply (sq_lo (1001355537 / 1000000000)); [lra|exact H1|lra]).
  assert (H3 : 1005433181 / 1000000000 <= exp (2 * (2 * (2 * x)))) by (apply (sq_lo (1002712911 / 1000000000)); [lra|exact H2|lra]).
  assert (H4 : 1010895881 / 1000000000 <= exp (2 * (2 * (2 * (2 * x))))) by (apply (sq_lo (1005433181 / 1000000000)); [lra|exact H3|lra]).
  assert (H5 : 1021910482 / 1000000000 <= exp (2 * (2 * (2 * (2 * (2 * x)))))) by (apply (sq_lo (1010895881 / 1000000000)); [lra|exact H4|lra]).
  assert (H6 : 1044301033 / 1000000000 <= exp (2 * (2 * (2 * (2 * (2 * (2 * x))))))) by (apply (sq_lo (1021910482 / 1000000000)); [lra|exact H5|lra]).
  assert (H7 : 1090564647 / 1000000000 <= exp (2 * (2 * (2 * (2 * (2 * (2 * (2 * x)))))))) by (apply (sq_lo (1044301033 / 1000000000)); [lra|exact H6|lra]).
  assert (H8 : 1189331249 / 1000000000 <= exp (2 * (2 * (2 * (2 * (2 * (2 * (2 * (2 * x))))))))) by (apply (sq_lo (1090564647 / 1000000000)); [lra|exact H7|lra]).
  assert (H9 : 1414508819 / 1000000000 <= exp (2 * (2 * (2 * (2 * (2 * (2 * (2 * (2 * (2 * x)))))))))) by (apply (sq_lo (1189331249 / 1000000000)); [lra|exact H8|lra]).
  assert (H10 : 2000835199 / 1000000000 <= exp (2 * (2 * (2 * (2 * (2 * (2 * (2 * (2 * (2 * (2 * x))))))))))) by (apply (sq_lo (1414508819 / 1000000000)); [lra|exact H9|lra]).
  replace (2 * (2 * (2 * (2 * (2 * (2 * (2 * (2 * (2 * (2 * x)))))))))) with (6938 / 10000) in H10 by (unfold x; lra).
  rewrite <- (ln_exp (6938 / 10000)). apply ln_increasing; lra.
Qed.

(** The ratio of the width of a Gaussian of standard deviation f/2.335 to [f]. *)
Definition stretch : R := 2 * sqrt (2 * ln 2) / (2335 / 1000).

Lemma ln2_pos : 0 < ln 2.
Proof. pose proof ln2_lo. lra. Qed.

Lemma stretch_sqr : stretch ^ 2 = 8 * ln 2 / (2335 / 1000) ^ 2.
Proof.
  unfold stretch. pose proof ln2_pos. pose proof (sqrt_sqrt (2 * ln 2) ltac:(lra)) as E.
  replace ((2 * sqrt (2 * ln 2) / (2335 / 1000)) ^ 2)
    with (4 * (sqrt (2 * ln 2) * sqrt (2 * ln 2)) / (2335 / 1000) ^ 2) by field.
  rewrite E. field.
Qed.

Lemma stretch_bounds : 1008 / 1000 < stretch < 1009 / 1000.
Proof.
  assert (H0 : 0 <= stretch).
  { unfold stretch. apply Rmult_le_pos; [|lra]. pose proof (sqrt_pos (2 * ln 2)). lra. }
  pose proof stretch_sqr as E. pose proof ln2_lo as Hll. pose proof ln2_up as Hlu. split.
  - apply Rnot_le_lt. intros H1. assert (stretch ^ 2 <= (1008 / 1000) ^ 2) by nra. lra.
  - apply Rnot_le_lt. intros H1. assert ((1009 / 1000) ^ 2 <= stretch ^ 2) by nra. lra.
Qed.

Lemma bell_exp f d : 0 < f -> exp (- ((d / (f / (2335 / 1000))) ^ 2) / 2) = bell (stretch * f) d.
Proof.
  intros Hf. unfold bell, Rpower. f_equal. pose proof stretch_bounds as Hs. pose proof stretch_sqr as E.
  replace (- (2 * d / (stretch * f)) ^ 2 * ln 2) with (- (4 * d ^ 2 / f ^ 2 * ln 2 / stretch ^ 2)) by (field; lra).
  rewrite E. pose proof ln2_pos. field. lra.
Qed.

Lemma bell_pos w d : 0 < bell w d.
Proof. apply exp_pos. Qed.

(** ** [Psf] *)

(** C115: without rotation, the profile of a simulated PSF along each axis is a Gaussian
    whose full width at half maximum is [s] times the requested one, [s] being a constant
    between 1.008 and 1.009, cut off at five standard deviations or at the border. *)
Lemma C115_psf_lm : exists s : R, 1008 / 1000 < s < 1009 / 1000 /\
  forall (rotate : plane R -> R -> plane R) (N xf yf : R) (n : nat),
  INR n <= N < INR n + 1 -> (2 <= n)%nat -> 0 < xf -> 0 < yf -> 2335 / 1000 <= 5 * Rmax xf yf ->
  exists (q : plane (option R)) (amp : R) (k t : nat),
    Psf rotate N xf yf 0 = Ok q /\ 0 < amp /\
    (n = 2 * k + 1 \/ n = 2 * k + 2)%nat /\
    (1 <= t <= n / 2)%nat /\ INR t <= 5 * (Rmax xf yf / (2335 / 1000)) /\
    ((t < n / 2)%nat -> 5 * (Rmax xf yf / (2335 / 1000)) < INR t + 1) /\
    forall r c, (r < n)%nat -> (c < n)%nat ->
      ((k <= r + t)%nat -> (r < k + t)%nat -> (k <= c + t)%nat -> (c < k + t)%nat ->
       px q r c = Some (amp * (bell (s * xf) (INR r - (N - 1) / 2) * bell (s * yf) (INR c - (N - 1) / 2)))) /\
      ((t <= k)%nat -> (r + t < k \/ k + t <= r \/ c + t < k \/ k + t <= c)%nat -> px q r c = Some 0).
Proof.
  exists stretch. split; [apply stretch_bounds|].
  intros rotate N xf yf n HN Hn Hx Hy Hw.
  destruct (psf_cells N xf yf n HN ltac:(lia) Hx Hy)
    as (k & t & a & Hk & Ht & (Htouch & Htl & Htu) & Ha & Hr & Hc & Hcell).
  destruct (Req_EM_T yf 0) as [|Hy0]; [lra|].
  assert (Ht1 : (1 <= t)%nat) by (apply Htouch; now split).
  assert (Hn2 : (2 * (n / 2) <= n)%nat) by (apply Nat.mul_div_le; lia).
  assert (Hpos : 0 < total a).
  { assert (Hkn : (k < n)%nat) by lia.
    apply total_pos with k k; [| lia|lia|].
    - intros x y _ _. destruct (Hcell x y) as [[_ ->]|(i & j & _ & _ & _ & ->)]; [lra|].
      left. now apply nonneg_cell.
    - destruct (Hcell k k) as [[Hno _]|(i & j & _ & _ & _ & ->)].
      + exfalso. apply (Hno (Z.of_nat k) (Z.of_nat k)); [lia|lia|]. split; simpl; unfold denotes; lia.
      + now apply nonneg_cell. }
  set (sx := xf / (2335 / 1000)) in *. set (sy := yf / (2335 / 1000)) in *.
  assert (Hsx : 0 < sx) by (apply Rdiv_lt_0_compat; lra).
  assert (Hsy : 0 < sy) by (apply Rdiv_lt_0_compat; lra).
  assert (Hpi : 0 < sqrt (2 * PI)) by (apply sqrt_lt_R0; pose proof PI_RGT_0; lra).
  exists (pdiv a (total a)), (/ (sx * sqrt (2 * PI) * (sy * sqrt (2 * PI))) / total a), k, t.
  split.
  { unfold Psf. destruct (Req_EM_T yf 0) as [|_]; [contradiction|].
    rewrite (py_int_size N n HN), Ha. cbn [bind]. destruct (Req_EM_T 0 0) as [_|]; [reflexivity|lra]. }
  split.
  { apply Rdiv_lt_0_compat; [|assumption]. apply Rinv_0_lt_compat.
    apply Rmult_lt_0_compat; apply Rmult_lt_0_compat; assumption. }
  split; [assumption|]. split; [lia|]. split; [assumption|]. split; [assumption|].
  intros r c Hrn Hcn. unfold pdiv. cbn [pmap px]. destruct (Req_EM_T (total a) 0); [lra|]. split.
  - intros H1 H2 H3 H4. destruct (Hcell r c) as [[Hno _]|(i & j & Hi & Hj & [Hd1 Hd2] & ->)].
    { exfalso. apply (Hno (Z.of_nat r) (Z.of_nat c)); [lia|lia|]. split; simpl; unfold denotes; lia. }
    simpl in Hd1, Hd2. unfold denotes in Hd1, Hd2.
    assert (i = Z.of_nat r) by lia. assert (j = Z.of_nat c) by lia. subst i j.
    f_equal. unfold norm_pdf. rewrite <- !INR_IZR_INZ.
    unfold sx at 1, sy at 1. rewrite (bell_exp xf), (bell_exp yf) by assumption.
    field. repeat split; lra.
  - intros Htk Hout. destruct (Hcell r c) as [[_ ->]|(i & j & Hi & Hj & [Hd1 Hd2] & _)].
    { f_equal. field. lra. }
    exfalso. simpl in Hd1, Hd2. unfold denotes in Hd1, Hd2. lia.
Qed.

(** C115: a Y_FWHM of zero means the width of the other axis. *)
Lemma C115_default_width_lm : forall (rotate : plane R -> R -> plane R) (N xf theta : R),
  0 < xf -> Psf rotate N xf 0 theta = Psf rotate N xf xf theta.
Proof.
  intros rotate N xf theta Hx. unfold Psf. destruct (Req_EM_T 0 0); [|lra].
  destruct (Req_EM_T xf 0); reflexivity.
Qed.

Lemma bell_inj w w' d : 0 < w -> 0 < w' -> d <> 0 -> bell w d = bell w' d -> w = w'.
Proof.
  intros Hw Hw' Hd E. unfold bell, Rpower in E. apply exp_inv in E. pose proof ln2_pos as L.
  assert (E1 : (2 * d / w) ^ 2 = (2 * d / w') ^ 2) by nra.
  assert (E2 : w' ^ 2 = w ^ 2).
  { replace (w' ^ 2) with (w ^ 2 * w' ^ 2 * (2 * d / w) ^ 2 / (4 * d ^ 2)) by (field; lra).
    rewrite E1. field. lra. }
  nra.
Qed.

(** C115: so the width at half maximum is not the requested one. *)
Lemma C115_psf_width_refuted_lm : ~ (forall (rotate : plane R -> R -> plane R) (N f : R) (n : nat),
  INR n <= N < INR n + 1 -> (2 <= n)%nat -> 2335 / 1000 <= 5 * f ->
  exists (q : plane (option R)) (amp : R), Psf rotate N f f 0 = Ok q /\
    forall r c v, (r < n)%nat -> (c < n)%nat -> px q r c = Some v -> v <> 0 ->
      v = amp * (bell f (INR r - (N - 1) / 2) * bell f (INR c - (N - 1) / 2))).
Proof.
  intros H. set (rot := fun (a : plane R) (_ : R) => a).
  destruct (H rot 5 2 5%nat) as (q & amp & Hq & Hv); [simpl; lra|lia|lra|].
  destruct C115_psf_lm as (s & Hs & Hp).
  destruct (Hp rot 5 2 2 5%nat) as (q' & amp' & k & t & Hq' & Hamp & Hk & Ht & Htl & Htu & Hc);
    [simpl; lra|lia|lra|lra|rewrite Rmax_left by lra; lra|].
  rewrite Hq in Hq'. injection Hq' as <-.
  rewrite Rmax_left in Htl, Htu by lra.
  assert (Hk2 : k = 2%nat) by lia. subst k. change (5 / 2)%nat with 2%nat in *.
  assert (Ht2 : t = 2%nat).
  { destruct (Nat.eq_dec t 1) as [->|]; [|lia]. specialize (Htu ltac:(lia)). simpl in Htu. lra. }
  subst t.
  destruct (Hc 2%nat 2%nat ltac:(lia) ltac:(lia)) as [H22 _]. specialize (H22 ltac:(lia) ltac:(lia) ltac:(lia) ltac:(lia)).
  destruct (Hc 2%nat 1%nat ltac:(lia) ltac:(lia)) as [H21 _]. specialize (H21 ltac:(lia) ltac:(lia) ltac:(lia) ltac:(lia)).
  assert (Hb0 : forall w, 0 < w -> bell w (INR 2 - (5 - 1) / 2) = 1).
  { intros w Hw. unfold bell. replace (- (2 * (INR 2 - (5 - 1) / 2) / w) ^ 2) with 0 by (simpl; field; lra).
    apply Rpower_O. lra. }
  apply Hv in H22; [|lia|lia|].
  2:{ rewrite !Hb0 by lra. lra. }
  apply Hv in H21; [|lia|lia|].
  2:{ apply Rgt_not_eq. repeat apply Rmult_lt_0_compat; try apply bell_pos. assumption. }
  rewrite !Hb0 in H22 by lra. rewrite !Hb0 in H21 by lra.
  assert (E : amp = amp') by lra. subst amp'.
  assert (E : bell (s * 2) (INR 1 - (5 - 1) / 2) = bell 2 (INR 1 - (5 - 1) / 2)) by nra.
  apply bell_inj in E; [lra|lra|lra|simpl; lra].
Qed.

(** ** [astropy_Psf] *)

(** C115: the same holds for [astropy_Psf], which cuts off at seven standard deviations. *)
Lemma C115_astropy_psf_lm : exists s : R, 1008 / 1000 < s < 1009 / 1000 /\
  forall (N : nat) (fwhm : R),
  (1 <= N)%nat -> 2335 / 7000 <= fwhm ->
  (Z.of_nat ((N - 1) / 2) + Ztrunc (7 * (fwhm / (2335 / 1000))) <= Z.of_nat N)%Z ->
  exists (q : plane (option R)) (amp : R) (t : nat),
    astropy_Psf N fwhm = Ok q /\ 0 < amp /\
    INR t <= 7 * (fwhm / (2335 / 1000)) < INR t + 1 /\
    let k := ((N - 1) / 2)%nat in
    forall r c, (r < N)%nat -> (c < N)%nat -> (t <= k)%nat ->
      ((k <= r + t)%nat -> (r < k + t)%nat -> (k <= c + t)%nat -> (c < k + t)%nat ->
       px q r c = Some (amp * (bell (s * fwhm) (INR r - (INR N - 1) / 2) * bell (s * fwhm) (INR c - (INR N - 1) / 2)))) /\
      ((r + t < k \/ k + t <= r \/ c + t < k \/ k + t <= c)%nat -> px q r c = Some 0).
Proof.
  exists stretch. split; [apply stretch_bounds|].
  intros N fwhm HN Hf Hfit. unfold astropy_Psf. unfold py_int. rewrite mu_int_nat by assumption.
  set (k := ((N - 1) / 2)%nat) in *. set (T := Ztrunc (7 * (fwhm / (2335 / 1000)))) in *.
  assert (H7 : 1 <= 7 * (fwhm / (2335 / 1000))) by lra.
  assert (HTf : T = Zfloor (7 * (fwhm / (2335 / 1000)))).
  { unfold T. apply Ztrunc_floor. lra. }
  assert (HT : (1 <= T)%Z) by (rewrite HTf; apply Zfloor_lub; simpl; lra).
  assert (HkN : (k < N)%nat) by (unfold k; apply Nat.lt_le_trans with (S (N - 1)); [|lia]; apply Nat.lt_succ_r, Nat.div_le_upper_bound; lia).
  edestruct (grid_cells N (Z.of_nat k - T) (Z.of_nat k + T)) as (a & Ha & Hr & Hc & Hcell); [lia|lia|].
  rewrite Ha. cbn [bind]. set (mu := (INR N - 1) / 2) in *.
  assert (Hpos : 0 < total a).
  { apply total_pos with k k; [|lia|lia|].
    - intros x y _ _. destruct (Hcell x y) as [[_ ->]|(i & j & _ & _ & _ & ->)]; [lra|]. left. apply exp_pos.
    - destruct (Hcell k k) as [[Hno _]|(i & j & _ & _ & _ & ->)]; [|apply exp_pos].
      exfalso. apply (Hno (Z.of_nat k) (Z.of_nat k)); [lia|lia|]. split; simpl; unfold denotes; lia. }
  exists (pdiv a (total a)), (/ total a), (Z.to_nat T).
  split; [reflexivity|]. split; [now apply Rinv_0_lt_compat|]. split.
  { rewrite INR_IZR_INZ, Z2Nat.id, HTf by lia. split; [apply Zfloor_lb|apply Zfloor_ub]. }
  cbn zeta. intros r c Hrn Hcn Htk. unfold pdiv. cbn [pmap px]. destruct (Req_EM_T (total a) 0); [lra|]. split.
  - intros H1 H2 H3 H4. destruct (Hcell r c) as [[Hno _]|(i & j & Hi & Hj & [Hd1 Hd2] & ->)].
    { exfalso. apply (Hno (Z.of_nat r) (Z.of_nat c)); [lia|lia|]. split; simpl; unfold denotes; lia. }
    simpl in Hd1, Hd2. unfold denotes in Hd1, Hd2.
    assert (i = Z.of_nat r) by lia. assert (j = Z.of_nat c) by lia. subst i j.
    f_equal. unfold gaussian2d. rewrite <- !INR_IZR_INZ, <- !bell_exp by lra. rewrite <- exp_plus.
    unfold Rdiv at 1. rewrite Rmult_comm. f_equal. f_equal. field. lra.
  - intros Hout. destruct (Hcell r c) as [[_ ->]|(i & j & Hi & Hj & [Hd1 Hd2] & _)].
    { f_equal. field. lra. }
    exfalso. simpl in Hd1, Hd2. unfold denotes in Hd1, Hd2. lia.
Qed.

(** ** Airy patterns *)

Definition term (x : R) (k : nat) : R := / (INR (fact k) * INR (fact (S k))) * x ^ (2 * k + 1).

Lemma fact_ge1 k : 1 <= INR (fact k).
Proof. change 1 with (INR 1). apply le_INR. pose proof (lt_O_fact k). lia. Qed.

Lemma term_step x k : term x (S k) = term x k * (x ^ 2 / (INR (S k) * INR (S (S k)))).
Proof.
  unfold term. replace (2 * S k + 1)%nat with (2 * k + 1 + 2)%nat by lia. rewrite pow_add.
  rewrite !(fact_simpl (S k)), !(fact_simpl k), !mult_INR.
  pose proof (fact_ge1 k). pose proof (pos_INR k). rewrite !S_INR. field. lra.
Qed.

Lemma term_nonneg x k : 0 <= x -> 0 <= term x k.
Proof.
  intros Hx. unfold term. apply Rmult_le_pos; [|now apply pow_le].
  left. apply Rinv_0_lt_compat. pose proof (fact_ge1 k). pose proof (fact_ge1 (S k)). nra.
Qed.

Lemma term_half x k : 0 <= x <= 1 -> term x (S k) <= term x k / 2.
Proof.
  intros Hx. rewrite term_step. unfold Rdiv. apply Rmult_le_compat_l; [apply term_nonneg; lra|].
  assert (1 <= INR (S k)) by (rewrite S_INR; pose proof (pos_INR k); lra).
  assert (2 <= INR (S (S k))) by (rewrite !S_INR; pose proof (pos_INR k); lra).
  apply Rmult_le_reg_r with (INR (S k) * INR (S (S k))); [nra|].
  rewrite Rmult_assoc, Rinv_l by nra. nra.
Qed.

Lemma term_dec x : 0 <= x <= 1 -> Un_decreasing (term x).
Proof. intros Hx k. pose proof (term_half x k Hx). pose proof (term_nonneg x k ltac:(lra)). lra. Qed.

Lemma term_bound x k : 0 <= x <= 1 -> term x k <= (/ 2) ^ k.
Proof.
  intros Hx. induction k as [|k IH].
  - unfold term. simpl. lra.
  - pose proof (term_half x k Hx). simpl. lra.
Qed.

Lemma term_cv x : 0 <= x <= 1 -> Un_cv (term x) 0.
Proof.
  intros Hx eps Heps.
  destruct (pow_lt_1_zero (/ 2) ltac:(rewrite Rabs_right; lra) eps Heps) as [n Hn].
  exists n. intros m Hm. unfold R_dist. rewrite Rminus_0_r, Rabs_right by (apply Rle_ge, term_nonneg; lra).
  specialize (Hn m Hm). apply Rle_lt_trans with ((/ 2) ^ m); [now apply term_bound|].
  rewrite Rabs_right in Hn; [assumption|]. apply Rle_ge, pow_le. lra.
Qed.

Lemma series_eq r n :
  sum_f_R0 (fun k => (-1) ^ k / (INR (fact k) * INR (fact (S k))) * (r / 2) ^ (2 * k + 1)) n
  = sum_f_R0 (tg_alt (term (r / 2))) n.
Proof. apply sum_eq. intros k _. unfold tg_alt, term, Rdiv. ring. Qed.

Lemma j1_bounds j1 r : bessel1 j1 -> 0 < r <= 2 -> r / 2 - (r / 2) ^ 3 / 2 <= j1 r <= r / 2 - (r / 2) ^ 3 / 2 + (r / 2) ^ 5 / 12.
Proof.
  intros Hj Hr. assert (Hx : 0 <= r / 2 <= 1) by lra.
  assert (Hc : Un_cv (fun n => sum_f_R0 (tg_alt (term (r / 2))) n) (j1 r)).
  { intros eps Heps. destruct (Hj r Hr eps Heps) as [n Hn]. exists n. intros m Hm.
    rewrite <- series_eq. now apply Hn. }
  destruct (alternated_series_ineq (term (r / 2)) (j1 r) 0 (term_dec _ Hx) (term_cv _ Hx) Hc) as [Hl _].
  destruct (alternated_series_ineq (term (r / 2)) (j1 r) 1 (term_dec _ Hx) (term_cv _ Hx) Hc) as [_ Hu].
  simpl in Hl, Hu. unfold tg_alt, term in Hl, Hu. simpl in Hl, Hu. lra.
Qed.

(** There is such a function. *)
Lemma bessel1_exists : exists j1, bessel1 j1.
Proof.
  assert (H : forall r, {l : R | 0 < r <= 2 -> Un_cv (fun n => sum_f_R0 (tg_alt (term (r / 2))) n) l}).
  { intros r. destruct (Rlt_dec 0 r) as [H0|]; [|exists 0; lra].
    destruct (Rle_dec r 2) as [H2|]; [|exists 0; lra].
    destruct (alternated_series (term (r / 2))) as [l Hl]; [apply term_dec; lra|apply term_cv; lra|].
    exists l. now intros _. }
  exists (fun r => proj1_sig (H r)). intros r Hr eps Heps.
  destruct (proj2_sig (H r) Hr eps Heps) as [n Hn]. exists n. intros m Hm. rewrite series_eq. now apply Hn.
Qed.

(** C115: up to twice the given width from the centre, an Airy pattern falls off like the
    square of 1 - r^2 / 8, with r the distance over the width. *)
Lemma C115_airy_lm : forall (j1 : R -> R) (N : nat) (w : R) (i j : nat),
  bessel1 j1 -> 0 < w -> (i < N)%nat -> (j < N)%nat ->
  let d := sqrt ((INR i - (INR N - 1) / 2) ^ 2 + (INR j - (INR N - 1) / 2) ^ 2) in
  0 < d <= 2 * w ->
  exists v, px (airy_patron j1 N w) i j = Some v /\ (1 - (d / w) ^ 2 / 8) ^ 2 <= v <= (1 - (d / w) ^ 2 / 8 + (d / w) ^ 4 / 192) ^ 2.
Proof.
  intros j1 N w i j Hj Hw Hi Hjn d Hd. unfold airy_patron, airy_func, radius. cbn [px]. fold d.
  set (r := d / w). assert (Hr : 0 < r <= 2).
  { unfold r. split; [apply Rdiv_lt_0_compat; lra|]. apply Rmult_le_reg_r with w; [assumption|].
    unfold Rdiv. rewrite Rmult_assoc, Rinv_l by lra. lra. }
  destruct (Req_EM_T r 0); [lra|]. eexists. split; [reflexivity|].
  pose proof (j1_bounds j1 r Hj Hr) as [Hl Hu].
  assert (Hq : 1 - r ^ 2 / 8 <= 2 * j1 r / r <= 1 - r ^ 2 / 8 + r ^ 4 / 192).
  { split.
    - apply Rmult_le_reg_r with r; [lra|]. unfold Rdiv at 2. rewrite Rmult_assoc, Rinv_l by lra. simpl in *. lra.
    - apply Rmult_le_reg_r with r; [lra|]. unfold Rdiv at 1. rewrite Rmult_assoc, Rinv_l by lra. simpl in *. lra. }
  assert (1 / 2 <= 1 - r ^ 2 / 8) by nra.
  split; apply pow_incr; lra.
Qed.

(** C115: the pattern has no minimum at the distance given as its width, although the
    documentation says so. *)
Lemma C115_airy_width_refuted_lm : ~ (forall (j1 : R -> R) (N : nat) (w : R) (i j : nat),
  bessel1 j1 -> 0 < w -> (i < N)%nat -> (j < N)%nat ->
  sqrt ((INR i - (INR N - 1) / 2) ^ 2 + (INR j - (INR N - 1) / 2) ^ 2) = w ->
  px (airy_patron j1 N w) i j = Some 0).
Proof.
  intros H. destruct bessel1_exists as [j1 Hj].
  assert (E : sqrt ((INR 1 - (INR 3 - 1) / 2) ^ 2 + (INR 0 - (INR 3 - 1) / 2) ^ 2) = 1).
  { replace ((INR 1 - (INR 3 - 1) / 2) ^ 2 + (INR 0 - (INR 3 - 1) / 2) ^ 2) with 1 by (simpl; field). apply sqrt_1. }
  pose proof (H j1 3%nat 1 1%nat 0%nat Hj ltac:(lra) ltac:(lia) ltac:(lia) E) as H0.
  destruct (C115_airy_lm j1 3 1 1 0 Hj ltac:(lra) ltac:(lia) ltac:(lia)) as (v & Hv & Hb).
  { rewrite E. lra. }
  rewrite E in Hb. rewrite H0 in Hv. injection Hv as <-. lra.
Qed.

(** Beside C115: a 21 x 21 PSF of widths 3 and 4, an [astropy_Psf], and a Bessel function. *)
Lemma C115_case_lm :
  INR 21 <= 21 < INR 21 + 1 /\ (2 <= 21)%nat /\ 2335 / 1000 <= 5 * Rmax 3 4 /\
  2335 / 7000 <= 3 /\
  (Z.of_nat ((25 - 1) / 2) + Ztrunc (7 * (3 / (2335 / 1000))) <= Z.of_nat 25)%Z /\
  (exists j1, bessel1 j1) /\
  0 < sqrt ((INR 1 - (INR 4 - 1) / 2) ^ 2 + (INR 2 - (INR 4 - 1) / 2) ^ 2) <= 2 * 1.
Proof.
  split; [simpl; lra|]. split; [lia|]. split; [rewrite Rmax_right; lra|]. split; [lra|].
  split; [|split; [apply bessel1_exists|]].
  - rewrite (Ztrunc_uniq _ 8) by (simpl; lra). simpl. lia.
  - replace ((INR 1 - (INR 4 - 1) / 2) ^ 2 + (INR 2 - (INR 4 - 1) / 2) ^ 2) with (/ 2) by (simpl; field).
    split; [apply sqrt_lt_R0; lra|]. apply Rle_trans with (sqrt 4); [apply sqrt_le_1_alt; lra|].
    replace 4 with (2 * 2) by ring. rewrite sqrt_square; lra.
Qed.
