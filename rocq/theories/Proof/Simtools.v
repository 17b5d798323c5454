(** Lemmas about the simulation tools: array writes and sums, PSFs, profiles. *)
From Coq Require Import ZArith List Bool Reals Lia Lra Psatz.
From Flocq Require Import Core.Raux.
From Verif.Model Require Import Py Plane Simtools.
From Verif.Spec Require Import Simtools.
Import ListNotations.
Set Bullet Behavior "Strict Subproofs".
Local Open Scope R_scope.

Lemma denotes_index n i a : py_index (Z.of_nat n) i = Some a <-> denotes n i a.
Proof.
  unfold py_index, denotes. destruct ((i <? - Z.of_nat n) || (Z.of_nat n <=? i))%Z eqn:E.
  - apply orb_true_iff in E. rewrite Z.ltb_lt, Z.leb_le in E. split; [discriminate|]. lia.
  - apply orb_false_iff in E. rewrite Z.ltb_ge, Z.leb_gt in E.
    destruct (i <? 0)%Z eqn:E0; [apply Z.ltb_lt in E0|apply Z.ltb_ge in E0].
    + split; [intros [= <-]; lia|]. intros [H1 H2]. f_equal. lia.
    + split; [intros [= <-]; lia|]. intros [H1 H2]. f_equal. lia.
Qed.

Lemma denotes_total n i : (- Z.of_nat n <= i < Z.of_nat n)%Z -> exists a, denotes n i a.
Proof.
  intros H. destruct (Z_lt_le_dec i 0).
  - exists (Z.to_nat (i + Z.of_nat n)). unfold denotes. lia.
  - exists (Z.to_nat i). unfold denotes. lia.
Qed.

Lemma denotes_range n i a : denotes n i a -> (- Z.of_nat n <= i < Z.of_nat n)%Z.
Proof. unfold denotes. lia. Qed.

Lemma pset_ok {A} (p : plane A) n i j v a b : nr p = n -> nc p = n -> denotes2 n (i, j) a b ->
  pset p i j v = Ok (mkplane n n
            (fun a' b' => if (Nat.eqb a' a && Nat.eqb b' b)%bool then v else px p a' b')).
Proof.
  intros H1 H2 [Ha Hb]. unfold pset. rewrite H1, H2. simpl in Ha, Hb.
  apply denotes_index in Ha, Hb. now rewrite Ha, Hb.
Qed.

Lemma write_all_ok {A} n ws : forall (p : plane A), nr p = n -> nc p = n ->
  (forall i j v, In (i, j, v) ws -> (- Z.of_nat n <= i < Z.of_nat n)%Z /\ (- Z.of_nat n <= j < Z.of_nat n)%Z) ->
  exists q, write_all p ws = Ok q /\ nr q = n /\ nc q = n /\
    forall a b,
      ((forall i j v, In (i, j, v) ws -> ~ denotes2 n (i, j) a b) /\ px q a b = px p a b) \/
      (exists i j v, In (i, j, v) ws /\ denotes2 n (i, j) a b /\ px q a b = v).
Proof.
  induction ws as [|[[i j] v] ws IH]; intros p Hr Hc Hin.
  - exists p. simpl. repeat split; try assumption. intros a b. left. split; [easy|reflexivity].
  - destruct (Hin i j v (or_introl eq_refl)) as [Hi Hj].
    destruct (denotes_total n i Hi) as [r Hr']. destruct (denotes_total n j Hj) as [c Hc'].
    simpl. rewrite (pset_ok p n i j v r c Hr Hc (conj Hr' Hc')). cbn [bind].
    match goal with |- context [write_all ?p' ws] => set (p1 := p') end.
    destruct (IH p1) as (q & Hq & Hqr & Hqc & Hcell); [reflexivity|reflexivity| |].
    { intros i' j' v' H'. apply (Hin i' j' v'). now right. }
    exists q. repeat split; try assumption. intros a b.
    destruct (Hcell a b) as [[Hno Heq]|(i' & j' & v' & H1 & H2 & H3)].
    + unfold p1 in Heq. cbn [px] in Heq. destruct (Nat.eqb a r && Nat.eqb b c)%bool eqn:E.
      * right. apply andb_true_iff in E. rewrite !Nat.eqb_eq in E. destruct E as [-> ->].
        exists i, j, v. repeat split; try now left. 1-4: apply Hr' || apply Hc'. exact Heq.
      * left. split; [|exact Heq]. intros i' j' v' [[= -> -> ->]|H']; [|now apply (Hno i' j' v')].
        intros [Ha Hb]. simpl in Ha, Hb. apply denotes_index in Ha, Hb, Hr', Hc'.
        rewrite Hr' in Ha. rewrite Hc' in Hb. injection Ha as ->. injection Hb as ->.
        now rewrite !Nat.eqb_refl in E.
    + right. exists i', j', v'. split; [now right|]. now split.
Qed.

Lemma write_all_raise {A} n ws : forall (p : plane A), nr p = n -> nc p = n ->
  (exists i j v, In (i, j, v) ws /\ ~ ((- Z.of_nat n <= i < Z.of_nat n)%Z /\ (- Z.of_nat n <= j < Z.of_nat n)%Z)) ->
  write_all p ws = Raise IndexError.
Proof.
  induction ws as [|[[i j] v] ws IH]; intros p Hr Hc (i' & j' & v' & Hin & Hbad); [destruct Hin|].
  simpl. unfold pset. rewrite Hr, Hc.
  destruct (py_index (Z.of_nat n) i) as [r|] eqn:Er; [|reflexivity].
  destruct (py_index (Z.of_nat n) j) as [c|] eqn:Ec; [|reflexivity].
  cbn [bind]. apply IH; [reflexivity|reflexivity|].
  destruct Hin as [[= -> -> ->]|Hin].
  - exfalso. apply Hbad. apply denotes_index in Er, Ec. split; eapply denotes_range; eassumption.
  - exists i', j', v'. now split.
Qed.

Lemma zrange_In a b i : In i (zrange a b) <-> (a <= i < b)%Z.
Proof.
  unfold zrange. rewrite in_map_iff. split.
  - intros (k & <- & Hk). apply in_seq in Hk. lia.
  - intros H. exists (Z.to_nat (i - a)). split; [lia|]. apply in_seq. lia.
Qed.

(** Sums *)
Lemma rsum_ext n f g : (forall i, (i < n)%nat -> f i = g i) -> rsum n f = rsum n g.
Proof. induction n; intros H; simpl; [reflexivity|]. rewrite IHn, H; auto. Qed.
Lemma rsum_scal n f s : rsum n (fun i => s * f i) = s * rsum n f.
Proof. induction n; simpl; [ring|]. rewrite IHn. ring. Qed.
Lemma rsum_nonneg n f : (forall i, (i < n)%nat -> 0 <= f i) -> 0 <= rsum n f.
Proof. induction n; intros H; simpl; [lra|]. specialize (IHn (fun i Hi => H i ltac:(lia))). specialize (H n ltac:(lia)). lra. Qed.
Lemma rsum_pos n f k : (forall i, (i < n)%nat -> 0 <= f i) -> (k < n)%nat -> 0 < f k -> 0 < rsum n f.
Proof.
  induction n; intros H Hk Hf; [lia|]. simpl.
  assert (H0 : 0 <= rsum n f) by (apply rsum_nonneg; intros; apply H; lia).
  assert (Hn : 0 <= f n) by (apply H; lia).
  destruct (Nat.eq_dec k n) as [->|]; [lra|].
  assert (0 < rsum n f) by (apply IHn; [intros; apply H; lia|lia|assumption]). lra.
Qed.
Lemma rsum_zero n f : (forall i, (i < n)%nat -> f i = 0) -> rsum n f = 0.
Proof. induction n; intros H; simpl; [reflexivity|]. rewrite IHn, H; auto. ring. Qed.

Lemma total_scal p s : total (pmap (fun x => s * x) p) = s * total p.
Proof.
  unfold total, pmap. cbn [nr nc px]. rewrite <- rsum_scal. apply rsum_ext. intros.
  now rewrite rsum_scal.
Qed.

Lemma total_pos p i j : (forall a b, (a < nr p)%nat -> (b < nc p)%nat -> 0 <= px p a b) ->
  (i < nr p)%nat -> (j < nc p)%nat -> 0 < px p i j -> 0 < total p.
Proof.
  intros H Hi Hj Hp. unfold total. apply rsum_pos with i; [|assumption|].
  - intros a Ha. apply rsum_nonneg. intros b Hb. now apply H.
  - apply rsum_pos with j; [|assumption|assumption]. intros b Hb. now apply H.
Qed.

Lemma pdiv_some p s : s <> 0 ->
  plane_eq (pdiv p s) (pmap Some (pmap (fun x => / s * x) p)).
Proof.
  intros Hs. split; [reflexivity|]. intros i j _ _. unfold pdiv, pmap. cbn [px].
  destruct (Req_EM_T s 0); [contradiction|]. f_equal. unfold Rdiv. ring.
Qed.

(** Gaussians *)
Lemma norm_pdf_pos x mu s : 0 < s -> 0 < norm_pdf x mu s.
Proof.
  intros Hs. unfold norm_pdf. apply Rdiv_lt_0_compat; [apply exp_pos|].
  apply Rmult_lt_0_compat; [assumption|]. apply sqrt_lt_R0. pose proof PI_RGT_0. lra.
Qed.

Lemma norm_pdf_lt x y mu s : 0 < s -> (y - mu) ^ 2 < (x - mu) ^ 2 -> norm_pdf x mu s < norm_pdf y mu s.
Proof.
  intros Hs H. unfold norm_pdf. apply Rmult_lt_compat_r.
  - apply Rinv_0_lt_compat, Rmult_lt_0_compat; [assumption|]. apply sqrt_lt_R0. pose proof PI_RGT_0. lra.
  - apply exp_increasing.
    assert (H1 : forall z, ((z - mu) / s) ^ 2 = (z - mu) ^ 2 * (/ s ^ 2)) by (intros; field; lra).
    rewrite !H1. assert (0 < / s ^ 2) by (apply Rinv_0_lt_compat; nra). nra.
Qed.

(** The index range of [Psf] *)
Lemma Ztrunc_uniq x z : 0 <= x -> IZR z <= x < IZR z + 1 -> Ztrunc x = z.
Proof.
  intros Hx Hz. rewrite Ztrunc_floor by assumption. apply Zfloor_imp. rewrite plus_IZR. lra.
Qed.

Lemma Ztrunc_neg x z : x <= 0 -> IZR z - 1 < x <= IZR z -> Ztrunc x = z.
Proof.
  intros Hx Hz. rewrite Ztrunc_ceil by assumption. apply Zceil_imp. rewrite minus_IZR. lra.
Qed.

Lemma psf_bounds N xf yf n : INR n <= N < INR n + 1 -> (1 <= n)%nat -> 0 < xf -> 0 < yf ->
  exists k t, (n = 2 * k + 1 \/ n = 2 * k + 2)%nat /\
    Ztrunc ((N - 1) / 2) = Z.of_nat k /\
    psf_lo N xf yf = (Z.of_nat k - Z.of_nat t)%Z /\
    psf_hi N xf yf = (Z.of_nat k + Z.of_nat t)%Z /\
    (t <= n / 2)%nat /\
    ((1 <= t)%nat <-> (2 <= n)%nat /\ 2335 / 1000 <= 5 * Rmax xf yf) /\
    INR t <= 5 * (Rmax xf yf / (2335 / 1000)) /\
    ((t < n / 2)%nat -> 5 * (Rmax xf yf / (2335 / 1000)) < INR t + 1).
Proof.
  intros HN Hn Hx Hy. set (k := ((n - 1) / 2)%nat).
  assert (Hk : (n = 2 * k + 1 \/ n = 2 * k + 2)%nat).
  { unfold k. pose proof (Nat.div_mod (n - 1) 2 ltac:(lia)) as Hd.
    pose proof (Nat.mod_upper_bound (n - 1) 2 ltac:(lia)). lia. }
  clearbody k.
  assert (HnR : INR n = IZR (Z.of_nat n)) by apply INR_IZR_INZ.
  assert (HkR : INR n = 2 * IZR (Z.of_nat k) + 1 \/ INR n = 2 * IZR (Z.of_nat k) + 2).
  { rewrite <- INR_IZR_INZ. destruct Hk as [->| ->]; [left|right]; rewrite plus_INR, mult_INR; simpl; ring. }
  assert (Hk0 : 0 <= IZR (Z.of_nat k)) by (apply IZR_le; lia).
  assert (Hmu : Ztrunc ((N - 1) / 2) = Z.of_nat k) by (apply Ztrunc_uniq; lra).
  set (sg := Rmax (xf / (2335 / 1000)) (yf / (2335 / 1000))).
  assert (Hsg : sg = Rmax xf yf / (2335 / 1000)).
  { unfold sg, Rmax, Rdiv. destruct (Rle_dec (xf * / (2335 * / 1000)) (yf * / (2335 * / 1000))), (Rle_dec xf yf); lra. }
  assert (Hmx : 0 < Rmax xf yf) by (apply Rlt_le_trans with xf; [assumption|apply Rmax_l]).
  assert (Hsg0 : 0 < sg) by (rewrite Hsg; apply Rdiv_lt_0_compat; lra).
  set (T := Z.to_nat (Ztrunc (5 * sg))).
  assert (HT : Ztrunc (5 * sg) = Z.of_nat T).
  { unfold T. rewrite Z2Nat.id; [reflexivity|]. rewrite Ztrunc_floor by lra. apply Zfloor_lub. simpl; lra. }
  assert (HT1 : (1 <= T)%nat <-> 2335 / 1000 <= 5 * Rmax xf yf).
  { assert (E : 2335 / 1000 <= 5 * Rmax xf yf <-> 1 <= 5 * sg) by (rewrite Hsg; split; intros; lra).
    rewrite E. rewrite Ztrunc_floor in HT by lra. split.
    - intros H. pose proof (Zfloor_lb (5 * sg)) as Hl. rewrite HT in Hl.
      assert (1 <= IZR (Z.of_nat T)) by (apply IZR_le; lia). lra.
    - intros H. assert (1 <= Zfloor (5 * sg))%Z by (apply Zfloor_lub; simpl; lra). lia. }
  exists k, (Nat.min T (n / 2)).
  split; [assumption|]. split; [assumption|].
  unfold psf_lo, psf_hi, psf_half, py_int. fold sg. rewrite HT, Hmu.
  assert (Hn2 : (n / 2 = k \/ n / 2 = k + 1)%nat /\ ((n = 2 * k + 1)%nat -> (n / 2 = k)%nat) /\ ((n = 2 * k + 2)%nat -> (n / 2 = k + 1)%nat)).
  { assert (H1 : (n = 2 * k + 1)%nat -> (n / 2 = k)%nat).
    { intros H. symmetry. apply (Nat.div_unique n 2 k 1); lia. }
    assert (H2 : (n = 2 * k + 2)%nat -> (n / 2 = k + 1)%nat).
    { intros H. symmetry. apply (Nat.div_unique n 2 (k + 1) 0); lia. }
    split; [|now split]. destruct Hk; auto. }
  destruct Hn2 as (Hn2 & Hn2a & Hn2b).
  assert (Htail : ((1 <= Nat.min T (n / 2))%nat <-> (2 <= n)%nat /\ 2335 / 1000 <= 5 * Rmax xf yf) /\
    INR (Nat.min T (n / 2)) <= 5 * (Rmax xf yf / (2335 / 1000)) /\
    ((Nat.min T (n / 2) < n / 2)%nat -> 5 * (Rmax xf yf / (2335 / 1000)) < INR (Nat.min T (n / 2)) + 1)).
  { rewrite <- Hsg. rewrite Ztrunc_floor in HT by lra.
    pose proof (Zfloor_lb (5 * sg)) as Hl. pose proof (Zfloor_ub (5 * sg)) as Hu. rewrite HT in Hl, Hu.
    rewrite <- INR_IZR_INZ in Hl, Hu. split; [|split].
    - rewrite <- HT1. split; intros H; lia.
    - apply Rle_trans with (INR T); [apply le_INR; lia|exact Hl].
    - intros H. rewrite Nat.min_l by lia. exact Hu. }
  destruct (Rle_dec (IZR (Z.of_nat T)) (N / 2)) as [Hle|Hgt].
  - rewrite Rmin_left by assumption.
    assert (HTn : (T <= n / 2)%nat).
    { assert (HTn' : IZR (Z.of_nat T) < IZR (Z.of_nat (n / 2)) + 1).
      { destruct Hk as [Hk|Hk].
        - rewrite (Hn2a Hk). destruct HkR as [HkR|HkR]; [lra|].
          exfalso. rewrite HnR, Hk in HkR. rewrite Nat2Z.inj_add, Nat2Z.inj_mul, plus_IZR, mult_IZR in HkR. simpl in HkR. lra.
        - rewrite (Hn2b Hk), Nat2Z.inj_add, plus_IZR. simpl. destruct HkR; lra. }
      rewrite <- plus_IZR in HTn'. apply lt_IZR in HTn'. lia. }
    rewrite Nat.min_l by assumption. split; [|split; [|split; [assumption|]]].
    + rewrite <- minus_IZR, Ztrunc_IZR. reflexivity.
    + rewrite <- plus_IZR, Ztrunc_IZR. reflexivity.
    + rewrite Nat.min_l in Htail by assumption. exact Htail.
  - apply Rnot_le_lt in Hgt. rewrite Rmin_right by lra.
    assert (HTn : (n / 2 <= T)%nat).
    { assert (HTn' : IZR (Z.of_nat (n / 2)) < IZR (Z.of_nat T) + 1).
      { destruct Hk as [Hk|Hk].
        - rewrite (Hn2a Hk). destruct HkR; lra.
        - rewrite (Hn2b Hk), Nat2Z.inj_add, plus_IZR. simpl. destruct HkR as [HkR|HkR]; [|lra].
          exfalso. rewrite HnR, Hk in HkR. rewrite Nat2Z.inj_add, Nat2Z.inj_mul, plus_IZR, mult_IZR in HkR. simpl in HkR. lra. }
      rewrite <- plus_IZR in HTn'. apply lt_IZR in HTn'. lia. }
    rewrite Nat.min_r in * by assumption. split; [|split; [|split; [lia|exact Htail]]].
    + destruct Hk as [Hk|Hk].
      * rewrite (Hn2a Hk). apply Ztrunc_neg; rewrite ?Z.sub_diag;
          rewrite HnR, Hk, Nat2Z.inj_add, Nat2Z.inj_mul, plus_IZR, mult_IZR in HN; simpl in HN; simpl; lra.
      * rewrite (Hn2b Hk). replace (Z.of_nat k - Z.of_nat (k + 1))%Z with (-1)%Z by lia.
        apply Ztrunc_neg;
          rewrite HnR, Hk, Nat2Z.inj_add, Nat2Z.inj_mul, plus_IZR, mult_IZR in HN; simpl in HN; simpl; lra.
    + destruct Hk as [Hk|Hk].
      * rewrite (Hn2a Hk). apply Ztrunc_uniq; rewrite ?plus_IZR;
          rewrite HnR, Hk, Nat2Z.inj_add, Nat2Z.inj_mul, plus_IZR, mult_IZR in HN; simpl in HN; simpl; lra.
      * rewrite (Hn2b Hk). apply Ztrunc_uniq; rewrite ?plus_IZR, ?Nat2Z.inj_add, ?plus_IZR;
          rewrite HnR, Hk, Nat2Z.inj_add, Nat2Z.inj_mul, plus_IZR, mult_IZR in HN; simpl in HN; simpl; lra.
Qed.
