(** The normalisation image. *)
From Coq Require Import ZArith List Bool Arith Reals Lia Lra.
From Flocq Require Import Core.Raux Core.Round_NE Core.Generic_fmt.
From Verif.Model Require Import Py Plane KL Normal.
From Verif.Spec Require Import KL Normal.
From Verif.Proof Require Import KL KLMain PsfXY.
Import ListNotations.
Set Bullet Behavior "Strict Subproofs".
Local Open Scope R_scope.

Definition E (x : nat) (z : Z) : R := if Z.eqb (Z.of_nat x) z then 1 else 0.

Lemma pick N z (f : nat -> R) :
  sumn N (fun x => f x * E x z) = if ((0 <=? z) && (z <? Z.of_nat N))%Z then f (Z.to_nat z) else 0.
Proof.
  induction N as [|N IH].
  - cbn. destruct (Z.leb_spec 0 z), (Z.ltb_spec z 0); try reflexivity. lia.
  - cbn [sumn]. rewrite IH. unfold E.
    destruct (Z.leb_spec 0 z), (Z.ltb_spec z (Z.of_nat N)), (Z.ltb_spec z (Z.of_nat (S N))),
      (Z.eqb_spec (Z.of_nat N) z); cbn [andb]; try lia; try ring.
    subst z. rewrite Nat2Z.id. ring.
Qed.

Lemma sumn_ext1 n f g : (forall k, f k = g k) -> sumn n f = sumn n g.
Proof. intros H. apply sumn_ext. auto. Qed.

Lemma pick2 (p : plane R) y z : or_zero p y z =
  sumn (nr p) (fun x => sumn (nc p) (fun w => px p x w * (E x y * E w z))).
Proof.
  rewrite (sumn_ext1 _ _ (fun x => sumn (nc p) (fun w => px p x w * E w z) * E x y)).
  - rewrite pick. unfold or_zero.
    destruct ((0 <=? y)%Z && (y <? Z.of_nat (nr p))%Z); [|reflexivity]. rewrite pick. cbn [andb].
    reflexivity.
  - intros x. rewrite <- sumn_scal_r. apply sumn_ext1. intros w. ring.
Qed.

Lemma spread_or_zero p di dj :
  spread p di dj = or_zero p (di + Z.of_nat (nr p / 2)) (dj + Z.of_nat (nc p / 2)).
Proof. reflexivity. Qed.

Lemma E_meets u x i n : E x (meets i n u) = E u (Z.of_nat i - Z.of_nat x + Z.of_nat (n / 2)).
Proof. unfold E, meets. destruct (Z.eqb_spec (Z.of_nat x) (Z.of_nat i + Z.of_nat (n / 2) - Z.of_nat u)),
  (Z.eqb_spec (Z.of_nat u) (Z.of_nat i - Z.of_nat x + Z.of_nat (n / 2))); try reflexivity; lia. Qed.

(** A convolution with zeros around is a sum over the cells of the frame. *)
Lemma conv_sources a w i j :
  sumn (nr w) (fun u => sumn (nc w) (fun v => px w u v * or_zero a (meets i (nr w) u) (meets j (nc w) v))) =
  sumn (nr a) (fun x => sumn (nc a) (fun y =>
    px a x y * spread w (Z.of_nat i - Z.of_nat x) (Z.of_nat j - Z.of_nat y))).
Proof.
  transitivity (sumn (nr w) (fun u => sumn (nc w) (fun v => sumn (nr a) (fun x => sumn (nc a) (fun y =>
    px w u v * px a x y * (E x (meets i (nr w) u) * E y (meets j (nc w) v))))))).
  - apply sumn_ext1. intros u. apply sumn_ext1. intros v. rewrite pick2, <- sumn_scal. apply sumn_ext1. intros x.
    rewrite <- sumn_scal. apply sumn_ext1. intros y. ring.
  - transitivity (sumn (nr a) (fun x => sumn (nc a) (fun y => sumn (nr w) (fun u => sumn (nc w) (fun v =>
      px w u v * px a x y * (E x (meets i (nr w) u) * E y (meets j (nc w) v))))))).
    + rewrite (sumn_ext1 _ _ (fun u => sumn (nr a) (fun x => sumn (nc w) (fun v => sumn (nc a) (fun y =>
        px w u v * px a x y * (E x (meets i (nr w) u) * E y (meets j (nc w) v))))))).
      2:{ intros u. apply sumn_swap. }
      rewrite sumn_swap. apply sumn_ext1. intros x.
      rewrite (sumn_ext1 _ _ (fun u => sumn (nc a) (fun y => sumn (nc w) (fun v =>
        px w u v * px a x y * (E x (meets i (nr w) u) * E y (meets j (nc w) v)))))).
      2:{ intros u. apply sumn_swap. }
      apply sumn_swap.
    + apply sumn_ext1. intros x. apply sumn_ext1. intros y. rewrite spread_or_zero, pick2, <- sumn_scal.
      apply sumn_ext1. intros u. rewrite <- sumn_scal. apply sumn_ext1. intros v. rewrite !E_meets. ring.
Qed.

Lemma total_sum2 w : total_of w = sum2 (shape w) (px w).
Proof. reflexivity. Qed.

(** With one element the normalisation image is the image of a frame of ones through the PSF
    divided by its total. *)
Lemma C97_single_lm : forall sh p rest, zero_tol < Rabs (sum2 (shape p) (px p)) ->
  exists q, normal_image sh None (p :: rest) = Ok q /\ shape q = sh /\
    forall i j, px q i j = image_of_ones sh (fun _ _ => spread p) i j / sum2 (shape p) (px p).
Proof.
  intros sh p rest H. unfold normal_image, convolve_fft. rewrite total_sum2.
  destruct (Rle_dec _ _) as [H'|_]; [lra|]. eexists. split; [reflexivity|].
  split; [destruct sh; reflexivity|]. intros i j. cbn [px].
  unfold image_of_ones. set (t := sum2 (shape p) (px p)).
  transitivity (sumn (nr p) (fun u => sumn (nc p) (fun v =>
    px p u v * or_zero (pconst sh 1) (meets i (nr p) u) (meets j (nc p) v))) * / t).
  - rewrite <- sumn_scal_r. apply sumn_ext1. intros u. rewrite <- sumn_scal_r. apply sumn_ext1. intros v.
    unfold Rdiv. ring.
  - rewrite conv_sources. unfold Rdiv. f_equal. unfold sum2. cbn [nr nc pconst px].
    apply sumn_ext1. intros x. apply sumn_ext1. intros y. ring.
Qed.

Lemma C97_not_normalisable_lm : forall sh p rest, Rabs (sum2 (shape p) (px p)) <= zero_tol ->
  normal_image sh None (p :: rest) = Raise ValueError.
Proof.
  intros sh p rest H. unfold normal_image, convolve_fft. rewrite total_sum2. destruct (Rle_dec _ _); [reflexivity|contradiction].
Qed.

Lemma fits_meets sh s i j u v : fits_at sh s i j -> (u < fst s)%nat -> (v < snd s)%nat ->
  (0 <= meets i (fst s) u < Z.of_nat (fst sh))%Z /\ (0 <= meets j (snd s) v < Z.of_nat (snd sh))%Z.
Proof. unfold fits_at, meets. intros (A & B & D & F) Hu Hv. lia. Qed.

Lemma image_total sh p i j : fits_at sh (shape p) i j ->
  image_of_ones sh (fun _ _ => spread p) i j = sum2 (shape p) (px p).
Proof.
  intros F. pose proof (conv_sources (pconst sh 1) p i j) as K. cbn [nr nc pconst px] in K.
  unfold image_of_ones, sum2 at 1.
  rewrite (sumn_ext1 (fst sh) _ (fun x => sumn (snd sh) (fun y => 1 * spread p (Z.of_nat i - Z.of_nat x) (Z.of_nat j - Z.of_nat y)))).
  2:{ intros x. apply sumn_ext1. intros y. ring. }
  rewrite <- K. apply sumn_ext. intros u Hu. apply sumn_ext. intros v Hv.
  destruct (fits_meets sh (shape p) i j u v F Hu Hv) as [A B]. cbn [shape fst snd] in A, B.
  unfold or_zero. cbn [nr nc pconst px].
  destruct (Z.leb_spec 0 (meets i (nr p) u)), (Z.ltb_spec (meets i (nr p) u) (Z.of_nat (fst sh))),
    (Z.leb_spec 0 (meets j (nc p) v)), (Z.ltb_spec (meets j (nc p) v) (Z.of_nat (snd sh))); try lia. cbn [andb]. ring.
Qed.

(** It is 1 where the stamp fits into the frame. *)
Lemma C97_interior_lm : forall sh p rest q i j, normal_image sh None (p :: rest) = Ok q ->
  fits_at sh (shape p) i j -> px q i j = 1.
Proof.
  intros sh p rest q i j H F.
  destruct (Rle_lt_dec (Rabs (sum2 (shape p) (px p))) zero_tol) as [L|L].
  - rewrite (C97_not_normalisable_lm sh p rest L) in H. discriminate.
  - destruct (C97_single_lm sh p rest L) as (q' & H' & _ & V). rewrite H in H'. injection H' as <-.
    rewrite V, image_total by exact F. field. intros Z. rewrite Z, Rabs_R0 in L. unfold zero_tol in L.
    assert (0 < / 100000000) by (apply Rinv_0_lt_compat; lra). lra.
Qed.

Lemma sumn_le n f g : (forall k, (k < n)%nat -> f k <= g k) -> sumn n f <= sumn n g.
Proof. intros H. induction n as [|n IH]; cbn; [lra|]. assert (f n <= g n) by (apply H; lia). assert (sumn n f <= sumn n g) by (apply IH; intros; apply H; lia). lra. Qed.

(** For a PSF without negative values it lies between 0 and 1. *)
Lemma C97_bounds_lm : forall sh p rest q i j, normal_image sh None (p :: rest) = Ok q ->
  (forall u v, (u < nr p)%nat -> (v < nc p)%nat -> 0 <= px p u v) -> 0 <= px q i j <= 1.
Proof.
  intros sh p rest q i j H P.
  assert (T0 : 0 <= sum2 (shape p) (px p)).
  { apply sumn_nonneg. intros u Hu. apply sumn_nonneg. intros v Hv. now apply P. }
  destruct (Rle_lt_dec (Rabs (sum2 (shape p) (px p))) zero_tol) as [L|L].
  - rewrite (C97_not_normalisable_lm sh p rest L) in H. discriminate.
  - destruct (C97_single_lm sh p rest L) as (q' & H' & _ & V). rewrite H in H'. injection H' as <-.
    rewrite V. rewrite Rabs_pos_eq in L by exact T0. unfold zero_tol in L.
    assert (0 < / 100000000) by (apply Rinv_0_lt_compat; lra). set (t := sum2 (shape p) (px p)) in *.
    assert (I : 0 <= image_of_ones sh (fun _ _ => spread p) i j <= t).
    { pose proof (conv_sources (pconst sh 1) p i j) as K. cbn [nr nc pconst px] in K.
      unfold image_of_ones, sum2.
      rewrite (sumn_ext1 (fst sh) _ (fun x => sumn (snd sh) (fun y => 1 * spread p (Z.of_nat i - Z.of_nat x) (Z.of_nat j - Z.of_nat y)))).
      2:{ intros x. apply sumn_ext1. intros y. ring. }
      rewrite <- K.
      assert (B : forall y z, 0 <= or_zero (pconst sh 1) y z <= 1).
      { intros y z. unfold or_zero. destruct (_ && _); cbn; lra. }
      split.
      - apply sumn_nonneg. intros u Hu. apply sumn_nonneg. intros v Hv.
        apply Rmult_le_pos; [now apply P|apply B].
      - unfold t, sum2. cbn [shape fst snd]. apply sumn_le. intros u Hu. apply sumn_le. intros v Hv.
        specialize (P u v Hu Hv). specialize (B (meets i (nr p) u) (meets j (nc p) v)). nra. }
    split.
    + apply Rmult_le_pos; [lra|]. apply Rlt_le, Rinv_0_lt_compat. lra.
    + apply Rmult_le_reg_r with t; [lra|]. unfold Rdiv. rewrite Rmult_assoc, Rinv_l by lra. lra.
Qed.

Lemma reflect_inside n z : (0 <= z < Z.of_nat n)%Z -> reflect n z = Z.to_nat z.
Proof.
  intros H. unfold reflect. rewrite Z.mod_small by lia.
  destruct (Z.ltb_spec z (Z.of_nat n)); [reflexivity|lia].
Qed.

Lemma scp_px a w i j : px (convolve_scp a w) i j =
    sumn (nr w) (fun u => sumn (nc w) (fun v =>
      px w u v * px a (reflect (nr a) (meets i (nr w) u)) (reflect (nc a) (meets j (nc w) v)))).
Proof. reflexivity. Qed.

Lemma scp_interior a w i j : fits_at (shape a) (shape w) i j ->
  px (convolve_scp a w) i j = sumn (nr a) (fun x => sumn (nc a) (fun y =>
    px a x y * spread w (Z.of_nat i - Z.of_nat x) (Z.of_nat j - Z.of_nat y))).
Proof.
  intros F. rewrite <- conv_sources, scp_px. apply sumn_ext. intros u Hu. apply sumn_ext. intros v Hv.
  destruct (fits_meets (shape a) (shape w) i j u v F Hu Hv) as [A B]. cbn [shape fst snd] in A, B.
  rewrite !reflect_inside by assumption. unfold or_zero.
  destruct (Z.leb_spec 0 (meets i (nr w) u)), (Z.ltb_spec (meets i (nr w) u) (Z.of_nat (nr a))),
    (Z.leb_spec 0 (meets j (nc w) v)), (Z.ltb_spec (meets j (nc w) v) (Z.of_nat (nc a))); try lia. reflexivity.
Qed.

(** The sum over the elements. *)
Fixpoint over (f : (R -> R -> R) -> plane R -> R) (fs : list (R -> R -> R)) (bs : list (plane R)) : R :=
  match fs, bs with a :: fs, b :: bs => f a b + over f fs bs | _, _ => 0 end.

Lemma fold_px sh (g : (R -> R -> R) * plane R -> plane R) l acc i j :
  px (fold_left (fun conv ap => pmap2 Rplus conv (g ap)) l acc) i j =
  px acc i j + fold_right (fun ap s => px (g ap) i j + s) 0 l /\
  (shape acc = sh -> shape (fold_left (fun conv ap => pmap2 Rplus conv (g ap)) l acc) = sh).
Proof.
  revert acc. induction l as [|ap l IH]; intros acc; cbn [fold_left fold_right].
  - split; [ring|auto].
  - destruct (IH (pmap2 Rplus acc (g ap))) as [A B]. split; [rewrite A; cbn [px pmap2]; ring|].
    intros S. apply B. exact S.
Qed.

Lemma over_combine f fs bs :
  fold_right (fun (ap : (R -> R -> R) * plane R) s => f (fst ap) (snd ap) + s) 0 (combine fs bs) = over f fs bs.
Proof. revert bs. induction fs as [|a fs IH]; intros [|b bs]; cbn; try reflexivity. now rewrite IH. Qed.

Lemma normal_fields sh fs bs : exists q, normal_image sh (Some fs) bs = Ok q /\ shape q = sh /\
  forall i j, px q i j = over (fun a b => px (convolve_scp (on_domain a (get_afield_domain sh)) b) i j) fs bs.
Proof.
  eexists. split; [reflexivity|]. split.
  - apply (fold_px sh (fun ap => convolve_scp (on_domain (fst ap) (get_afield_domain sh)) (snd ap))); [exact O|exact O|].
    destruct sh; reflexivity.
  - intros i j. rewrite (proj1 (fold_px sh (fun ap => convolve_scp (on_domain (fst ap) (get_afield_domain sh)) (snd ap)) _ _ i j)).
    rewrite (over_combine (fun a b => px (convolve_scp (on_domain a (get_afield_domain sh)) b) i j)). cbn [px pconst]. ring.
Qed.

Lemma over_nth f fs bs : length fs = length bs ->
  over f fs bs = sumn (length bs) (fun k => f (nth k fs (fun _ _ => 0)) (nth k bs (pconst (0, 0)%nat 0))).
Proof.
  revert bs. induction fs as [|a fs IH]; intros [|b bs]; cbn [length over]; intros H; try discriminate; [reflexivity|].
  rewrite (IH bs) by lia. change (S (length bs)) with (1 + length bs)%nat. rewrite sumn_app. cbn [sumn nth Nat.add]. ring.
Qed.

(** With several elements it is, where the stamps fit, the image of a frame of ones through
    the PSF of each cell. *)
Lemma C97_fields_lm : forall sh fs bs s, length fs = length bs -> Forall (fun p => shape p = s) bs ->
  exists q, normal_image sh (Some fs) bs = Ok q /\ shape q = sh /\
    forall i j, fits_at sh s i j ->
      px q i j = image_of_ones sh (fun x y di dj => sumn (length bs) (fun k =>
        nth k fs (fun _ _ => 0) (INR x) (INR y) * spread (nth k bs (pconst (0, 0)%nat 0)) di dj)) i j.
Proof.
  intros sh fs bs s Hl Hs. destruct (normal_fields sh fs bs) as (q & Hq & Sq & V). exists q. split; [exact Hq|].
  split; [exact Sq|]. intros i j F. rewrite V, (over_nth _ fs bs Hl). unfold image_of_ones, sum2.
  transitivity (sumn (length bs) (fun k => sumn (fst sh) (fun x => sumn (snd sh) (fun y =>
     nth k fs (fun _ _ => 0) (INR x) (INR y) *
     spread (nth k bs (pconst (0, 0)%nat 0)) (Z.of_nat i - Z.of_nat x) (Z.of_nat j - Z.of_nat y))))).
  - apply sumn_ext. intros k Hk.
    assert (S : shape (nth k bs (pconst (0, 0)%nat 0)) = s) by (apply (proj1 (Forall_forall _ _) Hs), nth_In, Hk).
    rewrite scp_interior; [reflexivity|]. rewrite S. exact F.
  - rewrite sumn_swap. apply sumn_ext1. intros x. apply sumn_swap.
Qed.

(** Constant coefficients give the total of the PSF everywhere, up to the edges. *)
Lemma C97_constant_lm : forall sh (cs : list R) bs, length cs = length bs ->
  exists q, normal_image sh (Some (map (fun c _ _ => c) cs)) bs = Ok q /\ shape q = sh /\
    forall i j, px q i j = sumn (length bs) (fun k =>
      nth k cs 0 * sum2 (shape (nth k bs (pconst (0, 0)%nat 0))) (px (nth k bs (pconst (0, 0)%nat 0)))).
Proof.
  intros sh cs bs Hl. destruct (normal_fields sh (map (fun c _ _ => c) cs) bs) as (q & Hq & Sq & V). exists q.
  split; [exact Hq|]. split; [exact Sq|]. intros i j. rewrite V.
  rewrite over_nth by (now rewrite map_length). apply sumn_ext1. intros k.
  pose proof (map_nth (fun c (_ _ : R) => c) cs 0 k) as Hn. cbn beta in Hn |- *. rewrite Hn. clear Hn.
  rewrite scp_px. unfold sum2. cbn [shape fst snd]. rewrite <- sumn_scal. apply sumn_ext1. intros u.
  rewrite <- sumn_scal. apply sumn_ext1. intros v. cbn [px on_domain pmap2]. ring.
Qed.

Lemma sum2_sumn s n (f : nat -> nat -> nat -> R) :
  sum2 s (fun i j => sumn n (fun k => f k i j)) = sumn n (fun k => sum2 s (f k)).
Proof.
  unfold sum2. rewrite (sumn_ext1 (fst s) _ (fun i => sumn n (fun k => sumn (snd s) (fun j => f k i j)))).
  - apply sumn_swap.
  - intros i. apply sumn_swap.
Qed.

Lemma sum2_scal s c f : sum2 s (fun i j => c * f i j) = c * sum2 s f.
Proof. unfold sum2. rewrite <- sumn_scal. apply sumn_ext1. intros i. apply sumn_scal. Qed.

(** Constant coefficients: the PSF asked for at a position does not depend on the position. *)
Lemma C97_same_psf_lm : forall sh (cs : list R) bs q x y h a b,
  let s := (2 * h + 1)%nat in
  let mix i j := sumn (length bs) (fun k => nth k cs 0 * px (nth k bs (pconst (0, 0)%nat 0)) i j) in
  bs <> [] -> length cs = length bs -> Forall (fun p => shape p = (s, s)) bs ->
  normal_image sh (Some (map (fun c _ _ => c) cs)) bs = Ok q ->
  ZnearestE x = Z.of_nat (a + h) -> ZnearestE y = Z.of_nat (b + h) ->
  (a + s <= fst sh)%nat -> (b + s <= snd sh)%nat -> sum2 (s, s) mix <> 0 ->
  exists psf, get_psf_xy bs (Some (map (fun c _ _ => c) cs)) q x y = Ok psf /\ shape psf = (s, s) /\
    forall i j, (i < s)%nat -> (j < s)%nat -> px psf i j = Some (mix i j / sum2 (s, s) mix).
Proof.
  intros sh cs bs q x y h a b s mix N L F H Hx Hy Ha Hb Ht.
  destruct (C97_constant_lm sh cs bs L) as (q' & H' & S & V). rewrite H in H'. injection H' as <-.
  assert (T : forall i j, px q i j = sum2 (s, s) mix).
  { intros i j. rewrite V. unfold mix. rewrite (sum2_sumn (s, s) (length bs) (fun k i j => nth k cs 0 * px (nth k bs (pconst (0, 0)%nat 0)) i j)).
    apply sumn_ext. intros k Hk. rewrite (sum2_scal (s, s) (nth k cs 0) (fun i j => px (nth k bs (pconst (0, 0)%nat 0)) i j)).
    f_equal. replace (shape (nth k bs (pconst (0, 0)%nat 0))) with (s, s); [reflexivity|].
    symmetry. apply (proj1 (Forall_forall _ _) F), nth_In, Hk. }
  destruct (C43_inside_lm bs (map (fun c _ _ => c) cs) q x y h a b N) as (psf & E' & Sp & P & _).
  - now rewrite map_length.
  - exact F.
  - exact Hx.
  - exact Hy.
  - destruct sh. injection S as -> _. exact Ha.
  - destruct sh. injection S as _ ->. exact Hb.
  - intros i j _ _. rewrite T. exact Ht.
  - exists psf. split; [exact E'|]. split; [exact Sp|].
    assert (R1 : forall i j, sumn (length bs) (fun k => px (nth k bs (pconst (0, 0)%nat 0)) i j *
        nth k (map (fun c (_ _ : R) => c) cs) (fun _ _ => 0) (INR (a + i)) (INR (b + j)) / px q (a + i) (b + j)) =
        / sum2 (s, s) mix * mix i j).
    { intros i j. rewrite T. unfold mix at 3. rewrite <- sumn_scal. apply sumn_ext1. intros k.
      pose proof (map_nth (fun c (_ _ : R) => c) cs 0 k) as Hn. cbn beta in Hn. rewrite Hn. unfold Rdiv. ring. }
    assert (T1 : sum2 (s, s) (fun i j => sumn (length bs) (fun k => px (nth k bs (pconst (0, 0)%nat 0)) i j *
        nth k (map (fun c (_ _ : R) => c) cs) (fun _ _ => 0) (INR (a + i)) (INR (b + j)) / px q (a + i) (b + j))) = 1).
    { transitivity (sum2 (s, s) (fun i j => / sum2 (s, s) mix * mix i j)).
      - unfold sum2 at 1 2. apply sumn_ext1. intros i. apply sumn_ext1. intros j. apply R1.
      - rewrite sum2_scal. field. exact Ht. }
    fold s in P. rewrite T1 in P. destruct P as [_ P]; [lra|]. intros i j Hi Hj. rewrite (P i j Hi Hj), R1. f_equal. field. exact Ht.
Qed.

(** Examples. *)
Lemma flat_corner : forall rest, exists q, normal_image (10, 12)%nat None (pconst (3, 3)%nat 2 :: rest) = Ok q /\
  px q 0 0 = 4 / 9 /\ px q 0 5 = 6 / 9 /\ px q 4 7 = 1 /\ px q 9 11 = 4 / 9.
Proof.
  intros rest. unfold normal_image, convolve_fft, total_of. cbn [nr nc pconst px fst snd sumn].
  destruct (Rle_dec _ _) as [H|_].
  { exfalso. unfold zero_tol in H. revert H. rewrite Rabs_pos_eq by lra. intros H.
    assert (/ 100000000 < 1) by (apply Rmult_lt_reg_l with 100000000; lra). lra. }
  eexists. split; [reflexivity|]. cbn [px]. unfold or_zero, meets.
  cbn -[Rplus Rmult Rdiv IZR]. repeat split; field.
Qed.

(** The two branches treat the edges differently: a PSF with the constant coefficient 1 has the
    same normalisation in the corner as in the middle, the same PSF without coefficients not. *)
Lemma C97_edges_refuted_lm : exists p q q', normal_image (10, 12)%nat None [p] = Ok q /\
  normal_image (10, 12)%nat (Some [fun _ _ => 1]) [p] = Ok q' /\ sum2 (shape p) (px p) = 1 /\
  px q 4 7 = px q' 4 7 /\ px q 0 0 < px q' 0 0.
Proof.
  exists (pconst (3, 3)%nat (1 / 9)).
  assert (T : sum2 (shape (pconst (3, 3)%nat (1 / 9))) (px (pconst (3, 3)%nat (1 / 9))) = 1).
  { unfold sum2. cbn [shape nr nc pconst px fst snd sumn]. field. }
  destruct (C97_single_lm (10, 12)%nat (pconst (3, 3)%nat (1 / 9)) []) as (q & H & _ & V).
  { rewrite T, Rabs_R1. unfold zero_tol. apply Rmult_lt_reg_l with 100000000; lra. }
  destruct (C97_constant_lm (10, 12)%nat [1] [pconst (3, 3)%nat (1 / 9)] eq_refl) as (q' & H' & _ & V').
  exists q, q'. split; [exact H|]. split; [exact H'|]. split; [exact T|].
  rewrite !V, !V', T. split.
  - rewrite image_total; [rewrite T; cbn [length sumn nth]; rewrite T; field|].
    unfold fits_at. cbn. lia.
  - cbn [length sumn nth]. rewrite T. unfold image_of_ones, sum2, spread. cbn -[Rplus Rmult Rdiv IZR Rlt]. lra.
Qed.

Lemma fields_case : exists q, normal_image (10, 12)%nat (Some [fun x _ => x; fun _ y => 2 + y])
    [pconst (3, 3)%nat 2; pconst (3, 3)%nat 1] = Ok q /\ px q 4 7 = 2 * 9 * 4 + 9 * (2 + 7).
Proof.
  destruct (C97_fields_lm (10, 12)%nat [fun x _ => x; fun _ y => 2 + y]
    [pconst (3, 3)%nat 2; pconst (3, 3)%nat 1] (3, 3)%nat) as (q & H & _ & V).
  - reflexivity.
  - repeat constructor.
  - exists q. split; [exact H|]. rewrite V by (unfold fits_at; cbn; lia).
    unfold image_of_ones, sum2, spread. cbn -[Rplus Rmult Rdiv IZR INR]. cbn [INR]. ring.
Qed.

Lemma reflect_mirror n z : (- Z.of_nat n <= z < 2 * Z.of_nat n)%Z -> INR (reflect n z) = IZR (mirror n z).
Proof.
  intros H. unfold reflect, mirror. rewrite INR_IZR_INZ. f_equal.
  destruct (Z.ltb_spec z 0) as [L|L].
  - assert ((z mod (2 * Z.of_nat n))%Z = (z + 2 * Z.of_nat n)%Z) as ->.
    { replace z with (z + 2 * Z.of_nat n + -1 * (2 * Z.of_nat n))%Z at 1 by lia. rewrite Z.mod_add by lia. apply Z.mod_small. lia. }
    destruct (Z.ltb_spec (z + 2 * Z.of_nat n) (Z.of_nat n)); lia.
  - rewrite Z.mod_small by lia. destruct (Z.ltb_spec z (Z.of_nat n)); lia.
Qed.

(** Up to the edges: there the light of the mirror image of the frame is added. *)
Lemma C97_mirrored_lm : forall sh fs bs s, length fs = length bs -> Forall (fun p => shape p = s) bs ->
  (fst s <= fst sh)%nat -> (snd s <= snd sh)%nat ->
  exists q, normal_image sh (Some fs) bs = Ok q /\ shape q = sh /\
    forall i j, (i < fst sh)%nat -> (j < snd sh)%nat ->
      px q i j = sumn (length bs) (fun k => sum2 s (fun u v =>
        px (nth k bs (pconst (0, 0)%nat 0)) u v *
        nth k fs (fun _ _ => 0) (IZR (mirror (fst sh) (Z.of_nat i + Z.of_nat (fst s / 2) - Z.of_nat u)))
                                (IZR (mirror (snd sh) (Z.of_nat j + Z.of_nat (snd s / 2) - Z.of_nat v))))).
Proof.
  intros sh fs bs s Hl Hs Hr Hc. destruct (normal_fields sh fs bs) as (q & Hq & Sq & V). exists q. split; [exact Hq|].
  split; [exact Sq|]. intros i j Hi Hj. rewrite V, (over_nth _ fs bs Hl). apply sumn_ext. intros k Hk.
  assert (S : shape (nth k bs (pconst (0, 0)%nat 0)) = s) by (apply (proj1 (Forall_forall _ _) Hs), nth_In, Hk).
  rewrite scp_px. unfold sum2. set (p := nth k bs _) in *. unfold shape in S. destruct s as [s1 s2]. injection S as S1 S2.
  rewrite S1, S2. cbn [fst snd] in *. apply sumn_ext. intros u Hu. apply sumn_ext. intros v Hv.
  cbn [px on_domain pmap2 get_afield_domain fst snd nr nc]. f_equal. unfold meets.
  pose proof (Nat.div_lt s1 2) as D1. pose proof (Nat.div_lt s2 2) as D2.
  rewrite !reflect_mirror by lia. reflexivity.
Qed.

(** get_afield_domain: two arrays of the shape of the image. A coefficient on them has in row i
    and column j the value a(i, j). *)
Lemma C97_domain_lm : forall sh a,
  let xy := get_afield_domain sh in
  shape (fst xy) = sh /\ shape (snd xy) = sh /\ shape (on_domain a xy) = sh /\
  forall i j, px (on_domain a xy) i j = a (INR i) (INR j) /\ (px (fst xy) i j, px (snd xy) i j) = (INR i, INR j).
Proof. intros [m n] a. repeat split; reflexivity. Qed.
