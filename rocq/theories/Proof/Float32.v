(** Conversion to single precision and products of single precision numbers. *)
From Coq Require Import ZArith List Bool Arith String Reals Lia Lra.
From Coq Require Import SpecFloat.
From Flocq Require Import Core.Core IEEE754.BinarySingleNaN.
From Flocq Require Import Relative.
From Verif.Model Require Import Py Plane Ma Image.
From Verif.Spec Require Import Image Float32.
From Verif.Proof Require Import Image ImageBorder ImageBuild ImageSum.
Import ListNotations.
Set Bullet Behavior "Strict Subproofs".
Local Open Scope R_scope.

Lemma pw e : powerRZ 2 e = bpow radix2 e.
Proof. symmetry. exact (bpow_powerRZ radix2 e). Qed.

Lemma value_SF2R v : value v = SF2R radix2 v.
Proof.
  destruct v as [s|s| |s m e]; try reflexivity. cbn [value SF2R]. unfold F2R. cbn [Fnum Fexp].
  rewrite pw. f_equal. destruct s; cbn [cond_Zopp].
  - change (Z.opp (Zpos m)) with (- Zpos m)%Z. rewrite opp_IZR. ring.
  - ring.
Qed.

Notation fx := (FLT_exp (-149) 24).
Notation rnd := (round radix2 fx ZnearestE).

Lemma fexp_flt : forall e, SpecFloat.fexp 24 128 e = fx e.
Proof. intros e. unfold SpecFloat.fexp, SpecFloat.emin, FLT_exp. lia. Qed.

Lemma round_flt x : round radix2 (SpecFloat.fexp 24 128) (round_mode mode_NE) x = rnd x.
Proof. reflexivity. Qed.

Local Instance ne24 : Exists_NE radix2 fx.
Proof. right. unfold FLT_exp. intros e. lia. Qed.

Local Instance prec24 : Prec_gt_0 24. Proof. exact P1. Qed.

Lemma f32_format x : f32 x -> generic_format radix2 fx x.
Proof.
  intros (m & e & M & E & ->). apply generic_format_FLT.
  exists (Float radix2 m e); cbn [Fnum Fexp].
  - unfold F2R. cbn [Fnum Fexp]. now rewrite pw.
  - exact M.
  - lia.
Qed.

Lemma big_val : powerRZ 2 128 = bpow radix2 128.
Proof. apply pw. Qed.

(** The numbers of the unbounded format below 2^128 are the float32 numbers. *)
Lemma format_f32 x : generic_format radix2 fx x -> Rabs x < bpow radix2 128 -> f32 x.
Proof.
  intros F B. apply FLT_format_generic in F; [|exact prec24]. destruct F as [[m e] V M E]. cbn [Fnum Fexp] in *.
  destruct (Z_le_gt_dec e 104) as [L|L].
  { exists m, e. repeat split; trivial. rewrite V. unfold F2R. cbn [Fnum Fexp]. now rewrite pw. }
  exists (m * 2 ^ (e - 104))%Z, 104%Z.
  assert (V' : x = IZR (m * 2 ^ (e - 104)) * bpow radix2 104).
  { rewrite V. unfold F2R. cbn [Fnum Fexp]. rewrite mult_IZR. change 2%Z with (radix_val radix2).
    rewrite IZR_Zpower by lia. rewrite Rmult_assoc, <- bpow_plus. do 2 f_equal. lia. }
  repeat split; try lia.
  - apply lt_IZR. rewrite abs_IZR.
    rewrite V', Rabs_mult, (Rabs_pos_eq (bpow _ _)) in B by apply bpow_ge_0.
    change (2 ^ 24)%Z with (radix_val radix2 ^ 24)%Z. rewrite IZR_Zpower by lia.
    apply Rmult_lt_reg_r with (bpow radix2 104); [apply bpow_gt_0|]. now rewrite <- bpow_plus.
  - rewrite V'. now rewrite pw.
Qed.

(** Rounding in the unbounded format, below the limit: nearest float32. *)
Lemma limit_lt : f32_limit < bpow radix2 128.
Proof. unfold f32_limit. rewrite <- big_val. assert (0 < powerRZ 2 103) by (apply powerRZ_lt; lra). lra. Qed.

Definition fmax : R := bpow radix2 128 - bpow radix2 104.

Lemma fmax_f32 : f32 fmax.
Proof.
  exists (2 ^ 24 - 1)%Z, 104%Z. repeat split; try lia. unfold fmax.
  rewrite minus_IZR. change (2 ^ 24)%Z with (radix_val radix2 ^ 24)%Z. rewrite IZR_Zpower by lia.
  rewrite pw. replace 128%Z with (24 + 104)%Z by lia. rewrite bpow_plus. ring.
Qed.

Lemma big_format : generic_format radix2 fx (bpow radix2 128).
Proof. apply generic_format_bpow. unfold FLT_exp. lia. Qed.

Lemma mid_val : f32_limit = (fmax + bpow radix2 128) / 2.
Proof.
  unfold f32_limit, fmax. rewrite !pw.
  replace 104%Z with (1 + 103)%Z by lia. rewrite bpow_plus. change (bpow radix2 1) with 2. lra.
Qed.

(** Numbers of the format between the largest float32 and 2^128. *)
Lemma gap y : generic_format radix2 fx y -> y < bpow radix2 128 -> y <= fmax.
Proof.
  intros F L. destruct (Rle_or_lt 0 y) as [P|N].
  - destruct (format_f32 y F) as (m & e & M & E & V); [now rewrite Rabs_pos_eq|].
    rewrite V. destruct fmax_f32 as (m' & e' & _). unfold fmax.
    replace 128%Z with (24 + 104)%Z by lia. rewrite bpow_plus.
    rewrite pw.
    assert (IZR m <= bpow radix2 24 - 1).
    { rewrite <- (IZR_Zpower radix2 24) by lia. rewrite <- minus_IZR. apply IZR_le. cbn [radix_val radix2]. lia. }
    assert (bpow radix2 e <= bpow radix2 104) by (apply bpow_le; lia).
    assert (0 < bpow radix2 e) by apply bpow_gt_0.
    assert (0 < bpow radix2 24 - 1). { change (bpow radix2 24) with 16777216. lra. }
    nra.
  - assert (0 < fmax); [|lra]. unfold fmax.
    assert (bpow radix2 104 < bpow radix2 128) by (apply bpow_lt; lia). lra.
Qed.

Lemma rnd_small r : Rabs r < f32_limit -> Rabs (rnd r) < bpow radix2 128.
Proof.
  intros H. rewrite mid_val in H.
  pose proof (round_N_pt radix2 fx (fun x => negb (Z.even x)) r) as [F N].
  assert (Fm : generic_format radix2 fx fmax) by (apply f32_format, fmax_f32).
  assert (Lt : fmax < bpow radix2 128). { unfold fmax. pose proof (bpow_gt_0 radix2 104). lra. }
  assert (A : rnd r < bpow radix2 128).
  { destruct (Rlt_or_le (rnd r) (bpow radix2 128)) as [|L]; trivial. exfalso.
    specialize (N fmax Fm). apply Rabs_def2 in H. 
    rewrite (Rabs_pos_eq (rnd r - r)) in N by lra.
    unfold Rabs in N. destruct (Rcase_abs _); lra. }
  assert (B : - bpow radix2 128 < rnd r).
  { destruct (Rlt_or_le (- bpow radix2 128) (rnd r)) as [|L]; trivial. exfalso.
    specialize (N (- fmax) (generic_format_opp _ _ _ Fm)). apply Rabs_def2 in H.
    rewrite (Rabs_left1 (rnd r - r)) in N by lra.
    unfold Rabs in N. destruct (Rcase_abs _); lra. }
  now apply Rabs_def1.
Qed.

Lemma rnd_big r : f32_limit <= r -> bpow radix2 128 <= rnd r.
Proof.
  intros H.
  assert (R : rnd f32_limit = bpow radix2 128).
  { assert (Pl : bpow radix2 127 <= f32_limit < bpow radix2 128).
    { split; [|apply limit_lt]. unfold f32_limit. rewrite !pw.
      replace 128%Z with (1 + 127)%Z by lia. rewrite bpow_plus. change (bpow radix2 1) with 2.
      assert (bpow radix2 103 <= bpow radix2 127) by (apply bpow_le; lia). lra. }
    unfold round, scaled_mantissa, cexp.
    rewrite (mag_unique radix2 f32_limit 128).
    2:{ rewrite Rabs_pos_eq; [exact Pl|]. pose proof (bpow_ge_0 radix2 127). lra. }
    replace (fx 128) with 104%Z by reflexivity. change (- (104))%Z with (-104)%Z.
    replace (f32_limit * bpow radix2 (-104)) with (IZR (2 ^ 24 - 1) + / 2).
    2:{ unfold f32_limit. rewrite !pw.
        rewrite Rmult_minus_distr_r, <- !bpow_plus. cbn -[IZR]. lra. }
    replace (ZnearestE (IZR (2 ^ 24 - 1) + / 2)) with (2 ^ 24)%Z.
    - unfold F2R. cbn [Fnum Fexp]. change (bpow radix2 24 * bpow radix2 104 = bpow radix2 128).
      now rewrite <- bpow_plus.
    - unfold Znearest. rewrite (Zfloor_imp (2 ^ 24 - 1)).
      2:{ rewrite plus_IZR. lra. }
      replace (IZR (2 ^ 24 - 1) + / 2 - IZR (2 ^ 24 - 1)) with (/ 2) by ring.
      rewrite Rcompare_Eq by reflexivity.
      rewrite (Zceil_imp (2 ^ 24)).
      + reflexivity.
      + rewrite minus_IZR. lra. }
  rewrite <- R. apply round_le; try typeclasses eauto. exact H.
Qed.

(** The nearest float32. *)
Lemma rnd_nearest r : Rabs r < f32_limit -> nearest32 r (rnd r).
Proof.
  intros H. pose proof (rnd_small r H) as S.
  pose proof (round_N_pt radix2 fx (fun x => negb (Z.even x)) r) as [F N].
  split; [now apply format_f32|]. split.
  { intros y Hy. apply N. now apply f32_format. }
  intros y Hy D E.
  assert (Ny : Rnd_N_pt (generic_format radix2 fx) r y).
  { split; [now apply f32_format|]. intros g Fg. rewrite E. now apply N. }
  assert (G : ~ generic_format radix2 fx r).
  { intros G. apply D. rewrite (round_generic radix2 fx ZnearestE r G) in E |- *.
    replace (r - r) with 0 in E by ring. rewrite Rabs_R0 in E.
    destruct (Req_dec (y - r) 0) as [Z|Z]; [lra|]. apply Rabs_no_R0 in Z. contradiction. }
  pose proof (round_DN_pt radix2 fx r) as Dn. pose proof (round_UP_pt radix2 fx r) as Up.
  assert (U : Rabs (rnd r - y) = ulp radix2 fx r).
  { pose proof (round_UP_DN_ulp radix2 fx r G) as Du. pose proof (ulp_ge_0 radix2 fx r) as U0.
    destruct (Rnd_N_pt_DN_or_UP_eq _ _ _ _ _ Dn Up Ny) as [Y|Y];
    destruct (Rnd_N_pt_DN_or_UP_eq _ _ _ _ _ Dn Up (conj F N : Rnd_N_pt _ r (rnd r))) as [X|X].
    - exfalso. apply D. congruence.
    - rewrite X, Y, Du. rewrite Rabs_pos_eq; lra.
    - rewrite X, Y, Du. rewrite Rabs_left1; lra.
    - exfalso. apply D. congruence. }
  assert (R0 : r <> 0). { intros ->. apply G. apply generic_format_0. }
  rewrite U, ulp_neq_0 by exact R0.
  destruct (Req_dec (rnd r) 0) as [Z|Z]. { exists 0%Z. rewrite Z. ring. }
  pose proof (round_NE_pt radix2 fx r) as [_ [Ev|Un]].
  2:{ exfalso. apply D. now apply Un. }
  destruct Ev as ([m e] & Ex & Ca & Em). cbn [Fnum] in Em.
  pose proof (cexp_round_ge radix2 fx ZnearestE r Z) as Ce.
  unfold canonical in Ca. cbn [Fexp] in Ca. rewrite <- Ex in Ca.
  rewrite <- Ca in Ce. apply Z.even_spec in Em. destruct Em as [k ->].
  exists (k * 2 ^ (e - cexp radix2 fx r))%Z. rewrite Ex at 1. unfold F2R. cbn [Fnum Fexp].
  assert (P : IZR (2 ^ (e - cexp radix2 fx r)) = bpow radix2 (e - cexp radix2 fx r)).
  { apply (IZR_Zpower radix2). lia. }
  rewrite !mult_IZR, P.
  rewrite !Rmult_assoc, <- bpow_plus. do 3 f_equal. lia.
Qed.

(** A finite result below the limit, an infinity from the limit on. *)
Lemma rounded_of r p s :
  (if Rlt_bool (Rabs (rnd r)) (bpow radix2 128)
   then SF2R radix2 p = rnd r /\ finiteb p = true
   else p = S754_infinity s) ->
  (0 < r -> s = false) -> (r < 0 -> s = true) -> rounded r p.
Proof.
  intros H Sp Sn.
  assert (L0 : 0 < f32_limit).
  { unfold f32_limit. rewrite !pw. assert (bpow radix2 103 < bpow radix2 128) by (apply bpow_lt; lia). lra. }
  split; [|split].
  - intros B. rewrite Rlt_bool_true in H by now apply rnd_small. destruct H as [V F]. split; trivial.
    rewrite value_SF2R, V. now apply rnd_nearest.
  - intros B. pose proof (rnd_big r B) as G. rewrite Rlt_bool_false in H.
    + rewrite H. rewrite Sp by lra. reflexivity.
    + rewrite Rabs_pos_eq; trivial. pose proof (bpow_ge_0 radix2 128). lra.
  - intros B. pose proof (rnd_big (- r)) as G. rewrite Rlt_bool_false in H.
    + rewrite H. rewrite Sn by lra. reflexivity.
    + assert (E : rnd (- r) = - rnd r) by apply round_NE_opp.
      rewrite E in G. rewrite <- Rabs_Ropp. rewrite Rabs_pos_eq; [apply G; lra|].
      pose proof (bpow_ge_0 radix2 128). assert (bpow radix2 128 <= - rnd r) by (apply G; lra). lra.
Qed.

Lemma rounded_zero p : finiteb p = true -> value p = 0 -> rounded 0 p.
Proof.
  intros F V. apply (rounded_of 0 p false); try lra.
  rewrite round_0 by typeclasses eauto. rewrite Rabs_R0, Rlt_bool_true by apply bpow_gt_0.
  now rewrite <- value_SF2R.
Qed.

(** Conversion to float32. *)
Lemma to_f4_rounded v : finiteb v = true -> rounded (value v) (to_f4 v).
Proof.
  destruct v as [s|s| |s m e]; intros F; try discriminate.
  { now apply rounded_zero. }
  cbn [to_f4].
  assert (E : SpecFloat.binary_normalize 24 128 (cond_Zopp s (Zpos m)) e s = BinarySingleNaN.binary_round 24 128 mode_NE s m e).
  { rewrite <- round_equiv. now destruct s. }
  rewrite E. pose proof (binary_round_correct 24 128 P1 P2 mode_NE s m e) as H. cbv zeta in H. destruct H as [_ H].
  rewrite value_SF2R. cbn [SF2R].
  set (z := BinarySingleNaN.binary_round 24 128 mode_NE s m e) in *.
  apply (rounded_of _ z s).
  - change (round radix2 (SpecFloat.fexp 24 128) (round_mode mode_NE) (F2R (Float radix2 (cond_Zopp s (Zpos m)) e)))
      with (rnd (F2R (Float radix2 (cond_Zopp s (Zpos m)) e))) in H.
    destruct (Rlt_bool _ _).
    + destruct H as (V & Fz & _). split; [exact V|now destruct z].
    + rewrite H. reflexivity.
  - intros P. destruct s; trivial. exfalso.
    assert (F2R (Float radix2 (cond_Zopp true (Zpos m)) e) < 0) by (apply F2R_lt_0; reflexivity). lra.
  - intros P. destruct s; trivial. exfalso.
    assert (0 < F2R (Float radix2 (cond_Zopp false (Zpos m)) e)) by (apply F2R_gt_0; reflexivity). lra.
Qed.

Lemma aux_equiv s m e l :
  SpecFloat.binary_round_aux 24 128 s m e l = BinarySingleNaN.binary_round_aux 24 128 mode_NE s m e l.
Proof.
  unfold SpecFloat.binary_round_aux, BinarySingleNaN.binary_round_aux.
  destruct (shr_fexp 24 128 m e l) as [mrs e'].
  replace (round_nearest_even (shr_m mrs) (loc_of_shr_record mrs))
    with (choice_mode mode_NE s (shr_m mrs) (loc_of_shr_record mrs)); [reflexivity|].
  destruct (loc_of_shr_record mrs) as [|[]]; try reflexivity.
  cbn. unfold Round.cond_incr. now destruct (Z.even (shr_m mrs)).
Qed.

(** Product of float32 values. *)
Lemma f4_mul_rounded a b : float32 a -> float32 b -> finiteb a = true -> finiteb b = true ->
  rounded (value a * value b) (f4_mul a b).
Proof.
  intros Va Vb Fa Fb.
  destruct a as [sa|sa| |sa ma ea]; try discriminate.
  { destruct b as [sb|sb| |sb mb eb]; try discriminate; cbn [value]; rewrite Rmult_0_l; now apply rounded_zero. }
  destruct b as [sb|sb| |sb mb eb]; try discriminate.
  { cbn [value]. rewrite Rmult_0_r. now apply rounded_zero. }
  unfold f4_mul. cbn [SFmul]. rewrite aux_equiv.
  pose proof (Bmult_correct_aux 24 128 P1 P2 mode_NE sa ma ea Va sb mb eb Vb) as H. cbv zeta in H. destruct H as [_ H].
  rewrite !value_SF2R. cbn [SF2R].
  set (z := BinarySingleNaN.binary_round_aux _ _ _ _ _ _ _) in *.
  set (x := F2R (Float radix2 (cond_Zopp sa (Zpos ma)) ea)) in *.
  set (y := F2R (Float radix2 (cond_Zopp sb (Zpos mb)) eb)) in *.
  assert (Sx : if sa then x < 0 else 0 < x).
  { unfold x. destruct sa; [apply F2R_lt_0|apply F2R_gt_0]; reflexivity. }
  assert (Sy : if sb then y < 0 else 0 < y).
  { unfold y. destruct sb; [apply F2R_lt_0|apply F2R_gt_0]; reflexivity. }
  apply (rounded_of _ z (xorb sa sb)).
  - change (round radix2 (SpecFloat.fexp 24 128) (round_mode mode_NE) (x * y)) with (rnd (x * y)) in H.
    destruct (Rlt_bool _ _).
    + destruct H as (V & Fz & _). split; [exact V|now destruct z].
    + rewrite H. reflexivity.
  - intros P. destruct sa, sb; trivial; exfalso; nra.
  - intros P. destruct sa, sb; trivial; exfalso; nra.
Qed.

(** A float32 number is its own nearest float32. *)
Lemma f32_small x : f32 x -> Rabs x < f32_limit.
Proof.
  intros F.
  assert (A : forall y, f32 y -> y < f32_limit).
  { intros y Fy. rewrite mid_val.
    assert (L : y < bpow radix2 128).
    { destruct Fy as (m & e & M & E & ->). rewrite pw. replace 128%Z with (24 + 104)%Z by lia. rewrite bpow_plus.
      assert (IZR m < bpow radix2 24).
      { rewrite <- (IZR_Zpower radix2 24) by lia. apply IZR_lt. cbn [radix_val radix2]. lia. }
      assert (bpow radix2 e <= bpow radix2 104) by (apply bpow_le; lia).
      assert (0 < bpow radix2 e) by apply bpow_gt_0. pose proof (bpow_gt_0 radix2 24). nra. }
    pose proof (gap y (f32_format y Fy) L). lra. }
  apply Rabs_def1; [now apply A|].
  assert (- x < f32_limit); [|lra]. apply A. destruct F as (m & e & M & E & ->).
  exists (- m)%Z, e. repeat split; try lia. rewrite opp_IZR. ring.
Qed.

Lemma rounded_exact x p : f32 x -> rounded x p -> finiteb p = true /\ value p = x.
Proof.
  intros F (H & _). destruct (H (f32_small x F)) as (Fp & _ & N & _). split; trivial.
  specialize (N x F). replace (x - x) with 0 in N by ring. rewrite Rabs_R0 in N.
  destruct (Req_dec (value p - x) 0) as [Z|Z]; [lra|]. pose proof (Rabs_pos_lt _ Z). lra.
Qed.

(** The relative error of the nearest float32. *)
Lemma nearest_rnd r x : Rabs r < f32_limit -> nearest32 r x -> Rabs (x - r) = Rabs (rnd r - r).
Proof.
  intros L (F & N & _). pose proof (rnd_nearest r L) as (F' & N' & _).
  apply Rle_antisym; [now apply N|now apply N'].
Qed.

Lemma nearest_rel r x : Rabs r < f32_limit -> powerRZ 2 (-126) <= Rabs r -> nearest32 r x ->
  exists eps, Rabs eps <= powerRZ 2 (-24) /\ x = r * (1 + eps).
Proof.
  intros L B N. pose proof (nearest_rnd r x L N) as E.
  assert (R0 : r <> 0).
  { intros ->. rewrite Rabs_R0, pw in B. pose proof (bpow_gt_0 radix2 (-126)). lra. }
  exists ((x - r) / r). split; [|now field].
  rewrite pw in *. unfold Rdiv. rewrite Rabs_mult, E.
  pose proof (relative_error_N_FLT radix2 (-149) 24 P1 (fun x => negb (Z.even x)) r) as H.
  specialize (H B). rewrite Rabs_inv.
  apply Rmult_le_reg_r with (Rabs r); [now apply Rabs_pos_lt|].
  rewrite Rmult_assoc, Rinv_l, Rmult_1_r by now apply Rabs_no_R0.
  replace (bpow radix2 (-24)) with (/ 2 * bpow radix2 (-24 + 1)); [exact H|].
  rewrite bpow_plus. change (bpow radix2 1) with 2. field.
Qed.
