(** Summation of float32 values from left to right is [sum_like]. *)
From Coq Require Import ZArith List Bool Arith Reals Lia Lra.
From Coq Require Import SpecFloat.
From Flocq Require Import Core.Core IEEE754.BinarySingleNaN.
From Verif.Model Require Import Py Plane Ma Image.
From Verif.Spec Require Import Image.
From Verif.Proof Require Import Image ImageBorder ImageBuild ImageStore.
Import ListNotations.
Set Bullet Behavior "Strict Subproofs".

Definition seq_sum (l : list pix) : pix := fold_left f4_add l fzero.

Lemma P1 : FLX.Prec_gt_0 24. Proof. unfold FLX.Prec_gt_0; lia. Qed.
Lemma P2 : Prec_lt_emax 24 128. Proof. unfold Prec_lt_emax; lia. Qed.

Lemma valid_generic v : valid_binary 24 128 v = true ->
  generic_format radix2 (SpecFloat.fexp 24 128) (SF2R radix2 v).
Proof.
  intros V. pose proof (generic_format_B2R 24 128 (SF2B v V)) as H. now rewrite B2R_SF2B in H.
Qed.

Lemma shl_val m e e' : (e' <= e)%Z ->
  (IZR (Zpos (fst (shl_align m e e'))) * bpow radix2 e' = IZR (Zpos m) * bpow radix2 e)%R.
Proof.
  intros H. unfold shl_align. destruct (e' - e)%Z as [|d|d] eqn:E; cbn [fst]; try lia.
  - now replace e' with e by lia.
  - replace e with (Zpos d + e')%Z by lia. rewrite bpow_plus, <- Rmult_assoc. f_equal.
    change (shift_pos d m) with (Zpower.shift_pos d m). rewrite shift_pos_correct.
    change (Z.pow_pos 2 d) with (2 ^ Zpos d)%Z. rewrite mult_IZR. rewrite Rmult_comm. f_equal.
Qed.

(** Sum of two positive finite float32 values. *)
Lemma add_pos m e m' e' : valid_binary 24 128 (S754_finite false m e) = true ->
  let z := f4_add (S754_finite false m e) (S754_finite false m' e') in
  valid_binary 24 128 z = true /\ fltb fzero z = true.
Proof.
  intros V. cbv zeta. unfold f4_add. cbn [SFadd cond_Zopp]. set (ez := Z.min e e').
  cbn [Z.add SpecFloat.binary_normalize].
  set (M := (fst (shl_align m e ez) + fst (shl_align m' e' ez))%positive).
  split; [apply round_valid|]. rewrite round_equiv.
  pose proof (binary_round_correct 24 128 P1 P2 mode_NE false M ez) as H. cbv zeta in H. destruct H as [_ H].
  set (z := binary_round 24 128 mode_NE false M ez) in *.
  cbn [cond_Zopp] in H. set (x := F2R {| Fnum := Zpos M; Fexp := ez |}) in *.
  assert (Xm : (SF2R radix2 (S754_finite false m e) <= x)%R).
  { cbn [SF2R cond_Zopp]. unfold x, F2R. cbn [Fnum Fexp]. unfold M. rewrite Pos2Z.inj_add, plus_IZR, Rmult_plus_distr_r.
    rewrite shl_val by (unfold ez; lia).
    assert (0 <= IZR (Zpos (fst (shl_align m' e' ez))) * bpow radix2 ez)%R.
    { apply Rmult_le_pos; [apply IZR_le; lia|apply bpow_ge_0]. }
    lra. }
  assert (Pm : (0 < SF2R radix2 (S754_finite false m e))%R).
  { cbn [SF2R cond_Zopp]. unfold F2R. cbn. apply Rmult_lt_0_compat; [apply IZR_lt; lia|apply bpow_gt_0]. }
  assert (Rm : (SF2R radix2 (S754_finite false m e) <= round radix2 (SpecFloat.fexp 24 128) (round_mode mode_NE) x)%R).
  { pose proof (fexp_correct 24 128 P1) as Hf. apply round_ge_generic; try typeclasses eauto; [|exact Xm]. now apply valid_generic. }
  destruct (Rlt_bool _ _).
  - destruct H as (Hv & Hf & _). destruct fzero_val as [F0 V0].
    apply fltb_finite; [exact F0| |].
    + now destruct z.
    + rewrite V0, Hv. lra.
  - rewrite H. reflexivity.
Qed.

Lemma seq_sum_zeros l : forall acc, feqb acc fzero = true -> (forall v, In v l -> feqb v fzero = true) ->
  feqb (fold_left f4_add l acc) fzero = true.
Proof.
  induction l as [|v l IH]; intros acc A H; cbn [fold_left]; [exact A|].
  apply IH; [|intros; apply H; now right].
  assert (Hv : feqb v fzero = true) by (apply H; now left).
  apply feqb_zero in A as [s ->]. apply feqb_zero in Hv as [s' ->].
  apply feqb_zero. unfold f4_add. cbn. destruct (Bool.eqb s s'); eauto.
Qed.

Definition ok (v : pix) : Prop := float32 v /\ (feqb v fzero = true \/ fltb fzero v = true).

Lemma add_ok x y : ok x -> ok y -> ok (f4_add x y) /\ (fltb fzero x = true \/ fltb fzero y = true -> fltb fzero (f4_add x y) = true).
Proof.
  intros [Vx Hx] [Vy Hy]. unfold ok, float32 in *.
  destruct Hx as [Hx|Hx]; [apply feqb_zero in Hx as [s ->]|apply fltb_zero in Hx as [->|(m & e & ->)]];
  (destruct Hy as [Hy|Hy]; [apply feqb_zero in Hy as [s' ->]|apply fltb_zero in Hy as [->|(m' & e' & ->)]]).
  - unfold f4_add. cbn [SFadd]. split.
    + destruct (Bool.eqb s s'); split; try reflexivity; left; apply feqb_zero; eauto.
    + intros [H|H]; discriminate.
  - split; [split; [reflexivity|right; reflexivity]|reflexivity].
  - assert (E : f4_add (S754_zero s) (S754_finite false m' e') = S754_finite false m' e') by reflexivity.
    assert (Q : fltb fzero (S754_finite false m' e') = true) by (apply fltb_zero; eauto).
    rewrite E. auto.
  - split; [split; [reflexivity|right; reflexivity]|reflexivity].
  - split; [split; [reflexivity|right; reflexivity]|reflexivity].
  - split; [split; [reflexivity|right; reflexivity]|reflexivity].
  - assert (E : f4_add (S754_finite false m e) (S754_zero s') = S754_finite false m e) by reflexivity.
    assert (Q : fltb fzero (S754_finite false m e) = true) by (apply fltb_zero; eauto).
    rewrite E. auto.
  - split; [split; [reflexivity|right; reflexivity]|reflexivity].
  - destruct (add_pos m e m' e' Vx) as [A B]. auto.
Qed.

Lemma seq_sum_pos l : forall acc, ok acc -> (forall v, In v l -> ok v) ->
  (fltb fzero acc = true \/ exists v, In v l /\ fltb fzero v = true) ->
  fltb fzero (fold_left f4_add l acc) = true.
Proof.
  induction l as [|v l IH]; intros acc A H P; cbn [fold_left].
  - destruct P as [P|(? & [] & _)]. exact P.
  - assert (Hv : ok v) by (apply H; now left).
    destruct (add_ok acc v A Hv) as [Q R].
    apply IH; [exact Q|intros; apply H; now right|].
    destruct P as [P|(w & [->|Hw] & P)]; [left; auto|left; auto|right; eauto].
Qed.

Theorem seq_sum_like : sum_like seq_sum.
Proof.
  split.
  - intros l H. apply seq_sum_zeros; [reflexivity|exact H].
  - intros l H P.
    assert (Q : fltb fzero (seq_sum l) = true).
    { apply seq_sum_pos; [split; [reflexivity|left; reflexivity]|exact H|now right]. }
    apply fltb_zero in Q as [->|(m & e & ->)]; [reflexivity|].
    destruct (feqb (S754_finite false m e) fzero) eqn:E; trivial.
    apply feqb_zero in E as [s E]. discriminate.
Qed.
