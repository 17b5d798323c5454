(** C125: the images that a subtraction builds itself. *)
From Coq Require Import ZArith List Bool Arith String Reals Lia Lra.
From Coq Require Import SpecFloat.
From Flocq Require Import Core.Core IEEE754.BinarySingleNaN.
From Coquelicot Require Import Complex.
From Verif.Model Require Import Py Plane Ma Image Interp Sources Stamps KL Session Filter Transparency Subtract Chain Gauss GaussSub Rebuild.
From Verif.Spec Require Import Image ImageExample Float32 Coadd Subtract Rebuild.
From Verif.Proof Require Import Image ImageMask ImageGrow ImageBorder ImageBuild ImageStore ImageSum ImageMain Float32 Float32Main SubtractFit.
Import ListNotations.
Set Bullet Behavior "Strict Subproofs".
Local Open Scope R_scope.

Lemma single_to p : in_single p (to_f4 p).
Proof. destruct p as [s|s| |s m e]; try reflexivity; now apply to_f4_rounded. Qed.

Lemma one_f4 : value (to_f4 fone) = 1 /\ finiteb (to_f4 fone) = true.
Proof.
  split; [|reflexivity].
  destruct (rounded_exact 1 (to_f4 fone)) as [_ H]; [| |exact H].
  - exists 1%Z, 0%Z. split; [reflexivity|]. split; [lia|]. cbn. lra.
  - replace 1 with (value fone); [now apply to_f4_rounded|]. cbn. lra.
Qed.

Lemma rounded_f32 r p : rounded r p -> finiteb p = true -> f32 (value p).
Proof.
  intros (A & B & C) F. destruct (Rlt_dec (Rabs r) f32_limit) as [L|L].
  - apply (proj2 (A L)).
  - exfalso. apply Rnot_lt_le in L. unfold Rabs in L. destruct (Rcase_abs r).
    + rewrite C in F by lra. discriminate.
    + rewrite B in F by lra. discriminate.
Qed.

Lemma same_value_rounded r p p' : rounded r p -> finiteb p = true -> finiteb p' = true -> value p' = value p -> rounded r p'.
Proof.
  intros H F F' V. destruct H as (A & B & C). split; [|split].
  - intros L. split; [exact F'|]. rewrite V. apply (A L).
  - intros L. rewrite B in F by exact L. discriminate.
  - intros L. rewrite C in F by exact L. discriminate.
Qed.

Lemma single_mul p : in_single p (f4_mul (to_f4 p) (to_f4 fone)).
Proof.
  destruct one_f4 as [V1 F1].
  destruct p as [s|s| |s m e]; cbn [in_single].
  - destruct s; apply rounded_zero; reflexivity.
  - destruct s; reflexivity.
  - reflexivity.
  - pose proof (to_f4_rounded (S754_finite s m e) eq_refl) as R.
    destruct (to_f4 (S754_finite s m e)) as [s0|s0| |s0 m0 e0] eqn:E.
    + assert (F : finiteb (S754_zero s0) = true) by reflexivity.
      eapply same_value_rounded; [exact R|reflexivity| |]; destruct s0; reflexivity.
    + assert (X : f4_mul (S754_infinity s0) (to_f4 fone) = S754_infinity s0) by (destruct s0; reflexivity).
      now rewrite X.
    + exfalso. destruct R as (A & B & C).
      destruct (Rlt_dec (Rabs (value (S754_finite s m e))) f32_limit) as [L|L].
      * now destruct (A L).
      * apply Rnot_lt_le in L. unfold Rabs in L. destruct (Rcase_abs _).
        -- assert (Z : S754_nan = S754_infinity true) by (apply C; lra). discriminate.
        -- assert (Z : S754_nan = S754_infinity false) by (apply B; lra). discriminate.
    + rewrite <- E in *. assert (F : finiteb (to_f4 (S754_finite s m e)) = true) by (rewrite E; reflexivity).
      pose proof (rounded_f32 _ _ R F) as G.
      pose proof (f4_mul_rounded _ _ (to_f4_valid (S754_finite s m e)) (to_f4_valid fone) F F1) as M.
      rewrite V1, Rmult_1_r in M. destruct (rounded_exact _ _ G M) as [FM VM].
      eapply same_value_rounded; eassumption.
Qed.

(** The value of a pixel between -50 and 65000 stays there. *)
Lemma f32_int k : (Z.abs k < 2 ^ 24)%Z -> f32 (IZR k).
Proof. intros H. exists k, 0%Z. split; [exact H|]. split; [lia|]. cbn. lra. Qed.

Lemma nearest_keeps r x a b : nearest32 r x -> f32 a -> f32 b -> a <= r <= b -> a <= x <= b.
Proof.
  intros (_ & N & _) Fa Fb [A B]. pose proof (N a Fa) as Na. pose proof (N b Fb) as Nb.
  unfold Rabs in *. destruct (Rcase_abs (x - r)), (Rcase_abs (a - r)), (Rcase_abs (b - r)); lra.
Qed.

Lemma limit_large : 65000 < f32_limit.
Proof.
  pose proof (f32_small (IZR 65000) (f32_int 65000 ltac:(reflexivity))) as H.
  rewrite Rabs_right in H; lra.
Qed.

Lemma finite_range v : finiteb v = true -> ~ out_of_range v -> -50 <= value v <= 65000.
Proof.
  intros F O. rewrite value_SF2R. destruct v as [s|s| |s m e]; try discriminate; cbn [out_of_range] in O; lra.
Qed.

Lemma range_finite v : finiteb v = true -> -50 <= value v <= 65000 -> ~ out_of_range v.
Proof.
  intros F O. rewrite value_SF2R in O. destruct v as [s|s| |s m e]; try discriminate; cbn [out_of_range]; lra.
Qed.

Lemma single_bad p p' : in_single p p' -> non_finite p' \/ out_of_range p' -> non_finite p \/ out_of_range p.
Proof.
  intros S B. destruct p as [s|s| |s m e]; try (left; exact I).
  - right. exfalso. destruct S as (A & _). cbn [value] in A. rewrite Rabs_R0 in A.
    pose proof limit_large. destruct (A ltac:(lra)) as [F N].
    assert (Z : -50 <= value p' <= 65000).
    { apply (nearest_keeps 0); [exact N| | |lra]; apply (f32_int _); reflexivity. }
    destruct B as [B|B]; [destruct p'; try discriminate F; exact B|].
    revert B. now apply range_finite.
  - destruct (Rle_dec (-50) (value (S754_finite s m e))) as [L|L];
      [destruct (Rle_dec (value (S754_finite s m e)) 65000) as [U|U]|].
    + exfalso. destruct S as (A & _). pose proof limit_large.
      destruct A as [F N]; [apply Rabs_def1; lra|].
      assert (Z : -50 <= value p' <= 65000).
      { apply (nearest_keeps (value (S754_finite s m e))); [exact N| | |lra]; apply (f32_int _); reflexivity. }
      destruct B as [B|B]; [destruct p'; try discriminate F; exact B|].
      revert B. now apply range_finite.
    + right. cbn [out_of_range]. rewrite <- value_SF2R. lra.
    + right. cbn [out_of_range]. rewrite <- value_SF2R. lra.
Qed.

Lemma single_non_finite p p' : in_single p p' -> non_finite p -> non_finite p'.
Proof. intros S N. destruct p as [s|s| |s m e]; try easy; cbn [in_single] in S; subst p'; exact I. Qed.

(** What a constructed image with a plain gain is. *)
Lemma gain_one fs nsum s arg th guess im : construct fs nsum (mkargs s arg th guess false ((0, 0), (0, 0))%Z None) = Ok im ->
  header_gain fs s = None -> im_gain im = fone.
Proof.
  intros E G. unfold construct in E. cbn [a_img a_mask a_thresh a_guess a_borders a_crop a_gain] in E.
  destruct (get_header fs s) as [hd|] eqn:H; [|discriminate]. cbn [bind] in E.
  destruct (get_gain hd None) as [g|] eqn:Gg; [|discriminate]. cbn [bind] in E. cbv zeta in E.
  destruct (set_data _ _ _ _ _ _) as [d|]; [|discriminate]. cbn [bind] in E.
  destruct (set_mask _ _ _ _ _ _ _) as [d'|]; [|discriminate]. cbn [bind] in E. injection E as <-. cbn [im_gain].
  destruct s as [n|d0|a|[|h l]|h|]; cbn [get_header header_gain] in *; try discriminate; unfold open_primary in *;
    try (destruct (fs n) as [[|h l]|]; try discriminate; cbn [bind] in H);
    injection H as <-; cbn in Gg; rewrite ?G in Gg; try (now injection Gg as <-). discriminate.
Qed.

Lemma mask_from_final d flag im (flag' : nat -> nat -> Prop) : final_mask d flag (im_data im) ->
  (forall i j, (i < nr (pixels im))%nat -> (j < nc (pixels im))%nat ->
     (flag i j \/ out_of_range (px (pixels im) i j) <-> flag' i j)) ->
  mask_from flag' im.
Proof.
  intros ([Sh V] & q & init & Q & Sq & I0 & G) H. exists init. injection Sh as Sr Sc. fold (pixels im) in *.
  split.
  - intros i j Hi Hj. rewrite I0 by lia. rewrite <- H by trivial. now rewrite <- V by trivial.
  - intros i j Hi Hj. unfold is_masked. rewrite Q. cbn [masked_at]. rewrite G by lia.
    replace (shape (pixels im)) with (shape d) by (unfold shape; now rewrite Sr, Sc). reflexivity.
Qed.
