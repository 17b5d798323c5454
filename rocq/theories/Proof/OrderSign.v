(** Least squares fits do not care about order and sign; the signs of the eigenvectors. *)
From Coq Require Import ZArith List Bool Arith Reals Lia Lra Permutation FinFun FunctionalExtensionality.
From Verif.Model Require Import Py Plane Session KL.
From Verif.Spec Require Import KL Session Order.
From Verif.Proof Require Import KL KLMain Session SessionFrame SessionMain SessionLm Order OrderMain.
Import ListNotations.
Local Open Scope R_scope.
Set Bullet Behavior "Strict Subproofs".

Lemma cubic_scale s c x y : cubic (fun a b => s * c a b) x y = s * cubic c x y.
Proof. unfold cubic. cbn [sumn Nat.sub]. ring. Qed.

Lemma cubic_minus c d x y : cubic (fun a b => c a b - d a b) x y = cubic c x y - cubic d x y.
Proof. unfold cubic. cbn [sumn Nat.sub]. ring. Qed.

Lemma cubic_mid c d x y : cubic (fun a b => (c a b + d a b) / 2) x y = (cubic c x y + cubic d x y) / 2.
Proof. unfold cubic. cbn [sumn Nat.sub]. field. Qed.

Lemma sumn_nonneg_zero n f : (forall j, (j < n)%nat -> 0 <= f j) -> sumn n f <= 0 -> forall j, (j < n)%nat -> f j = 0.
Proof.
  induction n as [|n IH]; intros H S j Hj; [lia|]. cbn [sumn] in S.
  assert (P : 0 <= sumn n f) by (apply sumn_nonneg; intros; apply H; lia).
  pose proof (H n ltac:(lia)). destruct (Nat.eq_dec j n) as [->|N]; [lra|]. apply IH; [intros; apply H; lia|lra|lia].
Qed.

(** The least squares polynomial is unique at determining positions. *)
Lemma misfit_unique ps v c d : determining ps -> (forall c', misfit ps v c <= misfit ps v c') ->
  (forall c', misfit ps v d <= misfit ps v c') -> forall x y, cubic c x y = cubic d x y.
Proof.
  intros Hd Hc Hm x y. set (m := fun a b => (c a b + d a b) / 2).
  set (D := fun j => (cubic c (fst (nth j ps (0, 0))) (snd (nth j ps (0, 0))) - cubic d (fst (nth j ps (0, 0))) (snd (nth j ps (0, 0)))) ^ 2).
  assert (E : misfit ps v m = (misfit ps v c + misfit ps v d) / 2 - sumn (length ps) D / 4).
  { unfold misfit. generalize (length ps). intros n. induction n as [|n IH]; [cbn; lra|]. cbn [sumn]. rewrite IH.
    unfold m at 1, D at 3. rewrite cubic_mid. field. }
  assert (Z : sumn (length ps) D <= 0) by (pose proof (Hc m); pose proof (Hm m); lra).
  assert (A : forall j, (j < length ps)%nat -> D j = 0).
  { apply sumn_nonneg_zero; [|exact Z]. intros j _. apply pow2_ge_0. }
  pose proof (Hd (fun a b => c a b - d a b)) as Q. specialize (fun H => Q H x y). rewrite cubic_minus in Q.
  enough (cubic c x y - cubic d x y = 0) by lra. apply Q. intros p Hp. rewrite cubic_minus.
  destruct (In_nth _ _ (0, 0) Hp) as (j & Hj & Ej). specialize (A j Hj). unfold D in A. rewrite Ej in A.
  destruct (Rmult_integral (cubic c (fst p) (snd p) - cubic d (fst p) (snd p)) ((cubic c (fst p) (snd p) - cubic d (fst p) (snd p)) * 1)); [exact A|lra|lra].
Qed.

Lemma misfit_perm ps ps' v v' f s c : length ps' = length ps -> bFun (length ps) f -> bInjective (length ps) f ->
  (forall j, (j < length ps)%nat -> nth j ps' (0, 0) = nth (f j) ps (0, 0)) ->
  (forall j, (j < length ps)%nat -> v' j = s * v (f j)) -> s = 1 \/ s = -1 ->
  misfit ps' v' c = misfit ps v (fun a b => s * c a b).
Proof.
  intros Hl Hf Hi Hp Hv Hs. unfold misfit. rewrite Hl.
  rewrite <- (sumn_perm (length ps) f (fun j => (v j - cubic (fun a b => s * c a b) (fst (nth j ps (0, 0))) (snd (nth j ps (0, 0)))) ^ 2) Hf Hi).
  apply sumn_ext. intros j Hj. rewrite Hp, Hv, cubic_scale by exact Hj. destruct Hs; subst s; ring.
Qed.

(** Least squares on cubic polynomials is fair at positions that determine one. *)
Lemma C108_least_squares_lm : forall fit ps, least_squares fit ps -> determining ps -> fair_fit fit ps.
Proof.
  intros fit ps HL HD ps' v v' f s x y Hl Hf Hi Hp Hv Hs.
  assert (HP : Permutation ps ps') by (apply (proj2 (Permutation_nth ps ps' (0, 0))); split; [exact Hl|]; exists f; now split).
  destruct (HL ps v (Permutation_refl _)) as (c & E & M). destruct (HL ps' v' HP) as (c' & E' & M'). rewrite E, E'.
  assert (Q : cubic (fun a b => s * c' a b) x y = cubic c x y).
  { apply (misfit_unique ps v); [exact HD| |exact M]. intros d.
    pose proof (M' (fun a b => s * d a b)) as X.
    rewrite !(misfit_perm ps ps' v v' f s) in X by assumption.
    replace (fun a b => s * (s * d a b)) with d in X; [exact X|].
    extensionality a. extensionality b. destruct Hs; subst s; ring. }
  rewrite cubic_scale in Q. rewrite <- Q. destruct Hs; subst s; ring.
Qed.

(** ** The signs *)

Lemma signed_ok s eigh n c : (forall k, s k = 1 \/ s k = -1) -> eigh_ok n c (eigh n c) -> eigh_ok n c (signed s eigh n c).
Proof.
  intros Hs (A & B & V1 & V2 & E). unfold eigh_ok, signed. cbn [fst snd]. split; [exact A|]. split; [exact B|].
  assert (SS : forall k, s k * s k = 1) by (intros k; destruct (Hs k) as [->| ->]; ring).
  split; [|split].
  - intros k l Hk Hl. rewrite (sumn_ext n _ (fun j => (s (n - 1 - k)%nat * s (n - 1 - l)%nat) * (snd (eigh n c) j k * snd (eigh n c) j l))) by (intros; ring).
    rewrite sumn_scal, V1 by assumption. unfold delta. destruct (Nat.eqb_spec k l) as [->|]; [|ring]. rewrite SS. ring.
  - intros i j Hi Hj. rewrite <- (V2 i j Hi Hj). apply sumn_ext. intros k _.
    replace (s (n - 1 - k)%nat * snd (eigh n c) i k * (s (n - 1 - k)%nat * snd (eigh n c) j k)) with
      (s (n - 1 - k)%nat * s (n - 1 - k)%nat * (snd (eigh n c) i k * snd (eigh n c) j k)) by ring. rewrite SS. ring.
  - intros i k Hi Hk. rewrite (sumn_ext n _ (fun j => s (n - 1 - k)%nat * (c i j * snd (eigh n c) j k))) by (intros; ring).
    rewrite sumn_scal, E by assumption. ring.
Qed.

Lemma pscale_1 p : pscale 1 p = p.
Proof.
  destruct p as [a b q]. unfold pscale, pmap. cbn. f_equal. extensionality i. extensionality j.
  destruct (q i j); [|reflexivity]. cbn. now rewrite Rmult_1_l.
Qed.

(** More than 250 stars, or a smoothed PSF: another choice of the signs of the eigenvectors
    leaves the elements as they are and changes the signs of their coefficients. *)
Lemma C108_signs_lm : forall NI FT IM (L : lib NI FT IM) s sh s0 cs stamps positions l fs b,
  lib_ok L -> new_image L sh s0 -> Forall plain cs -> 0 <= l ->
  stamps_of NI FT IM L sh = Ok (stamps, positions) ->
  (250 < length stamps)%nat \/ (exists g, smooth L = Some g /\ odd_filter g) ->
  fair_fit (fit L) positions -> (forall k, s k = 1 \/ s k = -1) ->
  fst (get_variable_psf L (Some l) None (exec_all L cs s0)) = Ok (Fields fs, b) ->
  let L' := with_eigh L (signed s (eigh L)) in
  (forall n c, eigh_ok n c (eigh L n c) -> eigh_ok n c (eigh L' n c)) /\
  exists fs', fst (get_variable_psf L' (Some l) None (exec_all L' cs s0)) = Ok (Fields fs', b) /\
    length fs' = length fs /\
    forall k x y, (k < length fs)%nat -> nth k fs' (fun _ _ => 0) x y = s k * nth k fs (fun _ _ => 0) x y.
Proof.
  intros NI FT IM L s sh s0 cs stamps positions l fs b HL H0 Hcs Hl E Hcase Hfair Hs H L'.
  split; [intros n c; now apply signed_ok|].
  assert (HL' : lib_ok L') by (destruct HL as (A & B); split; [exact A|]; intros n c; apply B).
  assert (H0' : new_image L' sh s0) by exact H0.
  rewrite (proj1 (C39_history_lm _ _ _ L sh s0 cs HL H0 Hcs) l Hl) in H.
  rewrite (proj1 (C39_history_lm _ _ _ L' sh s0 cs HL' H0' Hcs) l Hl).
  assert (E' : stamps_of NI FT IM L' sh = Ok (stamps, positions)) by exact E.
  pose proof (stamps_len L sh _ _ HL E) as Q.
  unfold psf_for in H |- *. rewrite E in H. rewrite E'. cbn [bind] in H |- *.
  change (smooth L') with (smooth L). change (fit L') with (fit L). change (eigh L') with (signed s (eigh L)).
  set (size := (fst sh + 6, snd sh + 6)%nat) in *.
  destruct (KL.cov_matrix size stamps) as [c|x] eqn:Hc.
  2:{ exfalso. unfold KL.kl_basis, KL.eigenv in H. rewrite Hc in H. discriminate. }
  destruct (Nat.eq_dec (length stamps) 1) as [N1|N1].
  { exfalso. unfold KL.kl_basis, KL.eigenv in H. rewrite Hc, N1 in H. discriminate. }
  pose proof (kl_basis_form (eigh L) (smooth L) size stamps l c Hc N1) as F. cbn zeta in F.
  pose proof (kl_basis_form (signed s (eigh L)) (smooth L) size stamps l c Hc N1) as F'. cbn zeta in F'.
  set (n := length stamps) in *. change (fst (signed s (eigh L) n c)) with (fst (eigh L n c)) in F'.
  set (K := kl_cut l (fst (eigh L n c))) in *.
  assert (EL : forall k, (k < n)%nat -> element size n stamps (snd (signed s (eigh L) n c)) (n - 1 - k) =
     pscale (s k) (element size n stamps (snd (eigh L n c)) (n - 1 - k))).
  { intros k Hk. apply element_scale. intros p. unfold combination. rewrite <- sumn_scal. apply sumn_ext. intros j _.
    cbn [signed snd]. replace (n - 1 - (n - 1 - k))%nat with k by lia. ring. }
  assert (SB : KL.kl_basis (signed s (eigh L)) (smooth L) size stamps l = KL.kl_basis (eigh L) (smooth L) size stamps l).
  { rewrite F, F'. destruct (Nat.leb_spec n 250) as [Le|Gt].
    - destruct Hcase as [X|(g & Hg & Odd)]; [lia|]. rewrite Hg. do 2 f_equal. rewrite !map_map. apply map_ext_in.
      intros k Hk. apply in_seq in Hk. rewrite EL by lia. destruct (Hs k) as [->| ->]; [now rewrite pscale_1|].
      unfold pscale at 1. rewrite Odd. apply (unit_total_sign (-1)). now right.
    - destruct (Nat.ltb_spec n K) as [|Le]; [reflexivity|]. do 2 f_equal.
      assert (M : map (fun k => unit_total (lower (unit_total (element size n stamps (snd (signed s (eigh L) n c)) (n - 1 - k))))) (seq 0 K) =
                  map (fun k => unit_total (lower (unit_total (element size n stamps (snd (eigh L n c)) (n - 1 - k))))) (seq 0 K)).
      { apply map_ext_in. intros k Hk. apply in_seq in Hk. rewrite EL by lia. now rewrite unit_total_sign by apply Hs. }
      now rewrite M. }
  rewrite SB. destruct (KL.kl_basis (eigh L) (smooth L) size stamps l) as [b0|x] eqn:EB; [|discriminate].
  cbn [bind] in H |- *. destruct (Nat.eqb (length b0) 1) eqn:L1; [discriminate|].
  destruct (Nat.eqb (length positions) 0) eqn:L0; [discriminate|].
  rewrite (eigenv_ok (eigh L) _ _ _ Hc N1) in H. rewrite (eigenv_ok (signed s (eigh L)) _ _ _ Hc N1).
  cbn [bind snd] in H |- *. injection H as <- <-. eexists. split; [reflexivity|]. rewrite !map_length, !seq_length. split; [reflexivity|].
  assert (LB : (length b0 <= n)%nat).
  { rewrite ?EB in F. destruct (Nat.leb n 250); [|destruct (Nat.ltb_spec n K); [discriminate|]].
    - injection F as ->. rewrite one_unit_length. destruct (smooth L); rewrite ?map_length, ?seq_length; lia.
    - injection F as ->. rewrite one_unit_length. destruct (smooth L); rewrite ?map_length, ?seq_length; lia. }
  intros k x y Hk.
  rewrite (nth_indep _ _ ((fun k => fit L positions (eigen_component n (snd (signed s (eigh L) n c)) k)) 0%nat)) by now rewrite map_length, seq_length.
  rewrite (nth_indep (map _ _) (fun _ _ => 0) ((fun k => fit L positions (eigen_component n (snd (eigh L n c)) k)) 0%nat)) by now rewrite map_length, seq_length.
  rewrite (map_nth (fun k => fit L positions (eigen_component n (snd (signed s (eigh L) n c)) k))), (map_nth (fun k => fit L positions (eigen_component n (snd (eigh L n c)) k))).
  rewrite seq_nth by exact Hk. cbn [Nat.add].
  apply (Hfair positions _ _ (fun j => j) (s k)); [reflexivity| | |reflexivity| |apply Hs].
  - intros j Hj. exact Hj.
  - intros i j _ _ X. exact X.
  - intros j Hj. unfold eigen_component. cbn [signed snd]. replace (n - 1 - (n - 1 - k))%nat with k by lia. reflexivity.
Qed.

(** At most 250 stars and no smoothing: another choice of the signs of the eigenvectors
    changes the signs of the elements, and of their coefficients. *)
Lemma C109_element_lm : forall NI FT IM (L : lib NI FT IM) s sh s0 cs stamps positions l fs b,
  lib_ok L -> new_image L sh s0 -> Forall plain cs -> 0 <= l ->
  stamps_of NI FT IM L sh = Ok (stamps, positions) -> (length stamps <= 250)%nat -> smooth L = None ->
  fair_fit (fit L) positions -> (forall k, s k = 1 \/ s k = -1) ->
  fst (get_variable_psf L (Some l) None (exec_all L cs s0)) = Ok (Fields fs, b) ->
  let L' := with_eigh L (signed s (eigh L)) in
  (forall n c, eigh_ok n c (eigh L n c) -> eigh_ok n c (eigh L' n c)) /\
  exists fs' b', fst (get_variable_psf L' (Some l) None (exec_all L' cs s0)) = Ok (Fields fs', b') /\
    length fs' = length fs /\ length b' = length b /\
    (forall k x y, (k < length fs)%nat -> nth k fs' (fun _ _ => 0) x y = s k * nth k fs (fun _ _ => 0) x y) /\
    (forall k d, (k < length b)%nat -> nth k b' d = pmap (option_map (Rmult (s k))) (nth k b d)).
Proof.
  intros NI FT IM L s sh s0 cs stamps positions l fs b HL H0 Hcs Hl E H250 Hsm Hfair Hs H L'.
  split; [intros n c; now apply signed_ok|].
  assert (HL' : lib_ok L') by (destruct HL as (A & B); split; [exact A|]; intros n c; apply B).
  assert (H0' : new_image L' sh s0) by exact H0.
  rewrite (proj1 (C39_history_lm _ _ _ L sh s0 cs HL H0 Hcs) l Hl) in H.
  rewrite (proj1 (C39_history_lm _ _ _ L' sh s0 cs HL' H0' Hcs) l Hl).
  assert (E' : stamps_of NI FT IM L' sh = Ok (stamps, positions)) by exact E.
  pose proof (stamps_len L sh _ _ HL E) as Q.
  unfold psf_for in H |- *. rewrite E in H. rewrite E'. cbn [bind] in H |- *.
  change (smooth L') with (smooth L). change (fit L') with (fit L). change (eigh L') with (signed s (eigh L)). rewrite Hsm in *.
  set (size := (fst sh + 6, snd sh + 6)%nat) in *.
  destruct (KL.cov_matrix size stamps) as [c|x] eqn:Hc.
  2:{ exfalso. unfold KL.kl_basis, KL.eigenv in H. rewrite Hc in H. discriminate. }
  destruct (Nat.eq_dec (length stamps) 1) as [N1|N1].
  { exfalso. unfold KL.kl_basis, KL.eigenv in H. rewrite Hc, N1 in H. discriminate. }
  pose proof (kl_basis_form (eigh L) None size stamps l c Hc N1) as F. cbn zeta in F.
  pose proof (kl_basis_form (signed s (eigh L)) None size stamps l c Hc N1) as F'. cbn zeta in F'.
  rewrite (proj2 (Nat.leb_le _ _) H250) in F, F'.
  set (n := length stamps) in *. change (fst (signed s (eigh L) n c)) with (fst (eigh L n c)) in F'.
  set (K := Nat.min n (kl_cut l (fst (eigh L n c)))) in *.
  assert (EL : forall k, (k < n)%nat -> element size n stamps (snd (signed s (eigh L) n c)) (n - 1 - k) =
     pscale (s k) (element size n stamps (snd (eigh L n c)) (n - 1 - k))).
  { intros k Hk. apply element_scale. intros p. unfold combination. rewrite <- sumn_scal. apply sumn_ext. intros j _.
    cbn [signed snd]. replace (n - 1 - (n - 1 - k))%nat with k by lia. ring. }
  rewrite F in H. rewrite F'. cbn [bind] in H |- *. rewrite one_unit_length, map_length, seq_length in H |- *.
  destruct (Nat.eqb_spec K 1) as [|K1]; [discriminate|].
  destruct (Nat.eqb (length positions) 0) eqn:L0; [discriminate|].
  rewrite (eigenv_ok (eigh L) _ _ _ Hc N1) in H. rewrite (eigenv_ok (signed s (eigh L)) _ _ _ Hc N1).
  cbn [bind snd] in H |- *. injection H as <- <-. do 2 eexists. split; [reflexivity|].
  rewrite !one_unit_not by (rewrite map_length, seq_length; exact K1).
  rewrite !map_length, !seq_length. do 2 (split; [reflexivity|]).
  assert (KN : (K <= n)%nat) by (unfold K; lia). split.
  - intros k x y Hk.
    rewrite (nth_indep _ _ ((fun k => fit L positions (eigen_component n (snd (signed s (eigh L) n c)) k)) 0%nat)) by now rewrite map_length, seq_length.
    rewrite (nth_indep (map _ _) (fun _ _ => 0) ((fun k => fit L positions (eigen_component n (snd (eigh L n c)) k)) 0%nat)) by now rewrite map_length, seq_length.
    rewrite (map_nth (fun k => fit L positions (eigen_component n (snd (signed s (eigh L) n c)) k))), (map_nth (fun k => fit L positions (eigen_component n (snd (eigh L n c)) k))).
    rewrite seq_nth by exact Hk. cbn [Nat.add].
    apply (Hfair positions _ _ (fun j => j) (s k)); [reflexivity| | |reflexivity| |apply Hs].
    + intros j Hj. exact Hj.
    + intros i j _ _ X. exact X.
    + intros j Hj. unfold eigen_component. cbn [signed snd]. replace (n - 1 - (n - 1 - k))%nat with k by lia. reflexivity.
  - intros k d Hk.
    rewrite (nth_indep _ _ ((fun k => element size n stamps (snd (signed s (eigh L) n c)) (n - 1 - k)) 0%nat)) by now rewrite map_length, seq_length.
    rewrite (nth_indep (map (fun k => element size n stamps (snd (eigh L n c)) (n - 1 - k)) _) d ((fun k => element size n stamps (snd (eigh L n c)) (n - 1 - k)) 0%nat)) by now rewrite map_length, seq_length.
    rewrite (map_nth (fun k => element size n stamps (snd (signed s (eigh L) n c)) (n - 1 - k))), (map_nth (fun k => element size n stamps (snd (eigh L n c)) (n - 1 - k))).
    rewrite seq_nth by exact Hk. cbn [Nat.add]. apply EL. lia.
Qed.
