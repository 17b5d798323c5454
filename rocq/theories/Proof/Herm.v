(** Transforms of real arrays, and arrays whose transform is one of a real array. *)
From Coq Require Import Arith ZArith List Bool Reals Lia Lra.
From Coquelicot Require Import Complex.
From Verif.Model Require Import Py Plane Ma Coadd Subtract Filter.
From Verif.Spec Require Import Coadd Fourier Filter Sky.
From Verif.Proof Require Import Coadd Fourier Subtract SubtractSum Dft Filter FilterMain CoaddMore CoaddPoint SkyDft Sky.
Import ListNotations.
Local Open Scope R_scope.
Set Bullet Behavior "Strict Subproofs".

(** The opposite frequency. *)
Definition opp (n u : nat) : nat := wrap n (- Z.of_nat u).

Lemma opp_lt n u : (0 < n)%nat -> (opp n u < n)%nat.
Proof. apply wrap_lt. Qed.

Lemma opp_opp n u : (u < n)%nat -> opp n (opp n u) = u.
Proof.
  intros H. unfold opp. assert (0 < n)%nat as Hn by lia.
  rewrite <- (wrap_small n u H) at 2. unfold wrap at 1 3. rewrite wrap_mod by exact Hn.
  rewrite <- (Z.sub_0_l (_ mod _)), Zminus_mod_idemp_r. do 2 f_equal. lia.
Qed.

Lemma har_opp n u z : (0 < n)%nat -> har n (opp n u) z = har n u (- z).
Proof.
  intros H. pose proof (INR_pos n H) as P. unfold har, opp.
  rewrite INR_IZR_INZ, wrap_mod by exact H. pose proof (Z.div_mod (- Z.of_nat u) (Z.of_nat n) ltac:(lia)) as D.
  set (q := (- Z.of_nat u / Z.of_nat n)%Z) in *. set (r := (- Z.of_nat u mod Z.of_nat n)%Z) in *.
  assert (IZR r = - INR u - INR n * IZR q) as ->.
  { replace r with (- Z.of_nat u - Z.of_nat n * q)%Z by lia. rewrite minus_IZR, opp_IZR, mult_IZR, <- !INR_IZR_INZ. reflexivity. }
  replace (2 * PI * ((- INR u - INR n * IZR q) * IZR z / INR n)) with
    (2 * PI * (INR u * IZR (- z) / INR n) + 2 * PI * IZR (- (q * z))).
  - rewrite cis_plus, cis_2PI_Z. ring.
  - rewrite !opp_IZR, mult_IZR. field. lra.
Qed.

Lemma har2_opp N M u v a c : (0 < N)%nat -> (0 < M)%nat -> har2 N M (opp N u) (opp M v) a c = har2 N M u v (- a) (- c).
Proof. intros HN HM. unfold har2. now rewrite !har_opp. Qed.

(** The value at the opposite frequency is the conjugate. *)
Definition herm (N M : nat) (g : nat -> nat -> C) : Prop :=
  forall u v, (u < N)%nat -> (v < M)%nat -> g (opp N u) (opp M v) = Cconj (g u v).

Lemma conj_real z : Cconj z = z -> snd z = 0.
Proof. destruct z as [a b]. unfold Cconj. cbn. intros E. injection E. lra. Qed.

Lemma ifft_real N M g x y : (0 < N)%nat -> (0 < M)%nat -> herm N M g ->
  snd (px (ifft2_ortho (mkplane N M g)) x y) = 0.
Proof.
  intros HN HM H. apply conj_real. rewrite ifft_px. cbn [nr nc px].
  rewrite conj_mult. unfold unit_of at 1. rewrite conj_R. fold (unit_of N M). f_equal.
  rewrite conj_sum2.
  rewrite <- (sum2_turn N M (fun u v => (g u v * har2 N M u v (Z.of_nat x) (Z.of_nat y))%C) 0 0) by assumption.
  apply sum2_ext. intros u v Hu Hv. change (wrap N (0 - Z.of_nat u)) with (opp N u). change (wrap M (0 - Z.of_nat v)) with (opp M v).
  rewrite H, har2_opp by assumption. now rewrite conj_mult, har2_conj.
Qed.

(** Sums against a real function. *)
Lemma sum_herm N M n m (f : nat -> nat -> R) : (0 < N)%nat -> (0 < M)%nat ->
  herm N M (fun u v => sum2 n m (fun x y => (RtoC (f x y) * har2 N M u v (- Z.of_nat x) (- Z.of_nat y))%C)).
Proof.
  intros HN HM u v Hu Hv. rewrite conj_sum2. apply sum2_ext. intros x y _ _.
  rewrite har2_opp by assumption. now rewrite conj_mult, conj_R, har2_conj.
Qed.

Lemma herm_ext N M g h : (0 < N)%nat -> (0 < M)%nat ->
  (forall u v, (u < N)%nat -> (v < M)%nat -> g u v = h u v) -> herm N M h -> herm N M g.
Proof.
  intros HN HM E H u v Hu Hv. rewrite !E; auto using opp_lt.
Qed.

Lemma herm_const N M r : herm N M (fun _ _ => RtoC r).
Proof. intros u v _ _. now rewrite conj_R. Qed.
Lemma herm_mult N M g h : herm N M g -> herm N M h -> herm N M (fun u v => (g u v * h u v)%C).
Proof. intros G H u v Hu Hv. now rewrite G, H, conj_mult. Qed.
Lemma herm_plus N M g h : herm N M g -> herm N M h -> herm N M (fun u v => (g u v + h u v)%C).
Proof. intros G H u v Hu Hv. now rewrite G, H, conj_plus. Qed.
Lemma conj_opp z : Cconj (- z)%C = (- Cconj z)%C.
Proof. destruct z. unfold Cconj, Copp. cbn. reflexivity. Qed.
Lemma herm_minus N M g h : herm N M g -> herm N M h -> herm N M (fun u v => (g u v - h u v)%C).
Proof. intros G H u v Hu Hv. unfold Cminus. now rewrite G, H, conj_plus, conj_opp. Qed.
Lemma herm_conj N M g : herm N M g -> herm N M (fun u v => Cconj (g u v)).
Proof. intros G u v Hu Hv. now rewrite G. Qed.
Lemma conj_inv z : Cconj (/ z)%C = (/ Cconj z)%C.
Proof.
  destruct z as [a b]. unfold Cconj, Cinv. cbn [fst snd].
  replace (a ^ 2 + (- b) ^ 2) with (a ^ 2 + b ^ 2) by ring. f_equal. unfold Rdiv. ring.
Qed.
Lemma herm_div N M g h : herm N M g -> herm N M h -> herm N M (fun u v => (g u v / h u v)%C).
Proof. intros G H u v Hu Hv. unfold Cdiv. now rewrite G, H, conj_mult, conj_inv. Qed.
Lemma herm_har N M a c : (0 < N)%nat -> (0 < M)%nat -> herm N M (fun u v => har2 N M u v a c).
Proof. intros HN HM u v Hu Hv. rewrite har2_opp by assumption. now rewrite har2_conj. Qed.

(** The root of a real array that is not negative. *)
Lemma csqrt_real z : snd z = 0 -> 0 <= fst z -> csqrt z = RtoC (sqrt (fst z)).
Proof.
  intros E H. destruct z as [a b]. cbn in E, H. subst b. change (a, 0) with (RtoC a). cbn [fst RtoC].
  destruct (Rle_lt_or_eq_dec 0 a H) as [Hp|<-]; [now apply csqrt_pos|].
  rewrite sqrt_0. unfold csqrt. cbn [fst snd RtoC]. rewrite Cmod_0.
  replace ((0 + 0) / 2) with 0 by field. replace ((0 - 0) / 2) with 0 by field. rewrite sqrt_0.
  destruct (Rle_dec 0 0); unfold RtoC; f_equal; lra.
Qed.
Lemma herm_sqrt N M g : (0 < N)%nat -> (0 < M)%nat -> herm N M g ->
  (forall u v, (u < N)%nat -> (v < M)%nat -> snd (g u v) = 0 /\ 0 <= fst (g u v)) ->
  herm N M (fun u v => csqrt (g u v)).
Proof.
  intros HN HM H P u v Hu Hv. rewrite H by assumption. destruct (P u v Hu Hv) as [P1 P2].
  assert (Cconj (g u v) = g u v) as ->.
  { destruct (g u v) as [a b]. cbn in P1. subst b. unfold Cconj. cbn. f_equal. lra. }
  rewrite csqrt_real by assumption. now rewrite conj_R.
Qed.

Lemma herm_total {A} N M (g : A -> nat -> nat -> C) l :
  (forall a, In a l -> herm N M (g a)) -> herm N M (fun u v => total (fun a => g a u v) l).
Proof.
  intros H. induction l as [|a l IH]; cbn [total fold_right].
  - apply herm_const.
  - apply (herm_plus N M (g a) (fun u v => total (fun a => g a u v) l)).
    + apply H. now left.
    + apply IH. intros b Hb. apply H. now right.
Qed.

Lemma herm_fft sh f : (0 < fst sh)%nat -> (0 < snd sh)%nat ->
  herm (fst sh) (snd sh) (px (fft2_ortho (real_frame sh f))).
Proof.
  intros HN HM. apply (herm_ext _ _ _ (fun u v => (unit_of (fst sh) (snd sh) *
    sum2 (fst sh) (snd sh) (fun x y => (RtoC (f x y) * har2 (fst sh) (snd sh) u v (- Z.of_nat x) (- Z.of_nat y))%C))%C)); try assumption.
  - intros u v _ _. rewrite fft_px, dft_har. reflexivity.
  - apply herm_mult; [apply herm_const|now apply sum_herm].
Qed.

Lemma herm_padded sh (b : plane R) : (0 < fst sh)%nat -> (0 < snd sh)%nat ->
  herm (fst sh) (snd sh) (px (fft2_ortho (pad_to sh (pmap RtoC b)))).
Proof.
  intros HN HM. apply (herm_ext _ _ _ (fun u v => (unit_of (fst sh) (snd sh) *
    sum2 (fst sh) (snd sh) (fun x y => (RtoC (laid b x y) * har2 (fst sh) (snd sh) u v (- Z.of_nat x) (- Z.of_nat y))%C))%C)); try assumption.
  - intros u v _ _. rewrite fft_px, dft_har. change (nr (pad_to sh (pmap RtoC b))) with (fst sh).
    change (nc (pad_to sh (pmap RtoC b))) with (snd sh). f_equal. apply sum2_ext. intros i j _ _.
    unfold laid. cbn [pad_to px pmap nr nc]. destruct (_ && _)%bool; reflexivity.
  - apply herm_mult; [apply herm_const|now apply sum_herm].
Qed.

Lemma freq_opp n u : Nat.odd n = true -> (u < n)%nat -> freq n (opp n u) = - freq n u.
Proof.
  intros Ho Hu. apply Nat.odd_spec in Ho. destruct Ho as [k ->]. unfold freq.
  replace ((2 * k + 1 + 1) / 2)%nat with (k + 1)%nat.
  2: { replace (2 * k + 1 + 1)%nat with ((k + 1) * 2)%nat by lia. now rewrite Nat.div_mul. }
  destruct (Nat.eq_dec u 0) as [->|N].
  - assert (opp (2 * k + 1) 0 = 0%nat) as ->.
    { unfold opp, wrap. cbn [Z.of_nat Z.opp]. rewrite Z.mod_0_l by lia. reflexivity. }
    assert ((0 <? k + 1)%nat = true) as -> by (apply Nat.ltb_lt; lia). cbn. ring.
  - assert (opp (2 * k + 1) u = 2 * k + 1 - u)%nat as ->.
    { unfold opp, wrap. rewrite Z.mod_opp_l_nz; [|lia|rewrite Z.mod_small; lia]. rewrite Z.mod_small by lia. lia. }
    rewrite minus_INR by lia.
    destruct (Nat.ltb_spec (2 * k + 1 - u) (k + 1)); destruct (Nat.ltb_spec u (k + 1)); try lia; ring.
Qed.

Lemma phase_opp n u d : (0 < n)%nat -> (u < n)%nat -> odd_or_whole n d ->
  cis (- (2 * PI) * (freq n (opp n u) * d / INR n)) = Cconj (cis (- (2 * PI) * (freq n u * d / INR n))).
Proof.
  intros Hn Hu [Ho|[k ->]].
  - rewrite freq_opp by assumption. rewrite cis_conj. f_equal. unfold Rdiv. ring.
  - rewrite !freq_har, har_opp, har_conj by assumption. reflexivity.
Qed.

Lemma herm_shift N M g dx dy : (0 < N)%nat -> (0 < M)%nat -> odd_or_whole N dx -> odd_or_whole M dy -> herm N M g ->
  herm N M (px (fourier_shift (mkplane N M g) dx dy)).
Proof.
  intros HN HM Hx Hy H u v Hu Hv. unfold fourier_shift. cbn [px nr nc].
  rewrite H, !Rmult_plus_distr_l, !cis_plus, !phase_opp, !conj_mult by assumption. reflexivity.
Qed.

Lemma whole n k : odd_or_whole n (IZR k).
Proof. right. now exists k. Qed.

Lemma whole_opp n d : odd_or_whole n d -> odd_or_whole n (- d).
Proof. intros [H|[k ->]]; [now left|]. right. exists (- k)%Z. now rewrite opp_IZR. Qed.
