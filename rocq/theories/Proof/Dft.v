(** Inversion, convolution, correlation and shifts. *)
From Coq Require Import Arith ZArith List Bool Reals Lia Lra.
From Coquelicot Require Import Complex.
From Verif.Model Require Import Py Plane.
From Verif.Spec Require Import Fourier.
From Verif.Proof Require Import Coadd Fourier.
Import ListNotations.
Local Open Scope R_scope.
Set Bullet Behavior "Strict Subproofs".

Lemma conj_plus (a b : C) : Cconj (a + b)%C = (Cconj a + Cconj b)%C.
Proof. destruct a, b. unfold Cconj, Cplus. cbn. f_equal. ring. Qed.

Lemma conj_mult (a b : C) : Cconj (a * b)%C = (Cconj a * Cconj b)%C.
Proof. destruct a, b. unfold Cconj, Cmult. cbn. f_equal; ring. Qed.

Lemma conj_R x : Cconj (RtoC x) = RtoC x.
Proof. unfold Cconj, RtoC. cbn. f_equal. ring. Qed.

Lemma conj_conj (z : C) : Cconj (Cconj z) = z.
Proof. destruct z. unfold Cconj. cbn. f_equal. ring. Qed.

(** The k-th harmonic at z on an axis of n cells. *)
Definition har (n k : nat) (z : Z) : C := cis (2 * PI * (INR k * IZR z / INR n)).

Lemma cis_2PI_Z z : cis (2 * PI * IZR z) = RtoC 1.
Proof.
  destruct (Z_le_gt_dec 0 z) as [H|H].
  - rewrite <- (Z2Nat.id z H), <- INR_IZR_INZ. apply cis_2PI_nat.
  - assert (E : z = (- Z.of_nat (Z.to_nat (- z)))%Z) by lia. rewrite E, opp_IZR, <- INR_IZR_INZ.
    replace (2 * PI * - INR (Z.to_nat (- z))) with (- (2 * PI * INR (Z.to_nat (- z)))) by ring.
    rewrite <- cis_conj, cis_2PI_nat. unfold Cconj, RtoC. cbn. f_equal. ring.
Qed.

Lemma har_plus n k a b : har n k (a + b) = (har n k a * har n k b)%C.
Proof.
  unfold har. rewrite <- cis_plus. f_equal. rewrite plus_IZR. unfold Rdiv. ring.
Qed.

Lemma har_0 n k : har n k 0 = RtoC 1.
Proof. unfold har. replace (2 * PI * (INR k * 0 / INR n)) with 0 by (unfold Rdiv; ring). apply cis_0. Qed.

Lemma har_conj n k z : Cconj (har n k z) = har n k (- z).
Proof. unfold har. rewrite cis_conj. f_equal. rewrite opp_IZR. unfold Rdiv. ring. Qed.

Lemma har_period n k z : (0 < n)%nat -> har n k (z mod Z.of_nat n) = har n k z.
Proof.
  intros H. pose proof (INR_pos n H) as P.
  rewrite (Z.div_mod z (Z.of_nat n)) at 2 by lia. rewrite har_plus.
  unfold har at 2. rewrite mult_IZR, <- INR_IZR_INZ.
  replace (2 * PI * (INR k * (INR n * IZR (z / Z.of_nat n)) / INR n)) with
    (2 * PI * IZR (Z.of_nat k * (z / Z.of_nat n))) by (rewrite mult_IZR, <- INR_IZR_INZ; field; lra).
  rewrite cis_2PI_Z. ring.
Qed.

Lemma har_sum n z : (0 < n)%nat ->
  csum n (fun k => har n k z) = if (z mod Z.of_nat n =? 0)%Z then RtoC (INR n) else RtoC 0.
Proof.
  intros H. pose proof (Z.mod_pos_bound z (Z.of_nat n) ltac:(lia)) as B.
  rewrite (csum_ext n _ (fun x => cis (2 * PI * (INR (Z.to_nat (z mod Z.of_nat n)) * INR x / INR n)))).
  - rewrite root_sum' by lia.
    destruct (Z.eqb_spec (z mod Z.of_nat n) 0) as [->|N]; [reflexivity|].
    destruct (Nat.eqb_spec (Z.to_nat (z mod Z.of_nat n)) 0); [lia|reflexivity].
  - intros i _. rewrite <- (har_period n i z H). unfold har. f_equal.
    rewrite (INR_IZR_INZ (Z.to_nat _)), Z2Nat.id by lia. unfold Rdiv. ring.
Qed.

(** ** Double sums *)
Lemma sum2_ext N M f g : (forall i j, (i < N)%nat -> (j < M)%nat -> f i j = g i j) -> sum2 N M f = sum2 N M g.
Proof. intros H. apply csum_ext. intros i Hi. apply csum_ext. auto. Qed.

Lemma sum2_scale N M k f : sum2 N M (fun i j => (k * f i j)%C) = (k * sum2 N M f)%C.
Proof. unfold sum2. rewrite <- csum_scale. apply csum_ext. intros i _. apply csum_scale. Qed.

Lemma sum2_scale_r N M k f : sum2 N M (fun i j => (f i j * k)%C) = (sum2 N M f * k)%C.
Proof. unfold sum2. rewrite <- csum_scale_r. apply csum_ext. intros i _. apply csum_scale_r. Qed.

Lemma sum2_plus N M f g : sum2 N M (fun i j => (f i j + g i j)%C) = (sum2 N M f + sum2 N M g)%C.
Proof. unfold sum2. rewrite <- csum_plus. apply csum_ext. intros i _. apply csum_plus. Qed.

Lemma sum2_csum N M n f : sum2 N M (fun i j => csum n (fun k => f i j k)) = csum n (fun k => sum2 N M (fun i j => f i j k)).
Proof.
  unfold sum2. rewrite (csum_ext N _ (fun i => csum n (fun k => csum M (fun j => f i j k)))).
  - apply csum_swap.
  - intros i _. apply csum_swap.
Qed.

Lemma sum2_swap N M P Q f :
  sum2 N M (fun i j => sum2 P Q (fun k l => f i j k l)) = sum2 P Q (fun k l => sum2 N M (fun i j => f i j k l)).
Proof.
  unfold sum2 at 2. rewrite sum2_csum. unfold sum2 at 2. apply csum_ext. intros k _. apply sum2_csum.
Qed.

Lemma csum_prod n m f g : (csum n f * csum m g)%C = csum n (fun i => csum m (fun j => (f i * g j)%C)).
Proof.
  rewrite <- csum_scale_r. apply csum_ext. intros i _. symmetry. apply csum_scale.
Qed.

Lemma conj_csum n f : Cconj (csum n f) = csum n (fun i => Cconj (f i)).
Proof.
  induction n as [|n IH]; cbn; [apply conj_R|]. now rewrite conj_plus, IH.
Qed.

Lemma conj_sum2 N M f : Cconj (sum2 N M f) = sum2 N M (fun i j => Cconj (f i j)).
Proof. unfold sum2. rewrite conj_csum. apply csum_ext. intros i _. apply conj_csum. Qed.

(** Both harmonics. *)
Definition har2 (N M u v : nat) (x y : Z) : C := (har N u x * har M v y)%C.

Lemma har2_plus N M u v x y x' y' : har2 N M u v (x + x') (y + y') = (har2 N M u v x y * har2 N M u v x' y')%C.
Proof. unfold har2. rewrite !har_plus. ring. Qed.

Lemma har2_conj N M u v x y : Cconj (har2 N M u v x y) = har2 N M u v (- x) (- y).
Proof. unfold har2. now rewrite conj_mult, !har_conj. Qed.

Lemma har2_sum N M x y : (0 < N)%nat -> (0 < M)%nat ->
  sum2 N M (fun u v => har2 N M u v x y) =
  if ((x mod Z.of_nat N =? 0) && (y mod Z.of_nat M =? 0))%Z then RtoC (INR N * INR M) else RtoC 0.
Proof.
  intros HN HM. unfold sum2, har2. rewrite <- csum_prod, !har_sum by assumption.
  destruct (_ mod _ =? 0)%Z, (_ mod _ =? 0)%Z; cbn [andb]; rewrite ?RtoC_mult; ring.
Qed.

Lemma wrap_lt n z : (0 < n)%nat -> (wrap n z < n)%nat.
Proof. intros H. unfold wrap. pose proof (Z.mod_pos_bound z (Z.of_nat n) ltac:(lia)). lia. Qed.

Lemma wrap_small n i : (i < n)%nat -> wrap n (Z.of_nat i) = i.
Proof. intros H. unfold wrap. rewrite Z.mod_small by lia. lia. Qed.

Lemma wrap_mod n z : (0 < n)%nat -> (Z.of_nat (wrap n z) = z mod Z.of_nat n)%Z.
Proof. intros H. unfold wrap. pose proof (Z.mod_pos_bound z (Z.of_nat n) ltac:(lia)). lia. Qed.

Lemma mod_sub_eq n a p : (0 < n)%nat -> (p < n)%nat ->
  ((a - Z.of_nat p) mod Z.of_nat n =? 0)%Z = (p =? wrap n a)%nat.
Proof.
  intros H Hp. destruct (Nat.eqb_spec p (wrap n a)) as [E|N].
  - apply Z.eqb_eq. rewrite E, wrap_mod by exact H. rewrite Zminus_mod_idemp_r. rewrite Z.sub_diag. apply Zmod_0_l.
  - apply Z.eqb_neq. intros E. apply N. unfold wrap.
    assert ((a mod Z.of_nat n)%Z = Z.of_nat p); [|lia].
    apply Z.mod_divide in E; [|lia]. destruct E as (k & E).
    replace a with (Z.of_nat p + k * Z.of_nat n)%Z by lia. rewrite Z_mod_plus_full. apply Z.mod_small. lia.
Qed.

(** The cell picked by a congruence. *)
Lemma sum2_pick N M (f : nat -> nat -> C) a b K : (0 < N)%nat -> (0 < M)%nat ->
  sum2 N M (fun p q => (f p q * (if ((a - Z.of_nat p) mod Z.of_nat N =? 0) && ((b - Z.of_nat q) mod Z.of_nat M =? 0)
                                 then K else RtoC 0))%C)%Z = (f (wrap N a) (wrap M b) * K)%C.
Proof.
  intros HN HM. unfold sum2.
  rewrite (csum_ext N _ (fun p => if (p =? wrap N a)%nat then (f (wrap N a) (wrap M b) * K)%C else RtoC 0)).
  - apply csum_one. now apply wrap_lt.
  - intros p Hp. rewrite mod_sub_eq by assumption. destruct (Nat.eqb_spec p (wrap N a)) as [->|Np].
    + rewrite (csum_ext M _ (fun q => if (q =? wrap M b)%nat then (f (wrap N a) (wrap M b) * K)%C else RtoC 0)).
      * apply csum_one. now apply wrap_lt.
      * intros q Hq. rewrite mod_sub_eq by assumption. cbn [andb].
        destruct (Nat.eqb_spec q (wrap M b)) as [->|_]; [reflexivity|ring].
    + cbn [andb]. etransitivity; [|apply (csum_0 M)]. apply csum_ext. intros q _. ring.
Qed.

(** The transforms in terms of the harmonics. *)
Lemma dft_har f u v : px (dft_raw f) u v =
  sum2 (nr f) (nc f) (fun x y => (px f x y * har2 (nr f) (nc f) u v (- Z.of_nat x) (- Z.of_nat y))%C).
Proof.
  unfold dft_raw, sum2. cbn [px]. apply csum_ext. intros x _. apply csum_ext. intros y _. f_equal.
  unfold har2, har. rewrite <- cis_plus. f_equal. rewrite !opp_IZR, <- !INR_IZR_INZ. unfold Rdiv. ring.
Qed.

Lemma idft_har F x y : px (idft_raw F) x y =
  sum2 (nr F) (nc F) (fun u v => (px F u v * har2 (nr F) (nc F) u v (Z.of_nat x) (Z.of_nat y))%C).
Proof.
  unfold idft_raw, sum2. cbn [px]. apply csum_ext. intros u _. apply csum_ext. intros v _. f_equal.
  unfold har2, har. rewrite <- cis_plus. f_equal. rewrite <- !INR_IZR_INZ. unfold Rdiv. ring.
Qed.

(** A transform times the transform of a kernel, transformed back at any whole place. [s] is
    1 or -1. *)
Lemma filter_at (f : plane C) (N M : nat) (g : nat -> nat -> C) (s : Z) (x y : Z) :
  (0 < nr f)%nat -> (0 < nc f)%nat ->
  sum2 (nr f) (nc f) (fun u v => (px (dft_raw f) u v *
     sum2 N M (fun p q => (g p q * har2 (nr f) (nc f) u v (s * Z.of_nat p) (s * Z.of_nat q))%C) *
     har2 (nr f) (nc f) u v x y)%C) =
  (RtoC (INR (nr f) * INR (nc f)) *
   sum2 N M (fun p q => (around f (x + s * Z.of_nat p) (y + s * Z.of_nat q) * g p q)%C))%C.
Proof.
  intros HN HM. set (A := nr f) in *. set (B := nc f) in *.
  transitivity (sum2 N M (fun p q => sum2 A B (fun a b =>
    (px f a b * g p q * sum2 A B (fun u v => har2 A B u v (x + s * Z.of_nat p - Z.of_nat a) (y + s * Z.of_nat q - Z.of_nat b)))%C))).
  - rewrite (sum2_ext A B _ (fun u v => sum2 N M (fun p q => sum2 A B (fun a b =>
      (px f a b * g p q * har2 A B u v (x + s * Z.of_nat p - Z.of_nat a) (y + s * Z.of_nat q - Z.of_nat b))%C)))).
    + rewrite sum2_swap. apply sum2_ext. intros p q _ _. rewrite sum2_swap. apply sum2_ext. intros a b _ _.
      apply sum2_scale.
    + intros u v _ _. rewrite dft_har. fold A B.
      rewrite <- !Cmult_assoc. rewrite (Cmult_comm (sum2 N M _)), Cmult_assoc. rewrite <- sum2_scale.
      apply sum2_ext. intros p q _ _. rewrite <- !sum2_scale_r. apply sum2_ext. intros a b _ _.
      replace (x + s * Z.of_nat p - Z.of_nat a)%Z with (- Z.of_nat a + (x + s * Z.of_nat p))%Z by lia.
      replace (y + s * Z.of_nat q - Z.of_nat b)%Z with (- Z.of_nat b + (y + s * Z.of_nat q))%Z by lia.
      rewrite !har2_plus. ring.
  - rewrite <- sum2_scale. apply sum2_ext. intros p q _ _.
    rewrite (sum2_ext A B _ (fun a b => ((px f a b * g p q) *
      (if ((x + s * Z.of_nat p - Z.of_nat a) mod Z.of_nat A =? 0) && ((y + s * Z.of_nat q - Z.of_nat b) mod Z.of_nat B =? 0)
       then RtoC (INR A * INR B) else RtoC 0))%C)%Z).
    + rewrite (sum2_pick A B (fun a b => (px f a b * g p q)%C)) by assumption.
      unfold around. fold A B. ring.
    + intros a b _ _. now rewrite har2_sum.
Qed.

Lemma sqrt_inv_sq n : 0 < n -> (RtoC (/ sqrt n) * RtoC (/ sqrt n))%C = RtoC (/ n).
Proof.
  intros H. rewrite <- RtoC_mult. f_equal. rewrite <- Rinv_mult. now rewrite sqrt_sqrt by lra.
Qed.

Lemma area_pos (N M : nat) : (0 < N)%nat -> (0 < M)%nat -> 0 < INR N * INR M.
Proof. intros H1 H2. apply Rmult_lt_0_compat; now apply INR_pos. Qed.

(** 1 over the square root of the number of cells. *)
Definition unit_of (N M : nat) : C := RtoC (/ sqrt (INR N * INR M)).

Lemma unit_sq N M : (0 < N)%nat -> (0 < M)%nat -> (unit_of N M * unit_of N M * RtoC (INR N * INR M))%C = RtoC 1.
Proof.
  intros H1 H2. pose proof (area_pos _ _ H1 H2). unfold unit_of. rewrite sqrt_inv_sq by assumption.
  rewrite <- RtoC_mult, Rinv_l by lra. reflexivity.
Qed.

Lemma fft_px f u v : px (fft2_ortho f) u v = (unit_of (nr f) (nc f) * px (dft_raw f) u v)%C.
Proof. reflexivity. Qed.

Lemma ifft_px F x y : px (ifft2_ortho F) x y = (unit_of (nr F) (nc F) *
  sum2 (nr F) (nc F) (fun u v => (px F u v * har2 (nr F) (nc F) u v (Z.of_nat x) (Z.of_nat y))%C))%C.
Proof. rewrite <- idft_har. reflexivity. Qed.

(** ** Inversion *)
Lemma fft_inverse f : (0 < nr f)%nat -> (0 < nc f)%nat -> plane_eq (ifft2_ortho (fft2_ortho f)) f.
Proof.
  intros HN HM. split; [reflexivity|]. intros x y Hx Hy. change (x < nr f)%nat in Hx. change (y < nc f)%nat in Hy.
  rewrite ifft_px. change (nr (fft2_ortho f)) with (nr f). change (nc (fft2_ortho f)) with (nc f).
  set (K := unit_of (nr f) (nc f)).
  rewrite (sum2_ext _ _ _ (fun u v => (K * (px (dft_raw f) u v *
     sum2 1 1 (fun p q => (RtoC 1 * har2 (nr f) (nc f) u v (1 * Z.of_nat p) (1 * Z.of_nat q))%C) *
     har2 (nr f) (nc f) u v (Z.of_nat x) (Z.of_nat y)))%C)).
  - rewrite sum2_scale, filter_at by assumption. unfold sum2. cbn [csum]. unfold around. cbn [Z.of_nat Z.mul].
    rewrite !Z.add_0_r, !wrap_small by assumption.
    rewrite !Cmult_assoc. unfold K. rewrite unit_sq by assumption. ring.
  - intros u v _ _. rewrite fft_px. fold K. unfold sum2. cbn [csum Z.of_nat Z.mul]. unfold har2 at 2. rewrite !har_0. ring.
Qed.

Lemma fft_inverse' F : (0 < nr F)%nat -> (0 < nc F)%nat -> plane_eq (fft2_ortho (ifft2_ortho F)) F.
Proof.
  intros HN HM. split; [reflexivity|]. intros x y Hx Hy. change (x < nr F)%nat in Hx. change (y < nc F)%nat in Hy.
  rewrite fft_px, dft_har. change (nr (ifft2_ortho F)) with (nr F). change (nc (ifft2_ortho F)) with (nc F).
  set (K := unit_of (nr F) (nc F)). set (N := nr F) in *. set (M := nc F) in *.
  transitivity (K * K * sum2 N M (fun u v => (px F u v * (if ((Z.of_nat x - Z.of_nat u) mod Z.of_nat N =? 0) &&
     ((Z.of_nat y - Z.of_nat v) mod Z.of_nat M =? 0) then RtoC (INR N * INR M) else RtoC 0))%C)%Z)%C.
  - rewrite <- Cmult_assoc. f_equal.
    rewrite (sum2_ext N M _ (fun a b => (K * sum2 N M (fun u v =>
      (px F u v * har2 N M a b (Z.of_nat u - Z.of_nat x) (Z.of_nat v - Z.of_nat y))%C))%C)).
    + rewrite sum2_scale. f_equal. rewrite sum2_swap. apply sum2_ext. intros u v Hu Hv.
      rewrite sum2_scale, har2_sum by assumption. f_equal.
      assert (Q : forall n (i j : nat), (0 < n)%nat -> (i < n)%nat -> (j < n)%nat ->
        ((Z.of_nat i - Z.of_nat j) mod Z.of_nat n =? 0)%Z = ((Z.of_nat j - Z.of_nat i) mod Z.of_nat n =? 0)%Z).
      { intros n i j Hn Hi Hj. rewrite !mod_sub_eq, !wrap_small by assumption. now rewrite Nat.eqb_sym. }
      now rewrite (Q N u x), (Q M v y).
    + intros a b Ha Hb. rewrite ifft_px. fold N M K. rewrite <- Cmult_assoc. f_equal. rewrite <- sum2_scale_r.
      apply sum2_ext. intros u v _ _.
      assert (Q : forall n (i j : nat), har n i (Z.of_nat j) = har n j (Z.of_nat i)).
      { intros n i j. unfold har. f_equal. rewrite <- !INR_IZR_INZ. unfold Rdiv. ring. }
      assert (Q' : forall n (i j : nat), har n i (- Z.of_nat j) = har n j (- Z.of_nat i)).
      { intros n i j. rewrite <- !har_conj. now rewrite Q. }
      replace (Z.of_nat u - Z.of_nat x)%Z with (Z.of_nat u + - Z.of_nat x)%Z by lia.
      replace (Z.of_nat v - Z.of_nat y)%Z with (Z.of_nat v + - Z.of_nat y)%Z by lia.
      rewrite har2_plus. unfold har2. rewrite (Q N u a), (Q M v b), (Q' N x a), (Q' M y b). ring.
  - rewrite sum2_pick, !wrap_small by assumption.
    replace (K * K * (px F x y * RtoC (INR N * INR M)))%C with (K * K * RtoC (INR N * INR M) * px F x y)%C by ring.
    unfold K. rewrite unit_sq by assumption. ring.
Qed.

(** ** Shifts by whole numbers of cells *)
Lemma freq_har n u z : (0 < n)%nat -> cis (- (2 * PI) * (freq n u * IZR z / INR n)) = har n u (- z).
Proof.
  intros H. pose proof (INR_pos n H) as P. unfold har, freq. rewrite opp_IZR. destruct (_ <? _)%nat.
  - f_equal. unfold Rdiv. ring.
  - replace (- (2 * PI) * ((INR u - INR n) * IZR z / INR n)) with
      (2 * PI * (INR u * - IZR z / INR n) + 2 * PI * IZR z) by (field; lra).
    rewrite cis_plus, cis_2PI_Z. ring.
Qed.

Lemma shift_har F a b u v : (0 < nr F)%nat -> (0 < nc F)%nat ->
  px (fourier_shift F (IZR a) (IZR b)) u v = (px F u v * har2 (nr F) (nc F) u v (- a) (- b))%C.
Proof.
  intros H1 H2. unfold fourier_shift. cbn [px]. f_equal. rewrite Rmult_plus_distr_l, cis_plus.
  unfold har2. now rewrite !freq_har by assumption.
Qed.

Lemma har2_wrap N M u v x y : (0 < N)%nat -> (0 < M)%nat ->
  har2 N M u v (Z.of_nat (wrap N x)) (Z.of_nat (wrap M y)) = har2 N M u v x y.
Proof. intros H1 H2. unfold har2. rewrite !wrap_mod, !har_period by assumption. reflexivity. Qed.

Lemma ifft_shift F a b : (0 < nr F)%nat -> (0 < nc F)%nat ->
  plane_eq (ifft2_ortho (fourier_shift F (IZR a) (IZR b))) (moved a b (ifft2_ortho F)).
Proof.
  intros H1 H2. split; [reflexivity|]. intros x y Hx Hy.
  unfold moved, around. cbn [px]. rewrite !ifft_px.
  change (nr (fourier_shift F (IZR a) (IZR b))) with (nr F). change (nc (fourier_shift F (IZR a) (IZR b))) with (nc F).
  change (nr (ifft2_ortho F)) with (nr F). change (nc (ifft2_ortho F)) with (nc F).
  f_equal. apply sum2_ext. intros u v _ _. rewrite shift_har, har2_wrap by assumption.
  replace (Z.of_nat x - a)%Z with (- a + Z.of_nat x)%Z by lia. replace (Z.of_nat y - b)%Z with (- b + Z.of_nat y)%Z by lia.
  rewrite har2_plus. ring.
Qed.

(** ** Products of transforms *)
Lemma fft_correlation f g : (0 < nr f)%nat -> (0 < nc f)%nat -> shape g = shape f ->
  plane_eq (ifft2_ortho (pmap2 (fun a b => (a * Cconj b)%C) (fft2_ortho f) (fft2_ortho g)))
           (pmap (fun z => (unit_of (nr f) (nc f) * z)%C) (correlation f g)).
Proof.
  intros HN HM S. unfold shape in S. injection S as Sr Sc. split; [reflexivity|]. intros x y Hx Hy.
  rewrite ifft_px. cbn [pmap px correlation].
  change (nr (pmap2 (fun a b => (a * Cconj b)%C) (fft2_ortho f) (fft2_ortho g))) with (nr f).
  change (nc (pmap2 (fun a b => (a * Cconj b)%C) (fft2_ortho f) (fft2_ortho g))) with (nc f).
  set (K := unit_of (nr f) (nc f)).
  rewrite (sum2_ext _ _ _ (fun u v => (K * K * (px (dft_raw f) u v *
     sum2 (nr g) (nc g) (fun p q => (Cconj (px g p q) * har2 (nr f) (nc f) u v (1 * Z.of_nat p) (1 * Z.of_nat q))%C) *
     har2 (nr f) (nc f) u v (Z.of_nat x) (Z.of_nat y)))%C)).
  - rewrite sum2_scale, filter_at by assumption. f_equal.
    replace (K * K * (RtoC (INR (nr f) * INR (nc f)) * sum2 (nr g) (nc g) (fun p q =>
      (around f (Z.of_nat x + 1 * Z.of_nat p) (Z.of_nat y + 1 * Z.of_nat q) * Cconj (px g p q))%C)))%C with
      (K * K * RtoC (INR (nr f) * INR (nc f)) * sum2 (nr g) (nc g) (fun p q =>
      (around f (Z.of_nat x + 1 * Z.of_nat p) (Z.of_nat y + 1 * Z.of_nat q) * Cconj (px g p q))%C))%C by ring.
    unfold K. rewrite unit_sq by assumption. rewrite Cmult_1_l. apply sum2_ext. intros p q _ _. now rewrite !Z.mul_1_l.
  - intros u v _ _. change (px (pmap2 (fun a b => (a * Cconj b)%C) (fft2_ortho f) (fft2_ortho g)) u v) with
      (px (fft2_ortho f) u v * Cconj (px (fft2_ortho g) u v))%C.
    rewrite !fft_px, conj_mult, (dft_har g), conj_sum2. rewrite Sr, Sc. fold K.
    unfold K at 2. unfold unit_of. rewrite conj_R. fold (unit_of (nr f) (nc f)). fold K.
    rewrite (sum2_ext (nr f) (nc f) (fun i j => Cconj _) (fun p q =>
      (Cconj (px g p q) * har2 (nr f) (nc f) u v (1 * Z.of_nat p) (1 * Z.of_nat q))%C)).
    + ring.
    + intros i j _ _. rewrite conj_mult, har2_conj. now rewrite !Z.opp_involutive, !Z.mul_1_l.
Qed.

Lemma fft_convolution f g : (0 < nr f)%nat -> (0 < nc f)%nat -> shape g = shape f ->
  plane_eq (ifft2_ortho (pmap2 Cmult (fft2_ortho f) (dft_raw g))) (convolution f g).
Proof.
  intros HN HM S. unfold shape in S. injection S as Sr Sc. split; [reflexivity|]. intros x y Hx Hy.
  rewrite ifft_px. cbn [px convolution].
  change (nr (pmap2 Cmult (fft2_ortho f) (dft_raw g))) with (nr f).
  change (nc (pmap2 Cmult (fft2_ortho f) (dft_raw g))) with (nc f).
  set (K := unit_of (nr f) (nc f)).
  rewrite (sum2_ext _ _ _ (fun u v => (K * (px (dft_raw f) u v *
     sum2 (nr g) (nc g) (fun p q => (px g p q * har2 (nr f) (nc f) u v (-1 * Z.of_nat p) (-1 * Z.of_nat q))%C) *
     har2 (nr f) (nc f) u v (Z.of_nat x) (Z.of_nat y)))%C)).
  - rewrite sum2_scale, filter_at by assumption. rewrite !Cmult_assoc. unfold K. rewrite unit_sq by assumption.
    rewrite Cmult_1_l. apply sum2_ext. intros p q _ _. f_equal.
  - intros u v _ _. change (px (pmap2 Cmult (fft2_ortho f) (dft_raw g)) u v) with
      (px (fft2_ortho f) u v * px (dft_raw g) u v)%C.
    rewrite !fft_px, (dft_har g). rewrite Sr, Sc. fold K.
    rewrite (sum2_ext (nr f) (nc f) (fun x y => (px g x y * _)%C) (fun p q =>
      (px g p q * har2 (nr f) (nc f) u v (-1 * Z.of_nat p) (-1 * Z.of_nat q))%C)).
    + ring.
    + intros i j _ _. f_equal.
Qed.
