(** The PSF does not depend on the order of the stars, nor on the signs of the eigenvectors. *)
From Coq Require Import ZArith List Bool Arith Reals Lia Lra Permutation FinFun.
From Verif.Model Require Import Py Plane KL Session.
From Verif.Spec Require Import KL Session Order.
From Verif.Proof Require Import KL KLMain.
Import ListNotations.
Local Open Scope R_scope.
Set Bullet Behavior "Strict Subproofs".

Lemma rsum_perm l l' : Permutation l l' -> rsum l = rsum l'.
Proof. unfold rsum. induction 1; cbn; lra. Qed.

Lemma nodup_map {A B} (f : A -> B) l : NoDup l -> (forall x y, In x l -> In y l -> f x = f y -> x = y) -> NoDup (map f l).
Proof.
  induction 1 as [|a l N _ IH]; intros I; [constructor|]. cbn. constructor.
  - intros H. apply in_map_iff in H. destruct H as (b & E & Hb). apply N.
    rewrite (I a b); [exact Hb|now left|now right|auto].
  - apply IH. intros x y Hx Hy. apply I; now right.
Qed.

Lemma sumn_perm n f g : bFun n f -> bInjective n f -> sumn n (fun j => g (f j)) = sumn n g.
Proof.
  intros F I. rewrite <- !rsum_seq. rewrite <- (map_map f g). apply rsum_perm, Permutation_map.
  apply NoDup_Permutation_bis.
  - apply nodup_map; [apply seq_NoDup|].
    intros x y Hx Hy. apply in_seq in Hx, Hy. apply I; lia.
  - now rewrite map_length.
  - intros x Hx. apply in_map_iff in Hx. destruct Hx as (y & <- & Hy). apply in_seq in Hy. apply in_seq.
    specialize (F y). lia.
Qed.

(** ** Eigenvalues and eigenvectors are determined *)
Section Spectral.
Variable n : nat.
Variables (A : nat -> nat -> R) (V U : nat -> nat -> R) (lam mu : nat -> R).
Hypothesis Asym : forall i j, A i j = A j i.
Hypothesis Vcol : forall k l, (k < n)%nat -> (l < n)%nat -> sumn n (fun j => V j k * V j l) = delta k l.
Hypothesis Vrow : forall i j, (i < n)%nat -> (j < n)%nat -> sumn n (fun k => V i k * V j k) = delta i j.
Hypothesis Ucol : forall k l, (k < n)%nat -> (l < n)%nat -> sumn n (fun j => U j k * U j l) = delta k l.
Hypothesis Urow : forall i j, (i < n)%nat -> (j < n)%nat -> sumn n (fun k => U i k * U j k) = delta i j.
Hypothesis Veig : forall i k, (i < n)%nat -> (k < n)%nat -> sumn n (fun j => A i j * V j k) = lam k * V i k.
Hypothesis Ueig : forall i k, (i < n)%nat -> (k < n)%nat -> sumn n (fun j => A i j * U j k) = mu k * U i k.

Let M j k := sumn n (fun i => V i j * U i k).

Lemma m_eig j k : (j < n)%nat -> (k < n)%nat -> (lam j - mu k) * M j k = 0.
Proof.
  intros Hj Hk. cut (lam j * M j k = mu k * M j k); [lra|]. unfold M. rewrite <- !sumn_scal.
  transitivity (sumn n (fun i => sumn n (fun i' => A i i' * V i' j) * U i k)).
  { apply sumn_ext. intros i Hi. rewrite Veig by assumption. ring. }
  transitivity (sumn n (fun i => sumn n (fun i' => A i i' * V i' j * U i k))).
  { apply sumn_ext. intros i Hi. now rewrite sumn_scal_r. }
  rewrite sumn_swap. apply sumn_ext. intros i Hi.
  transitivity (V i j * sumn n (fun j0 => A i j0 * U j0 k)).
  { rewrite <- sumn_scal. apply sumn_ext. intros i' _. rewrite (Asym i' i). ring. }
  rewrite Ueig by assumption. ring.
Qed.

Lemma delta_sym a b : delta a b = delta b a.
Proof. unfold delta. now rewrite Nat.eqb_sym. Qed.

Lemma u_expand i k : (i < n)%nat -> (k < n)%nat -> U i k = sumn n (fun j => M j k * V i j).
Proof.
  intros Hi Hk. unfold M.
  transitivity (sumn n (fun j => sumn n (fun i' => V i' j * U i' k * V i j))).
  2:{ apply sumn_ext. intros j _. now rewrite sumn_scal_r. }
  rewrite sumn_swap.
  transitivity (sumn n (fun i' => U i' k * delta i i')); [now rewrite sumn_delta|].
  apply sumn_ext. intros i' Hi'. rewrite <- (Vrow i i' Hi Hi'). rewrite <- sumn_scal. apply sumn_ext. intros; ring.
Qed.

Lemma m_col k : (k < n)%nat -> sumn n (fun j => M j k * M j k) = 1.
Proof.
  intros Hk. transitivity (sumn n (fun i => U i k * U i k)).
  2:{ rewrite Ucol by assumption. unfold delta. now rewrite Nat.eqb_refl. }
  transitivity (sumn n (fun i => U i k * sumn n (fun j => M j k * V i j))).
  2:{ apply sumn_ext. intros i Hi. now rewrite <- u_expand. }
  transitivity (sumn n (fun i => sumn n (fun j => M j k * (V i j * U i k)))).
  2:{ apply sumn_ext. intros i Hi. rewrite <- sumn_scal. apply sumn_ext. intros; ring. }
  rewrite sumn_swap. apply sumn_ext. intros j Hj. unfold M at 2. now rewrite <- sumn_scal.
Qed.

Lemma m_row j : (j < n)%nat -> sumn n (fun k => M j k * M j k) = 1.
Proof.
  intros Hj. unfold M at 1.
  transitivity (sumn n (fun k => sumn n (fun i => V i j * U i k * M j k))).
  { apply sumn_ext. intros k _. now rewrite sumn_scal_r. }
  rewrite sumn_swap.
  transitivity (sumn n (fun i => V i j * V i j)).
  2:{ rewrite Vcol by assumption. unfold delta. now rewrite Nat.eqb_refl. }
  apply sumn_ext. intros i Hi. unfold M.
  transitivity (V i j * sumn n (fun k => sumn n (fun i0 => V i0 j * (U i0 k * U i k)))).
  { rewrite <- sumn_scal. apply sumn_ext. intros k _. rewrite !Rmult_assoc. f_equal. rewrite <- sumn_scal.
    apply sumn_ext. intros; ring. }
  f_equal. rewrite sumn_swap. transitivity (sumn n (fun i0 => V i0 j * delta i i0)); [|now rewrite sumn_delta].
  apply sumn_ext. intros i0 Hi0. rewrite sumn_scal. f_equal. rewrite Urow by assumption. apply delta_sym.
Qed.

(** How many eigenvalues are at most t. *)
Let below (x : nat -> R) (t : R) (j : nat) : R := if Rle_dec (x j) t then 1 else 0.

Lemma count_same t : sumn n (below lam t) = sumn n (below mu t).
Proof.
  transitivity (sumn n (fun j => sumn n (fun k => below lam t j * (M j k * M j k)))).
  { apply sumn_ext. intros j Hj. rewrite sumn_scal, m_row by assumption. ring. }
  transitivity (sumn n (fun j => sumn n (fun k => below mu t k * (M j k * M j k)))).
  { apply sumn_ext. intros j Hj. apply sumn_ext. intros k Hk. pose proof (m_eig j k Hj Hk) as E.
    destruct (Req_dec (M j k) 0) as [Z|Z]; [rewrite Z; ring|].
    assert (lam j = mu k) as Q by (apply Rmult_integral in E; destruct E; [lra|contradiction]).
    unfold below. now rewrite Q. }
  rewrite sumn_swap. apply sumn_ext. intros k Hk. rewrite sumn_scal, m_col by assumption. ring.
Qed.

Hypothesis Lasc : forall i j, (i <= j < n)%nat -> lam i <= lam j.
Hypothesis Uasc : forall i j, (i <= j < n)%nat -> mu i <= mu j.

Lemma sumn_first m a f : (m <= a)%nat -> (forall k, (k < a)%nat -> 0 <= f k) -> (forall k, (k < m)%nat -> f k = 1) -> INR m <= sumn a f.
Proof.
  intros Hm H0 H1. replace a with (m + (a - m))%nat by lia. rewrite sumn_app.
  assert (E : sumn m f = INR m).
  { clear - H1. induction m as [|m IH]; [reflexivity|]. cbn [sumn]. rewrite IH by (intros; apply H1; lia).
    rewrite (H1 m) by lia. now rewrite S_INR. }
  rewrite E. assert (0 <= sumn (a - m) (fun k => f (m + k)%nat)); [|lra]. apply sumn_nonneg. intros k Hk. apply H0. lia.
Qed.

Lemma sumn_rest m a f : (m <= a)%nat -> (forall k, (k < a)%nat -> f k <= 1) -> (forall k, (m <= k < a)%nat -> f k = 0) -> sumn a f <= INR m.
Proof.
  intros Hm H0 H1. replace a with (m + (a - m))%nat by lia. rewrite sumn_app.
  assert (E : sumn (a - m) (fun k => f (m + k)%nat) = 0).
  { transitivity (sumn (a - m) (fun _ => 0)); [|apply sumn_zero]. apply sumn_ext. intros k Hk. apply H1. lia. }
  rewrite E. assert (sumn m f <= INR m); [|lra].
  assert (H2 : forall k, (k < m)%nat -> f k <= 1) by (intros; apply H0; lia). clear - H2.
  induction m as [|m IH]; [cbn; lra|]. cbn [sumn]. rewrite S_INR.
  assert (sumn m f <= INR m) by (apply IH; intros; apply H2; lia). specialize (H2 m). assert (f m <= 1) by (apply H2; lia). lra.
Qed.

Lemma same_spectrum i : (i < n)%nat -> lam i = mu i.
Proof.
  assert (B1 : forall x t k, 0 <= below x t k) by (intros; unfold below; destruct (Rle_dec _ _); lra).
  assert (B2 : forall x t k, below x t k <= 1) by (intros; unfold below; destruct (Rle_dec _ _); lra).
  assert (C : forall x y, (forall i j, (i <= j < n)%nat -> x i <= x j) -> (forall i j, (i <= j < n)%nat -> y i <= y j) ->
     (forall t, sumn n (below x t) = sumn n (below y t)) -> forall i, (i < n)%nat -> ~ x i < y i).
  { clear i. intros x y Hx Hy Hc i Hi Lt.
    assert (X : INR (S i) <= sumn n (below x (x i))).
    { apply sumn_first; [lia|auto|]. intros k Hk. unfold below. destruct (Rle_dec _ _) as [|N]; [reflexivity|].
      exfalso. apply N. apply Hx. lia. }
    assert (Y : sumn n (below y (x i)) <= INR i).
    { apply sumn_rest; [lia|auto|]. intros k Hk. unfold below. destruct (Rle_dec _ _) as [Q|]; [|reflexivity].
      exfalso. assert (y i <= y k) by (apply Hy; lia). lra. }
    rewrite S_INR in X. rewrite Hc in X. lra. }
  intros Hi. pose proof (C lam mu Lasc Uasc count_same i Hi).
  pose proof (C mu lam Uasc Lasc (fun t => eq_sym (count_same t)) i Hi). lra.
Qed.

Lemma same_vector k : (k < n)%nat -> (forall j, (j < n)%nat -> j <> k -> lam j <> lam k) ->
  exists s, (s = 1 \/ s = -1) /\ forall i, (i < n)%nat -> U i k = s * V i k.
Proof.
  intros Hk Sk. exists (M k k).
  assert (Z : forall j, (j < n)%nat -> M j k = M j k * delta k j).
  { intros j Hj. unfold delta. destruct (Nat.eqb_spec k j) as [->|N]; [ring|].
    pose proof (m_eig j k Hj Hk) as E. rewrite <- (same_spectrum k Hk) in E.
    apply Rmult_integral in E. destruct E as [E|E]; [|rewrite E; ring]. exfalso. apply (Sk j Hj); [auto|lra]. }
  split.
  - assert (Q : M k k * M k k = 1).
    { rewrite <- (m_col k Hk). transitivity (sumn n (fun j => (M j k * M j k) * delta k j)).
      - now rewrite (sumn_delta n k (fun j => M j k * M j k) Hk).
      - apply sumn_ext. intros j Hj. rewrite (Z j Hj) at 3. ring. }
    assert ((M k k - 1) * (M k k + 1) = 0) as P by lra. apply Rmult_integral in P. destruct P; [left|right]; lra.
  - intros i Hi. rewrite (u_expand i k Hi Hk).
    transitivity (sumn n (fun j => (M j k * V i j) * delta k j)).
    + apply sumn_ext. intros j Hj. rewrite (Z j Hj) at 1. ring.
    + now rewrite (sumn_delta n k (fun j => M j k * V i j) Hk).
Qed.
End Spectral.

(** ** The stamps in another order *)
Section Reorder.
Variables (sh : nat * nat) (stamps stamps' : list (plane R)) (f : nat -> nat).
Let n := length stamps.
Hypothesis Hlen : length stamps' = n.
Hypothesis Hf : bFun n f.
Hypothesis Hi : bInjective n f.
Hypothesis Hnth : forall j, (j < n)%nat -> nth j stamps' (pconst (0, 0)%nat 0) = nth (f j) stamps (pconst (0, 0)%nat 0).

Lemma columns_perm p j : (j < n)%nat -> columns stamps' p j = columns stamps p (f j).
Proof. intros Hj. unfold columns. now rewrite Hnth. Qed.

Lemma cov_perm c : KL.cov_matrix sh stamps = Ok c ->
  exists c', KL.cov_matrix sh stamps' = Ok c' /\ forall i j, (i < n)%nat -> (j < n)%nat -> c' i j = c (f i) (f j).
Proof.
  intros H. pose proof (cov_ok _ _ _ H) as (Hs & Hc).
  assert (X : exists c', KL.cov_matrix sh stamps' = Ok c').
  { apply C37_shapes_lm. apply Forall_forall. intros q Hq. apply In_nth with (d := pconst (0, 0)%nat 0) in Hq.
    destruct Hq as (j & Hj & <-). rewrite Hlen in Hj. rewrite Hnth by exact Hj. apply Hs. exact (Hf j Hj). }
  destruct X as (c' & H'). exists c'. split; [exact H'|]. apply cov_ok in H'. destruct H' as (_ & Hc').
  intros i j Qi Qj. subst c c'. rewrite Hlen. fold n. destruct (Nat.leb n 250).
  - unfold np_cov. f_equal. apply sumn_ext. intros p _. rewrite !columns_perm by assumption.
    assert (E : forall k, (k < n)%nat -> sumn (fst sh * snd sh) (fun p => columns stamps' p k) =
      sumn (fst sh * snd sh) (fun p => columns stamps p (f k))).
    { intros k Hk. apply sumn_ext. intros q _. now rewrite columns_perm. }
    now rewrite (E i Qi), (E j Qj).
  - rewrite !gram_sym_form. apply sumn_ext. intros p _. now rewrite !columns_perm by assumption.
Qed.

Lemma combination_perm V V' s k p : (forall j, (j < n)%nat -> V' j k = s * V (f j) k) ->
  combination n stamps' V' k p = s * combination n stamps V k p.
Proof.
  intros H. unfold combination. rewrite <- (sumn_perm n f (fun j => columns stamps p j * V j k) Hf Hi).
  rewrite <- sumn_scal. apply sumn_ext. intros j Hj. rewrite columns_perm, H by exact Hj. ring.
Qed.

(** The answers of two solvers for the two matrices. *)
Lemma solver_perm c c' r r' : KL.cov_matrix sh stamps = Ok c -> KL.cov_matrix sh stamps' = Ok c' ->
  eigh_ok n c r -> eigh_ok n c' r' ->
  fst r' = fst r /\
  forall k, (k < n)%nat -> (forall j, (j < n)%nat -> j <> k -> nth j (fst r) 0 <> nth k (fst r) 0) ->
    exists s, (s = 1 \/ s = -1) /\ forall j, (j < n)%nat -> snd r' j k = s * snd r (f j) k.
Proof.
  intros H H' (Lr & Ar & Cr & Rr & Er) (Lr' & Ar' & Cr' & Rr' & Er').
  destruct (cov_perm c H) as (c2 & H2 & Hc). rewrite H2 in H'. injection H' as <-.
  destruct (bSurjective_bBijective Hf) as (g & Hg & Hfg); [now apply (bInjective_bSurjective Hf)|].
  assert (Ig : bInjective n g).
  { intros x y Hx Hy E. rewrite <- (proj2 (Hfg x Hx)), <- (proj2 (Hfg y Hy)). now rewrite E. }
  pose (U := fun i k => snd r' (g i) k).
  assert (Ucol : forall k l, (k < n)%nat -> (l < n)%nat -> sumn n (fun j => U j k * U j l) = delta k l).
  { intros k l Hk Hl. unfold U. rewrite (sumn_perm n g (fun j => snd r' j k * snd r' j l) Hg Ig). now apply Cr'. }
  assert (Urow : forall i j, (i < n)%nat -> (j < n)%nat -> sumn n (fun k => U i k * U j k) = delta i j).
  { intros i j Qi Qj. unfold U. rewrite Rr'; [|now apply Hg|now apply Hg]. unfold delta.
    destruct (Nat.eqb_spec i j) as [->|N]; [now rewrite Nat.eqb_refl|].
    destruct (Nat.eqb_spec (g i) (g j)) as [E|]; [|reflexivity]. now apply Ig in E. }
  assert (Ueig : forall i k, (i < n)%nat -> (k < n)%nat -> sumn n (fun j => c i j * U j k) = nth k (fst r') 0 * U i k).
  { intros i k Qi Qk. unfold U. rewrite <- (Er' (g i) k (Hg i Qi) Qk).
    rewrite <- (sumn_perm n g (fun j => c2 (g i) j * snd r' j k) Hg Ig).
    apply sumn_ext. intros j Qj. rewrite Hc by (apply Hg; assumption).
    now rewrite (proj2 (Hfg i Qi)), (proj2 (Hfg j Qj)). }
  pose proof (cov_sym sh stamps c) as Sym. assert (Asym : forall i j, c i j = c j i) by (intros; now apply Sym).
  split.
  - apply (nth_ext _ _ 0 0); [congruence|]. intros i Q. rewrite Lr' in Q. symmetry.
    apply (same_spectrum n c (snd r) U (fun k => nth k (fst r) 0) (fun k => nth k (fst r') 0)); assumption.
  - intros k Qk Sk.
    destruct (same_vector n c (snd r) U (fun k => nth k (fst r) 0) (fun k => nth k (fst r') 0) Asym Cr Rr Ucol Urow Er Ueig Ar Ar' k Qk Sk) as
      (s & Hs & E).
    exists s. split; [exact Hs|]. intros j Qj. rewrite <- (E (f j) (Hf j Qj)). unfold U. now rewrite (proj1 (Hfg j Qj)).
Qed.
End Reorder.
