(** Stars whose stamps have negative cells, more than 250 of them. *)
From Coq Require Import ZArith List Bool Arith Reals Lia Lra.
From Verif.Model Require Import Py Plane KL.
From Verif.Spec Require Import KL Many.
From Verif.Proof Require Import KL KLMain Many.
Import ListNotations.
Set Bullet Behavior "Strict Subproofs".
Local Open Scope R_scope.

(** Two rows; a cell of 3/2 above one of -1/2, at another place in each stamp. *)
Definition pair (n a : nat) : plane R :=
  mkplane 2 n (fun i j => (if Nat.eqb i 0 then 3 / 2 else - (1 / 2)) * delta a j).
Definition pairs (n : nat) : list (plane R) := map (pair n) (seq 0 n).
Definition pair_eigh (n : nat) (_ : nat -> nat -> R) : list R * (nat -> nat -> R) := (repeat (5 / 2) n, delta).

Lemma pairs_length n : length (pairs n) = n.
Proof. unfold pairs. now rewrite map_length, seq_length. Qed.

Lemma pairs_nth n a : (a < n)%nat -> nth a (pairs n) (pconst (0, 0)%nat 0) = pair n a.
Proof.
  intros H. unfold pairs. rewrite (nth_indep _ _ (pair n 0)) by (now rewrite map_length, seq_length).
  rewrite map_nth, seq_nth by exact H. reflexivity.
Qed.

Lemma pairs_shape n : Forall (fun p => shape p = (2, n)%nat) (pairs n).
Proof. unfold pairs. apply Forall_map, Forall_forall. reflexivity. Qed.

Lemma sum_delta n a x : (a < n)%nat -> sumn n (fun j => x * delta a j) = x.
Proof. intros H. exact (sumn_delta n a (fun _ => x) H). Qed.

Lemma pair_total n a : (a < n)%nat -> total (pair n a) = 1.
Proof.
  intros H. unfold total, sum2, shape. cbn [pair nr nc px fst snd sumn Nat.eqb].
  rewrite !sum_delta by exact H. lra.
Qed.

Lemma pair_inner n a b : (a < n)%nat -> (b < n)%nat -> inner (pair n a) (pair n b) = 5 / 2 * delta a b.
Proof.
  intros Ha Hb. unfold inner, sum2, shape. cbn [pair nr nc px fst snd sumn Nat.eqb].
  assert (E : forall x, sumn n (fun j => x * delta a j * (x * delta b j)) = x * x * delta b a).
  { intros x. rewrite (sumn_ext n _ (fun j => x * x * delta b j * delta a j)) by (intros; ring).
    now rewrite (sumn_delta n a (fun j => x * x * delta b j)). }
  rewrite !E. replace (delta b a) with (delta a b) by (unfold delta; now rewrite Nat.eqb_sym). lra.
Qed.

Lemma pairs_cov n : (250 < n)%nat -> exists c, cov_matrix (2, n)%nat (pairs n) = Ok c /\
  forall i j, (i < n)%nat -> (j < n)%nat -> c i j = 5 / 2 * delta i j.
Proof.
  intros N. destruct (C37_shapes_lm (2, n)%nat (pairs n)) as [[H _] _]. destruct (H (pairs_shape n)) as (c & C).
  exists c. split; [exact C|]. intros i j Hi Hj.
  destruct (C37_covariance_lm _ _ _ C) as (_ & _ & V); [cbn; lia|]. rewrite pairs_length in V. rewrite V by assumption.
  destruct (Nat.leb_spec n 250); [lia|]. rewrite !pairs_nth by assumption. now apply pair_inner.
Qed.

Lemma pairs_eigh n c : (forall i j, (i < n)%nat -> (j < n)%nat -> c i j = 5 / 2 * delta i j) ->
  eigh_ok n c (pair_eigh n c).
Proof.
  intros C. unfold eigh_ok, pair_eigh. cbn [fst snd]. split; [apply repeat_length|].
  assert (R : forall k, (k < n)%nat -> nth k (repeat (5 / 2) n) 0 = 5 / 2).
  { intros k Hk. rewrite (nth_indep _ _ (5 / 2)) by (now rewrite repeat_length). apply nth_repeat. }
  assert (Sy : forall a b, delta a b = delta b a) by (intros; unfold delta; now rewrite Nat.eqb_sym).
  split; [intros i j H; rewrite !R by lia; lra|].
  split; [intros k l Hk Hl; rewrite (sumn_ext n _ (fun j => delta j l * delta k j)) by (intros; rewrite (Sy k k0); ring);
          now rewrite (sumn_delta n k (fun j => delta j l))|].
  split; [intros i j Hi Hj; rewrite (sumn_ext n _ (fun k => delta j k * delta i k)) by (intros; ring);
          rewrite (sumn_delta n i (fun k => delta j k)) by exact Hi; apply Sy|].
  intros i k Hi Hk. rewrite R by exact Hk.
  rewrite (sumn_ext n _ (fun j => 5 / 2 * delta j k * delta i j)) by (intros; rewrite C by assumption; ring).
  now rewrite (sumn_delta n i (fun j => 5 / 2 * delta j k)).
Qed.

Lemma pairs_blend n i j : (250 < n)%nat ->
  px (blend (2, n)%nat (pairs n) delta 0) i j = px (pair n (n - 1)) i j.
Proof.
  intros N. cbn [blend px]. rewrite pairs_length. unfold eigen_component.
  rewrite (sumn_ext n _ (fun a => px (pair n a) i j * delta (n - 1) a)).
  - rewrite (sumn_delta n (n - 1) (fun a => px (pair n a) i j)) by lia. reflexivity.
  - intros a Ha. rewrite pairs_nth by exact Ha. f_equal. unfold delta. rewrite Nat.sub_0_r. now rewrite Nat.eqb_sym.
Qed.

Lemma pairs_basis n c : (250 < n)%nat -> cov_matrix (2, n)%nat (pairs n) = Ok c ->
  (forall i j, (i < n)%nat -> (j < n)%nat -> c i j = 5 / 2 * delta i j) ->
  exists basis, kl_basis pair_eigh None (2, n)%nat (pairs n) (1 / 5) = Ok basis /\ (0 < length basis)%nat.
Proof.
  intros N C V.
  assert (K : eigh_ok (length (pairs n)) c (pair_eigh (length (pairs n)) c)) by (rewrite pairs_length; now apply pairs_eigh).
  destruct (C38_exists_lm pair_eigh None (2, n)%nat (pairs n) (1 / 5)) as (basis & B).
  - intros c' C'. rewrite C in C'. injection C' as <-. exact K.
  - lra.
  - apply pairs_shape.
  - rewrite pairs_length. lia.
  - exists basis. split; [exact B|].
    destruct (C38_number_of_elements_lm pair_eigh None (2, n)%nat (pairs n) (1 / 5) c basis C K ltac:(lra) B) as (_ & H & _).
    apply H. rewrite pairs_length. cbn [pair_eigh fst]. destruct n as [|n]; [lia|]. cbn [repeat sum_abs fold_right].
    pose proof (sum_abs_nonneg (repeat (5 / 2) n)) as Z. unfold sum_abs in Z. rewrite Rabs_pos_eq by lra. lra.
Qed.

Lemma pairs_faintest n : (250 < n)%nat -> let t := blend (2, n)%nat (pairs n) delta 0 in
  total t = 1 /\ faintest (pmap (fun x => x / total t) t) (- (1 / 2)).
Proof.
  intros N t. assert (T : total t = 1).
  { transitivity (total (pair n (n - 1))); [|apply pair_total; lia]. unfold total, sum2, shape.
    cbn [fst snd]. change (nr t) with 2%nat. change (nc t) with n. cbn [pair nr nc].
    apply sumn_ext; intros i _. apply sumn_ext; intros j _. now apply pairs_blend. }
  split; [exact T|]. rewrite T. split.
  - exists 1%nat, (n - 1)%nat. split; [cbn; lia|]. split; [cbn; lia|]. cbn [pmap px]. unfold t. rewrite pairs_blend by exact N.
    cbn [pair px Nat.eqb]. unfold delta. rewrite Nat.eqb_refl. lra.
  - intros i j _ _. cbn [pmap px]. unfold t. rewrite pairs_blend by exact N. cbn [pair px]. unfold delta.
    destruct (Nat.eqb i 0), (Nat.eqb (n - 1) j); lra.
Qed.

(** It can happen that the only bright cell of a star is the faintest cell of the element, and
    negative: for any number of stamps above 250 there are stamps of sum one like that. *)
Lemma C112_bright_cell_refuted_lm : forall n, (250 < n)%nat -> exists eigh sh stamps c basis star q i j,
  length stamps = n /\ cov_matrix sh stamps = Ok c /\ eigh_ok n c (eigh n c) /\
  (forall p, In p stamps -> total p = 1) /\
  kl_basis eigh None sh stamps (1 / 5) = Ok basis /\ plane_eq (hd (pconst (0, 0)%nat None) basis) (pmap Some q) /\
  In star stamps /\ plane_eq (blend sh stamps (snd (eigh n c)) 0) star /\
  (i < fst sh)%nat /\ (j < snd sh)%nat /\ px q i j < 0 < px star i j /\
  forall i' j', (i' < fst sh)%nat -> (j' < snd sh)%nat -> (i', j') <> (i, j) ->
    px star i' j' < px star i j /\ px q i j < px q i' j'.
Proof.
  intros n N. destruct (pairs_cov n N) as (c & C & V). destruct (pairs_basis n c N C V) as (basis & B & Len).
  pose proof (pairs_faintest n N) as Fm. cbv zeta in Fm. destruct Fm as [T F].
  assert (X : snd (pair_eigh (length (pairs n)) c) = delta) by reflexivity.
  pose proof (C112_elements_lm pair_eigh (2, n)%nat (pairs n) (1 / 5) c basis 0 C) as El.
  rewrite pairs_length in El. specialize (El N ltac:(cbn; lia) ltac:(cbn; lia) B Len). cbn [snd pair_eigh] in El.
  cbv zeta in El. destruct El as (Se & _ & El). destruct (El ltac:(rewrite T; lra) _ F) as [_ W]. clear El.
  rewrite T in W. set (w := 1 - _ * Rabs (- (1 / 2))) in W.
  assert (Wn : w < -249).
  { unfold w. rewrite Rabs_Ropp, Rabs_pos_eq by lra. cbn [fst snd].
    assert (INR 251 <= INR n) by (apply le_INR; lia). rewrite mult_INR.
    replace (INR 251) with 251 in H by (rewrite INR_IZR_INZ; reflexivity). replace (INR 2) with 2 by (cbn; lra). lra. }
  specialize (W ltac:(lra)).
  set (q := mkplane 2 n (fun i j => (px (pair n (n - 1)) i j / 1 - 1 / 2) / w)).
  assert (Q : plane_eq (nth 0 basis (pconst (0, 0)%nat None)) (pmap Some q)).
  { split; [exact Se|]. intros i j Hi Hj. change (i < fst (shape (nth 0 basis (pconst (0, 0)%nat None))))%nat in Hi.
    change (j < snd (shape (nth 0 basis (pconst (0, 0)%nat None))))%nat in Hj. rewrite Se in Hi, Hj.
    rewrite W by assumption. rewrite pairs_blend by exact N. cbn [pmap px q]. rewrite Rabs_Ropp, (Rabs_pos_eq (1 / 2)) by lra. reflexivity. }
  assert (Iw : / w < 0) by (apply Rinv_lt_0_compat; lra).
  exists pair_eigh, (2, n)%nat, (pairs n), c, basis, (pair n (n - 1)), q, 0%nat, (n - 1)%nat.
  split; [apply pairs_length|]. split; [exact C|]. split; [now apply pairs_eigh|].
  split. { intros p Hp. unfold pairs in Hp. apply in_map_iff in Hp. destruct Hp as (a & <- & Ha). apply in_seq in Ha. apply pair_total. lia. }
  split; [exact B|]. split; [destruct basis; [cbn in Len; lia|exact Q]|].
  split. { unfold pairs. apply in_map_iff. exists (n - 1)%nat. split; [reflexivity|]. apply in_seq. lia. }
  split. { split; [reflexivity|]. intros i j _ _. now apply pairs_blend. }
  split; [cbn; lia|]. split; [cbn; lia|].
  assert (Star : px (pair n (n - 1)) 0 (n - 1) = 3 / 2).
  { cbn [pair px Nat.eqb]. unfold delta. rewrite Nat.eqb_refl. lra. }
  cbn [q px]. rewrite Star. split; [unfold Rdiv; nra|].
  intros i j Hi Hj Ne. assert (Le : px (pair n (n - 1)) i j <= 0).
  { cbn [pair px]. unfold delta. destruct (Nat.eqb_spec i 0) as [->|]; destruct (Nat.eqb_spec (n - 1) j) as [<-|]; try lra. now elim Ne. }
  split; [lra|]. unfold Rdiv at 1 3. nra.
Qed.

(** 251 such stamps. *)
Lemma C112_case_lm : exists c basis, cov_matrix (2, 251)%nat (pairs 251) = Ok c /\ length (pairs 251) = 251%nat /\
  kl_basis pair_eigh None (2, 251)%nat (pairs 251) (1 / 5) = Ok basis /\ (0 < length basis)%nat /\
  let t := blend (2, 251)%nat (pairs 251) (snd (pair_eigh 251 c)) 0 in
  total t = 1 /\ faintest (pmap (fun x => x / total t) t) (- (1 / 2)).
Proof.
  assert (N : (250 < 251)%nat) by lia.
  destruct (pairs_cov 251 N) as (c & C & V). destruct (pairs_basis 251 c N C V) as (basis & B & Len).
  exists c, basis. split; [exact C|]. split; [apply pairs_length|]. split; [exact B|]. split; [exact Len|].
  exact (pairs_faintest 251 N).
Qed.
