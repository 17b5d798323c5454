(** Main lemmas about the covariance matrix, the cut and the basis. *)
From Coq Require Import ZArith List Bool Arith Reals Lia Lra.
From Verif.Model Require Import Py Plane KL.
From Verif.Spec Require Import KL.
From Verif.Proof Require Import KL.
Import ListNotations.
Local Open Scope R_scope.

Notation nth_stamp j stamps := (nth j stamps (pconst (0, 0)%nat 0)).

Lemma pmean_stamp sh stamps j : shape (nth_stamp j stamps) = sh ->
  pmean (fst sh * snd sh) (columns stamps) j = mean2 (nth_stamp j stamps).
Proof.
  intros <-. unfold pmean, mean2, columns. f_equal.
  exact (sum_flat (nth_stamp j stamps) (fun x => x)).
Qed.

(** The matrix is symmetric, its quadratic form is non-negative, and its entries are the
    covariances of the stamps (at most 250 of them) or their plain inner products. *)
Lemma C37_covariance_lm : forall sh stamps c,
  cov_matrix sh stamps = Ok c -> (1 < fst sh * snd sh)%nat ->
  let n := length stamps in
  (forall i j, c i j = c j i) /\
  (forall x, 0 <= sumn n (fun i => sumn n (fun j => x i * c i j * x j))) /\
  (forall i j, (i < n)%nat -> (j < n)%nat ->
     c i j = if Nat.leb n 250
             then cross (nth i stamps (pconst (0, 0)%nat 0)) (nth j stamps (pconst (0, 0)%nat 0))
                  / INR (fst sh * snd sh - 1)
             else inner (nth i stamps (pconst (0, 0)%nat 0)) (nth j stamps (pconst (0, 0)%nat 0))).
Proof.
  intros sh stamps c H HP n. split; [intros i j; exact (cov_sym sh stamps c i j H)|].
  apply cov_ok in H. destruct H as [S ->]. fold n in S |- *.
  destruct (Nat.leb n 250) eqn:E.
  - split.
    + intros x.
      rewrite (sumn_ext n _ (fun i => sumn n (fun j => x i * sumn (fst sh * snd sh)
         (fun p => ctr (fst sh * snd sh) (columns stamps) p i * ctr (fst sh * snd sh) (columns stamps) p j) * x j)
           * / INR (fst sh * snd sh - 1))).
      * rewrite sumn_scal_r, quad_gram. apply Rmult_le_pos.
        -- apply sumn_nonneg. intros; apply Rle_0_sqr.
        -- apply Rlt_le, Rinv_0_lt_compat, lt_0_INR. lia.
      * intros i _. rewrite <- sumn_scal_r. apply sumn_ext. intros j _. rewrite np_cov_ctr.
        unfold Rdiv. ring.
    + intros i j Hi Hj. rewrite np_cov_ctr. f_equal. unfold ctr.
      rewrite (pmean_stamp sh stamps i), (pmean_stamp sh stamps j) by auto.
      unfold cross.
      replace (fst sh * snd sh)%nat with (nr (nth_stamp i stamps) * nc (nth_stamp i stamps))%nat
        by (rewrite <- (S i Hi); reflexivity).
      unfold columns.
      rewrite <- (sum_flat2 (nth_stamp i stamps) (nth_stamp j stamps)
        (fun a b => (a - mean2 (nth_stamp i stamps)) * (b - mean2 (nth_stamp j stamps)))); [reflexivity|].
      now rewrite !S.
  - split.
    + intros x.
      rewrite (sumn_ext n _ (fun i => sumn n (fun j => x i * sumn (fst sh * snd sh)
         (fun p => columns stamps p i * columns stamps p j) * x j))).
      * rewrite quad_gram. apply sumn_nonneg. intros; apply Rle_0_sqr.
      * intros i _. apply sumn_ext. intros j _. now rewrite gram_sym_form.
    + intros i j Hi Hj. rewrite gram_sym_form. unfold inner.
      replace (fst sh * snd sh)%nat with (nr (nth_stamp i stamps) * nc (nth_stamp i stamps))%nat
        by (rewrite <- (S i Hi); reflexivity).
      unfold columns.
      rewrite <- (sum_flat2 (nth_stamp i stamps) (nth_stamp j stamps) Rmult); [reflexivity|].
      now rewrite !S.
Qed.

(** The matrix exists exactly when all stamps have the stamp shape. *)
Lemma C37_shapes_lm : forall sh stamps,
  (Forall (fun p => shape p = sh) stamps <-> exists c, cov_matrix sh stamps = Ok c) /\
  (~ Forall (fun p => shape p = sh) stamps -> cov_matrix sh stamps = Raise ValueError).
Proof.
  intros sh stamps.
  assert (K : forallb (fun p => Nat.eqb (nr p) (fst sh) && Nat.eqb (nc p) (snd sh)) stamps = true
              <-> Forall (fun p : plane R => shape p = sh) stamps).
  { rewrite forallb_forall, Forall_forall. split; intros H p Hp; specialize (H p Hp).
    - apply andb_true_iff in H. destruct H as [A B]. apply Nat.eqb_eq in A, B.
      destruct sh. unfold shape. cbn in *. congruence.
    - subst sh. cbn [shape fst snd]. now rewrite !Nat.eqb_refl. }
  unfold cov_matrix. split; [split|].
  - intros F. rewrite (proj2 K F). cbn [negb]. eexists. reflexivity.
  - intros [c H]. destruct (forallb _ stamps); [now apply K|discriminate].
  - intros F. destruct (forallb _ stamps); [|reflexivity]. exfalso. now apply F, K.
Qed.

Lemma eigenv_ok eigh sh stamps c : cov_matrix sh stamps = Ok c -> length stamps <> 1%nat ->
  eigenv eigh sh stamps = Ok (eigh (length stamps) c).
Proof.
  intros H N. unfold eigenv. rewrite H. cbn [bind].
  now rewrite (proj2 (Nat.eqb_neq _ 1) N).
Qed.

Lemma unit_single (l : list (plane (option R))) :
  length (match l with [p] => [unit_total p] | l => l end) = length l.
Proof. destruct l as [|a [|b l]]; reflexivity. Qed.

Lemma kl_basis_length eigh smooth sh stamps L c basis :
  cov_matrix sh stamps = Ok c ->
  kl_basis eigh smooth sh stamps L = Ok basis ->
  length basis = Nat.min (length stamps) (kl_cut L (fst (eigh (length stamps) c))).
Proof.
  intros H B. unfold kl_basis, eigenv in B. rewrite H in B. cbn [bind] in B.
  destruct (Nat.eqb (length stamps) 1); [discriminate|]. cbn [bind] in B.
  destruct (eigh (length stamps) c) as [valh vech]. cbn [fst]. cbn zeta in B.
  assert (G : forall l : list (plane (option R)),
    length ((fun pb => match pb with [p] => [unit_total p] | l => l end)
            (match smooth with
             | Some g => map (fun p => unit_total (g p)) (rev l)
             | None => rev l end)) = length l).
  { intros l. cbn beta. rewrite unit_single. destruct smooth; rewrite ?map_length, rev_length; reflexivity. }
  cbn beta in G.
  destruct (Nat.leb (length stamps) 250).
  - cbn [bind] in B. apply (f_equal (fun r => match r with Ok l => length l | _ => 0%nat end)) in B.
    rewrite G, map_length, seq_length in B. lia.
  - destruct (Nat.ltb_spec (length stamps) (kl_cut L valh)) as [|Ge]; [discriminate|].
    cbn [bind] in B. apply (f_equal (fun r => match r with Ok l => length l | _ => 0%nat end)) in B.
    rewrite G, map_length, seq_length in B. lia.
Qed.

(** How many elements the basis has. *)
Lemma C38_number_of_elements_lm : forall eigh smooth sh stamps L c basis,
  cov_matrix sh stamps = Ok c -> eigh_ok (length stamps) c (eigh (length stamps) c) -> 0 <= L ->
  kl_basis eigh smooth sh stamps L = Ok basis ->
  let vals := fst (eigh (length stamps) c) in
  (length basis <= length stamps)%nat /\
  (sum_abs vals <> 0 ->
     (1 <= length basis)%nat /\
     (1 - L) * sum_abs vals <= power_of_last (length basis) vals /\
     forall k, (1 <= k < length basis)%nat -> power_of_last k vals < (1 - L) * sum_abs vals) /\
  (sum_abs vals = 0 -> stamps <> [] -> length basis = 1%nat).
Proof.
  intros eigh smooth sh stamps L c basis H He HL B vals.
  rewrite (kl_basis_length eigh smooth sh stamps L c basis H B). fold vals.
  destruct He as (Ln & _). fold vals in Ln. split; [lia|]. split.
  - intros N. destruct (kl_cut_spec L vals HL N) as (R1 & A1 & B1).
    rewrite Nat.min_r by lia. split; [lia|]. split; assumption.
  - intros Z Ns. unfold kl_cut. destruct (Req_EM_T (sum_abs vals) 0); [|contradiction].
    destruct stamps; [congruence|]. cbn [length]. lia.
Qed.

(** Allowing more loss never adds elements. *)
Lemma C38_monotone_lm : forall eigh smooth sh stamps L L' basis basis',
  0 <= L -> L <= L' ->
  kl_basis eigh smooth sh stamps L = Ok basis ->
  kl_basis eigh smooth sh stamps L' = Ok basis' ->
  (length basis' <= length basis)%nat.
Proof.
  intros eigh smooth sh stamps L L' basis basis' HL HLL B B'.
  destruct (cov_matrix sh stamps) as [c|e] eqn:H.
  - rewrite (kl_basis_length _ _ _ _ _ _ _ H B), (kl_basis_length _ _ _ _ _ _ _ H B').
    pose proof (kl_cut_antitone L L' (fst (eigh (length stamps) c)) HL HLL). lia.
  - unfold kl_basis, eigenv in B. rewrite H in B. discriminate.
Qed.

(** The basis exists for any number of stamps other than one; with no loss allowed it still
    stops at the last element needed. *)
Lemma C38_exists_lm : forall eigh smooth sh stamps L,
  (forall c, cov_matrix sh stamps = Ok c -> eigh_ok (length stamps) c (eigh (length stamps) c)) ->
  0 <= L -> Forall (fun p => shape p = sh) stamps -> (length stamps <> 1)%nat ->
  exists basis, kl_basis eigh smooth sh stamps L = Ok basis.
Proof.
  intros eigh smooth sh stamps L He HL F N.
  destruct (proj1 (proj1 (C37_shapes_lm sh stamps)) F) as [c H].
  unfold kl_basis. rewrite (eigenv_ok eigh sh stamps c H N). cbn [bind].
  destruct (He c H) as (Ln & _).
  destruct (eigh (length stamps) c) as [valh vech]. cbn [fst] in Ln. cbn zeta.
  destruct (Nat.leb_spec (length stamps) 250) as [|G]; [cbn [bind]; eexists; reflexivity|].
  destruct (Nat.ltb_spec (length stamps) (kl_cut L valh)) as [Lt|]; [|cbn [bind]; eexists; reflexivity].
  exfalso. destruct (Req_EM_T (sum_abs valh) 0) as [Z|Z].
  - unfold kl_cut in Lt. destruct (Req_EM_T (sum_abs valh) 0); [lia|contradiction].
  - destruct (kl_cut_spec L valh HL Z) as (R1 & _). lia.
Qed.

(** With a single stamp there is no PSF; with none the basis is empty. *)
Lemma C83_one_stamp_lm : forall eigh smooth sh stamps L,
  (length stamps = 1%nat -> kl_basis eigh smooth sh stamps L = Raise ValueError) /\
  (stamps = [] -> kl_basis eigh smooth sh stamps L = Ok []).
Proof.
  intros eigh smooth sh stamps L. split.
  - intros N. unfold kl_basis, eigenv. unfold cov_matrix. destruct (negb _); [reflexivity|].
    cbn [bind]. rewrite N. reflexivity.
  - intros ->. unfold kl_basis, eigenv, cov_matrix. cbn [forallb negb bind length Nat.eqb].
    set (c := if Nat.leb 0 250 then _ else _).
    destruct (eigh 0%nat c) as [valh vech]. cbn [Nat.leb]. cbn.
    destruct smooth; reflexivity.
Qed.

(** ** The elements *)

Lemma sumn_rev K f : sumn K (fun k => f (K - 1 - k)%nat) = sumn K f.
Proof.
  revert f. induction K as [|K IH]; intros f; [reflexivity|].
  cbn [sumn]. replace (S K - 1 - K)%nat with 0%nat by lia.
  transitivity (sumn K (fun k => f (S (K - 1 - k))) + f 0%nat).
  - f_equal. apply sumn_ext. intros k Hk. f_equal. lia.
  - rewrite (IH (fun k => f (S k))). clear IH.
    induction K as [|K IH]; cbn [sumn]; [ring|]. cbn [sumn] in IH. lra.
Qed.

Lemma sum_abs_firstn k l : (k <= length l)%nat -> sum_abs (firstn k l) = sumn k (fun i => Rabs (nth i l 0)).
Proof.
  revert k. induction l as [|x l IH]; intros k H.
  - cbn in H. replace k with 0%nat by lia. reflexivity.
  - destruct k as [|k]; [reflexivity|]. cbn [firstn].
    change (sum_abs (x :: firstn k l)) with (Rabs x + sum_abs (firstn k l)).
    rewrite IH by (cbn in H; lia).
    change (S k) with (1 + k)%nat.
    rewrite (sumn_app 1 k (fun i => Rabs (nth i (x :: l) 0))). cbn. ring.
Qed.

Lemma flat_reshape {A} sh (v : nat -> A) p : (p < fst sh * snd sh)%nat -> flat (reshape sh v) p = v p.
Proof.
  intros H. unfold flat, reshape. cbn [nc px]. f_equal.
  rewrite Nat.mul_comm. symmetry. apply Nat.div_mod. intros E. rewrite E in H. lia.
Qed.

Lemma mean_reshape sh v : mean2 (reshape sh v) = sumn (fst sh * snd sh) v / INR (fst sh * snd sh).
Proof.
  unfold mean2. cbn [nr nc reshape]. f_equal.
  transitivity (sumn (fst sh * snd sh) (flat (reshape sh v)));
    [symmetry; exact (sum_flat (reshape sh v) (fun x => x))|].
  apply sumn_ext. intros k Hk. now apply flat_reshape.
Qed.

Lemma cross_reshape sh v u :
  let P := (fst sh * snd sh)%nat in
  cross (reshape sh v) (reshape sh u) =
  sumn P (fun p => (v p - sumn P v / INR P) * (u p - sumn P u / INR P)).
Proof.
  intros P. unfold cross. rewrite !mean_reshape. fold P.
  rewrite <- (sum_flat2 (reshape sh v) (reshape sh u)
    (fun a b => (a - sumn P v / INR P) * (b - sumn P u / INR P)) eq_refl).
  cbn [nr nc reshape]. fold P. apply sumn_ext. intros k Hk.
  now rewrite !flat_reshape.
Qed.

Lemma cross_ext p q p' q' : plane_eq p p' -> plane_eq q q' -> shape p = shape q ->
  cross p q = cross p' q'.
Proof.
  assert (M : forall a b, plane_eq a b -> mean2 a = mean2 b).
  { intros a b [S E]. unfold mean2. rewrite <- S. unfold shape in S. injection S as Sr Sc.
    rewrite <- Sr, <- Sc. f_equal. unfold sum2. cbn [shape fst snd].
    apply sumn_ext; intros i Hi. apply sumn_ext; intros j Hj. now apply E. }
  intros [S E] [S' E'] Q. unfold cross. rewrite <- S, (M p p'), (M q q') by (split; assumption).
  unfold shape in Q. injection Q as Qr Qc.
  unfold sum2. cbn [shape fst snd]. apply sumn_ext; intros i Hi. apply sumn_ext; intros j Hj.
  rewrite E, E' by lia. reflexivity.
Qed.

Lemma stamp_reshape sh stamps j : shape (nth_stamp j stamps) = sh ->
  plane_eq (nth_stamp j stamps) (reshape sh (fun p => columns stamps p j)).
Proof.
  intros S. split.
  - rewrite S. now destruct sh.
  - intros i k Hi Hk. unfold reshape. cbn [px]. unfold columns.
    rewrite <- S. cbn [shape snd]. now rewrite flat_px.
Qed.

(** Centring is linear. *)
Lemma ctr_sum P n (m : nat -> nat -> R) a p :
  sumn n (fun j => m p j * a j) - sumn P (fun q => sumn n (fun j => m q j * a j)) / INR P =
  sumn n (fun j => ctr P m p j * a j).
Proof.
  unfold ctr, pmean.
  rewrite (sumn_ext n (fun j => (m p j - sumn P (fun q => m q j) / INR P) * a j)
    (fun j => m p j * a j - sumn P (fun q => m q j * a j) * / INR P)).
  - rewrite sumn_minus, sumn_scal_r, (sumn_swap P n). reflexivity.
  - intros j _. rewrite sumn_scal_r. unfold Rdiv. ring.
Qed.

Lemma map_rev_seq {A} (f : nat -> A) n lo : (lo <= n)%nat ->
  rev (map (fun i => f (lo + i)%nat) (seq 0 (n - lo))) = map (fun k => f (n - 1 - k)%nat) (seq 0 (n - lo)).
Proof.
  intros H. apply nth_ext with (d := f 0%nat) (d' := f 0%nat).
  { now rewrite rev_length, !map_length. }
  intros k Hk. rewrite rev_length, map_length, seq_length in Hk.
  rewrite rev_nth by (rewrite map_length, seq_length; lia).
  rewrite map_length, seq_length.
  rewrite nth_indep with (d' := f (lo + 0)%nat) by (rewrite map_length, seq_length; lia).
  rewrite (map_nth (fun i => f (lo + i)%nat)).
  rewrite seq_nth by lia.
  rewrite nth_indep with (d' := f (n - 1 - 0)%nat) by (rewrite map_length, seq_length; lia).
  rewrite (map_nth (fun k => f (n - 1 - k)%nat)). rewrite seq_nth by lia. f_equal. lia.
Qed.

(** The elements (first: the largest eigenvalue) are uncorrelated, each carries its
    eigenvalue, and rebuilding the stamps from them loses at most the fraction [L] of the
    total variation. *)
Lemma C82_information_loss_lm : forall eigh sh stamps L c basis,
  cov_matrix sh stamps = Ok c -> eigh_ok (length stamps) c (eigh (length stamps) c) -> 0 <= L ->
  (1 < fst sh * snd sh)%nat -> (length stamps <= 250)%nat ->
  kl_basis eigh None sh stamps L = Ok basis -> (2 <= length basis)%nat ->
  let n := length stamps in
  let vals := fst (eigh n c) in
  let V := snd (eigh n c) in
  exists B : nat -> plane R,
    basis = map (fun k => pmap Some (B k)) (seq 0 (length basis)) /\
    (forall k, shape (B k) = sh) /\
    (forall k l, (k < length basis)%nat -> (l < length basis)%nat ->
       cross (B k) (B l) = INR (fst sh * snd sh - 1) * nth (n - 1 - k) vals 0 * delta k l) /\
    let left j := mkplane (fst sh) (snd sh) (fun i i' =>
       px (nth j stamps (pconst (0, 0)%nat 0)) i i' -
       combine_planes (length basis) (fun k => eigen_component n V k j) B i i') in
    sumn n (fun j => cross (left j) (left j)) =
      INR (fst sh * snd sh - 1) * sumn (n - length basis) (fun k => nth k vals 0) /\
    sumn n (fun j => cross (left j) (left j)) <=
      L * sumn n (fun j => cross (nth j stamps (pconst (0, 0)%nat 0)) (nth j stamps (pconst (0, 0)%nat 0))).
Proof.
  intros eigh sh stamps L c basis H He HL HP H250 B H2 n vals V.
  pose proof (kl_basis_length _ _ _ _ _ _ _ H B) as Len. fold n vals in Len.
  destruct He as (Ln & Asc & Cols & Rows & Eig). fold n in Ln, Asc, Cols, Rows, Eig. fold vals V in Ln, Asc, Cols, Rows, Eig.
  destruct (cov_ok _ _ _ H) as [Sh Ec]. fold n in Sh.
  set (P := (fst sh * snd sh)%nat) in *. set (m := columns stamps) in *.
  assert (N1 : length stamps <> 1%nat) by (fold n; lia).
  assert (Cpos : 0 < INR (P - 1)) by (apply lt_0_INR; lia).
  (* the spectrum is not zero *)
  assert (Nz : sum_abs vals <> 0).
  { intros Z. unfold kl_cut in Len. destruct (Req_EM_T (sum_abs vals) 0); [lia|contradiction]. }
  destruct (kl_cut_spec L vals HL Nz) as (Rg & Pw & _). rewrite Ln in Rg.
  rewrite Nat.min_r in Len by lia. set (K := length basis) in *.
  (* the eigen equations for the centred stamps *)
  set (w := ctr P m). set (lam k := INR (P - 1) * nth k vals 0).
  assert (Eig' : forall i k, (i < n)%nat -> (k < n)%nat ->
    sumn n (fun j => sumn P (fun p => w p i * w p j) * V j k) = lam k * V i k).
  { intros i k Hi Hk. unfold lam. rewrite Rmult_assoc, <- Eig by assumption.
    rewrite <- sumn_scal. apply sumn_ext. intros j _. rewrite Ec.
    rewrite (proj2 (Nat.leb_le (length stamps) 250) H250). rewrite np_cov_ctr. fold w. field. lra. }
  set (b k p := sumn n (fun j => w p j * V j k)).
  pose proof (b_inner n P w V lam Cols Eig') as Inner.
  pose proof (lam_nonneg n P w V lam Cols Eig') as Pos.
  pose proof (expand n w V Rows) as Exp.
  pose proof (selected_power n P w V lam Cols Eig') as Sel.
  fold b in Inner, Exp, Sel.
  assert (VPos : forall k, (k < n)%nat -> 0 <= nth k vals 0).
  { intros k Hk. specialize (Pos k Hk). unfold lam in Pos.
    apply Rmult_le_reg_l with (INR (P - 1)); lra. }
  exists (fun k => reshape sh (combination n stamps V (n - 1 - k))).
  (* the basis *)
  assert (Bas : basis = map (fun k => pmap Some (reshape sh (combination n stamps V (n - 1 - k)))) (seq 0 K)).
  { unfold kl_basis in B. rewrite (eigenv_ok eigh sh stamps c H N1) in B. fold n in B.
    rewrite (surjective_pairing (eigh n c)) in B. fold vals V in B.
    cbn [bind] in B. cbn zeta in B. rewrite (proj2 (Nat.leb_le n 250) H250) in B. cbn [bind] in B.
    rewrite (map_rev_seq (fun i => reshape sh (fun p => Some (combination n stamps V i p))) n (n - kl_cut L vals))
      in B by lia.
    replace (n - (n - kl_cut L vals))%nat with K in B by lia.
    assert (B' : map (fun k => reshape sh (fun p => Some (combination n stamps V (n - 1 - k) p))) (seq 0 K) = basis).
    { destruct K as [|[|K']]; [lia|lia|]. injection B. intros <-. reflexivity. }
    rewrite <- B'. reflexivity. }
  split; [exact Bas|]. split; [intros k; cbn [shape reshape nr nc]; now destruct sh|].
  assert (Ctr : forall k p, combination n stamps V k p - sumn P (combination n stamps V k) / INR P = b k p).
  { intros k p. unfold combination. fold m. exact (ctr_sum P n m (fun j => V j k) p). }
  split.
  { intros k l Hk Hl. rewrite cross_reshape. fold P.
    rewrite (sumn_ext P _ (fun p => b (n - 1 - k)%nat p * b (n - 1 - l)%nat p))
      by (intros p _; now rewrite !Ctr).
    rewrite Inner by lia. unfold lam, delta.
    destruct (Nat.eqb_spec k l) as [<-|N].
    - rewrite Nat.eqb_refl. ring.
    - destruct (Nat.eqb_spec (n - 1 - k) (n - 1 - l)); [lia|ring]. }
  cbn zeta.
  set (left j := mkplane _ _ _).
  assert (Left : forall j, (j < n)%nat -> cross (left j) (left j) =
    sumn P (fun p => sumn (n - K) (fun k => V j k * b k p) * sumn (n - K) (fun k => V j k * b k p))).
  { intros j Hj.
    set (v p := m p j - sumn K (fun k => V j (n - 1 - k)%nat * combination n stamps V (n - 1 - k) p)).
    assert (EL : plane_eq (left j) (reshape sh v)).
    { split; [reflexivity|]. intros i i' Hi Hi'. unfold left, v, reshape. cbn [px].
      cbn [nr nc left] in Hi, Hi'.
      assert (Qc : nc (nth_stamp j stamps) = snd sh) by (rewrite <- (Sh j Hj); reflexivity).
      pose proof (flat_px (nth_stamp j stamps) i i' ltac:(rewrite Qc; exact Hi')) as F.
      rewrite Qc in F. change (m (i * snd sh + i')%nat j) with (flat (nth_stamp j stamps) (i * snd sh + i')).
      rewrite F. reflexivity. }
    rewrite (cross_ext _ _ _ _ EL EL eq_refl), cross_reshape. fold P.
    apply sumn_ext. intros p Hp.
    assert (D : v p - sumn P v / INR P = sumn (n - K) (fun k => V j k * b k p)).
    { assert (Split : w p j = sumn (n - K) (fun k => V j k * b k p)
          + sumn K (fun k => V j (n - 1 - k)%nat * b (n - 1 - k)%nat p)).
      { rewrite <- (Exp j p Hj). replace n with (n - K + K)%nat at 1 by lia. rewrite sumn_app. f_equal.
        rewrite <- (sumn_rev K (fun k => V j (n - K + k)%nat * b (n - K + k)%nat p)).
        apply sumn_ext. intros k Hk. now replace (n - K + (K - 1 - k))%nat with (n - 1 - k)%nat by lia. }
      unfold v at 1.
      assert (Sv : sumn P v / INR P = pmean P m j -
         sumn K (fun k => V j (n - 1 - k)%nat * (sumn P (combination n stamps V (n - 1 - k)) / INR P))).
      { unfold v. rewrite sumn_minus, (sumn_swap P K). unfold pmean.
        rewrite (sumn_ext K (fun k => V j (n - 1 - k)%nat * (sumn P (combination n stamps V (n - 1 - k)) / INR P))
          (fun k => sumn P (fun q => V j (n - 1 - k)%nat * combination n stamps V (n - 1 - k) q) * / INR P)).
        - rewrite sumn_scal_r. unfold Rdiv. ring.
        - intros k _. rewrite sumn_scal. unfold Rdiv. ring. }
      rewrite Sv. unfold w, ctr in Split.
      rewrite (sumn_ext K (fun k => V j (n - 1 - k)%nat * b (n - 1 - k)%nat p)
        (fun k => V j (n - 1 - k)%nat * combination n stamps V (n - 1 - k) p -
                  V j (n - 1 - k)%nat * (sumn P (combination n stamps V (n - 1 - k)) / INR P))) in Split.
      - rewrite sumn_minus in Split. lra.
      - intros k _. rewrite <- (Ctr (n - 1 - k)%nat p). ring. }
    now rewrite !D. }
  assert (Lost : sumn n (fun j => cross (left j) (left j)) = INR (P - 1) * sumn (n - K) (fun k => nth k vals 0)).
  { set (s k := if Nat.ltb k (n - K) then 1 else 0).
    assert (Cut : forall f, sumn n (fun k => f k * s k) = sumn (n - K) f).
    { intros f. replace n with (n - K + K)%nat at 1 by lia. rewrite sumn_app.
      rewrite (sumn_ext (n - K) (fun k => f k * s k) f).
      - rewrite (sumn_ext K _ (fun _ => 0)).
        + rewrite sumn_zero. ring.
        + intros k Hk. unfold s. destruct (Nat.ltb_spec (n - K + k) (n - K)); [lia|ring].
      - intros k Hk. unfold s. destruct (Nat.ltb_spec k (n - K)); [ring|lia]. }
    rewrite (sumn_ext n _ (fun j => sumn P (fun p =>
       sumn n (fun k => V j k * (s k * b k p)) * sumn n (fun k => V j k * (s k * b k p))))).
    - rewrite Sel. rewrite <- sumn_scal. rewrite <- (Cut (fun k => INR (P - 1) * nth k vals 0)).
      apply sumn_ext. intros k _. unfold lam, s. destruct (Nat.ltb k (n - K)); ring.
    - intros j Hj. rewrite (Left j Hj). apply sumn_ext. intros p _.
      rewrite <- (Cut (fun k => V j k * b k p)).
      rewrite (sumn_ext n (fun k => V j k * b k p * s k) (fun k => V j k * (s k * b k p))) by (intros; ring).
      reflexivity. }
  split; [exact Lost|]. rewrite Lost.
  assert (Tot : sumn n (fun j => cross (nth_stamp j stamps) (nth_stamp j stamps)) = INR (P - 1) * sum_abs vals).
  { rewrite (sumn_ext n _ (fun j => sumn P (fun p =>
       sumn n (fun k => V j k * (1 * b k p)) * sumn n (fun k => V j k * (1 * b k p))))).
    - rewrite (Sel (fun _ => 1)). 
      replace (sum_abs vals) with (sum_abs (firstn n vals)) by (now rewrite firstn_all2 by lia).
      rewrite sum_abs_firstn by lia.
      rewrite <- sumn_scal. apply sumn_ext. intros k Hk. unfold lam.
      rewrite Rabs_pos_eq by auto. ring.
    - intros j Hj. pose proof (stamp_reshape sh stamps j (Sh j Hj)) as Q.
      rewrite (cross_ext _ _ _ _ Q Q eq_refl), cross_reshape. fold P.
      apply sumn_ext. intros p _. change (m p j - pmean P m j) with (w p j).
      rewrite (sumn_ext n (fun k => V j k * (1 * b k p)) (fun k => V j k * b k p)) by (intros; ring).
      rewrite Exp by exact Hj. reflexivity. }
  rewrite Tot. rewrite <- Len in Pw. unfold power_of_last in Pw. rewrite Ln in Pw.
  pose proof (sum_abs_app (firstn (n - K) vals) (skipn (n - K) vals)) as App.
  rewrite firstn_skipn in App. rewrite (sum_abs_firstn (n - K) vals) in App by lia.
  rewrite (sumn_ext (n - K) _ (fun k => nth k vals 0)) in App
    by (intros; apply Rabs_pos_eq, VPos; lia).
  nra.
Qed.

(** ** Unit sums *)

Lemma sumn_ext0 n f g : (forall k, f k = g k) -> sumn n f = sumn n g.
Proof. intros H. apply sumn_ext. auto. Qed.

Definition rsum (l : list R) : R := fold_right Rplus 0 l.

Lemma rsum_app l m : rsum (l ++ m) = rsum l + rsum m.
Proof. unfold rsum. induction l as [|x l IH]; cbn; [ring|]. rewrite IH. ring. Qed.

Lemma rsum_seq n f : rsum (map f (seq 0 n)) = sumn n f.
Proof.
  induction n as [|n IH]; [reflexivity|]. rewrite seq_S, map_app, rsum_app, IH. cbn. ring.
Qed.

Lemma rsum_prod a b f :
  rsum (map (fun c => f (fst c) (snd c)) (list_prod (seq 0 a) (seq 0 b))) = sum2 (a, b) f.
Proof.
  unfold sum2. cbn [fst snd]. rewrite <- rsum_seq.
  generalize (seq 0 a). intros l. induction l as [|x l IH]; [reflexivity|].
  cbn [list_prod map]. rewrite map_app, rsum_app, IH, map_map. cbn [fst snd].
  rewrite rsum_seq. reflexivity.
Qed.

Lemma total_opt_some p t : total_opt p = Some t <-> sums_to p t.
Proof.
  assert (K : forall l, (forall c, In c l -> px p (fst c) (snd c) <> None) ->
    fold_right (fun c s => match px p (fst c) (snd c), s with
                         | Some x, Some t => Some (x + t) | _, _ => None end) (Some 0) l =
    Some (rsum (map (fun c => match px p (fst c) (snd c) with Some x => x | None => 0 end) l))).
  { induction l as [|c l IH]; intros H; [reflexivity|]. cbn [fold_right map rsum].
    rewrite IH by (intros; apply H; now right).
    destruct (px p (fst c) (snd c)) eqn:E; [reflexivity|]. now destruct (H c (or_introl eq_refl)). }
  assert (N : forall l c, In c l -> px p (fst c) (snd c) = None ->
    fold_right (fun c s => match px p (fst c) (snd c), s with
                         | Some x, Some t => Some (x + t) | _, _ => None end) (Some 0) l = None).
  { induction l as [|d l IH]; [intros c []|]. intros c [->|H] E; cbn [fold_right].
    - now rewrite E.
    - rewrite (IH c H E). now destruct (px p (fst d) (snd d)). }
  set (cells := list_prod (seq 0 (nr p)) (seq 0 (nc p))).
  assert (Cells : forall c, In c cells <-> (fst c < nr p)%nat /\ (snd c < nc p)%nat).
  { intros [i j]. unfold cells. rewrite in_prod_iff, !in_seq. cbn. lia. }
  set (q := mkplane (nr p) (nc p) (fun i j => match px p i j with Some x => x | None => 0 end)).
  assert (Tq : rsum (map (fun c => match px p (fst c) (snd c) with Some x => x | None => 0 end) cells) =
    sum2 (shape q) (px q)) by exact (rsum_prod (nr p) (nc p) (px q)).
  split.
  - intros H. assert (All : forall c, In c cells -> px p (fst c) (snd c) <> None).
    { intros c Hc E. unfold total_opt in H. fold cells in H. rewrite (N cells c Hc E) in H. discriminate. }
    unfold total_opt in H. fold cells in H. rewrite (K cells All), Tq in H.
    exists q. split; [|congruence]. split; [reflexivity|]. intros i j Hi Hj. cbn [px pmap q].
    specialize (All (i, j) (proj2 (Cells (i, j)) (conj Hi Hj))). cbn [fst snd] in All.
    destruct (px p i j); congruence.
  - intros (r & [S E] & T). unfold shape in S. cbn [pmap nr nc] in S. injection S as Sr Sc.
    assert (All : forall c, In c cells -> px p (fst c) (snd c) <> None).
    { intros c Hc. apply Cells in Hc. rewrite E by tauto. discriminate. }
    unfold total_opt. fold cells. rewrite (K cells All), Tq, <- T. f_equal.
    unfold sum2, shape. cbn [fst snd q nr nc]. rewrite <- Sr, <- Sc.
    apply sumn_ext; intros i Hi. apply sumn_ext; intros j Hj. cbn [px q].
    now rewrite (E i j Hi Hj).
Qed.

Lemma sum2_scal sh a f : sum2 sh (fun i j => f i j * a) = sum2 sh f * a.
Proof.
  unfold sum2. rewrite <- sumn_scal_r. apply sumn_ext0. intros i. apply sumn_scal_r.
Qed.

Lemma unit_total_spec p : sums_to (unit_total p) 1 \/ no_number (unit_total p).
Proof.
  unfold unit_total. destruct (total_opt p) as [t|] eqn:T; [|right; intros i j _ _; reflexivity].
  destruct (Req_EM_T t 0) as [|N]; [right; intros i j _ _; reflexivity|]. left.
  apply total_opt_some in T. destruct T as (q & [S E] & Q).
  exists (pmap (fun x => x / t) q). split.
  - split; [exact S|]. intros i j Hi Hj. cbn [px pmap] in *. rewrite (E i j Hi Hj). reflexivity.
  - change (sum2 (shape q) (fun i j => px q i j * / t) = 1). rewrite sum2_scal, Q. field. exact N.
Qed.

(** A lone element, any smoothed element and any element built from more than 250 stamps
    sums to one, unless it holds no number at all. *)
Lemma C83_unit_sum_lm : forall eigh smooth sh stamps L basis,
  kl_basis eigh smooth sh stamps L = Ok basis ->
  length basis = 1%nat \/ smooth <> None \/ (250 < length stamps)%nat ->
  Forall (fun p => sums_to p 1 \/ no_number p) basis.
Proof.
  intros eigh smooth sh stamps L basis B C. unfold kl_basis in B.
  destruct (eigenv eigh sh stamps) as [[valh vech]|]; [|discriminate]. cbn [bind] in B. cbn zeta in B.
  assert (G : forall l, (length l <> 1%nat -> Forall (fun p => sums_to p 1 \/ no_number p) l) ->
     Forall (fun p => sums_to p 1 \/ no_number p) (match l with [p] => [unit_total p] | l => l end)).
  { intros [|a [|b l]] H.
    - constructor.
    - constructor; [apply unit_total_spec|constructor].
    - apply H. cbn. lia. }
  destruct (if Nat.leb (length stamps) 250 then _ else _) as [l|] eqn:El; [|discriminate].
  cbn [bind] in B. apply (f_equal (fun r => match r with Ok b => b | _ => [] end)) in B.
  rewrite <- B in C |- *. rewrite unit_single in C. apply G. intros N.
  destruct C as [C|[C|C]]; [contradiction| |].
  - destruct smooth as [g|]; [|congruence]. apply Forall_map, Forall_forall. intros p _. apply unit_total_spec.
  - destruct (Nat.leb_spec (length stamps) 250); [lia|].
    destruct (Nat.ltb _ _); [discriminate|]. injection El as <-.
    assert (F : Forall (fun p => sums_to p 1 \/ no_number p)
       (rev (map (fun i => unit_total (lower (unit_total
          (reshape sh (fun p => Some (combination (length stamps) stamps vech (length stamps - kl_cut L valh + i) p))))))
           (seq 0 (kl_cut L valh))))).
    { apply Forall_rev, Forall_map, Forall_forall. intros i _. apply unit_total_spec. }
    destruct smooth as [g|]; [|exact F].
    apply Forall_map, Forall_forall. intros p _. apply unit_total_spec.
Qed.
