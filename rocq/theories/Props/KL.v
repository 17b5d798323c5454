(** C37, C38, C43, C82, C83: the Karhunen-Loeve PSF. *)
From Coq Require Import ZArith List Bool Arith Reals Lia Lra.
From Flocq Require Import Core.Raux Core.Round_NE Core.Generic_fmt.
From Verif.Model Require Import Py Plane KL.
From Verif.Spec Require Import KL.
From Verif.Proof Require Import KL KLMain PsfXY KLExample.
Import ListNotations.
Local Open Scope R_scope.

(** The matrix is symmetric, its quadratic form is non-negative, and its entries are the
    covariances of the stamps (at most 250 of them) or their plain inner products. *)
Theorem C37_covariance : forall sh stamps c,
  cov_matrix sh stamps = Ok c -> (1 < fst sh * snd sh)%nat ->
  let n := length stamps in
  (forall i j, c i j = c j i) /\
  (forall x, 0 <= sumn n (fun i => sumn n (fun j => x i * c i j * x j))) /\
  (forall i j, (i < n)%nat -> (j < n)%nat ->
     c i j = if Nat.leb n 250
             then cross (nth i stamps (pconst (0, 0)%nat 0)) (nth j stamps (pconst (0, 0)%nat 0))
                  / INR (fst sh * snd sh - 1)
             else inner (nth i stamps (pconst (0, 0)%nat 0)) (nth j stamps (pconst (0, 0)%nat 0))).
Proof. exact C37_covariance_lm. Qed.
Print Assumptions C37_covariance.

(** The matrix exists exactly when all stamps have the stamp shape. *)
Theorem C37_shapes : forall sh stamps,
  (Forall (fun p => shape p = sh) stamps <-> exists c, cov_matrix sh stamps = Ok c) /\
  (~ Forall (fun p => shape p = sh) stamps -> cov_matrix sh stamps = Raise ValueError).
Proof. exact C37_shapes_lm. Qed.
Print Assumptions C37_shapes.

(** The three stamps of [trio] (1x4 cells) have covariance diag(2/3, 2/3, 4/3). *)
Example C37_case : exists c, cov_matrix (1, 4)%nat trio = Ok c /\ c 2%nat 2%nat = 4 / 3 /\ c 0%nat 1%nat = 0.
Proof.
  destruct trio_cov as (c & E & C). exists c. split; [exact E|].
  rewrite !C by lia. split; cbn; ring.
Qed.

(** How many elements the basis has. *)
Theorem C38_number_of_elements : forall eigh smooth sh stamps L c basis,
  cov_matrix sh stamps = Ok c -> eigh_ok (length stamps) c (eigh (length stamps) c) -> 0 <= L ->
  kl_basis eigh smooth sh stamps L = Ok basis ->
  let vals := fst (eigh (length stamps) c) in
  (length basis <= length stamps)%nat /\
  (sum_abs vals <> 0 ->
     (1 <= length basis)%nat /\
     (1 - L) * sum_abs vals <= power_of_last (length basis) vals /\
     forall k, (1 <= k < length basis)%nat -> power_of_last k vals < (1 - L) * sum_abs vals) /\
  (sum_abs vals = 0 -> stamps <> [] -> length basis = 1%nat).
Proof. exact C38_number_of_elements_lm. Qed.
Print Assumptions C38_number_of_elements.

(** Allowing more loss never adds elements. *)
Theorem C38_monotone : forall eigh smooth sh stamps L L' basis basis',
  0 <= L -> L <= L' ->
  kl_basis eigh smooth sh stamps L = Ok basis ->
  kl_basis eigh smooth sh stamps L' = Ok basis' ->
  (length basis' <= length basis)%nat.
Proof. exact C38_monotone_lm. Qed.
Print Assumptions C38_monotone.

(** The basis exists for any number of stamps other than one; with no loss allowed it still
    stops at the last element needed. *)
Theorem C38_exists : forall eigh smooth sh stamps L,
  (forall c, cov_matrix sh stamps = Ok c -> eigh_ok (length stamps) c (eigh (length stamps) c)) ->
  0 <= L -> Forall (fun p => shape p = sh) stamps -> (length stamps <> 1)%nat ->
  exists basis, kl_basis eigh smooth sh stamps L = Ok basis.
Proof. exact C38_exists_lm. Qed.
Print Assumptions C38_exists.

(** With inf_loss = 0.3 the stamps of [trio] give two elements. *)
Example C38_case : exists c basis, cov_matrix (1, 4)%nat trio = Ok c /\
  eigh_ok (length trio) c ((fun _ _ => trio_eig) (length trio) c) /\
  kl_basis (fun _ _ => trio_eig) None (1, 4)%nat trio (3 / 10) = Ok basis /\ length basis = 2%nat.
Proof.
  destruct trio_cov as (c & E & _). exists c.
  destruct (C38_exists_lm (fun _ _ => trio_eig) None (1, 4)%nat trio (3 / 10)) as (basis & B).
  - intros c' H. exact (trio_eigh_ok c' H).
  - lra.
  - repeat constructor.
  - cbn. lia.
  - exists basis. split; [exact E|]. split; [exact (trio_eigh_ok c E)|]. split; [exact B|].
    rewrite (kl_basis_length _ _ _ _ _ _ _ E B), trio_cut. reflexivity.
Qed.

(** The elements (first: the largest eigenvalue) are uncorrelated, each carries its
    eigenvalue, and rebuilding the stamps from them loses at most the fraction [L] of the
    total variation. *)
Theorem C82_information_loss : forall eigh sh stamps L c basis,
  cov_matrix sh stamps = Ok c -> eigh_ok (length stamps) c (eigh (length stamps) c) -> 0 <= L ->
  (1 < fst sh * snd sh)%nat -> (length stamps <= 250)%nat ->
  kl_basis eigh None sh stamps L = Ok basis -> (2 <= length basis)%nat ->
  let n := length stamps in
  let vals := fst (eigh n c) in
  let V := snd (eigh n c) in
  exists B : nat -> plane R,
    basis = map (fun k => pmap Some (B k)) (seq 0 (length basis)) /\
    (forall k, shape (B k) = sh) /\
    (forall k l, (k < length basis)%nat -> (l < length basis)%nat ->
       cross (B k) (B l) = INR (fst sh * snd sh - 1) * nth (n - 1 - k) vals 0 * delta k l) /\
    let left j := mkplane (fst sh) (snd sh) (fun i i' =>
       px (nth j stamps (pconst (0, 0)%nat 0)) i i' -
       combine_planes (length basis) (fun k => eigen_component n V k j) B i i') in
    sumn n (fun j => cross (left j) (left j)) =
      INR (fst sh * snd sh - 1) * sumn (n - length basis) (fun k => nth k vals 0) /\
    sumn n (fun j => cross (left j) (left j)) <=
      L * sumn n (fun j => cross (nth j stamps (pconst (0, 0)%nat 0)) (nth j stamps (pconst (0, 0)%nat 0))).
Proof. exact C82_information_loss_lm. Qed.
Print Assumptions C82_information_loss.

(** [trio] meets the hypotheses with inf_loss = 0.3: two elements are kept, one dropped. *)
Example C82_case : exists c basis, cov_matrix (1, 4)%nat trio = Ok c /\
  eigh_ok (length trio) c ((fun _ _ => trio_eig) (length trio) c) /\
  (1 < 1 * 4)%nat /\ (length trio <= 250)%nat /\
  kl_basis (fun _ _ => trio_eig) None (1, 4)%nat trio (3 / 10) = Ok basis /\ (2 <= length basis < length trio)%nat.
Proof.
  destruct C38_case as (c & basis & E & He & B & L). exists c, basis.
  split; [exact E|]. split; [exact He|]. split; [lia|]. split; [cbn; lia|]. split; [exact B|].
  rewrite L. cbn. lia.
Qed.

(** With a single stamp there is no PSF; with none the basis is empty. *)
Theorem C83_one_stamp : forall eigh smooth sh stamps L,
  (length stamps = 1%nat -> kl_basis eigh smooth sh stamps L = Raise ValueError) /\
  (stamps = [] -> kl_basis eigh smooth sh stamps L = Ok []).
Proof. exact C83_one_stamp_lm. Qed.
Print Assumptions C83_one_stamp.

(** A lone element, any smoothed element and any element built from more than 250 stamps
    sums to one, unless it holds no number at all. *)
Theorem C83_unit_sum : forall eigh smooth sh stamps L basis,
  kl_basis eigh smooth sh stamps L = Ok basis ->
  length basis = 1%nat \/ smooth <> None \/ (250 < length stamps)%nat ->
  Forall (fun p => sums_to p 1 \/ no_number p) basis.
Proof. exact C83_unit_sum_lm. Qed.
Print Assumptions C83_unit_sum.

(** Allowing half of the power to be lost, [trio] gives a single element, which sums to one. *)
Example C83_case : exists basis,
  kl_basis (fun _ _ => trio_eig) None (1, 4)%nat trio 1 = Ok basis /\ length basis = 1%nat.
Proof.
  destruct trio_cov as (c & E & _).
  destruct (C38_exists_lm (fun _ _ => trio_eig) None (1, 4)%nat trio 1) as (basis & B).
  - intros c' H. exact (trio_eigh_ok c' H).
  - lra.
  - repeat constructor.
  - cbn. lia.
  - exists basis. split; [exact B|]. rewrite (kl_basis_length _ _ _ _ _ _ _ E B).
    unfold kl_cut. rewrite trio_total. destruct (Req_EM_T (8 / 3) 0); [lra|].
    cbn [trio_eig fst rev app map cut_loop]. rewrite !Rabs_pos_eq by lra.
    destruct (Rlt_dec 1 (1 - 4 / 3 / (8 / 3))) as [B'|_]; [|reflexivity].
    exfalso. replace (1 - 4 / 3 / (8 / 3)) with (1 / 2) in B' by field. lra.
Qed.

(** Odd stamps and a position whose window lies inside: [a], [b] are the first row and column
    of the window. *)
Theorem C43_inside : forall basis fs normal x y h a b,
  let s := (2 * h + 1)%nat in
  basis <> [] -> length fs = length basis ->
  Forall (fun p => shape p = (s, s)) basis ->
  ZnearestE x = Z.of_nat (a + h) -> ZnearestE y = Z.of_nat (b + h) ->
  (a + s <= nr normal)%nat -> (b + s <= nc normal)%nat ->
  (forall i j, (i < s)%nat -> (j < s)%nat -> px normal (a + i) (b + j) <> 0) ->
  let raw i j := sumn (length basis) (fun k =>
     px (nth k basis (pconst (0, 0)%nat 0)) i j * nth k fs (fun _ _ => 0) (INR (a + i)) (INR (b + j)) /
     px normal (a + i) (b + j)) in
  let t := sum2 (s, s) raw in
  exists psf, get_psf_xy basis (Some fs) normal x y = Ok psf /\ shape psf = (s, s) /\
    (t <> 0 -> sums_to psf 1 /\
       forall i j, (i < s)%nat -> (j < s)%nat -> px psf i j = Some (raw i j / t)) /\
    (t = 0 -> no_number psf).
Proof. exact C43_inside_lm. Qed.
Print Assumptions C43_inside.

(** Two 3x3 elements, constant fields, a 10x10 frame and the position (4, 5). *)
Example C43_case : exists psf,
  get_psf_xy [pconst (3, 3)%nat 2; pconst (3, 3)%nat 1] (Some [fun _ _ => 1; fun _ _ => 3])
    (pconst (10, 10)%nat 4) 4 5 = Ok psf /\ shape psf = (3, 3)%nat /\ px psf 0%nat 2%nat = Some (1 / 9).
Proof.
  assert (Z4 : ZnearestE 4 = 4%Z) by exact (Zrnd_IZR ZnearestE 4).
  assert (Z5 : ZnearestE 5 = 5%Z) by exact (Zrnd_IZR ZnearestE 5).
  destruct (C43_inside_lm [pconst (3, 3)%nat 2; pconst (3, 3)%nat 1] [fun _ _ => 1; fun _ _ => 3]
    (pconst (10, 10)%nat 4) 4 5 1 3 4) as (psf & E & S & V & _);
    try discriminate; try reflexivity.
  - repeat constructor.
  - rewrite Z4. reflexivity.
  - rewrite Z5. reflexivity.
  - cbn. lia.
  - cbn. lia.
  - intros. cbn. lra.
  - exists psf. split; [exact E|]. split; [exact S|]. unfold sum2 in V. cbn in V.
    destruct V as [_ V]; [lra|]. rewrite V by lia. f_equal. field.
Qed.

(** A single element is returned as it is, at every position. *)
Theorem C43_single : forall b0 normal x y,
  get_psf_xy [b0] None normal x y = Ok (pmap Some b0).
Proof. exact C43_single_lm. Qed.
Print Assumptions C43_single.

(** Even stamps never work. *)
Theorem C43_even_fails : forall b0 basis f fs normal x y h,
  (1 <= h)%nat -> shape b0 = (2 * h + 2, 2 * h + 2)%nat ->
  get_psf_xy (b0 :: basis) (Some (f :: fs)) normal x y = Raise ValueError.
Proof. exact C43_even_fails_lm. Qed.
Print Assumptions C43_even_fails.

(** A window that sticks out of the frame fails. *)
Theorem C43_edge_fails : forall b0 basis f fs normal x y h,
  let s := (2 * h + 1)%nat in
  (1 <= h)%nat -> shape b0 = (s, s) -> (s <= nr normal)%nat -> (s <= nc normal)%nat ->
  cut_off (nr normal) s (ZnearestE x - Z.of_nat h) \/ cut_off (nc normal) s (ZnearestE y - Z.of_nat h) ->
  get_psf_xy (b0 :: basis) (Some (f :: fs)) normal x y = Raise ValueError.
Proof. exact C43_edge_fails_lm. Qed.
Print Assumptions C43_edge_fails.

(** The position (0, 5) of a 10x10 frame with 3x3 stamps. *)
Example C43_edge_case :
  get_psf_xy [pconst (3, 3)%nat 2; pconst (3, 3)%nat 1] (Some [fun _ _ => 1; fun _ _ => 3])
    (pconst (10, 10)%nat 4) 0 5 = Raise ValueError.
Proof.
  apply (C43_edge_fails _ _ _ _ _ _ _ 1); try (cbn; lia); [reflexivity|].
  left. left. rewrite (Zrnd_IZR ZnearestE 0). cbn. lia.
Qed.

(** Above the frame by more than a stamp: Python counts the negative indices from the end, and
    the pixels of the opposite side are used without notice. *)
Theorem C43_wraps_refuted : forall basis fs normal x y h a b,
  let s := (2 * h + 1)%nat in
  basis <> [] -> length fs = length basis ->
  Forall (fun p => shape p = (s, s)) basis ->
  ZnearestE x = (Z.of_nat (a + h) - Z.of_nat (nr normal))%Z -> (a + s < nr normal)%nat ->
  ZnearestE y = Z.of_nat (b + h) -> (b + s <= nc normal)%nat ->
  exists psf, get_psf_xy basis (Some fs) normal x y = Ok psf /\ shape psf = (s, s).
Proof. exact C43_wraps_refuted_lm. Qed.
Print Assumptions C43_wraps_refuted.

(** Below the frame with only the last row in view: that row is used for all the rows of the
    stamp, without notice. *)
Theorem C43_last_row_refuted : forall basis fs normal x y h b,
  let s := (2 * h + 1)%nat in
  basis <> [] ->
  Forall (fun p => shape p = (s, s)) basis ->
  (1 <= nr normal)%nat -> ZnearestE x = Z.of_nat (nr normal - 1 + h) ->
  ZnearestE y = Z.of_nat (b + h) -> (b + s <= nc normal)%nat ->
  exists psf, get_psf_xy basis (Some fs) normal x y = Ok psf /\ shape psf = (s, s).
Proof. exact C43_last_row_refuted_lm. Qed.
Print Assumptions C43_last_row_refuted.

(** Rows -8 to -6, and rows 9 to 11, of a 10x10 frame. *)
Example C43_outside_case : exists p q,
  get_psf_xy [pconst (3, 3)%nat 2; pconst (3, 3)%nat 1] (Some [fun _ _ => 1; fun _ _ => 3])
    (pconst (10, 10)%nat 4) (-7) 5 = Ok p /\
  get_psf_xy [pconst (3, 3)%nat 2; pconst (3, 3)%nat 1] (Some [fun _ _ => 1; fun _ _ => 3])
    (pconst (10, 10)%nat 4) 10 5 = Ok q /\ shape p = (3, 3)%nat /\ shape q = (3, 3)%nat.
Proof.
  destruct (C43_wraps_refuted [pconst (3, 3)%nat 2; pconst (3, 3)%nat 1] [fun _ _ => 1; fun _ _ => 3]
    (pconst (10, 10)%nat 4) (-7) 5 1 2 4) as (p & E & S);
    try discriminate; try reflexivity; try (cbn; lia); try (repeat constructor).
  - exact (Zrnd_IZR ZnearestE (-7)).
  - exact (Zrnd_IZR ZnearestE 5).
  - destruct (C43_last_row_refuted [pconst (3, 3)%nat 2; pconst (3, 3)%nat 1] [fun _ _ => 1; fun _ _ => 3]
      (pconst (10, 10)%nat 4) 10 5 1 4) as (q & E' & S');
      try discriminate; try reflexivity; try (cbn; lia); try (repeat constructor).
    + exact (Zrnd_IZR ZnearestE 10).
    + exact (Zrnd_IZR ZnearestE 5).
    + exists p, q. repeat split; assumption.
Qed.
