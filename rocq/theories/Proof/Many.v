(** The PSF elements of an image with more than 250 stamps. *)
From Coq Require Import ZArith List Bool Arith Reals Lia Lra.
From Verif.Model Require Import Py Plane KL.
From Verif.Spec Require Import KL Many.
From Verif.Proof Require Import KL KLMain.
Import ListNotations.
Set Bullet Behavior "Strict Subproofs".
Local Open Scope R_scope.

Notation is p q := (plane_eq p (pmap Some q)).

Lemma is_total p q : is p q -> total_opt p = Some (total q).
Proof. intros H. apply total_opt_some. exists q. split; [exact H|reflexivity]. Qed.

Lemma unit_is p q : is p q -> total q <> 0 -> is (unit_total p) (pmap (fun x => x / total q) q).
Proof.
  intros H N. unfold unit_total. rewrite (is_total _ _ H). destruct (Req_EM_T _ _) as [|_]; [contradiction|].
  destruct H as [S V]. split; [exact S|]. intros i j Hi Hj. cbn [px pmap nr nc] in *. rewrite V by assumption. reflexivity.
Qed.

Lemma unit_none p q : is p q -> total q = 0 -> unit_total p = pmap (fun _ => None) p.
Proof. intros H E. unfold unit_total. rewrite (is_total _ _ H). destruct (Req_EM_T _ _) as [_|N]; [reflexivity|contradiction]. Qed.

Lemma none_total {A} (p : plane A) : (0 < nr p)%nat -> (0 < nc p)%nat -> total_opt (pmap (fun _ => None) p) = None.
Proof.
  intros Hr Hc. unfold total_opt. destruct (nr (pmap _ p)) as [|r] eqn:E; [cbn in E; lia|].
  destruct (nc (pmap _ p)) as [|c] eqn:E'; [cbn in E'; lia|]. reflexivity.
Qed.

Lemma unit_nothing {A} (p : plane A) : (0 < nr p)%nat -> (0 < nc p)%nat ->
  unit_total (pmap (fun _ => None) p) = pmap (fun _ => None) (pmap (fun _ => @None R) p).
Proof. intros. unfold unit_total. now rewrite none_total. Qed.

Lemma lower_nothing {A} (p : plane A) : (0 < nr p)%nat -> (0 < nc p)%nat ->
  lower (pmap (fun _ => None) p) = pmap (fun _ => None) (pmap (fun _ => @None R) p).
Proof. intros. unfold lower. now rewrite none_total. Qed.

Lemma fold_min (l : list R) x m : In m (x :: l) -> (forall y, In y (x :: l) -> m <= y) -> fold_right Rmin x l = m.
Proof.
  intros I H.
  assert (L : m <= fold_right Rmin x l).
  { clear I. induction l as [|y l IH]; cbn; [apply H; now left|].
    apply Rmin_glb; [apply H; right; now left|]. apply IH. intros z [->|Z]; apply H; [now left|right; now right]. }
  assert (U : forall y, In y (x :: l) -> fold_right Rmin x l <= y).
  { clear. induction l as [|z l IH]; intros y; cbn.
    - intros [->|[]]; lra.
    - intros [->|[->|Y]].
      + eapply Rle_trans; [apply Rmin_r|]. apply IH. now left.
      + apply Rmin_l.
      + eapply Rle_trans; [apply Rmin_r|]. apply IH. now right. }
  specialize (U m I). lra.
Qed.

Lemma lower_is p q m : is p q -> faintest q m -> is (lower p) (pmap (fun x => x - Rabs m) q).
Proof.
  intros H ((i0 & j0 & Hi0 & Hj0 & M) & Le). unfold lower. rewrite (is_total _ _ H). cbv zeta.
  destruct H as [S V]. unfold shape in S. cbn [pmap nr nc] in S. injection S as Sr Sc.
  set (vals := map _ _).
  assert (E : (match vals with [] => 0 | x :: t => fold_right Rmin x t end) = m).
  { assert (I : In m vals).
    { apply in_map_iff. exists (i0, j0). cbn [fst snd]. split.
      - rewrite V by lia. cbn [px pmap]. exact M.
      - apply in_prod_iff. rewrite !in_seq. lia. }
    assert (L : forall y, In y vals -> m <= y).
    { intros y Y. apply in_map_iff in Y. destruct Y as ([i j] & <- & Y). apply in_prod_iff in Y. rewrite !in_seq in Y.
      cbn [fst snd]. rewrite V by lia. cbn [px pmap]. apply Le; lia. }
    destruct vals as [|x t]; [destruct I|]. now apply fold_min. }
  rewrite E. split; [unfold shape; cbn; congruence|].
  intros i j Hi Hj. cbn [px pmap nr nc] in *. rewrite V by assumption. reflexivity.
Qed.

Lemma total_scale q t : total (pmap (fun x => x / t) q) = total q / t.
Proof. unfold total. change (shape (pmap (fun x => x / t) q)) with (shape q). cbn [px pmap]. unfold Rdiv. now rewrite <- sum2_scal. Qed.

Lemma total_minus q a : total (pmap (fun x => x - a) q) = total q - INR (nr q * nc q) * a.
Proof.
  unfold total, sum2, shape. cbn [fst snd pmap px nr nc].
  assert (E : forall n f, sumn n (fun j => f j - a) = sumn n f - INR n * a).
  { intros n f. rewrite sumn_minus. f_equal. induction n as [|n IH]; [cbn; ring|].
    rewrite S_INR. cbn [sumn]. rewrite IH. ring. }
  rewrite (sumn_ext _ _ (fun i => sumn (nc q) (fun j => px q i j) - INR (nc q) * a)) by (intros; apply E).
  rewrite sumn_minus, mult_INR. f_equal. rewrite Rmult_assoc. generalize (INR (nc q) * a). intros c.
  induction (nr q) as [|n IH]; [cbn; ring|]. rewrite S_INR. cbn [sumn]. rewrite IH. ring.
Qed.

Lemma blend_is sh stamps V k : Forall (fun p => shape p = sh) stamps ->
  is (reshape sh (fun p => Some (combination (length stamps) stamps V (length stamps - 1 - k) p))) (blend sh stamps V k).
Proof.
  intros F. split; [reflexivity|]. intros i j Hi Hj. cbn [reshape nr nc] in Hi, Hj. cbn [px reshape pmap blend]. f_equal.
  unfold combination, columns, eigen_component. apply sumn_ext. intros a Ha. f_equal.
  assert (S : shape (nth a stamps (pconst (0, 0)%nat 0)) = sh).
  { rewrite Forall_forall in F. apply F. now apply nth_In. }
  rewrite <- S. change (snd (shape (nth a stamps (pconst (0, 0)%nat 0)))) with (nc (nth a stamps (pconst (0, 0)%nat 0))).
  apply flat_px. rewrite <- S in Hj. exact Hj.
Qed.

Definition normed (p : plane (option R)) : plane (option R) := unit_total (lower (unit_total p)).

Lemma normed_none p q : is p q -> (0 < nr p)%nat -> (0 < nc p)%nat -> total q = 0 -> forall i j, px (normed p) i j = None.
Proof.
  intros H Hr Hc E i j. unfold normed. rewrite (unit_none _ _ H E), lower_nothing, unit_nothing by assumption. reflexivity.
Qed.

Lemma normed_some p q m : is p q -> (0 < nr p)%nat -> (0 < nc p)%nat -> total q <> 0 ->
  faintest (pmap (fun x => x / total q) q) m ->
  let w := 1 - INR (nr p * nc p) * Rabs m in
  (w = 0 -> forall i j, px (normed p) i j = None) /\
  (w <> 0 -> is (normed p) (pmap (fun x => (x / total q - Rabs m) / w) q)).
Proof.
  intros H Hr Hc N F w. pose proof (lower_is _ _ _ (unit_is _ _ H N) F) as X.
  assert (T : total (pmap (fun x => x - Rabs m) (pmap (fun x => x / total q) q)) = w).
  { rewrite total_minus, total_scale. unfold w. destruct H as [S _]. unfold shape in S. cbn [pmap nr nc] in S. injection S as -> ->.
    change (nr (pmap (fun x => x / total q) q)) with (nr q). change (nc (pmap (fun x => x / total q) q)) with (nc q). field. exact N. }
  split; intros W.
  - intros i j. unfold normed. rewrite (unit_none _ _ X); [reflexivity|]. now rewrite T.
  - pose proof (unit_is _ _ X) as Y. rewrite T in Y. exact (Y W).
Qed.

Lemma again_some r q : is r q -> total q = 1 -> plane_eq (unit_total r) r.
Proof.
  intros H T. destruct (unit_is _ _ H) as [S V]; [rewrite T; lra|]. pose proof H as [S' V']. split; [now rewrite S, S'|].
  assert (Z : nr (unit_total r) = nr r /\ nc (unit_total r) = nc r).
  { unfold shape in S, S'. injection S as -> ->. injection S' as -> ->. now split. }
  destruct Z as [Zr Zc]. intros i j Hi Hj. rewrite V, V' by lia. cbn [px pmap]. rewrite T. f_equal. field.
Qed.

Lemma again_none r : (forall i j, px r i j = None) -> (0 < nr r)%nat -> (0 < nc r)%nat ->
  shape (unit_total r) = shape r /\ forall i j, px (unit_total r) i j = None.
Proof.
  intros H Hr Hc. assert (E : total_opt r = None).
  { unfold total_opt. destruct (nr r) as [|a]; [lia|]. destruct (nc r) as [|b]; [lia|]. cbn. now rewrite H. }
  unfold unit_total. rewrite E. split; reflexivity.
Qed.

Lemma unit_shape r : shape (unit_total r) = shape r.
Proof. unfold unit_total. destruct (total_opt r) as [t|]; [destruct (Req_EM_T t 0)|]; reflexivity. Qed.
Lemma lower_shape r : shape (lower r) = shape r.
Proof. unfold lower. destruct (total_opt r) as [t|]; reflexivity. Qed.
Lemma normed_shape r : shape (normed r) = shape r.
Proof. unfold normed. now rewrite unit_shape, lower_shape, unit_shape. Qed.

(** What an element of the basis is, up to the last division of a lone element. *)
Lemma element_is eigh sh stamps L c basis k : cov_matrix sh stamps = Ok c -> (250 < length stamps)%nat ->
  kl_basis eigh None sh stamps L = Ok basis -> (k < length basis)%nat ->
  exists p, is p (blend sh stamps (snd (eigh (length stamps) c)) k) /\ shape p = sh /\
    (nth k basis (pconst (0, 0)%nat None) = normed p \/ nth k basis (pconst (0, 0)%nat None) = unit_total (normed p)).
Proof.
  intros C N B K. unfold kl_basis in B.
  rewrite (eigenv_ok eigh sh stamps c C) in B by lia. destruct (eigh (length stamps) c) as [valh vech]. cbn [bind snd] in *.
  cbv zeta in B. destruct (Nat.leb_spec (length stamps) 250); [lia|].
  set (cut := kl_cut L valh) in *. destruct (Nat.ltb_spec (length stamps) cut); [discriminate|]. cbn [bind] in B.
  set (f := fun i => unit_total _) in B.
  assert (Hk : (k < cut)%nat).
  { injection B as <-. rewrite unit_single, rev_length, map_length, seq_length in K. exact K. }
  assert (E : nth k (rev (map f (seq 0 cut))) (pconst (0, 0)%nat None) = f (cut - 1 - k)%nat).
  { rewrite rev_nth by (rewrite map_length, seq_length; exact Hk). rewrite map_length, seq_length.
    rewrite (nth_indep _ _ (f 0%nat)) by (rewrite map_length, seq_length; lia). rewrite map_nth, seq_nth by lia.
    f_equal. lia. }
  exists (reshape sh (fun p => Some (combination (length stamps) stamps vech (length stamps - 1 - k) p))).
  split.
  { apply blend_is. apply cov_ok in C. destruct C as [C _]. apply Forall_forall. intros p Hp.
    destruct (In_nth _ _ (pconst (0, 0)%nat 0) Hp) as (a & Ha & <-). now apply C. }
  split; [now destruct sh|].
  assert (Ef : f (cut - 1 - k)%nat = normed (reshape sh (fun p => Some (combination (length stamps) stamps vech (length stamps - 1 - k) p)))).
  { unfold f. replace (length stamps - cut + (cut - 1 - k))%nat with (length stamps - 1 - k)%nat by lia. reflexivity. }
  rewrite <- Ef, <- E. injection B as <-.
  destruct (rev (map f (seq 0 cut))) as [|x [|y t]] eqn:R; [now left| |now left].
  assert (k = 0%nat) as -> by (cbn in K; lia). now right.
Qed.

(** With more than 250 stamps: each element is the blend of the stamps divided by its sum, minus
    the absolute value of its faintest cell, divided by what is then its sum. *)
Lemma C112_elements_lm : forall eigh sh stamps L c basis k,
  cov_matrix sh stamps = Ok c -> (250 < length stamps)%nat -> (0 < fst sh)%nat -> (0 < snd sh)%nat ->
  kl_basis eigh None sh stamps L = Ok basis -> (k < length basis)%nat ->
  let t := blend sh stamps (snd (eigh (length stamps) c)) k in
  let e := nth k basis (pconst (0, 0)%nat None) in
  shape e = sh /\
  (total t = 0 -> no_number e) /\
  (total t <> 0 -> forall m, faintest (pmap (fun x => x / total t) t) m ->
     let w := 1 - INR (fst sh * snd sh) * Rabs m in
     (w = 0 -> no_number e) /\
     (w <> 0 -> forall i j, (i < fst sh)%nat -> (j < snd sh)%nat ->
        px e i j = Some ((px t i j / total t - Rabs m) / w))).
Proof.
  intros eigh sh stamps L c basis k C N Hr Hc B K t e.
  destruct (element_is eigh sh stamps L c basis k C N B K) as (p & P & S & E). fold t in P. fold e in E.
  assert (Sr : nr p = fst sh) by (rewrite <- S; reflexivity). assert (Sc : nc p = snd sh) by (rewrite <- S; reflexivity).
  pose proof (normed_shape p) as Sn. rewrite S in Sn.
  assert (Nr : nr (normed p) = fst sh) by (rewrite <- Sn; reflexivity). assert (Nc : nc (normed p) = snd sh) by (rewrite <- Sn; reflexivity).
  assert (None_case : (forall i j, px (normed p) i j = None) -> no_number e).
  { intros H i j _ _. destruct E as [E|E]; rewrite E; [apply H|]. apply again_none; [exact H|lia|lia]. }
  split; [|split].
  - destruct E as [->| ->]; [|rewrite unit_shape]; exact Sn.
  - intros T. apply None_case. eapply normed_none; [exact P|lia|lia|exact T].
  - intros T m F w. destruct (normed_some p t m P ltac:(lia) ltac:(lia) T F) as [W0 W1].
    rewrite Sr, Sc in W0, W1. fold w in W0, W1. split; [now intros Z; apply None_case, W0|].
    intros W i j Hi Hj. specialize (W1 W).
    assert (One : total (pmap (fun x => (x / total t - Rabs m) / w) t) = 1).
    { change (pmap (fun x => (x / total t - Rabs m) / w) t) with (pmap (fun x => x / w) (pmap (fun x => x - Rabs m) (pmap (fun x => x / total t) t))).
      rewrite total_scale, total_minus, total_scale. cbn [pmap nr nc blend t]. fold t. unfold w. field. split; assumption. }
    assert (X : px (normed p) i j = Some ((px t i j / total t - Rabs m) / w)).
    { destruct W1 as [_ V]. rewrite V by lia. reflexivity. }
    destruct E as [-> | ->]; [exact X|]. destruct (again_some _ _ W1 One) as [Su V]. rewrite V; [exact X| |].
    + change (i < fst (shape (unit_total (normed p))))%nat. rewrite Su, Sn. exact Hi.
    + change (j < snd (shape (unit_total (normed p))))%nat. rewrite Su, Sn. exact Hj.
Qed.

(** Where the blend has a negative cell after the first division, the faintest cell is doubled
    before the second; if the frame has more cells than one over its absolute value, the second
    division turns bright into faint. *)
Lemma C112_negative_lm : forall eigh sh stamps L c basis k,
  cov_matrix sh stamps = Ok c -> (250 < length stamps)%nat -> (0 < fst sh)%nat -> (0 < snd sh)%nat ->
  kl_basis eigh None sh stamps L = Ok basis -> (k < length basis)%nat ->
  let t := blend sh stamps (snd (eigh (length stamps) c)) k in
  let e := nth k basis (pconst (0, 0)%nat None) in
  let P := INR (fst sh * snd sh) in
  total t <> 0 -> forall m, faintest (pmap (fun x => x / total t) t) m ->
  (0 <= m -> P * m < 1 -> exists q, plane_eq e (pmap Some q) /\ faintest q 0 /\ total q = 1) /\
  (m < 0 -> P * - m < 1 -> exists q, plane_eq e (pmap Some q) /\ faintest q (2 * m / (1 - P * - m)) /\ total q = 1) /\
  (m < 0 -> 1 < P * - m -> exists q, plane_eq e (pmap Some q) /\ total q = 1 /\
     forall i j i' j', (i < fst sh)%nat -> (j < snd sh)%nat -> (i' < fst sh)%nat -> (j' < snd sh)%nat ->
       px t i j / total t < px t i' j' / total t -> px q i' j' < px q i j).
Proof.
  intros eigh sh stamps L c basis k C N Hr Hc B K t e P T m F.
  destruct (C112_elements_lm eigh sh stamps L c basis k C N Hr Hc B K) as (Se & _ & X). fold t e in Se, X.
  destruct (X T m F) as [_ Y]. clear X. fold P in Y. set (w := 1 - P * Rabs m) in *.
  set (q := pmap (fun x => (x / total t - Rabs m) / w) t).
  assert (Q : w <> 0 -> plane_eq e (pmap Some q)).
  { intros W. split; [rewrite Se; now destruct sh|]. intros i j Hi Hj. change (i < fst (shape e))%nat in Hi. change (j < snd (shape e))%nat in Hj.
    rewrite Se in Hi, Hj. rewrite Y by assumption. reflexivity. }
  assert (One : w <> 0 -> total q = 1).
  { intros W. unfold q. change (pmap (fun x => (x / total t - Rabs m) / w) t) with (pmap (fun x => x / w) (pmap (fun x => x - Rabs m) (pmap (fun x => x / total t) t))).
    rewrite total_scale, total_minus, total_scale. change (nr (pmap (fun x => x / total t) t)) with (fst sh).
    change (nc (pmap (fun x => x / total t) t)) with (snd sh). fold P. unfold w in *. field. split; assumption. }
  assert (Fa : 0 < w -> faintest q ((m - Rabs m) / w)).
  { intros W. destruct F as ((i0 & j0 & Hi0 & Hj0 & M) & Le). split.
    - exists i0, j0. split; [exact Hi0|]. split; [exact Hj0|]. cbn [q pmap px] in *. now rewrite M.
    - intros i j Hi Hj. cbn [q pmap px]. apply Rmult_le_compat_r; [left; now apply Rinv_0_lt_compat|].
      specialize (Le i j Hi Hj). cbn [pmap px] in Le. lra. }
  split; [|split].
  - intros M0 M1. assert (W : 0 < w) by (unfold w; rewrite Rabs_pos_eq by exact M0; lra).
    exists q. split; [apply Q; lra|]. split; [|apply One; lra].
    replace 0 with ((m - Rabs m) / w); [now apply Fa|]. rewrite Rabs_pos_eq by exact M0. unfold Rdiv. ring.
  - intros M0 M1. assert (Ab : Rabs m = - m) by (apply Rabs_left; exact M0). assert (W : 0 < w) by (unfold w; rewrite Ab; lra).
    exists q. split; [apply Q; lra|]. split; [|apply One; lra].
    replace (2 * m / (1 - P * - m)) with ((m - Rabs m) / w); [now apply Fa|]. unfold w. rewrite Ab. f_equal. ring.
  - intros M0 M1. assert (Ab : Rabs m = - m) by (apply Rabs_left; exact M0). assert (W : w < 0) by (unfold w; rewrite Ab; lra).
    exists q. split; [apply Q; lra|]. split; [apply One; lra|].
    intros i j i' j' _ _ _ _ H. cbn [q pmap px]. 
    assert (I : / w < 0) by now apply Rinv_lt_0_compat. unfold Rdiv at 1 3. nra.
Qed.
