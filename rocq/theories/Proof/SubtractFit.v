(** The fits, the mask, the optimisation window. *)
From Coq Require Import Arith ZArith List Bool Reals Lia Lra Psatz FunctionalExtensionality.
From Flocq Require Import Core.
From Coquelicot Require Import Complex.
From Verif.Model Require Import Py Plane Ma Subtract.
From Verif.Spec Require Import Coadd Subtract.
From Verif.Proof Require Import Coadd Fourier CoaddMore Subtract SubtractMain.
Import ListNotations.
Set Bullet Behavior "Strict Subproofs".
Local Open Scope R_scope.

Lemma in_bounds_true x lo hi : length x = length lo -> length x = length hi ->
  (in_bounds x lo hi = true <-> within lo x hi).
Proof.
  revert lo hi. induction x as [|a x IH]; intros [|l lo] [|h hi] H1 H2; try discriminate.
  - cbn. split; [|auto]. intros _. split; [reflexivity|]. split; [reflexivity|]. intros [|k]; discriminate.
  - cbn [in_bounds]. cbn in H1, H2. injection H1 as H1. injection H2 as H2.
    rewrite !andb_true_iff, (IH lo hi H1 H2). split.
    + intros [[A B] [_ [_ C]]]. split; [cbn; lia|]. split; [cbn; lia|].
      intros [|k] a' l' h'; cbn.
      * intros E1 E2 E3. injection E1 as <-. injection E2 as <-. injection E3 as <-.
        destruct (Rle_dec l a), (Rle_dec a h); try discriminate. lra.
      * apply C.
    + intros [_ [_ C]]. assert (l <= a <= h) as Q by (now apply (C 0%nat)).
      destruct (Rle_dec l a), (Rle_dec a h); try lra. split; [auto|].
      split; [exact H1|]. split; [exact H2|]. intros k. apply (C (S k)).
Qed.

Lemma setup_ratio e x y fitted c zr zn : e_transp e x y = Ok (zr, zn) ->
  setup e (Is x) (Is y) false fitted = Ok c -> c_ratio c = zn / zr.
Proof.
  intros T H. destruct (setup_images _ _ _ _ _ H) as (zr' & zn' & mix & Sh & _ & T' & Ep).
  rewrite T in T'. injection T' as <- <-. now destruct (prepare_wf _ _ _ _ _ _ _ _ Sh Ep) as (_ & _ & _ & _ & R & _).
Qed.

(** ** C17 *)
Lemma fit_sources s c beta shift it b dx dy : fit s c beta shift it = Ok (b, dx, dy) ->
  (b = c_ratio c /\ dx = 0 /\ dy = 0) \/
  (beta = true /\ shift = true /\ exists f, lsq s f [c_ratio c; 0; 0] [1 / 10; - (9 / 10); - (9 / 10)] [10; 9 / 10; 9 / 10] = Ok (true, [b; dx; dy])) \/
  (beta = true /\ shift = false /\ it = true /\ dx = 0 /\ dy = 0 /\ exists f, bounded s f (1 / 10) 10 = (true, b)) \/
  (beta = true /\ shift = false /\ it = false /\ dx = 0 /\ dy = 0 /\ exists f, lsq s f [c_ratio c] [1 / 10] [10] = Ok (true, [b])) \/
  (beta = false /\ shift = true /\ b = c_ratio c /\ exists f, lsq s f [0; 0] [- (9 / 10); - (9 / 10)] [9 / 10; 9 / 10] = Ok (true, [dx; dy])).
Proof.
  unfold fit, least_squares. destruct beta, shift.
  - destruct (in_bounds _ _ _); [|discriminate].
    destruct (lsq _ _ _ _ _) as [[[] x]|] eqn:E; cbn [bind]; try discriminate.
    + destruct x as [|b1 [|x1 [|y1 [|]]]]; try discriminate. intros H. injection H as <- <- <-.
      right. left. eauto.
    + intros H. injection H as <- <- <-. auto.
  - destruct it.
    + destruct (bounded _ _ _ _) as [[] x] eqn:E; intros H; injection H as <- <- <-; [|auto].
      right. right. left. eauto 8.
    + destruct (in_bounds _ _ _); [|discriminate].
      destruct (lsq _ _ _ _ _) as [[[] x]|] eqn:E; cbn [bind]; try discriminate.
      * destruct x as [|b1 [|]]; try discriminate. intros H. injection H as <- <- <-.
        right. right. right. left. eauto 8.
      * intros H. injection H as <- <- <-. auto.
  - destruct (in_bounds _ _ _); [|discriminate].
    destruct (lsq _ _ _ _ _) as [[[] x]|] eqn:E; cbn [bind]; try discriminate.
    + destruct x as [|x1 [|y1 [|]]]; try discriminate. intros H. injection H as <- <- <-.
      right. right. right. right. eauto 8.
    + intros H. injection H as <- <- <-. auto.
  - intros H. injection H as <- <- <-. auto.
Qed.

Lemma sources e x y zr zn beta shift it fitted b dx dy : e_transp e x y = Ok (zr, zn) ->
  ratio_and_shift e (Is x) (Is y) false beta shift it fitted = Ok (b, dx, dy) ->
  let s := e_solve e in
  (b = zn / zr /\ dx = 0 /\ dy = 0) \/
  (beta = true /\ shift = true /\ exists f, lsq s f [zn / zr; 0; 0] [1 / 10; - (9 / 10); - (9 / 10)] [10; 9 / 10; 9 / 10] = Ok (true, [b; dx; dy])) \/
  (beta = true /\ shift = false /\ it = true /\ dx = 0 /\ dy = 0 /\ exists f, bounded s f (1 / 10) 10 = (true, b)) \/
  (beta = true /\ shift = false /\ it = false /\ dx = 0 /\ dy = 0 /\ exists f, lsq s f [zn / zr] [1 / 10] [10] = Ok (true, [b])) \/
  (beta = false /\ shift = true /\ b = zn / zr /\ exists f, lsq s f [0; 0] [- (9 / 10); - (9 / 10)] [9 / 10; 9 / 10] = Ok (true, [dx; dy])).
Proof.
  intros T. unfold ratio_and_shift. destruct (setup _ _ _ _ _) as [c|] eqn:E; [|discriminate]. cbn [bind].
  intros H. rewrite <- (setup_ratio _ _ _ _ _ _ _ T E). now apply fit_sources with (it := it).
Qed.

Lemma fit_bounds e x y zr zn beta shift it fitted b dx dy : e_transp e x y = Ok (zr, zn) ->
  (forall f x0 lo hi v, lsq (e_solve e) f x0 lo hi = Ok (true, v) -> within lo v hi) ->
  (forall f lo hi v, bounded (e_solve e) f lo hi = (true, v) -> lo <= v <= hi) ->
  ratio_and_shift e (Is x) (Is y) false beta shift it fitted = Ok (b, dx, dy) ->
  (b = zn / zr \/ (beta = true /\ 1 / 10 <= b <= 10)) /\
  ((dx = 0 /\ dy = 0) \/ (shift = true /\ Rabs dx <= 9 / 10 /\ Rabs dy <= 9 / 10)).
Proof.
  intros T L B H. destruct (sources _ _ _ _ _ _ _ _ _ _ _ _ T H) as [(-> & -> & ->)|[(-> & -> & f & E)|[(-> & -> & -> & -> & -> & f & E)|[(-> & -> & -> & -> & -> & f & E)|(-> & -> & -> & f & E)]]]].
  - auto.
  - destruct (L _ _ _ _ _ E) as [_ [_ C]]. split.
    + right. split; [reflexivity|]. now apply (C 0%nat).
    + right. split; [reflexivity|]. split; apply Rabs_le; [now apply (C 1%nat)|now apply (C 2%nat)].
  - split; [|auto]. right. split; [reflexivity|]. exact (B _ _ _ _ E).
  - destruct (L _ _ _ _ _ E) as [_ [_ C]]. split; [|auto]. right. split; [reflexivity|]. now apply (C 0%nat).
  - destruct (L _ _ _ _ _ E) as [_ [_ C]]. split; [auto|].
    right. split; [reflexivity|]. split; apply Rabs_le; [now apply (C 0%nat)|now apply (C 1%nat)].
Qed.

Lemma within3 b : 1 / 10 <= b <= 10 ->
  in_bounds [b; 0; 0] [1 / 10; - (9 / 10); - (9 / 10)] [10; 9 / 10; 9 / 10] = true.
Proof.
  intros H. apply in_bounds_true; [reflexivity..|]. split; [reflexivity|]. split; [reflexivity|].
  intros [|[|[|k]]] a l h; cbn; intros E1 E2 E3; try (injection E1 as <-; injection E2 as <-; injection E3 as <-; lra).
  destruct k; discriminate.
Qed.
Lemma within1 b : 1 / 10 <= b <= 10 -> in_bounds [b] [1 / 10] [10] = true.
Proof.
  intros H. apply in_bounds_true; [reflexivity..|]. split; [reflexivity|]. split; [reflexivity|].
  intros [|k] a l h; cbn; intros E1 E2 E3; try (injection E1 as <-; injection E2 as <-; injection E3 as <-; lra).
  destruct k; discriminate.
Qed.

Lemma fit_fallback e x y zr zn beta shift it fitted c : e_transp e x y = Ok (zr, zn) ->
  setup e (Is x) (Is y) false fitted = Ok c -> 1 / 10 <= zn / zr <= 10 ->
  (forall f x0 lo hi, exists v, lsq (e_solve e) f x0 lo hi = Ok (false, v)) ->
  (forall f lo hi, exists v, bounded (e_solve e) f lo hi = (false, v)) ->
  ratio_and_shift e (Is x) (Is y) false beta shift it fitted = Ok (zn / zr, 0, 0).
Proof.
  intros T E Hb L B. unfold ratio_and_shift. rewrite E. cbn [bind].
  rewrite <- (setup_ratio _ _ _ _ _ _ _ T E) in Hb |- *. unfold fit, least_squares.
  destruct beta, shift.
  - rewrite within3 by exact Hb.
    match goal with |- context [lsq ?s ?f ?a ?l ?h] => destruct (L f a l h) as [v ->] end. reflexivity.
  - destruct it.
    + match goal with |- context [bounded ?s ?f ?l ?h] => destruct (B f l h) as [v ->] end. reflexivity.
    + rewrite within1 by exact Hb.
      match goal with |- context [lsq ?s ?f ?a ?l ?h] => destruct (L f a l h) as [v ->] end. reflexivity.
  - assert (in_bounds [0; 0] [- (9 / 10); - (9 / 10)] [9 / 10; 9 / 10] = true) as ->.
    { apply in_bounds_true; [reflexivity..|]. split; [reflexivity|]. split; [reflexivity|].
      intros [|[|k]] a l h; cbn; intros E1 E2 E3; try (injection E1 as <-; injection E2 as <-; injection E3 as <-; lra).
      destruct k; discriminate. }
    match goal with |- context [lsq ?s ?f ?a ?l ?h] => destruct (L f a l h) as [v ->] end. reflexivity.
  - reflexivity.
Qed.

Lemma infeasible e x y zr zn shift it fitted c : e_transp e x y = Ok (zr, zn) ->
  setup e (Is x) (Is y) false fitted = Ok c -> ~ (1 / 10 <= zn / zr <= 10) -> shift = true \/ it = false ->
  subtract e (Is x) (Is y) false true shift it fitted = Raise ValueError.
Proof.
  intros T E Hb H. unfold subtract. rewrite E. cbn [bind].
  rewrite <- (setup_ratio _ _ _ _ _ _ _ T E) in Hb. unfold fit, least_squares.
  destruct shift.
  - assert (in_bounds [c_ratio c; 0; 0] [1 / 10; - (9 / 10); - (9 / 10)] [10; 9 / 10; 9 / 10] = false) as ->; [|reflexivity].
    cbn [in_bounds]. destruct (Rle_dec (1 / 10) (c_ratio c)), (Rle_dec (c_ratio c) 10); cbn [andb]; try reflexivity. exfalso. lra.
  - destruct it; [destruct H; discriminate|].
    assert (in_bounds [c_ratio c] [1 / 10] [10] = false) as ->; [|reflexivity].
    cbn [in_bounds]. destruct (Rle_dec (1 / 10) (c_ratio c)), (Rle_dec (c_ratio c) 10); cbn [andb]; try reflexivity. exfalso. lra.
Qed.

(** ** C18 *)
Lemma mask_union e x y beta shift it fitted D P S m : mask_fits x -> mask_fits y ->
  subtract e (Is x) (Is y) false beta shift it fitted = Ok (D, P, S, m) ->
  is_union d_mask [x; y] (d_shape x) m.
Proof.
  intros Mx My H. destruct (subtract_inv _ _ _ _ _ _ _ _ _ H) as (c & b1 & dx1 & dy1 & E1 & _ & _ & E4).
  unfold difference in E4. injection E4 as _ _ _ ->.
  destruct (setup_images _ _ _ _ _ E1) as (zr & zn & mix & Sh & Em & _ & Ep).
  destruct (prepare_wf _ _ _ _ _ _ _ _ Sh Ep) as (_ & _ & _ & _ & _ & _ & ->).
  assert (mshape (d_shape x) (d_mask y)) as My' by (rewrite <- Sh; exact My).
  destruct (mask_or_spec _ _ _ My' Mx) as (m & Em' & Sm & Vm). rewrite Em in Em'. injection Em' as <-.
  assert (forall i j, (i < fst (d_shape x))%nat -> (j < snd (d_shape x))%nat ->
     (masked_at mix i j = true <-> exists a, In a [x; y] /\ masked_at (d_mask a) i j = true)) as U.
  { intros i j Hi Hj. rewrite Vm by assumption. rewrite orb_true_iff. split.
    - intros [A|A]; [exists y|exists x]; cbn; auto.
    - intros [a [[<-|[<-|[]]] A]]; auto. }
  split; [exact U|]. split.
  - split.
    + intros -> a i j Ha Hi Hj. destruct (masked_at (d_mask a) i j) eqn:E; [|reflexivity].
      assert (masked_at Nomask i j = true) by (apply U; eauto). discriminate.
    + intros N. destruct mix as [|p]; [reflexivity|]. destruct Sm as [Sp (i & j & Hi & Hj & A)].
      destruct (dims _ _ Sp) as [L1 L2]. assert (i < fst (d_shape x))%nat as Hi' by lia.
      assert (j < snd (d_shape x))%nat as Hj' by lia. clear Hi Hj. rename Hi' into Hi, Hj' into Hj.
      destruct (proj1 (U i j Hi Hj) A) as [a [Ha B]]. rewrite (N a i j Ha Hi Hj) in B. discriminate.
  - destruct mix as [|p]; [exact Logic.I|]. exact (proj1 Sm).
Qed.

Lemma shapes_differ e x y beta shift it fitted : d_shape x <> d_shape y ->
  subtract e (Is x) (Is y) false beta shift it fitted = Raise ValueError.
Proof.
  intros H. unfold subtract, setup. cbn [as_image bind].
  destruct ((fst (d_shape y) =? fst (d_shape x))%nat && (snd (d_shape y) =? snd (d_shape x))%nat) eqn:E; [|reflexivity].
  apply andb_true_iff in E. rewrite !Nat.eqb_eq in E. destruct (d_shape x), (d_shape y). cbn in E. intuition congruence.
Qed.

(** ** C19 *)
Lemma border_small n : (n <= 200)%nat -> border_cells OPT_BORDER n = [].
Proof.
  intros H. unfold border_cells, OPT_BORDER, slice_bound.
  change (100 <? 0)%Z with false. change (- (100) <? 0)%Z with true. cbv iota.
  replace (Z.to_nat (Z.max 0 (- (100) + Z.of_nat n) - Z.min 100 (Z.of_nat n))) with 0%nat; [reflexivity|]. lia.
Qed.
Lemma border_large n : (200 < n)%nat -> border_cells OPT_BORDER n = seq 100 (n - 200).
Proof.
  intros H. unfold border_cells, OPT_BORDER, slice_bound.
  change (100 <? 0)%Z with false. change (- (100) <? 0)%Z with true. cbv iota.
  f_equal; lia.
Qed.

Lemma list_prod_nil_r {A B} (l : list A) : list_prod l (@nil B) = [].
Proof. induction l; cbn; auto. Qed.

Lemma small_window m p : (nr p <= 200 \/ nc p <= 200)%nat -> window_cost m p = None.
Proof.
  intros H. unfold window_cost. destruct H as [H|H]; rewrite (border_small _ H).
  - reflexivity.
  - rewrite list_prod_nil_r. reflexivity.
Qed.

(** Sum over the rectangle [a, a+n) x [b, b+m). *)
Definition rect_sum (f : nat -> nat -> R) (a n b m : nat) : R :=
  rsum n (fun i => rsum m (fun j => f (a + i)%nat (b + j)%nat)).

Lemma fold_app (f : nat * nat -> R) l1 l2 :
  fold_right (fun ij s => f ij + s) 0 (l1 ++ l2) =
  fold_right (fun ij s => f ij + s) 0 l1 + fold_right (fun ij s => f ij + s) 0 l2.
Proof. induction l1 as [|a l IH]; cbn; [ring|]. rewrite IH. ring. Qed.

Lemma rsum_shift n f : rsum (S n) f = f 0%nat + rsum n (fun i => f (S i)).
Proof. induction n as [|n IH]; cbn in *; [ring|]. rewrite IH. ring. Qed.

Lemma fold_row (f : nat * nat -> R) i b m :
  fold_right (fun ij s => f ij + s) 0 (map (fun y => (i, y)) (seq b m)) = rsum m (fun j => f (i, (b + j)%nat)).
Proof.
  revert b. induction m as [|m IH]; intros b; [reflexivity|]. cbn [seq map fold_right]. rewrite IH, rsum_shift.
  rewrite Nat.add_0_r. f_equal. apply rsum_ext. intros j _. f_equal. f_equal. lia.
Qed.

Lemma fold_rect (f : nat * nat -> R) a n b m :
  fold_right (fun ij s => f ij + s) 0 (list_prod (seq a n) (seq b m)) = rect_sum (fun i j => f (i, j)) a n b m.
Proof.
  unfold rect_sum. revert a. induction n as [|n IH]; intros a; [reflexivity|].
  cbn [seq list_prod]. rewrite fold_app, fold_row, IH, rsum_shift. rewrite Nat.add_0_r. f_equal.
  apply rsum_ext. intros i _. apply rsum_ext. intros j _. f_equal. f_equal. lia.
Qed.

Lemma rsum_scale k n f : rsum n (fun i => k * f i) = k * rsum n f.
Proof. induction n as [|n IH]; cbn; [ring|]. rewrite IH. ring. Qed.

Lemma large_window m p : (200 < nr p)%nat -> (200 < nc p)%nat ->
  (window_cost m p = None <->
   forall i j, (100 <= i < nr p - 100)%nat -> (100 <= j < nc p - 100)%nat -> masked_at m i j = true) /\
  (forall v, window_cost m p = Some v ->
   v = rsum (nr p - 200) (fun i => rsum (nc p - 200) (fun j =>
         if masked_at m (100 + i) (100 + j) then 0 else Rabs (px p (100 + i)%nat (100 + j)%nat)))
       / (INR (nr p - 200) * INR (nc p - 200))).
Proof.
  intros H1 H2. unfold window_cost. rewrite (border_large _ H1), (border_large _ H2), !seq_length.
  set (cells := list_prod _ _). split.
  - destruct (all_masked m cells) eqn:E.
    + split; [|reflexivity]. intros _ i j Hi Hj. unfold all_masked in E. rewrite forallb_forall in E.
      apply (E (i, j)). apply in_prod; apply in_seq; lia.
    + split; [discriminate|]. intros A. exfalso. assert (all_masked m cells = true); [|congruence].
      unfold all_masked. apply forallb_forall. intros [i j] Hin. apply in_prod_iff in Hin.
      rewrite !in_seq in Hin. cbn [fst snd]. apply A; lia.
  - intros v. destruct (all_masked m cells); [discriminate|]. intros E. injection E as <-.
    unfold sum_unmasked. unfold cells.
    rewrite (fold_rect (fun ij => if masked_at m (fst ij) (snd ij) then 0
        else Rabs (px p (fst ij) (snd ij) / INR ((nr p - 200) * (nc p - 200))))).
    unfold rect_sum. rewrite mult_INR.
    assert (0 < INR (nr p - 200)) as P1 by (apply INR_pos; lia).
    assert (0 < INR (nc p - 200)) as P2 by (apply INR_pos; lia).
    set (k := INR (nr p - 200) * INR (nc p - 200)).
    assert (0 < k) as Pk by (now apply Rmult_lt_0_compat).
    unfold Rdiv at 2. rewrite Rmult_comm, <- rsum_scale. apply rsum_ext. intros i _.
    rewrite <- rsum_scale. apply rsum_ext. intros j _. cbn [fst snd].
    destruct (masked_at m (100 + i) (100 + j)); [ring|].
    unfold Rdiv. rewrite Rabs_mult, (Rabs_pos_eq (/ k)); [ring|]. left. now apply Rinv_0_lt_compat.
Qed.

Lemma small_objective c b dx dy : (fst (c_shape c) <= 200 \/ snd (c_shape c) <= 200)%nat ->
  window_cost (c_mask c) (residual_shift c b dx dy) = None.
Proof. intros H. apply small_window. exact H. Qed.

Lemma setup_shape e x y fitted c : setup e (Is x) (Is y) false fitted = Ok c -> c_shape c = d_shape x.
Proof.
  intros H. destruct (setup_images _ _ _ _ _ H) as (zr' & zn' & mix & Sh & _ & T' & Ep).
  now destruct (prepare_wf _ _ _ _ _ _ _ _ Sh Ep) as (_ & R & _).
Qed.

Definition blind3 : list R -> option R := fun _ => None.

Lemma fit_blind s c beta it : (fst (c_shape c) <= 200 \/ snd (c_shape c) <= 200)%nat ->
  fit s c beta true it =
  if beta then
    bind (least_squares s blind3 [c_ratio c; 0; 0] [1 / 10; - (9 / 10); - (9 / 10)] [10; 9 / 10; 9 / 10])
      (fun '(success, x) => if success : bool then match x with [b; dx; dy] => Ok (b, dx, dy) | _ => Raise ValueError end
                            else Ok (c_ratio c, 0, 0))
  else
    bind (least_squares s blind3 [0; 0] [- (9 / 10); - (9 / 10)] [9 / 10; 9 / 10])
      (fun '(success, x) => if success : bool then match x with [dx; dy] => Ok (c_ratio c, dx, dy) | _ => Raise ValueError end
                            else Ok (c_ratio c, 0, 0)).
Proof.
  intros H. unfold fit. destruct beta.
  - match goal with |- bind (least_squares s ?f _ _ _) _ = _ => replace f with blind3; [reflexivity|] end.
    apply functional_extensionality. intros [|b [|dx [|dy [|]]]]; try reflexivity. unfold blind3.
    now rewrite small_objective.
  - match goal with |- bind (least_squares s ?f _ _ _) _ = _ => replace f with blind3; [reflexivity|] end.
    apply functional_extensionality. intros [|dx [|dy [|]]]; try reflexivity. unfold blind3.
    now rewrite small_objective.
Qed.

(** Two pairs of small images with the same zero-point ratio get the same answer. *)
Lemma small_same_answer e x y x' y' beta it fitted c c' : small x -> small x' ->
  setup e (Is x) (Is y) false fitted = Ok c -> setup e (Is x') (Is y') false fitted = Ok c' ->
  (exists zr zn zr' zn', e_transp e x y = Ok (zr, zn) /\ e_transp e x' y' = Ok (zr', zn') /\ zn / zr = zn' / zr') ->
  ratio_and_shift e (Is x) (Is y) false beta true it fitted =
  ratio_and_shift e (Is x') (Is y') false beta true it fitted.
Proof.
  intros S1 S2 E1 E2 (zr & zn & zr' & zn' & T1 & T2 & T3). unfold ratio_and_shift. rewrite E1, E2. cbn [bind].
  assert (c_ratio c = c_ratio c') as R.
  { now rewrite (setup_ratio _ _ _ _ _ _ _ T1 E1), (setup_ratio _ _ _ _ _ _ _ T2 E2). }
  rewrite !fit_blind.
  - rewrite R. reflexivity.
  - rewrite (setup_shape _ _ _ _ _ E2). exact S2.
  - rewrite (setup_shape _ _ _ _ _ E1). exact S1.
Qed.

Lemma small_fails e x y beta it fitted c : small x ->
  setup e (Is x) (Is y) false fitted = Ok c ->
  (forall f x0 lo hi, (forall v, f v = None) -> lsq (e_solve e) f x0 lo hi = Raise ValueError) ->
  subtract e (Is x) (Is y) false beta true it fitted = Raise ValueError.
Proof.
  intros S E L. unfold subtract. rewrite E. cbn [bind]. rewrite fit_blind.
  - unfold least_squares. destruct beta.
    + destruct (in_bounds _ _ _); [|reflexivity]. now rewrite L.
    + destruct (in_bounds _ _ _); [|reflexivity]. now rewrite L.
  - rewrite (setup_shape _ _ _ _ _ E). exact S.
Qed.

(** ** The background term *)
Lemma roll_cell p s i j : (i < nr p)%nat -> (j < nc p)%nat ->
  exists i' j', (i' < nr p)%nat /\ (j' < nc p)%nat /\ px (roll_flat p s) i j = px p i' j' /\
    exists q, (Z.of_nat (i' * nc p + j') + s = Z.of_nat (i * nc p + j) + q * Z.of_nat (nr p * nc p))%Z.
Proof.
  intros Hi Hj. unfold roll_flat. cbn [px]. set (n := Z.of_nat (nr p * nc p)).
  assert (0 < n)%Z as Hn by (unfold n; nia).
  pose proof (Z.mod_pos_bound (Z.of_nat (i * nc p + j) - s) n Hn) as B.
  set (z := ((Z.of_nat (i * nc p + j) - s) mod n)%Z) in *. set (k := Z.to_nat z).
  assert (k < nr p * nc p)%nat as Hk by (unfold k, n in *; lia).
  exists (k / nc p)%nat, (k mod nc p)%nat. split; [apply Nat.div_lt_upper_bound; lia|].
  split; [apply Nat.mod_upper_bound; lia|]. split; [reflexivity|].
  replace (k / nc p * nc p + k mod nc p)%nat with k by (rewrite Nat.mul_comm; apply Nat.div_mod; lia).
  exists (- ((Z.of_nat (i * nc p + j) - s) / n))%Z.
  pose proof (Z.div_mod (Z.of_nat (i * nc p + j) - s) n) as D. unfold k. rewrite Z2Nat.id by lia. unfold z. lia.
Qed.

Lemma gamma_flat e x y fitted c b dx dy i j : setup e (Is x) (Is y) false fitted = Ok c ->
  (forall p, shape (e_back e p) = shape p) -> (i < fst (d_shape x))%nat -> (j < snd (d_shape x))%nat ->
  exists i' j', (i' < fst (d_shape x))%nat /\ (j' < snd (d_shape x))%nat /\
    (exists q, (Z.of_nat (i' * snd (d_shape x) + j') + (ZnearestE dx + ZnearestE dy) =
                Z.of_nat (i * snd (d_shape x) + j) + q * Z.of_nat (fst (d_shape x) * snd (d_shape x)))%Z) /\
    px (residual_shift c b dx dy) i j =
    px (residual_shift (without_gamma c) b dx dy) i j - px (gammap c b) i' j'.
Proof.
  intros H HB Hi Hj. destruct (setup_images _ _ _ _ _ H) as (zr' & zn' & mix & Sh & _ & T' & Ep).
  assert (shape (c_gamma c) = d_shape x) as Sg.
  { unfold prepare in Ep. destruct (center_of_mass _) as [? ?]. destruct (center_of_mass _) as [? ?].
    destruct (negb fitted && _); [discriminate|]. injection Ep as <-. cbn.
    transitivity (shape (e_back e (frame (d_shape y) (d_interped y)))); [reflexivity|].
    rewrite HB. rewrite Sh. apply sh_eta. }
  destruct (dims _ _ Sg) as [L1 L2].
  destruct (roll_cell (gammap c b) (ZnearestE dx + ZnearestE dy) i j) as (i' & j' & B1 & B2 & E & q & Q).
  { cbn. lia. } { cbn. lia. }
  cbn in B1, B2. exists i', j'. split; [lia|]. split; [lia|]. split.
  - exists q. cbn in Q. rewrite L1, L2 in Q. exact Q.
  - unfold residual_shift. unfold frame. cbn [px]. rewrite E. unfold without_gamma.
    change (over_norm (mkctx (c_shape c) (c_pr c) (c_pn c) (c_dr c) (c_dn c) (c_na c) (c_nb c)
       (pmap (fun _ => 0) (c_gamma c)) (c_rvar c) (c_nvar c) (c_ratio c) (c_nzp c) (c_mask c) (c_rdata c) (c_ndata c)) b)
      with (over_norm c b). cbn [c_dn c_dr].
    assert (px (roll_flat (gammap (mkctx (c_shape c) (c_pr c) (c_pn c) (c_dr c) (c_dn c) (c_na c) (c_nb c)
       (pmap (fun _ => 0) (c_gamma c)) (c_rvar c) (c_nvar c) (c_ratio c) (c_nzp c) (c_mask c) (c_rdata c) (c_ndata c)) b)
       (ZnearestE dx + ZnearestE dy)) i j = 0) as ->.
    { unfold roll_flat, gammap. cbn [pmap px c_gamma]. unfold Rdiv. ring. }
    unfold Cminus, Cplus, Copp. cbn [fst snd RtoC]. ring.
Qed.
