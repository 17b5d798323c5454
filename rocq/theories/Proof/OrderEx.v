(** Concrete stars for the statements on order and signs. *)
From Coq Require Import ZArith List Bool Arith Reals Lia Lra Permutation FinFun FunctionalExtensionality.
From Verif.Model Require Import Py Plane Sources Session KL.
From Verif.Spec Require Import KL Session Order.
From Verif.Proof Require Import KL KLMain Session SessionFrame SessionMain SessionLm SessionExample Order OrderMain OrderSign.
Import ListNotations.
Local Open Scope R_scope.
Set Bullet Behavior "Strict Subproofs".

(** *** Ten positions in a triangle, and the interpolation on them *)

Definition tri : list (nat * nat) :=
  [(0, 0); (0, 1); (0, 2); (0, 3); (1, 0); (1, 1); (1, 2); (2, 0); (2, 1); (3, 0)]%nat.
Definition at_tri (ab : nat * nat) : R * R := (INR (fst ab), INR (snd ab)).

Definition ch (k : nat) (t : R) : R :=
  match k with O => 1 | 1%nat => t | 2%nat => t * (t - 1) / 2 | _ => t * (t - 1) * (t - 2) / 6 end.
Definition lag (ab : nat * nat) (x y : R) : R := ch (fst ab) x * ch (snd ab) y * ch (3 - fst ab - snd ab) (3 - x - y).

Definition pick (ps : list (R * R)) (v : nat -> R) (p : R * R) : R :=
  sumn (length ps) (fun j => if Req_EM_T (fst (nth j ps (0, 0))) (fst p) then
                             if Req_EM_T (snd (nth j ps (0, 0))) (snd p) then v j else 0 else 0).
Definition interpolate (ps : list (R * R)) (v : nat -> R) (x y : R) : R :=
  fold_right (fun ab t => lag ab x y * pick ps v (at_tri ab) + t) 0 tri.

Definition is_cubic (g : R -> R -> R) : Prop := exists c, forall x y, g x y = cubic c x y.

Lemma is_cubic_aff k a1 b1 c1 a2 b2 c2 a3 b3 c3 g :
  (forall x y, g x y = k * (a1 + b1 * x + c1 * y) * (a2 + b2 * x + c2 * y) * (a3 + b3 * x + c3 * y)) -> is_cubic g.
Proof.
  intros H. exists (fun a b => k * match a, b with
    | O, O => a1 * a2 * a3
    | O, 1%nat => c1 * a2 * a3 + a1 * c2 * a3 + a1 * a2 * c3
    | O, 2%nat => c1 * c2 * a3 + c1 * a2 * c3 + a1 * c2 * c3
    | O, _ => c1 * c2 * c3
    | 1%nat, O => b1 * a2 * a3 + a1 * b2 * a3 + a1 * a2 * b3
    | 1%nat, 1%nat => b1 * c2 * a3 + b1 * a2 * c3 + c1 * b2 * a3 + a1 * b2 * c3 + c1 * a2 * b3 + a1 * c2 * b3
    | 1%nat, _ => b1 * c2 * c3 + c1 * b2 * c3 + c1 * c2 * b3
    | 2%nat, O => b1 * b2 * a3 + b1 * a2 * b3 + a1 * b2 * b3
    | 2%nat, _ => b1 * b2 * c3 + b1 * c2 * b3 + c1 * b2 * b3
    | _, _ => b1 * b2 * b3 end).
  intros x y. rewrite H. unfold cubic. cbn [sumn Nat.sub]. ring.
Qed.

Lemma is_cubic_plus g h k : is_cubic g -> is_cubic h -> is_cubic (fun x y => g x y * k + h x y).
Proof.
  intros (c & Hc) (d & Hd). exists (fun a b => c a b * k + d a b). intros x y. rewrite Hc, Hd. unfold cubic. cbn [sumn Nat.sub]. ring.
Qed.

Lemma lag_cubic : Forall (fun ab => is_cubic (lag ab)) tri.
Proof.
  unfold tri, lag, ch. cbn [fst snd Nat.sub].
  repeat apply Forall_cons; [..|constructor]; cbn [fst snd Nat.sub].
  - apply (is_cubic_aff (1 / 6) 3 (-1) (-1) 2 (-1) (-1) 1 (-1) (-1)). intros; field.
  - apply (is_cubic_aff (1 / 2) 0 0 1 3 (-1) (-1) 2 (-1) (-1)). intros; field.
  - apply (is_cubic_aff (1 / 2) 0 0 1 (-1) 0 1 3 (-1) (-1)). intros; field.
  - apply (is_cubic_aff (1 / 6) 0 0 1 (-1) 0 1 (-2) 0 1). intros; field.
  - apply (is_cubic_aff (1 / 2) 0 1 0 3 (-1) (-1) 2 (-1) (-1)). intros; field.
  - apply (is_cubic_aff 1 0 1 0 0 0 1 3 (-1) (-1)). intros; field.
  - apply (is_cubic_aff (1 / 2) 0 1 0 0 0 1 (-1) 0 1). intros; field.
  - apply (is_cubic_aff (1 / 2) 0 1 0 (-1) 1 0 3 (-1) (-1)). intros; field.
  - apply (is_cubic_aff (1 / 2) 0 1 0 (-1) 1 0 0 0 1). intros; field.
  - apply (is_cubic_aff (1 / 6) 0 1 0 (-1) 1 0 (-2) 1 0). intros; field.
Qed.

Lemma interpolate_cubic ps v : is_cubic (interpolate ps v).
Proof.
  unfold interpolate. generalize lag_cubic. generalize tri. induction l as [|ab l IH]; intros F.
  - exists (fun _ _ => 0). intros. unfold cubic. cbn. ring.
  - inversion F as [|? ? F1 F2]. cbn [fold_right]. apply (is_cubic_plus (lag ab) _ (pick ps v (at_tri ab))); [exact F1|]. now apply IH.
Qed.

Lemma at_tri_inj : NoDup (map at_tri tri).
Proof.
  unfold tri, at_tri. cbn [map fst snd INR].
  repeat apply NoDup_cons; try apply NoDup_nil; cbn [In]; intros H;
    repeat match goal with H : _ \/ _ |- _ => destruct H as [H|H] end; try contradiction; injection H; lra.
Qed.

Lemma pick_here ps v j : NoDup ps -> (j < length ps)%nat -> pick ps v (nth j ps (0, 0)) = v j.
Proof.
  intros ND Hj. unfold pick. rewrite (sumn_ext _ _ (fun i => v i * delta j i)); [now apply sumn_delta|].
  intros i Hi. unfold delta. destruct (Nat.eqb_spec j i) as [->|N].
  - destruct (Req_EM_T _ _) as [_|X]; [|congruence]. destruct (Req_EM_T _ _) as [_|X]; [ring|congruence].
  - destruct (Req_EM_T _ _) as [X1|]; [|ring]. destruct (Req_EM_T _ _) as [X2|]; [|ring]. exfalso.
    apply N. symmetry. apply (proj1 (NoDup_nth ps (0, 0)) ND i j Hi Hj).
    rewrite (surjective_pairing (nth i ps (0, 0))), X1, X2. symmetry. apply surjective_pairing.
Qed.

Lemma interpolate_here ps v j : Permutation (map at_tri tri) ps -> (j < length ps)%nat ->
  interpolate ps v (fst (nth j ps (0, 0))) (snd (nth j ps (0, 0))) = v j.
Proof.
  intros HP Hj. assert (ND : NoDup ps) by exact (Permutation_NoDup HP at_tri_inj).
  rewrite <- (pick_here ps v j ND Hj). unfold interpolate.
  assert (I : In (nth j ps (0, 0)) (map at_tri tri)) by (apply (Permutation_in _ (Permutation_sym HP)), nth_In, Hj).
  generalize dependent (nth j ps (0, 0)). intros p I. generalize (pick ps v). intros w.
  unfold tri, at_tri in *. cbn [map fold_right fst snd INR] in *. unfold lag, ch. cbn [fst snd Nat.sub].
  repeat match goal with H : In _ (_ :: _) |- _ => destruct H as [H|H] end; [..|contradiction]; subst p; cbn [fst snd]; field.
Qed.

Lemma tri_least_squares : least_squares interpolate (map at_tri tri).
Proof.
  intros ps v HP. destruct (interpolate_cubic ps v) as (c & Hc). exists c. split; [exact Hc|]. intros c'.
  assert (Z : misfit ps v c = 0).
  { unfold misfit. transitivity (sumn (length ps) (fun _ => 0)); [|apply sumn_zero]. apply sumn_ext. intros j Hj. rewrite <- Hc, interpolate_here by assumption. ring. }
  rewrite Z. unfold misfit. apply sumn_nonneg. intros j _. apply pow2_ge_0.
Qed.

Lemma tri_determining : determining (map at_tri tri).
Proof.
  intros c H x y. unfold cubic in H.
  assert (Q : forall ab, In ab tri -> sumn 4 (fun a => sumn (4 - a) (fun b => c a b * INR (fst ab) ^ a * INR (snd ab) ^ b)) = 0).
  { intros ab I. apply (H (at_tri ab)). now apply in_map. }
  pose proof (Q (0, 0)%nat ltac:(cbn; tauto)) as E00. pose proof (Q (0, 1)%nat ltac:(cbn; tauto)) as E01.
  pose proof (Q (0, 2)%nat ltac:(cbn; tauto)) as E02. pose proof (Q (0, 3)%nat ltac:(cbn; tauto)) as E03.
  pose proof (Q (1, 0)%nat ltac:(cbn; tauto)) as E10. pose proof (Q (1, 1)%nat ltac:(cbn; tauto)) as E11.
  pose proof (Q (1, 2)%nat ltac:(cbn; tauto)) as E12. pose proof (Q (2, 0)%nat ltac:(cbn; tauto)) as E20.
  pose proof (Q (2, 1)%nat ltac:(cbn; tauto)) as E21. pose proof (Q (3, 0)%nat ltac:(cbn; tauto)) as E30.
  clear Q H. cbn [sumn Nat.sub fst snd INR pow] in *.
  assert (c 0%nat 0%nat = 0) by lra. assert (c 0%nat 1%nat = 0) by lra. assert (c 0%nat 2%nat = 0) by lra.
  assert (c 0%nat 3%nat = 0) by lra. assert (c 1%nat 0%nat = 0) by lra. assert (c 2%nat 0%nat = 0) by lra.
  assert (c 3%nat 0%nat = 0) by lra. assert (c 1%nat 1%nat = 0) by lra. assert (c 1%nat 2%nat = 0) by lra.
  assert (c 2%nat 1%nat = 0) by lra.
  unfold cubic. cbn [sumn Nat.sub]. repeat match goal with H : c _ _ = 0 |- _ => rewrite H; clear H end. ring.
Qed.

Lemma C108_least_squares_case_lm : least_squares interpolate (map at_tri tri) /\ determining (map at_tri tri) /\
  interpolate (map at_tri tri) INR 0 1 = 1 /\ interpolate (rev (map at_tri tri)) INR 0 1 = 8.
Proof.
  split; [exact tri_least_squares|]. split; [exact tri_determining|]. split.
  - apply (interpolate_here (map at_tri tri) INR 1); [apply Permutation_refl|cbn; lia].
  - transitivity (INR 8); [|cbn; lra]. apply (interpolate_here (rev (map at_tri tri)) INR 8); [apply Permutation_rev|cbn; lia].
Qed.

(** *** Two stars: one bright along a row, one twice as bright along a column *)

Definition row : plane R := mkplane 7 7 (fun i _ => if Nat.eqb i 0 then 1 else 0).
Definition col : plane R := mkplane 7 7 (fun _ j => if Nat.eqb j 0 then 2 else 0).
Definition total_fit (ps : list (R * R)) (v : nat -> R) (_ _ : R) : R := sumn (length ps) v.
Definition two_values (n : nat) : list R := map (fun i => if Nat.eqb i 0 then 1 / 8 else 1 / 2) (seq 0 n).

(** The stars as found, the solver returning the unit vectors. *)
Definition found : lib nat (R * nat * nat) (R * nat * nat) := {|
  select := Ok [star 20; star 50];
  extract := fun sh cat => ([row; col], Ok ([(0, 0); (1, 0)], cat));
  eigh := fun n _ => (two_values n, delta);
  smooth := None;
  fit := total_fit;
  normal_of := fun _ b => length b;
  shat_of := fun z _ b n => (z, length b, n);
  ifft_real := fun h => h |}.
(** The stars in the other order, the solver returning the negatives. *)
Definition swapped : lib nat (R * nat * nat) (R * nat * nat) := {|
  select := Ok [star 50; star 20];
  extract := fun sh cat => ([col; row], Ok ([(1, 0); (0, 0)], cat));
  eigh := fun n _ => (two_values n, fun j k => - delta (n - 1 - j) k);
  smooth := None;
  fit := total_fit;
  normal_of := fun _ b => length b;
  shat_of := fun z _ b n => (z, length b, n);
  ifft_real := fun h => h |}.
(** As found, with a smoothing that does nothing. *)
Definition smoothed : lib nat (R * nat * nat) (R * nat * nat) := {|
  select := Ok [star 20; star 50];
  extract := fun sh cat => ([row; col], Ok ([(0, 0); (1, 0)], cat));
  eigh := fun n _ => (two_values n, delta);
  smooth := Some (fun p => p);
  fit := total_fit;
  normal_of := fun _ b => length b;
  shat_of := fun z _ b n => (z, length b, n);
  ifft_real := fun h => h |}.

Lemma total_fair ps : fair_fit total_fit ps.
Proof.
  intros ps' v v' f s x y Hl Hf Hi _ Hv Hs. unfold total_fit. rewrite Hl, (sumn_ext _ v' (fun j => s * v (f j))) by exact Hv.
  rewrite sumn_scal. f_equal. now apply (sumn_perm (length ps) f v).
Qed.

Lemma found_ok : lib_ok found.
Proof.
  split; [intros sh c st p k H; cbn in H; now injection H as <- <- _|].
  intros n c. cbn [found eigh fst]. unfold two_values. now rewrite map_length, seq_length.
Qed.
Lemma swapped_ok : lib_ok swapped.
Proof.
  split; [intros sh c st p k H; cbn in H; now injection H as <- <- _|].
  intros n c. cbn [swapped eigh fst]. unfold two_values. now rewrite map_length, seq_length.
Qed.
Lemma smoothed_ok : lib_ok smoothed.
Proof. exact found_ok. Qed.

Lemma cov_found : forall c, KL.cov_matrix (7, 7)%nat [row; col] = Ok c -> forall i j, (i < 2)%nat -> (j < 2)%nat ->
  c i j = if Nat.eqb i j then (if Nat.eqb i 0 then 1 / 8 else 1 / 2) else 0.
Proof.
  intros c H. unfold KL.cov_matrix in H. cbn [forallb row col nr nc fst snd Nat.eqb andb negb length Nat.leb] in H. injection H as <-.
  intros i j Hi Hj. match goal with |- np_cov _ ?m i j = ?X => change (np_cov (7 * 7) m i j = X) end. unfold np_cov.
  assert (E : forall g, sumn (7 * 7) g = sumn 7 (fun a => sumn 7 (fun b => g (a * 7 + b)%nat))) by (intros; apply sumn_flat).
  rewrite !E.
  assert (M : INR (7 * 7) = 49 /\ INR (7 * 7 - 1) = 48) by (split; cbn; lra). destruct M as (-> & ->).
  match goal with |- context [columns ?l] => set (st := l) end.
  assert (T : forall q, (q < 2)%nat -> sumn 7 (fun a => sumn 7 (fun b => columns st (a * 7 + b) q)) = if Nat.eqb q 0 then 7 else 14).
  { intros q Hq. destruct q as [|[|q]]; [..|lia]; unfold st, columns, flat; cbn [nth row col nc px];
      cbn [sumn Nat.mul Nat.add Nat.div Nat.modulo Nat.divmod fst snd Nat.eqb Nat.sub]; ring. }
  rewrite !T by assumption.
  destruct i as [|[|i]]; [..|lia]; destruct j as [|[|j]]; try lia; cbn [Nat.eqb];
    unfold st, columns, flat; cbn [nth row col nc px]; cbn [sumn Nat.mul Nat.add Nat.div Nat.modulo Nat.divmod fst snd Nat.eqb Nat.sub]; field.
Qed.

Lemma two_two : two_values 2 = [1 / 8; 1 / 2].
Proof. reflexivity. Qed.

Lemma found_eigh : forall c, KL.cov_matrix (7, 7)%nat [row; col] = Ok c -> eigh_ok 2 c (two_values 2, delta).
Proof.
  intros c Hc. pose proof (cov_found c Hc) as Q. unfold eigh_ok. cbn [fst snd]. rewrite two_two.
  split; [reflexivity|]. split; [|split; [|split]].
  - intros i j H. destruct i as [|[|i]]; [..|lia]; destruct j as [|[|j]]; try lia; cbn; lra.
  - intros i j Hi Hj. destruct i as [|[|i]]; [..|lia]; destruct j as [|[|j]]; try lia; cbn; lra.
  - intros i j Hi Hj. destruct i as [|[|i]]; [..|lia]; destruct j as [|[|j]]; try lia; cbn; lra.
  - intros i j Hi Hj. cbn [sumn]. rewrite !Q by lia.
    destruct i as [|[|i]]; [..|lia]; destruct j as [|[|j]]; try lia; cbn; lra.
Qed.

Lemma cov_swapped : forall c, KL.cov_matrix (7, 7)%nat [col; row] = Ok c -> forall i j, (i < 2)%nat -> (j < 2)%nat ->
  c i j = if Nat.eqb i j then (if Nat.eqb i 0 then 1 / 2 else 1 / 8) else 0.
Proof.
  intros c H. unfold KL.cov_matrix in H. cbn [forallb row col nr nc fst snd Nat.eqb andb negb length Nat.leb] in H. injection H as <-.
  intros i j Hi Hj. match goal with |- np_cov _ ?m i j = ?X => change (np_cov (7 * 7) m i j = X) end. unfold np_cov.
  assert (E : forall g, sumn (7 * 7) g = sumn 7 (fun a => sumn 7 (fun b => g (a * 7 + b)%nat))) by (intros; apply sumn_flat).
  rewrite !E.
  assert (M : INR (7 * 7) = 49 /\ INR (7 * 7 - 1) = 48) by (split; cbn; lra). destruct M as (-> & ->).
  match goal with |- context [columns ?l] => set (st := l) end.
  assert (T : forall q, (q < 2)%nat -> sumn 7 (fun a => sumn 7 (fun b => columns st (a * 7 + b) q)) = if Nat.eqb q 1 then 7 else 14).
  { intros q Hq. destruct q as [|[|q]]; [..|lia]; unfold st, columns, flat; cbn [nth row col nc px];
      cbn [sumn Nat.mul Nat.add Nat.div Nat.modulo Nat.divmod fst snd Nat.eqb Nat.sub]; ring. }
  rewrite !T by assumption.
  destruct i as [|[|i]]; [..|lia]; destruct j as [|[|j]]; try lia; cbn [Nat.eqb];
    unfold st, columns, flat; cbn [nth row col nc px]; cbn [sumn Nat.mul Nat.add Nat.div Nat.modulo Nat.divmod fst snd Nat.eqb Nat.sub]; field.
Qed.

Lemma swapped_eigh : forall c, KL.cov_matrix (7, 7)%nat [col; row] = Ok c ->
  eigh_ok 2 c (two_values 2, fun j k => - delta (2 - 1 - j) k).
Proof.
  intros c Hc. pose proof (cov_swapped c Hc) as Q. unfold eigh_ok. cbn [fst snd]. rewrite two_two.
  split; [reflexivity|]. split; [|split; [|split]].
  - intros i j H. destruct i as [|[|i]]; [..|lia]; destruct j as [|[|j]]; try lia; cbn; lra.
  - intros i j Hi Hj. destruct i as [|[|i]]; [..|lia]; destruct j as [|[|j]]; try lia; cbn; lra.
  - intros i j Hi Hj. destruct i as [|[|i]]; [..|lia]; destruct j as [|[|j]]; try lia; cbn; lra.
  - intros i j Hi Hj. cbn [sumn]. rewrite !Q by lia.
    destruct i as [|[|i]]; [..|lia]; destruct j as [|[|j]]; try lia; cbn; lra.
Qed.

Lemma cut_two : kl_cut 0 (two_values 2) = 2%nat.
Proof.
  rewrite two_two. unfold kl_cut, sum_abs. cbn [fold_right rev app map]. rewrite !Rabs_right by lra.
  destruct (Req_EM_T _ 0); [lra|]. cbn [cut_loop].
  destruct (Rlt_dec _ _) as [_|N]; [|exfalso; apply N; lra].
  destruct (Rlt_dec _ _) as [H|N]; [exfalso; lra|reflexivity].
Qed.

Lemma stars_cov : exists c, KL.cov_matrix (7, 7)%nat [row; col] = Ok c.
Proof. eexists. reflexivity. Qed.

(** The PSF of the stars as found: both elements. *)
Lemma found_psf : exists psf, psf_for found (1, 1)%nat 0 = Ok psf /\ length (snd psf) = 2%nat.
Proof.
  rewrite (psf_for_from found (1, 1)%nat 0 [row; col] [(0, 0); (1, 0)]) by reflexivity. unfold psf_from.
  cbn [combine map fst snd]. destruct stars_cov as (c & Hc).
  change (fst (1, 1) + 6, snd (1, 1) + 6)%nat with (7, 7)%nat. change (1 + 6, 1 + 6)%nat with (7, 7)%nat.
  rewrite (kl_basis_form (eigh found) (smooth found) _ _ 0 c Hc) by (cbn; lia). cbn zeta.
  change (length [row; col]) with 2%nat. change (fst (eigh found 2 c)) with (two_values 2). rewrite cut_two.
  cbn [Nat.leb Nat.min smooth found seq map one_unit bind length Nat.eqb]. rewrite (eigenv_ok _ _ _ _ Hc) by (cbn; lia).
  cbn [bind]. eexists. split; reflexivity.
Qed.

Lemma two_simple : simple_last 2 (two_values 2).
Proof.
  rewrite two_two. intros i j Hi Hj N. cbn [length Nat.sub] in *.
  destruct i as [|[|i]]; [..|lia]; destruct j as [|[|j]]; try lia; cbn; lra.
Qed.

Lemma C108_order_case_lm :
  lib_ok found /\ lib_ok swapped /\ new_image found (1, 1)%nat (fresh _ _ _ (1, 1)%nat None) /\
  new_image swapped (1, 1)%nat (fresh _ _ _ (1, 1)%nat None) /\
  stamps_of _ _ _ found (1, 1)%nat = Ok ([row; col], [(0, 0); (1, 0)]) /\
  stamps_of _ _ _ swapped (1, 1)%nat = Ok ([col; row], [(1, 0); (0, 0)]) /\
  Permutation (combine [row; col] [(0, 0); (1, 0)]) (combine [col; row] [(1, 0); (0, 0)]) /\
  smooth found = None /\ smooth swapped = None /\ fit swapped = fit found /\ fair_fit (fit found) [(0, 0); (1, 0)] /\
  exists psf, fst (get_variable_psf found (Some 0) None (exec_all found [] (fresh _ _ _ (1, 1)%nat None))) = Ok psf /\
  (forall c, KL.cov_matrix (1 + 6, 1 + 6)%nat [row; col] = Ok c ->
     eigh_ok 2 c (eigh found 2 c) /\ simple_last (length (snd psf)) (fst (eigh found 2 c))) /\
  (forall c, KL.cov_matrix (1 + 6, 1 + 6)%nat [col; row] = Ok c -> eigh_ok 2 c (eigh swapped 2 c)).
Proof.
  split; [exact found_ok|]. split; [exact swapped_ok|]. split; [now left|]. split; [now left|].
  split; [reflexivity|]. split; [reflexivity|]. split; [apply perm_swap|]. do 3 (split; [reflexivity|]). split; [apply total_fair|].
  destruct found_psf as (psf & E & Len). exists psf. split; [|split].
  - rewrite (proj1 (C39_history_lm _ _ _ found (1, 1)%nat _ [] found_ok (or_introl eq_refl) (Forall_nil _)) 0) by lra. exact E.
  - intros c Hc. split; [now apply found_eigh|]. rewrite Len. apply two_simple.
  - intros c Hc. now apply swapped_eigh.
Qed.

(** The first element of the smoothed PSF is the column star with total one. *)
Lemma smoothed_psf : exists psf, psf_for smoothed (1, 1)%nat 0 = Ok psf /\ exists fs, fst psf = Fields fs /\
  length fs = 2%nat /\ length (snd psf) = 2%nat /\
  nth 0 fs (fun _ _ => 0) 0 0 = 1 /\
  px (nth 0 (snd psf) (pconst (0, 0)%nat None)) 1 0 = Some (1 / 7) /\
  px (nth 1 (snd psf) (pconst (0, 0)%nat None)) 1 0 = Some 0.
Proof.
  rewrite (psf_for_from smoothed (1, 1)%nat 0 [row; col] [(0, 0); (1, 0)]) by reflexivity. unfold psf_from.
  cbn [combine map fst snd]. destruct stars_cov as (c & Hc).
  change (fst (1, 1) + 6, snd (1, 1) + 6)%nat with (7, 7)%nat. change (1 + 6, 1 + 6)%nat with (7, 7)%nat.
  rewrite (kl_basis_form (eigh smoothed) (smooth smoothed) _ _ 0 c Hc) by (cbn; lia). cbn zeta.
  change (length [row; col]) with 2%nat. change (fst (eigh smoothed 2 c)) with (two_values 2).
  change (snd (eigh smoothed 2 c)) with delta. rewrite cut_two.
  cbn [Nat.leb Nat.min smooth smoothed seq map one_unit bind length Nat.eqb]. rewrite (eigenv_ok _ _ _ _ Hc) by (cbn; lia).
  cbn [bind]. eexists. split; [reflexivity|]. eexists. cbn [fst snd]. split; [reflexivity|]. split; [reflexivity|]. split; [reflexivity|].
  split; [|split].
  - cbn [nth]. change (fit smoothed) with total_fit. unfold total_fit, eigen_component. cbn. unfold delta. cbn. ring.
  - cbn [nth]. assert (T : total_opt (element (7, 7)%nat 2 [row; col] delta (2 - 1 - 0)) = Some 14).
    { unfold total_opt, element, reshape, combination, columns, flat. cbn [nr nc fst snd px list_prod seq map app fold_right].
      cbn [sumn nth row col nc px Nat.mul Nat.add Nat.div Nat.modulo Nat.divmod fst snd Nat.eqb Nat.sub]. f_equal. unfold delta. cbn [Nat.eqb]. ring. }
    unfold unit_total. rewrite T. destruct (Req_EM_T 14 0); [lra|]. unfold pmap. cbn [px].
    unfold element, reshape, combination, columns, flat. cbn [px option_map fst snd].
    cbn [sumn nth row col nc px Nat.mul Nat.add Nat.div Nat.modulo Nat.divmod fst snd Nat.eqb Nat.sub]. unfold delta. cbn [Nat.eqb]. f_equal. field.
  - cbn [nth]. assert (T : total_opt (element (7, 7)%nat 2 [row; col] delta (2 - 1 - 1)) = Some 7).
    { unfold total_opt, element, reshape, combination, columns, flat. cbn [nr nc fst snd px list_prod seq map app fold_right].
      cbn [sumn nth row col nc px Nat.mul Nat.add Nat.div Nat.modulo Nat.divmod fst snd Nat.eqb Nat.sub]. f_equal. unfold delta. cbn [Nat.eqb]. ring. }
    unfold unit_total. rewrite T. destruct (Req_EM_T 7 0); [lra|]. unfold pmap. cbn [px].
    unfold element, reshape, combination, columns, flat. cbn [px option_map fst snd].
    cbn [sumn nth row col nc px Nat.mul Nat.add Nat.div Nat.modulo Nat.divmod fst snd Nat.eqb Nat.sub]. unfold delta. cbn [Nat.eqb]. f_equal. field.
Qed.

Lemma C108_signs_case_lm :
  lib_ok smoothed /\ new_image smoothed (1, 1)%nat (fresh _ _ _ (1, 1)%nat None) /\
  stamps_of _ _ _ smoothed (1, 1)%nat = Ok ([row; col], [(0, 0); (1, 0)]) /\
  (exists g, smooth smoothed = Some g /\ odd_filter g) /\ fair_fit (fit smoothed) [(0, 0); (1, 0)] /\
  exists fs b, fst (get_variable_psf smoothed (Some 0) None (exec_all smoothed [] (fresh _ _ _ (1, 1)%nat None))) = Ok (Fields fs, b) /\
    length fs = 2%nat.
Proof.
  split; [exact smoothed_ok|]. split; [now left|]. split; [reflexivity|].
  split; [exists (fun p => p); split; [reflexivity|intros p; reflexivity]|]. split; [apply total_fair|].
  destruct smoothed_psf as ((fl & b) & E & fs & F & L1 & _). cbn [fst snd] in F. subst fl. exists fs, b. split; [|exact L1].
  rewrite (proj1 (C39_history_lm _ _ _ smoothed (1, 1)%nat _ [] smoothed_ok (or_introl eq_refl) (Forall_nil _)) 0) by lra. exact E.
Qed.

(** With a smoothed PSF, two solvers that both solve the problem give different PSFs. *)
Lemma C108_signs_refuted_lm : exists NI FT IM (L : lib NI FT IM) e sh s0 stamps positions psf psf',
  let L' := with_eigh L e in
  lib_ok L /\ lib_ok L' /\ new_image L sh s0 /\ stamps_of NI FT IM L sh = Ok (stamps, positions) /\
  (exists g, smooth L = Some g /\ odd_filter g) /\ fair_fit (fit L) positions /\
  (forall c, KL.cov_matrix (fst sh + 6, snd sh + 6)%nat stamps = Ok c ->
     eigh_ok (length stamps) c (eigh L (length stamps) c) /\ eigh_ok (length stamps) c (eigh L' (length stamps) c) /\
     simple_last (length (snd psf)) (fst (eigh L (length stamps) c))) /\
  fst (get_variable_psf L (Some 0) None s0) = Ok psf /\ fst (get_variable_psf L' (Some 0) None s0) = Ok psf' /\
  psf_at psf 0 0 1 0 = Some (1 / 7) /\ psf_at psf' 0 0 1 0 = Some (- (1 / 7)).
Proof.
  set (s := fun _ : nat => -1). set (L' := with_eigh smoothed (signed s (eigh smoothed))).
  destruct smoothed_psf as ((fl & b) & E & fs & F & L1 & L2 & V0 & P0 & P1). cbn [fst snd] in *. subst fl.
  set (s0 := fresh nat (R * nat * nat) (R * nat * nat) (1, 1)%nat None).
  assert (G : fst (get_variable_psf smoothed (Some 0) None (exec_all smoothed [] s0)) = Ok (Fields fs, b)).
  { rewrite (proj1 (C39_history_lm _ _ _ smoothed (1, 1)%nat s0 [] smoothed_ok (or_introl eq_refl) (Forall_nil _)) 0) by lra. exact E. }
  destruct (C108_signs_lm _ _ _ smoothed s (1, 1)%nat s0 [] [row; col] [(0, 0); (1, 0)] 0 fs b smoothed_ok (or_introl eq_refl) (Forall_nil _)
    (Rle_refl 0) eq_refl) as (Q1 & fs' & Q2 & Q3 & Q4).
  - right. exists (fun p => p). split; [reflexivity|]. intros p. reflexivity.
  - apply total_fair.
  - intros k. now right.
  - exact G.
  - exists nat, (R * nat * nat)%type, (R * nat * nat)%type, smoothed, (signed s (eigh smoothed)), (1, 1)%nat, s0, [row; col], [(0, 0); (1, 0)],
      (Fields fs, b), (Fields fs', b). cbn zeta.
    split; [exact smoothed_ok|]. split; [exact smoothed_ok|]. split; [now left|]. split; [reflexivity|].
    split; [exists (fun p => p); split; [reflexivity|intros p; reflexivity]|]. split; [apply total_fair|].
    split; [|split; [exact G|split; [exact Q2|]]].
    + intros c Hc. assert (X : eigh_ok 2 c (eigh smoothed 2 c)) by now apply found_eigh.
      split; [exact X|]. split; [now apply Q1|]. cbn [snd]. rewrite L2. apply two_simple.
    + rewrite L1 in Q3, Q4. pose proof (Q4 0%nat 0 0 ltac:(lia)) as W. rewrite V0 in W. unfold s in W.
      destruct fs as [|f0 [|f1 [|]]]; try discriminate. destruct fs' as [|g0 [|g1 [|]]]; try discriminate.
      destruct b as [|b0 [|b1 [|]]]; try discriminate. cbn [nth] in *. unfold psf_at. cbn [fst snd combine map fold_right].
      rewrite P0, P1. cbn [option_map osum]. rewrite V0, W. split; f_equal; ring.
Qed.
