(** [coadd]: sequential and parallel results. *)
From Coq Require Import Arith ZArith List Bool Reals Lia Lra Permutation.
From Coquelicot Require Import Complex.
From Verif.Model Require Import Py Plane Ma Chunk Coadd.
From Verif.Spec Require Import Coadd.
From Verif.Proof Require Import Chunk ChunkSort Coadd CoaddThreads Fourier.
Import ListNotations.
Set Bullet Behavior "Strict Subproofs".

(** ** np.min, np.max of equal numbers *)
Lemma fold_min_const l a : (forall x, In x l -> x = a) -> fold_left Nat.min l a = a.
Proof.
  induction l as [|x l IH]; cbn; intros H; [reflexivity|].
  rewrite (H x) by auto. rewrite Nat.min_id. apply IH. auto.
Qed.

Lemma np_min_const {A} (f : A -> nat) l a : l <> [] -> (forall x, In x l -> f x = a) -> np_min (map f l) = Ok a.
Proof.
  destruct l as [|x l]; [congruence|]. intros _ H. cbn. rewrite (H x) by (now left).
  f_equal. apply fold_min_const. intros y Hy. apply in_map_iff in Hy as [z [<- Hz]]. apply H. now right.
Qed.

Lemma fold_max_ub l : forall a x, In x (a :: l) -> x <= fold_left Nat.max l a.
Proof.
  induction l as [|b l IH]; cbn; intros a x H.
  - destruct H as [->|[]]. lia.
  - destruct H as [<-|H].
    + transitivity (Nat.max a b); [lia|]. apply IH. now left.
    + destruct H as [<-|H]; [transitivity (Nat.max a b); [lia|]; apply IH; now left|]. apply IH. now right.
Qed.

Lemma fold_max_in l : forall a, In (fold_left Nat.max l a) (a :: l).
Proof.
  induction l as [|b l IH]; cbn; intros a; [auto|].
  destruct (IH (Nat.max a b)) as [H|H]; [|auto].
  rewrite <- H. destruct (Nat.max_spec a b) as [[_ E]|[_ E]]; rewrite E; auto.
Qed.

Lemma np_max_ok l : l <> [] -> exists m, np_max l = Ok m /\ In m l /\ forall x, In x l -> x <= m.
Proof.
  destruct l as [|a l]; [congruence|]. intros _. eexists. split; [reflexivity|]. split.
  - apply fold_max_in.
  - apply fold_max_ub.
Qed.

Lemma np_max_perm l m a b : np_max l = Ok a -> np_max m = Ok b -> (forall x, In x l <-> In x m) -> a = b.
Proof.
  intros H1 H2 E.
  destruct (np_max_ok l) as [a' [E1 [I1 U1]]]; [destruct l; discriminate|].
  destruct (np_max_ok m) as [b' [E2 [I2 U2]]]; [destruct m; discriminate|].
  rewrite H1 in E1. injection E1 as <-. rewrite H2 in E2. injection E2 as <-.
  apply E in I1. apply E in I2. specialize (U1 _ I2). specialize (U2 _ I1). lia.
Qed.

(** ** The end of coadd depends only on the cells *)
Definition acc_eq (a b : acc) : Prop :=
  plane_eq (aS a) (aS b) /\ plane_eq (aP a) (aP b) /\ mask_eq (aM a) (aM b) /\ shape (aS a) = shape (aP a).

Lemma finish_ext ps a b : acc_eq a b -> result_eq (finish ps a) (finish ps b).
Proof.
  intros [ES [EP [EM Sh]]]. unfold finish, result_eq.
  pose proof (pmap_ext csqrt _ _ EP) as EQ.
  pose proof (ifft2_ext _ _ (fourier_shift_ext _ _ (INR ps) (INR ps) EQ)) as EF.
  split; [|split; [|exact EM]].
  - apply ifft2_ext. now apply pmap2_ext.
  - rewrite <- (psum_ext _ _ EF). now apply pmap_ext.
Qed.

Lemma sum_is_eq sh p q f l m : sum_is sh p f l -> sum_is sh q f m ->
  (forall r c, total (fun i => f i r c) l = total (fun i => f i r c) m) -> plane_eq p q.
Proof.
  intros [S1 H1] [S2 H2] E. split; [congruence|]. intros i j Hi Hj.
  destruct (shape_fst _ _ S1) as [E1 E2].
  rewrite H1, H2 by lia. apply E.
Qed.

(** ** Sequential result *)
Lemma core_dims h ids sh : ids <> [] -> images_fit h ids sh -> exists ps,
  np_min (map (fun i => fst (si_shape (h i))) ids) = Ok (fst sh) /\
  np_min (map (fun i => snd (si_shape (h i))) ids) = Ok (snd sh) /\
  np_max (map (fun i => si_stamp (h i)) ids) = Ok ps.
Proof.
  intros Hn Hf. destruct (np_max_ok (map (fun i => si_stamp (h i)) ids)) as [ps [Ep _]].
  - destruct ids; [congruence|discriminate].
  - exists ps. split; [|split; [|exact Ep]]; apply np_min_const; auto; intros i Hi; now rewrite (proj1 (Hf i Hi)).
Qed.

Lemma seq_spec fuel sched h ids sh n : (n <= 1)%Z -> ids <> [] -> images_fit h ids sh ->
  exists ps a, coadd_core fuel sched h ids n = Some (Ok (finish ps a)) /\
    np_max (map (fun i => si_stamp (h i)) ids) = Ok ps /\
    sum_is sh (aS a) (curc h) ids /\ sum_is sh (aP a) (ptc h) ids /\ uni_is sh h (aM a) ids /\
    shrunk sh (aM a).
Proof.
  intros Hn Hne Hf. destruct (core_dims h ids sh Hne Hf) as [ps [E1 [E2 E3]]].
  unfold coadd_core. rewrite E1, E2, E3.
  destruct (Z.ltb_spec 1 n) as [Hlt|_]; [lia|].
  destruct ids as [|i0 ids0] eqn:Ei; [congruence|]. rewrite <- Ei in *.
  set (a0 := mkacc (zeros (fst sh, snd sh)) (zeros (fst sh, snd sh)) (si_mask (h i0))).
  destruct (seq_loop_spec sh ids h a0 (fun _ _ => RtoC 0) (fun _ _ => RtoC 0)) as [a [E [A [M [Sm U]]]]].
  - intros i Hi. destruct (Hf i Hi) as [F1 [F2 F3]]. split; auto.
  - split; [now destruct sh|]. split; [now destruct sh|]. cbn. auto.
  - cbn. destruct (Hf i0) as [_ [F2 _]]; [rewrite Ei; now left|exact F2].
  - exists ps, a. rewrite E. cbn [bind]. split; [reflexivity|]. split; [reflexivity|].
    destruct A as [S1 [S2 V]]. split; [|split; [|split]].
    + split; [exact S1|]. intros r c Hr Hc. destruct (V r c Hr Hc) as [-> _]. rewrite Cplus_0_r. reflexivity.
    + split; [exact S2|]. intros r c Hr Hc. destruct (V r c Hr Hc) as [_ ->]. rewrite Cplus_0_r. reflexivity.
    + split; [exact M|]. intros r c Hr Hc. rewrite U by assumption. cbn [aM a0]. rewrite Ei. cbn.
      now destruct (masked_at (si_mask (h i0)) r c).
    + apply Sm. exact Hne.
Qed.

(** ** Parallel result *)
Lemma concat_perm {A} (l m : list (list A)) : Permutation l m -> Permutation (concat l) (concat m).
Proof.
  induction 1; cbn; auto.
  - now apply Permutation_app_head.
  - rewrite !app_assoc. apply Permutation_app_tail, Permutation_app_comm.
  - eapply perm_trans; eauto.
Qed.

Lemma in_concat_len {A} (cs : list (list A)) c : In c cs -> length c <= length (concat cs).
Proof.
  induction cs as [|d cs IH]; cbn; [tauto|]. intros [->|H]; rewrite app_length; [lia|].
  specialize (IH H). lia.
Qed.

Lemma concat_nonempty_len {A} (cs : list (list A)) : (forall c, In c cs -> c <> []) -> length cs <= length (concat cs).
Proof.
  induction cs as [|d cs IH]; cbn; intros H; [lia|]. rewrite app_length.
  assert (d <> []) by auto. destruct d; [congruence|]. cbn. specialize (IH (fun c Hc => H c (or_intror Hc))). lia.
Qed.

Lemma par_spec fuel sched h ids sh n : (2 <= n <= Z.of_nat (length ids))%Z ->
  (Z.of_nat (length ids) < 2 ^ 52)%Z -> 5 * Z.to_nat n + 1 <= fuel ->
  NoDup ids -> images_fit h ids sh ->
  exists chunks, chunk_it Nat.eqb img_lt fuel ids n = Some (Ok chunks) /\
  (coadd_core fuel sched h ids n = None \/
   exists ps a, coadd_core fuel sched h ids n = Some (Ok (finish ps a)) /\
    np_max (map (fun i => si_stamp (h i)) ids) = Ok ps /\
    sum_is sh (aS a) (curc h) ids /\ sum_is sh (aP a) (ptc h) ids /\ uni_is sh h (aM a) ids /\
    shrunk sh (aM a)) /\
  (fair sched (length chunks) (8 * length ids + 9) -> coadd_core fuel sched h ids n <> None) /\
  length chunks <= length ids.
Proof.
  intros Hn Hl Hfu Nd Hf.
  assert (ids <> []) as Hne by (destruct ids; [cbn in Hn; lia|discriminate]).
  destruct (core_dims h ids sh Hne Hf) as [ps [E1 [E2 E3]]].
  destruct (unsorted_order Nat.eqb img_lt ids n fuel) as [chunks [Em [Ec Et]]]; auto; try lia.
  { intros a b E. now apply Nat.eqb_eq. }
  exists chunks. split; [exact Et|].
  destruct (made_all ids n fuel) as [cs [Em' [_ [Ne _]]]]; auto; try lia.
  rewrite Em in Em'. injection Em' as <-. specialize (Ne (proj2 Hn)).
  unfold coadd_core. rewrite E1, E2, E3, Et.
  destruct (Z.ltb_spec 1 n) as [_|Hlt]; [|lia].
  replace (fst sh, snd sh) with sh by (now destruct sh).
  assert (forall i, In i ids -> si_shape (h i) = sh /\ mshape sh (si_mask (h i))) as Hfit.
  { intros i Hi. destruct (Hf i Hi) as [F1 [F2 _]]. auto. }
  assert (Forall2 (winv sh h h) chunks (map (start sh) chunks)) as I0.
  { assert (forall cs, (forall c, In c cs -> c <> []) -> incl (concat cs) ids ->
            Forall2 (winv sh h h) cs (map (start sh) cs)) as G.
    { induction cs as [|c cs IH]; cbn; intros Hc Hi; constructor.
      - apply (start_inv sh h ids Hfit); [auto|]. intros i Hin. refine (proj2 (proj2 (Hf i (Hi i _)))). apply in_app_iff; auto.
      - apply IH; auto. intros i Hin. apply Hi. apply in_app_iff; auto. }
    apply G; auto. rewrite Ec. apply incl_refl. }
  pose proof (run_inv (winv sh h) (winv_todo sh h) (winv_frame sh h) ids
                (fun h1 c w Nc Hc Hw => step_inv sh h ids Hfit h1 c w Nc Hc Hw)
                chunks sched h (map (start sh) chunks)) as Hrun.
  rewrite Ec in Hrun. specialize (Hrun Nd (incl_refl _) I0).
  destruct (run sched h (map (start sh) chunks)) as [ws h'] eqn:Er. cbn [fst snd] in *.
  assert (chunks <> []) as Hcn by (intros ->; cbn in Ec; congruence).
  split; [|split].
  - destruct (gather_inv sh h h' chunks ws Hrun) as [->|[rs [-> Hp]]]; [now left|right].
    destruct (combine_spec sh h chunks rs (parts0 sh) [] Hp (parts0_is sh h ids Hfit)) as [a [Ea [Ha Hs]]].
    exists ps, (acc_of_parts a). rewrite Ea. cbn [bind]. split; [reflexivity|]. split; [reflexivity|].
    cbn [app] in Ha. rewrite Ec in Ha. destruct (acc_of_parts_is sh h ids a Ha) as [A1 [A2 A3]].
    split; [exact A1|]. split; [exact A2|]. split; [exact A3|]. now apply Hs.
  - intros F.
    assert (gather ws <> None) as Hg.
    { replace ws with (fst (run sched h (map (start sh) chunks))) by now rewrite Er.
      apply run_finishes with (steps := 8 * length ids + 9).
      - exact F.
      - intros c Hc. apply in_concat_len in Hc. rewrite Ec in Hc. lia. }
    destruct (gather ws) as [[rs|e]|]; [discriminate|discriminate|contradiction].
  - pose proof (concat_nonempty_len chunks Ne) as Hc. now rewrite Ec in Hc.
Qed.

Lemma parallel_same fuel sched fuel1 sched1 h ids sh n : (2 <= n <= Z.of_nat (length ids))%Z ->
  (Z.of_nat (length ids) < 2 ^ 52)%Z -> 5 * Z.to_nat n + 1 <= fuel ->
  NoDup ids -> images_fit h ids sh ->
  exists r1, coadd_core fuel1 sched1 h ids 1 = Some (Ok r1) /\
  (coadd_core fuel sched h ids n = None \/
   exists r2, coadd_core fuel sched h ids n = Some (Ok r2) /\ result_eq r1 r2) /\
  (fair sched (length ids) (8 * length ids + 9) -> coadd_core fuel sched h ids n <> None).
Proof.
  intros Hn Hl Hfu Nd Hf.
  assert (ids <> []) as Hne by (destruct ids; [cbn in Hn; lia|discriminate]).
  destruct (seq_spec fuel1 sched1 h ids sh 1) as [ps [a [E [Ep [A1 [A2 [A3 A4]]]]]]]; auto; [lia|].
  destruct (par_spec fuel sched h ids sh n Hn Hl Hfu Nd Hf) as [chunks [_ [H [F L]]]].
  exists (finish ps a). split; [exact E|]. split; [|intros G; apply F; intros k Hk; apply G; lia].
  destruct H as [H|[ps' [a' [E' [Ep' [B1 [B2 [B3 B4]]]]]]]]; [now left|right].
  exists (finish ps' a'). split; [exact E'|]. rewrite Ep in Ep'. injection Ep' as <-.
  apply finish_ext. split; [|split; [|split]].
  - now apply (sum_is_eq sh _ _ (curc h) ids ids).
  - now apply (sum_is_eq sh _ _ (ptc h) ids ids).
  - apply shrunk_eq with sh; auto. intros r c Hr Hc. rewrite (proj2 A3), (proj2 B3); auto.
  - rewrite (proj1 A1), (proj1 A2). reflexivity.
Qed.
