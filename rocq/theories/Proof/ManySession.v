(** C112 for the answers of an image. *)
From Coq Require Import ZArith List Bool Arith Reals Lia Lra.
From Verif.Model Require Import Py Plane Sources KL Session.
From Verif.Spec Require Import KL Many Session.
From Verif.Proof Require Import KL KLMain Many Session SessionLm.
Import ListNotations.
Local Open Scope R_scope.
Set Bullet Behavior "Strict Subproofs".

(** The same of what [get_variable_psf] answers, whatever the image was used for before. *)
Lemma C112_answers_lm : forall NI FT IM (L : lib NI FT IM) sh s0 cs l stamps positions c fields basis k,
  lib_ok L -> new_image L sh s0 -> Forall plain cs -> smooth L = None -> 0 <= l ->
  stamps_of _ _ _ L sh = Ok (stamps, positions) -> (250 < length stamps)%nat ->
  let size := (fst sh + 6, snd sh + 6)%nat in
  KL.cov_matrix size stamps = Ok c ->
  fst (get_variable_psf L (Some l) None (exec_all L cs s0)) = Ok (fields, basis) -> (k < length basis)%nat ->
  let t := blend size stamps (snd (eigh L (length stamps) c)) k in
  let e := nth k basis (pconst (0, 0)%nat None) in
  shape e = size /\
  (total t = 0 -> no_number e) /\
  (total t <> 0 -> forall m, faintest (pmap (fun x => x / total t) t) m ->
     let w := 1 - INR (fst size * snd size) * Rabs m in
     (w = 0 -> no_number e) /\
     (w <> 0 -> forall i j, (i < fst size)%nat -> (j < snd size)%nat ->
        px e i j = Some ((px t i j / total t - Rabs m) / w))).
Proof.
  intros NI FT IM L sh s0 cs l stamps positions c fields basis k Hl Hn Hp Hs L0 St N size Hc G K.
  destruct (C39_history_lm NI FT IM L sh s0 cs Hl Hn Hp) as (A & _). rewrite (A l L0) in G.
  unfold psf_for in G. rewrite St in G. cbn [bind] in G. rewrite Hs in G. fold size in G.
  destruct (KL.kl_basis (eigh L) None size stamps l) as [b|] eqn:B; [|discriminate]. cbn [bind] in G.
  assert (Eb : b = basis).
  { destruct (Nat.eqb (length b) 1); [now injection G|].
    destruct (Nat.eqb (length positions) 0); [discriminate|].
    destruct (KL.eigenv (eigh L) size stamps); [|discriminate]. cbn [bind] in G. now injection G. }
  subst b.
  apply (C112_elements_lm (eigh L) size stamps l c basis k); trivial; cbn; lia.
Qed.

(** 251 stamps that are 0 in one corner and 1 elsewhere. *)
Definition corner : plane R := mkplane 7 7 (fun i j => if Nat.eqb i 0 && Nat.eqb j 0 then 0 else 1).
Definition flat_eigh (n : nat) (_ : nat -> nat -> R) : list R * (nat -> nat -> R) := (repeat 1 n, fun _ _ => 1).
Definition crowded : lib unit unit unit :=
  mklib unit unit unit (Ok []) (fun _ _ => (repeat corner 251, Ok (repeat (0, 0) 251, [])))
    flat_eigh None (fun _ _ _ _ => 0) (fun _ _ => tt) (fun _ _ _ _ => tt) (fun _ => tt).

Lemma one_cut n : kl_cut 1 (repeat 1 (S n)) = 1%nat.
Proof.
  unfold kl_cut. assert (P : 0 < sum_abs (repeat 1 (S n))).
  { cbn [repeat sum_abs fold_right]. pose proof (sum_abs_nonneg (repeat 1 n)) as Z. unfold sum_abs in Z. rewrite Rabs_pos_eq by lra. lra. }
  destruct (Req_EM_T _ 0) as [E|_]; [lra|]. set (tot := sum_abs _) in *.
  replace (rev (repeat 1 (S n))) with (1 :: rev (repeat 1 n)).
  2:{ change (1 :: rev (repeat 1 n)) with ([1] ++ rev (repeat 1 n)). rewrite <- (rev_involutive [1]), <- rev_app_distr. f_equal.
      change (rev [1]) with (repeat 1 1). rewrite <- repeat_app. f_equal. lia. }
  cbn [map cut_loop]. rewrite Rabs_pos_eq by lra. destruct (Rlt_dec _ _) as [H|]; [|reflexivity].
  assert (0 < / tot) by now apply Rinv_0_lt_compat. unfold Rdiv in H. lra.
Qed.

Lemma C112_session_lm : exists c f basis,
  lib_ok crowded /\ new_image crowded (1, 1)%nat (fresh _ _ _ (1, 1)%nat None) /\ smooth crowded = None /\
  stamps_of _ _ _ crowded (1, 1)%nat = Ok (repeat corner 251, repeat (0, 0) 251) /\
  KL.cov_matrix (7, 7)%nat (repeat corner 251) = Ok c /\
  fst (get_variable_psf crowded (Some 1) None (exec_all crowded [CSComponent] (fresh _ _ _ (1, 1)%nat None))) = Ok (f, basis) /\
  length basis = 1%nat /\
  let t := blend (7, 7)%nat (repeat corner 251) (snd (eigh crowded 251 c)) 0 in
  total t <> 0 /\ faintest (pmap (fun x => x / total t) t) 0.
Proof.
  destruct (C37_shapes_lm (7, 7)%nat (repeat corner 251)) as [[H _] _].
  destruct H as (c & C). { apply Forall_forall. intros p Hp. apply repeat_spec in Hp. now subst p. }
  assert (Lk : lib_ok crowded).
  { split; [|intros; apply repeat_length]. intros sh cat st po kept E.
    change ((repeat corner 251, @Ok (list (R * R) * list src) (repeat (0, 0) 251, [])) = (st, Ok (po, kept))) in E.
    assert (E1 : repeat corner 251 = st) by exact (f_equal fst E).
    assert (E2 : repeat (0, 0) 251 = po) by exact (f_equal (fun x => match snd x with Ok y => fst y | _ => [] end) E).
    rewrite <- E1, <- E2. now rewrite !repeat_length. }
  assert (Nw : new_image crowded (1, 1)%nat (fresh unit unit unit (1, 1)%nat None)) by now left.
  assert (B : exists basis, psf_for crowded (1, 1)%nat 1 = Ok (NoField, basis) /\ length basis = 1%nat).
  { unfold psf_for. cbn [fst snd Nat.add].
    change (stamps_of _ _ _ crowded (1, 1)%nat) with (@Ok (list (plane R) * list (R * R)) (repeat corner 251, repeat (0, 0) 251)).
    cbn [bind]. unfold KL.kl_basis, KL.eigenv. rewrite C. cbn [bind].
    change (eigh crowded) with flat_eigh. change (smooth crowded) with (@None (plane (option R) -> plane (option R))).
    rewrite (repeat_length corner 251). cbn [Nat.eqb]. unfold flat_eigh at 1. cbn [bind].
    change 251%nat with (S 250) at 1. rewrite one_cut. cbn [Nat.leb Nat.ltb seq map rev app bind length Nat.eqb].
    eexists. split; reflexivity. }
  destruct B as (basis & B & Len).
  destruct (C39_history_lm _ _ _ crowded (1, 1)%nat (fresh unit unit unit (1, 1)%nat None) [CSComponent] Lk Nw) as (A & _).
  { repeat constructor. }
  exists c, NoField, basis. split; [exact Lk|]. split; [exact Nw|]. split; [reflexivity|]. split; [reflexivity|]. split; [exact C|].
  split; [rewrite A by lra; exact B|]. split; [exact Len|].
  intros t.
  assert (V : forall i j, px t i j = 251 * px corner i j).
  { intros i j. unfold t. cbn [blend px]. rewrite repeat_length. unfold eigen_component. cbn [eigh crowded snd flat_eigh].
    rewrite (KL.sumn_ext 251 _ (fun _ => px corner i j)).
    - generalize (px corner i j). intros x.
      assert (G : forall n, KL.sumn n (fun _ => x) = INR n * x).
      { induction n as [|n IH]; [cbn; ring|]. rewrite S_INR. cbn [KL.sumn]. rewrite IH. ring. }
      rewrite G. f_equal. rewrite INR_IZR_INZ. reflexivity.
    - intros a Ha. rewrite (nth_indep _ _ corner) by (now rewrite repeat_length). rewrite nth_repeat. ring. }
  assert (T : total t = 251 * 48).
  { unfold total, sum2, shape. cbn [fst snd]. change (nr t) with 7%nat. change (nc t) with 7%nat.
    cbn [KL.sumn]. rewrite !V. cbn [corner px Nat.eqb andb]. lra. }
  rewrite T. split; [lra|]. split.
  - exists 0%nat, 0%nat. split; [cbn; lia|]. split; [cbn; lia|]. cbn [pmap px]. rewrite V. cbn. lra.
  - intros i j _ _. cbn [pmap px]. rewrite V. cbn [corner px]. destruct (_ && _); lra.
Qed.
