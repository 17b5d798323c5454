(** Lemmas behind Props/Sources.v. *)
From Coq Require Import ZArith List Bool Arith Reals Lia Lra Permutation.
From Flocq Require Import Core.Raux.
From Verif.Model Require Import Py Sources.
From Verif.Spec Require Import Sources.
Import ListNotations.
Local Open Scope R_scope.

Lemma Rleb_iff x y : Rleb x y = true <-> x <= y.
Proof. unfold Rleb. destruct (Rle_dec x y); split; intros; auto; discriminate. Qed.

Lemma good_iff srcs s : good srcs s = true <-> passes srcs s.
Proof.
  unfold good, passes. rewrite !andb_true_iff, !Rleb_iff, Z.eqb_eq. tauto.
Qed.

Lemma drawn_refl {A} (l : list A) : drawn_from l l.
Proof.
  exists (seq 0 (length l)). split; [apply seq_NoDup|].
  cut (forall pre, Forall2 (fun k a => nth_error (pre ++ l) k = Some a) (seq (length pre) (length l)) l).
  { intros H. exact (H []). }
  induction l as [|a l IH]; intros pre; simpl; constructor.
  - rewrite nth_error_app2 by lia. now rewrite Nat.sub_diag.
  - specialize (IH (pre ++ [a])). rewrite app_length in IH. simpl in IH. rewrite Nat.add_1_r in IH.
    rewrite <- app_assoc in IH. exact IH.
Qed.

Lemma F2_map_l {A B D} (P : A -> B -> Prop) (f : D -> A) l l' :
  Forall2 (fun d b => P (f d) b) l l' -> Forall2 P (map f l) l'.
Proof. induction 1; simpl; constructor; auto. Qed.

Lemma drawn_trans {A} (l m n : list A) : drawn_from l m -> drawn_from m n -> drawn_from l n.
Proof.
  intros (p & Np & Fp) (q & Nq & Fq).
  assert (Hq : forall k a, nth_error m k = Some a -> exists k', nth_error q k = Some k' /\ nth_error n k' = Some a).
  { clear - Fq. induction Fq as [|k' a q m E Fq IH]; intros k b H.
    - destruct k; discriminate.
    - destruct k; simpl in *; [injection H as <-; eauto|auto]. }
  assert (Lq : length q = length m) by (clear - Fq; induction Fq; simpl; congruence).
  assert (In_p : forall k, In k p -> (k < length q)%nat).
  { clear - Fp Lq. induction Fp as [|k a p l E Fp IH]; simpl; [tauto|]. intros j [<-|I]; [|auto].
    rewrite Lq. apply nth_error_Some. congruence. }
  exists (map (fun k => nth k q 0%nat) p). split.
  - clear - Np Nq In_p. induction Np as [|k p I Np IH]; simpl; constructor.
    + intros J. apply in_map_iff in J as (j & E & J). apply I.
      assert (j = k); [|congruence]. apply (proj1 (NoDup_nth q 0%nat) Nq); auto; apply In_p; simpl; auto.
    + apply IH. intros; apply In_p; simpl; auto.
  - clear - Fp Hq. induction Fp as [|k a p l E Fp IH]; simpl; constructor; auto.
    destruct (Hq _ _ E) as (k' & E1 & E2). now rewrite (nth_error_nth _ _ _ E1).
Qed.

Lemma drawn_filter {A} (f : A -> bool) (l : list A) : drawn_from (filter f l) l.
Proof.
  induction l as [|a l (p & N & F)]; simpl.
  - exists []. split; constructor.
  - assert (F' : Forall2 (fun k b => nth_error (a :: l) k = Some b) (map S p) (filter f l))
      by (apply F2_map_l; exact F).
    assert (N' : NoDup (map S p)) by (apply FinFun.Injective_map_NoDup; [congruence|assumption]).
    destruct (f a).
    + exists (0%nat :: map S p). split.
      * constructor; [|assumption]. intros I. apply in_map_iff in I as (? & ? & _). discriminate.
      * constructor; [reflexivity|assumption].
    + exists (map S p). split; assumption.
Qed.

Lemma drawn_choice (l : list src) ks : NoDup ks -> Forall (fun k => (k < length l)%nat) ks ->
  drawn_from (map (fun k => nth k l (mksrc 0 0 0 0 0)) ks) l.
Proof.
  intros N F. exists ks. split; [assumption|].
  clear N. induction F as [|k ks H F IH]; simpl; constructor; [|assumption].
  now apply nth_error_nth'.
Qed.

Lemma drawn_length {A} (l m : list A) : drawn_from l m -> (length l <= length m)%nat.
Proof.
  intros (p & N & F). replace (length l) with (length p) by (clear N; induction F; simpl; congruence).
  rewrite <- (seq_length (length m) 0). apply NoDup_incl_length; [assumption|].
  intros k I. apply in_seq. split; [lia|]. simpl.
  clear N. induction F as [|j a p l E F IH]; [destruct I|]. destruct I as [->|I]; [|auto].
  apply nth_error_Some. congruence.
Qed.

Lemma detect_two a m srcs : detect a m = Ok srcs -> (2 <= length srcs)%nat.
Proof.
  unfold detect. destruct (orelse _ _); cbn [bind]; [|discriminate].
  match goal with |- bind ?r _ = _ -> _ => destruct r as [l|]; cbn [bind]; [|discriminate] end.
  destruct l as [|x [|y t]]; [discriminate|discriminate|]. intros [= <-]. simpl. lia.
Qed.

(** C29: what best_sources returns is not empty, has at most 1800 entries, and consists of
    detected sources, no detection being used twice. *)
Lemma C29_bounded_selection_lm : forall (choice : nat -> list nat) (a : attempts) (m : Z) (l : list src),
  fair_choice choice -> best_sources choice a m = Ok l ->
  exists srcs, detect a m = Ok srcs /\ l <> [] /\ (length l <= 1800)%nat /\ drawn_from l srcs.
Proof.
  intros choice a m l FC. unfold best_sources. destruct (detect a m) as [srcs|e] eqn:E; [|discriminate].
  cbn [bind]. intros [= <-]. exists srcs. split; [reflexivity|].
  pose proof (detect_two _ _ _ E) as L2. unfold select, MAX_SRCS_LIMIT.
  set (best := if (length (filter (good srcs) srcs) <? 5)%nat then srcs else filter (good srcs) srcs).
  assert (B : drawn_from best srcs).
  { unfold best. destruct (_ <? 5)%nat; [apply drawn_refl|apply drawn_filter]. }
  assert (B2 : (2 <= length best)%nat).
  { unfold best. destruct (Nat.ltb_spec (length (filter (good srcs) srcs)) 5); [assumption|]. eapply Nat.le_trans; [|eassumption]. repeat constructor. }
  destruct (Nat.ltb_spec 1800 (length best)) as [L|L].
  - destruct (FC (length best)) as (F1 & F2 & F3); [apply Nat.lt_le_incl; exact L|].
    split; [|split].
    + intros Z. apply (f_equal (@length src)) in Z. rewrite map_length, F1 in Z. discriminate Z.
    + rewrite map_length, F1. apply le_n.
    + eapply drawn_trans; [|exact B]. now apply drawn_choice.
  - split; [|split; assumption]. intros Z. rewrite Z in B2. simpl in B2. lia.
Qed.

Lemma filter_same {A} (f g : A -> bool) l : (forall x, f x = g x) -> filter f l = filter g l.
Proof. intros H. apply filter_ext. exact H. Qed.

(** C29: if at least 5 (and at most 1800) sources pass the quality cuts, exactly these are
    kept, in their order; if fewer than 5 pass, all the detected sources are kept; in both
    cases 1800 of them are drawn when there are more. *)
Lemma C29_exact_selection_lm : forall (choice : nat -> list nat) (a : attempts) (m : Z)
  (srcs : list src) (f : src -> bool),
  fair_choice choice -> detect a m = Ok srcs -> (forall s, f s = true <-> passes srcs s) ->
  let kept := if (length (filter f srcs) <? 5)%nat then srcs else filter f srcs in
  ((length kept <= 1800)%nat -> best_sources choice a m = Ok kept) /\
  ((1800 < length kept)%nat ->
   exists l, best_sources choice a m = Ok l /\ length l = 1800%nat /\ drawn_from l kept).
Proof.
  intros choice a m srcs f FC E F kept.
  assert (Ff : filter f srcs = filter (good srcs) srcs).
  { apply filter_same. intros s. apply eq_true_iff_eq. rewrite F. symmetry. apply good_iff. }
  unfold best_sources. rewrite E. cbn [bind]. unfold select, MAX_SRCS_LIMIT.
  unfold kept. rewrite Ff.
  set (best := if (length (filter (good srcs) srcs) <? 5)%nat then srcs else filter (good srcs) srcs).
  split; intros L.
  - apply Nat.ltb_ge in L. now rewrite L.
  - destruct (FC (length best)) as (F1 & F2 & F3); [apply Nat.lt_le_incl; exact L|].
    apply Nat.ltb_lt in L. rewrite L. eexists. split; [reflexivity|].
    split; [now rewrite map_length|]. now apply drawn_choice.
Qed.

(** *** C30 *)

Lemma orelse_ok {A} (x y : res A) l :
  orelse x y = Ok l <-> x = Ok l \/ ((exists e, x = Raise e) /\ y = Ok l).
Proof.
  destruct x as [v|e]; simpl; split; intros H.
  - now left.
  - destruct H as [H|[(e & H) _]]; congruence.
  - right. eauto.
  - destruct H as [H|[_ H]]; congruence.
Qed.

Lemma orelse_raise {A} (x y : res A) e :
  orelse x y = Raise e <-> (exists e', x = Raise e') /\ y = Raise e.
Proof.
  destruct x as [v|e0]; simpl; split; intros H.
  - discriminate.
  - destruct H as [(? & H) _]; discriminate.
  - eauto.
  - tauto.
Qed.

(** C30: the catalogue detection ends with: the first one if it has min_sources entries or
    more, otherwise the longer of the first and the faint one, the faint one on a tie; it
    must have at least two sources. *)
Lemma C30_detection_policy_lm : forall (a : attempts) (m : Z) (l : list src),
  detect a m = Ok l <->
  (2 <= length l)%nat /\
  exists first, first_catalogue a first /\
    (((m <= Z.of_nat (length first))%Z /\ l = first) \/
     ((Z.of_nat (length first) < m)%Z /\
      exists faint, faint_catalogue a faint /\
        (((length faint < length first)%nat /\ l = first) \/
         ((length first <= length faint)%nat /\ l = faint)))).
Proof.
  intros a m l. unfold detect, first_catalogue, faint_catalogue.
  assert (Two : forall (s r : list src), match s with [] => Raise ValueError | [_] => Raise ValueError | _ => Ok s end = Ok r
     <-> (2 <= length r)%nat /\ s = r).
  { intros s r. destruct s as [|x [|y t]]; simpl; split; try discriminate; try (intros [H <-]; simpl in H; lia).
    - intros [= <-]. simpl. split; [lia|reflexivity].
    - intros [_ <-]. reflexivity. }
  split.
  - destruct (orelse (at_default a) (at_high a)) as [first|e] eqn:E1; cbn [bind]; [|discriminate].
    apply orelse_ok in E1. destruct (Z.ltb_spec (Z.of_nat (length first)) m) as [L|L].
    + destruct (orelse (at_low5 a) (at_low9 a)) as [faint|e] eqn:E2; cbn [bind]; [|discriminate].
      apply orelse_ok in E2. rewrite Two. intros [T H]. split; [assumption|]. exists first. split; [assumption|].
      right. split; [assumption|]. exists faint. split; [assumption|].
      destruct (Nat.ltb_spec (length faint) (length first)); [left|right]; auto.
    + cbn [bind]. rewrite Two. intros [T <-]. split; [assumption|]. exists first. split; [assumption|]. left. auto.
  - intros (T & first & F & H). apply orelse_ok in F. rewrite F. cbn [bind].
    destruct H as [[L ->]|(L & faint & Ff & H)].
    + apply Z.ltb_ge in L. rewrite L. cbn [bind]. apply Two. auto.
    + apply Z.ltb_lt in L. rewrite L. apply orelse_ok in Ff. rewrite Ff. cbn [bind]. apply Two.
      split; [assumption|]. destruct H as [[H ->]|[H ->]].
      * apply Nat.ltb_lt in H. now rewrite H.
      * apply Nat.ltb_ge in H. now rewrite H.
Qed.

(** C30: detection raises exactly when both bright attempts fail (the exception of the
    second), when a faint attempt is needed and both fail (the exception of the second,
    whatever the bright attempt had found), or, with ValueError, when the resulting
    catalogue has fewer than two sources. *)
Lemma C30_detection_failure_lm : forall (a : attempts) (m : Z) (e : exn),
  detect a m = Raise e <->
  ((exists e', at_default a = Raise e') /\ at_high a = Raise e) \/
  (exists first, first_catalogue a first /\ (Z.of_nat (length first) < m)%Z /\
     (exists e', at_low5 a = Raise e') /\ at_low9 a = Raise e) \/
  (e = ValueError /\ exists first, first_catalogue a first /\ (length first < 2)%nat /\
     ((m <= Z.of_nat (length first))%Z \/
      ((Z.of_nat (length first) < m)%Z /\ exists faint, faint_catalogue a faint /\ (length faint < 2)%nat))).
Proof.
  intros a m e. unfold detect.
  assert (Two : forall (s : list src), match s with [] => Raise ValueError | [_] => Raise ValueError | _ => Ok s end = Raise e
     <-> (length s < 2)%nat /\ e = ValueError).
  { intros s. destruct s as [|x [|y t]]; simpl; split; try discriminate;
      try (intros [= <-]; split; [lia|reflexivity]); try (intros [_ ->]; reflexivity). intros [H _]. lia. }
  destruct (orelse (at_default a) (at_high a)) as [first|e1] eqn:E1; cbn [bind].
  - pose proof E1 as E1'. apply orelse_ok in E1'. fold (first_catalogue a first) in E1'.
    assert (U : forall l, first_catalogue a l -> l = first).
    { intros l H. apply orelse_ok in H. congruence. }
    assert (N1 : ~ ((exists e', at_default a = Raise e') /\ at_high a = Raise e)).
    { intros H. apply orelse_raise in H. congruence. }
    destruct (Z.ltb_spec (Z.of_nat (length first)) m) as [L|L].
    + destruct (orelse (at_low5 a) (at_low9 a)) as [faint|e2] eqn:E2; cbn [bind].
      * pose proof E2 as E2'. apply orelse_ok in E2'. fold (faint_catalogue a faint) in E2'.
        assert (U2 : forall l, faint_catalogue a l -> l = faint).
        { intros l H. apply orelse_ok in H. congruence. }
        assert (N2 : ~ ((exists e', at_low5 a = Raise e') /\ at_low9 a = Raise e)).
        { intros H. apply orelse_raise in H. congruence. }
        rewrite Two. split.
        -- intros [H ->]. right; right. split; [reflexivity|]. exists first. split; [assumption|].
           destruct (Nat.ltb_spec (length faint) (length first)) as [Q|Q];
             (split; [lia|]; right; split; [assumption|]; exists faint; split; [assumption|lia]).
        -- intros [H|[(f & Hf & _ & H)|(-> & f & Hf & L2 & H)]].
           ++ contradiction.
           ++ contradiction.
           ++ apply U in Hf. subst f. split; [|reflexivity].
              destruct H as [H|(_ & g & Hg & H)]; [lia|]. apply U2 in Hg. subst g.
              now destruct (length faint <? length first)%nat.
      * pose proof E2 as E2'. apply orelse_raise in E2'. split.
        -- intros [= ->]. right; left. exists first. auto.
        -- assert (NF : forall g, ~ faint_catalogue a g).
           { intros g H. apply orelse_ok in H. congruence. }
           intros [H|[(f & Hf & _ & H)|(-> & f & Hf & L2 & H)]].
           ++ contradiction.
           ++ destruct H as [_ H]. destruct E2' as [_ E2']. congruence.
           ++ apply U in Hf. subst f. destruct H as [H|(_ & g & Hg & H)]; [lia|]. now apply NF in Hg.
    + cbn [bind]. rewrite Two. split.
      * intros [H ->]. right; right. split; [reflexivity|]. exists first. auto.
      * intros [H|[(f & Hf & Lf & H)|(-> & f & Hf & L2 & H)]].
        -- contradiction.
        -- apply U in Hf. subst f. lia.
        -- apply U in Hf. subst f. auto.
  - pose proof E1 as E1'. apply orelse_raise in E1'.
    assert (NF : forall g, ~ first_catalogue a g).
    { intros g H. apply orelse_ok in H. congruence. }
    split.
    + intros [= ->]. now left.
    + intros [H|[(f & Hf & _ & H)|(-> & f & Hf & L2 & H)]];
        try (now apply NF in Hf). destruct H as [_ H]. destruct E1' as [_ E1']. congruence.
Qed.

(** *** C31 *)

(** C31: without explicit stamp shape the stamp is square with an odd side of at least 5;
    when three times the root of the 65% percentile of the areas exceeds 5, the side is the
    smallest odd number not below its integer part; otherwise it is 5. *)
Lemma C31_default_stamp_lm : forall (srcs : list src),
  exists d : Z, default_stamp srcs = (d, d) /\ Z.Odd d /\ (5 <= d)%Z /\
    let p := 3 * sqrt (percentile 65 (map (fun t => INR (s_npix t)) srcs)) in
    (5 < p -> forall z : Z, (Z.Odd z /\ (Zfloor p <= z)%Z) <-> (Z.Odd z /\ (d <= z)%Z)) /\
    (p <= 5 -> d = 5%Z).
Proof.
  intros srcs. exists (default_side srcs). split; [reflexivity|]. unfold default_side.
  set (p := 3 * sqrt _). cbv zeta.
  destruct (Rlt_dec 5 p) as [L|L].
  - assert (T : Ztrunc p = Zfloor p) by (apply Ztrunc_floor; lra).
    assert (F : (5 <= Zfloor p)%Z) by (apply Zfloor_lub; simpl; lra).
    rewrite T. set (z := Zfloor p) in *. pose proof (Z.mod_pos_bound z 2 eq_refl) as B.
    pose proof (Z.div_mod z 2 ltac:(discriminate)) as D.
    destruct (Z.eqb_spec (z mod 2) 1) as [O|O].
    + split; [exists (z / 2)%Z; lia|]. split; [lia|]. split; [intros _; tauto|]. intros; lra.
    + split; [exists (z / 2)%Z; lia|]. split; [lia|]. split; [|intros; lra].
      intros _ y. split; intros [(k & Hk) H]; (split; [exists k; assumption|lia]).
  - split; [exists 2%Z; reflexivity|]. split; [lia|]. split; [intros; lra|reflexivity].
Qed.

(** *** The percentile *)

Lemma insertR_perm x l : Permutation (x :: l) (insertR x l).
Proof.
  induction l as [|y l IH]; simpl; [reflexivity|]. destruct (Rle_dec x y); [reflexivity|].
  rewrite perm_swap. now constructor.
Qed.

Lemma sortR_perm l : Permutation l (sortR l).
Proof.
  induction l as [|x l IH]; simpl; [reflexivity|].
  rewrite <- insertR_perm. now constructor.
Qed.

Lemma sortR_len l : length (sortR l) = length l.
Proof. symmetry. apply Permutation_length, sortR_perm. Qed.

(** A percentile (for q between 0 and 100) lies between any lower and any upper bound of
    the values. *)
Lemma percentile_between q l a b : l <> [] -> 0 <= q <= 100 ->
  (forall x, In x l -> a <= x <= b) -> a <= percentile q l <= b.
Proof.
  intros N Hq H. unfold percentile. set (v := q / 100 * INR (length l - 1)).
  assert (Hn : (1 <= length l)%nat) by (destruct l; [contradiction|simpl; lia]).
  assert (Hv : 0 <= v <= INR (length l - 1)).
  { unfold v. pose proof (pos_INR (length l - 1)). split.
    - apply Rmult_le_pos; lra.
    - rewrite <- (Rmult_1_l (INR _)) at 2. apply Rmult_le_compat_r; lra. }
  assert (Hf : (0 <= Zfloor v <= Z.of_nat (length l - 1))%Z).
  { split; [apply Zfloor_lub; simpl; lra|]. rewrite INR_IZR_INZ in Hv.
    rewrite <- (Zfloor_IZR (Z.of_nat (length l - 1))). apply Zfloor_le. lra. }
  assert (Fr : 0 <= v - IZR (Zfloor v) < 1).
  { pose proof (Zfloor_lb v). pose proof (Zfloor_ub v). lra. }
  set (k := Z.to_nat (Zfloor v)).
  assert (Hk : (k < length (sortR l))%nat) by (rewrite sortR_len; unfold k; lia).
  assert (B : forall j, (j < length (sortR l))%nat -> forall d, a <= nth j (sortR l) d <= b).
  { intros j Hj d. apply H. eapply Permutation_in; [symmetry; apply sortR_perm|]. now apply nth_In. }
  pose proof (B k Hk 0) as B1.
  assert (B2 : a <= nth (S k) (sortR l) (nth k (sortR l) 0) <= b).
  { destruct (Nat.lt_ge_cases (S k) (length (sortR l))) as [L|L]; [now apply B|].
    rewrite nth_overflow by assumption. exact B1. }
  set (y := nth (S k) _ _) in *. set (x := nth k _ _) in *. set (t := v - IZR (Zfloor v)) in *.
  clearbody t x y. clear - B1 B2 Fr. nra.
Qed.
