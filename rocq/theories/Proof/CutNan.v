(** What nan in the interpolated image does to the stamps cut from it. *)
From Coq Require Import ZArith List Bool Arith Reals Lia Lra.
From Flocq Require Import Core.Raux.
From Verif.Model Require Import Py Plane Sources FindS Stamps Interp Cut.
From Verif.Spec Require Import FindS Stamps Cut CutNan.
From Verif.Proof Require Import Stamps StampsLoop StampsMain StampsExample Cut CutIntact CutLoop CutMain CutLeft CutEx.
Import ListNotations.
Set Bullet Behavior "Strict Subproofs".
Local Open Scope R_scope.

Lemma owin_nan im rms sh s k : (k <= 3)%nat ->
  any_nan (owin im rms sh (s_y s, s_x s) k) = true <->
  nan_in im (fun r c => start (s_y s) (fst sh) - Z.of_nat k <= r < start (s_y s) (fst sh) + Z.of_nat (fst sh) + Z.of_nat k /\
                        start (s_x s) (snd sh) - Z.of_nat k <= c < start (s_x s) (snd sh) + Z.of_nat (snd sh) + Z.of_nat k)%Z.
Proof.
  intros Hk. split.
  - intros X. unfold any_nan in X. apply existsb_exists in X. destruct X as (i & I & X).
    apply existsb_exists in X. destruct X as (j & J & X). apply in_seq in I, J. cbn [owin nr nc px fst snd] in *.
    destruct (_ && _) eqn:B; [|discriminate]. unfold oframe in X. destruct (in_axis (nr im) _ && in_axis (nc im) _) eqn:A; [|discriminate].
    unfold in_axis in A. rewrite !andb_true_iff, !Z.leb_le, !Z.ltb_lt in A.
    destruct (px im _ _) eqn:E in X; [discriminate|].
    do 2 eexists. split; [|split; [|split; [|exact E]]]; lia.
  - intros (i & j & Hi & Hj & (A & B) & E).
    set (i' := Z.to_nat (Z.of_nat i - (start (s_y s) (fst sh) - Z.of_nat k))).
    set (j' := Z.to_nat (Z.of_nat j - (start (s_x s) (snd sh) - Z.of_nat k))).
    apply (any_nan_true i' j'); cbn [owin nr nc px fst snd]; [lia|lia|].
    assert (L1 : (i' <? fst sh + 2 * k)%nat = true) by (apply Nat.ltb_lt; lia).
    assert (L2 : (j' <? snd sh + 2 * k)%nat = true) by (apply Nat.ltb_lt; lia).
    rewrite L1, L2. cbn [andb]. unfold oframe.
    replace (start (s_y s) (fst sh) - Z.of_nat k + Z.of_nat i')%Z with (Z.of_nat i) by lia.
    replace (start (s_x s) (snd sh) - Z.of_nat k + Z.of_nat j')%Z with (Z.of_nat j) by lia.
    assert (A1 : in_axis (nr im) (Z.of_nat i) = true) by (unfold in_axis; rewrite andb_true_iff, Z.leb_le, Z.ltb_lt; lia).
    assert (A2 : in_axis (nc im) (Z.of_nat j) = true) by (unfold in_axis; rewrite andb_true_iff, Z.leb_le, Z.ltb_lt; lia).
    rewrite A1, A2, !Nat2Z.id. exact E.
Qed.

(** The image may hold nan, as an extraction leaves it. A source with a nan in its window is
    skipped. One with a nan around the window has a stamp that is all nan, and becomes nan in the
    image when it is inside the frame. One without nan in its stamp is cut as from any image
    without nan that has the same pixels there. *)
Lemma C132_nan_lm : forall stats label pk image rms sh s left ex,
  (0 < fst sh)%nat -> (0 < snd sh)%nat ->
  cut_stamps stats label pk image rms sh [s] = (left, Ok ex) ->
  (nan_in image (in_window sh s) -> ex_stamps ex = [] /\
     forall i j, (i < nr image)%nat -> (j < nc image)%nat -> px left i j = px image i j) /\
  (~ nan_in image (in_window sh s) -> nan_in image (in_stamp sh s) ->
     (forall p i j, In p (ex_stamps ex) -> px p i j = None) /\
     forall i j, (i < nr image)%nat -> (j < nc image)%nat -> in_stamp sh s (Z.of_nat i) (Z.of_nat j) ->
       (inside image sh s -> px left i j = None) /\ (~ inside image sh s -> px left i j = px image i j)) /\
  (forall clean, shape clean = shape image ->
     (forall i j, (i < nr image)%nat -> (j < nc image)%nat -> in_stamp sh s (Z.of_nat i) (Z.of_nat j) ->
        px image i j = Some (px clean i j)) ->
     exists left', cut_stamps stats label pk (intact clean) rms sh [s] = (left', Ok ex) /\
       forall i j, (i < nr image)%nat -> (j < nc image)%nat -> in_stamp sh s (Z.of_nat i) (Z.of_nat j) ->
         px left i j = px left' i j).
Proof.
  intros stats label pk image rms sh s left ex Hr Hc H. pose proof H as H0.
  apply cut_ok in H. destruct H as (v & T & ->).
  inversion T as [|im s' o im1 l v' im2 C T']; subst. inversion T'; subst. clear T'.
  assert (O : overlaps (numb image) sh (s_y s, s_x s)).
  { assert (overlaps (numb image) sh (s_y s, s_x s) \/ ~ overlaps (numb image) sh (s_y s, s_x s)) as [O|N] by (unfold overlaps; lia);
      [exact O|]. rewrite cut_one_none in C by exact N. discriminate. }
  pose proof C as C0. rewrite cut_one_some in C by assumption.
  split; [|split].
  - intros N. assert (W : any_nan (owin image rms sh (s_y s, s_x s) 0) = true).
    { apply owin_nan; [lia|]. destruct N as (i & j & Hi & Hj & (A & B) & E). exists i, j. repeat split; auto; lia. }
    rewrite W in C. injection C as <- <-. split; [reflexivity|]. reflexivity.
  - intros N0 N3. assert (W : any_nan (owin image rms sh (s_y s, s_x s) 0) = false).
    { apply not_true_is_false. intros X. apply N0. apply owin_nan in X; [|lia].
      destruct X as (i & j & Hi & Hj & (A & B) & E). exists i, j. repeat split; auto; lia. }
    rewrite W in C. cbn zeta in C. injection C as <- Ev.
    destruct (Nat.eqb _ 3) eqn:K; [|discriminate]. apply Nat.eqb_eq in K. rewrite K in *.
    assert (W3 : any_nan (owin image rms sh (s_y s, s_x s) 3) = true) by (apply owin_nan; [lia|exact N3]).
    assert (Lv : levelled (owin image rms sh (s_y s, s_x s) 3) = pmap (fun _ => None) (owin image rms sh (s_y s, s_x s) 3)).
    { unfold levelled, whole. now rewrite W3. }
    rewrite Lv in *. split.
    + intros p i j Ip. cbn [result ex_stamps somes] in Ip.
      unfold judge in Ev.
      assert (Wn : whole (pmap (fun _ : option R => @None R) (owin image rms sh (s_y s, s_x s) 3)) = None).
      { unfold whole. rewrite (any_nan_true 0 0); [reflexivity|cbn; lia|cbn; lia|reflexivity]. }
      rewrite Wn in Ev. destruct (private_pick pk).
      * destruct (strict stats label None) as [[|]|]; try discriminate; injection Ev as <-; [|contradiction].
        destruct Ip as [<-|[]]. reflexivity.
      * injection Ev as <-. destruct Ip as [<-|[]]. reflexivity.
    + intros i j Hi Hj I. unfold write. cbn [shape pmap nr nc owin]. unfold shape. cbn [nr nc pmap owin fst snd].
      unfold in_stamp in I.
      assert (SI : shares image (fst sh + 2 * 3, snd sh + 2 * 3)%nat (s_y s, s_x s) = true <-> inside image sh s).
      { unfold shares. cbn [fst snd]. rewrite !first_index_grow, !andb_true_iff, !Z.leb_le.
        change (first_index (s_y s) (fst sh)) with (start (s_y s) (fst sh)).
        change (first_index (s_x s) (snd sh)) with (start (s_x s) (snd sh)). unfold inside, in_stamp. split.
        - intros X r c. lia.
        - intros X. pose proof (X (start (s_y s) (fst sh) - 3)%Z (start (s_x s) (snd sh) - 3)%Z ltac:(lia)).
          pose proof (X (start (s_y s) (fst sh) + Z.of_nat (fst sh) + 2)%Z (start (s_x s) (snd sh) + Z.of_nat (snd sh) + 2)%Z ltac:(lia)). lia. }
      split; intros Y.
      * rewrite (proj2 SI Y). cbn [px]. rewrite !first_index_grow.
        change (first_index (s_y s) (fst sh)) with (start (s_y s) (fst sh)).
        change (first_index (s_x s) (snd sh)) with (start (s_x s) (snd sh)).
        apply SI in Y. unfold shares in Y. cbn [fst snd] in Y. rewrite !first_index_grow, !andb_true_iff, !Z.leb_le in Y.
        change (first_index (s_y s) (fst sh)) with (start (s_y s) (fst sh)) in Y.
        change (first_index (s_x s) (snd sh)) with (start (s_x s) (snd sh)) in Y.
        match goal with |- (if ?b then _ else _) = _ => assert (Bt : b = true) end.
        { rewrite !andb_true_iff, !Nat.leb_le, !Nat.ltb_lt. lia. }
        rewrite Bt. reflexivity.
      * destruct (shares _ _ _) eqn:Sh; [|reflexivity]. exfalso. apply Y, SI. reflexivity.
  - intros clean Sh E. unfold shape in Sh. injection Sh as Sr Sc.
    assert (A : agree sh s image (intact clean)).
    { split; [now cbn|]. split; [now cbn|]. intros i j Hi Hj I. rewrite E by assumption. reflexivity. }
    destruct (cut_agree stats label pk rms sh Hr Hc s image (intact clean) A) as [X1 X2]. rewrite C0 in X1, X2. cbn [fst snd] in X1, X2.
    destruct (cut_one stats label pk (intact clean) rms sh s) as [left' r] eqn:C'. cbn [fst snd] in X1, X2. subst r.
    exists left'. split.
    + apply cut_ok. eexists. split; [|reflexivity]. econstructor; [exact C'|constructor].
    + intros i j Hi Hj I. destruct X2 as (Xr & Xc & X2). destruct (cut_dims stats label pk rms sh Hr Hc image s) as [D1 D2].
      rewrite C0 in D1, D2. cbn [fst] in D1, D2. apply X2; [congruence|congruence|exact I].
Qed.

(** [stripes] with nan in one cell. *)
Definition holed (r c : nat) : plane (option R) :=
  mkplane 20 20 (fun i j => if ((i =? r) && (j =? c))%nat then None else px (intact stripes) i j).

(** A nan on the rim of the stamp of [mid], and one in its middle. *)
Lemma C132_nan_case_lm : forall stats label,
  (exists left ex p, cut_stamps stats label (mkpicks false None) (holed 7 10) 1 (1, 1)%nat [mid] = (left, Ok ex) /\
     ~ nan_in (holed 7 10) (in_window (1, 1)%nat mid) /\ nan_in (holed 7 10) (in_stamp (1, 1)%nat mid) /\
     inside (holed 7 10) (1, 1)%nat mid /\ ex_stamps ex = [p]) /\
  (exists left ex, cut_stamps stats label (mkpicks false None) (holed 10 10) 1 (1, 1)%nat [mid] = (left, Ok ex) /\
     nan_in (holed 10 10) (in_window (1, 1)%nat mid)).
Proof.
  intros stats label. assert (St : start (s_y mid) 1 = 10%Z /\ start (s_x mid) 1 = 10%Z) by (split; exact start_mid).
  destruct St as [S1 S2].
  assert (O : forall r c, overlaps (numb (holed r c)) (1, 1)%nat (s_y mid, s_x mid)).
  { intros r c. unfold overlaps. cbn [fst snd]. rewrite S1, S2. cbn. lia. }
  assert (Go : forall im o im1, cut_one stats label (mkpicks false None) im 1 (1, 1)%nat mid = (im1, Ok o) ->
     exists left ex, cut_stamps stats label (mkpicks false None) im 1 (1, 1)%nat [mid] = (left, Ok ex) /\
       ex_stamps ex = somes [o]).
  { intros im o im1 C. exists im1. eexists. split.
    - apply cut_ok. eexists. split; [|reflexivity]. econstructor; [exact C|constructor].
    - reflexivity. }
  split.
  - assert (Wk : forall k, (k <= 1)%nat -> owin (holed 7 10) 1 (1, 1)%nat (s_y mid, s_x mid) k =
                                        owin (intact stripes) 1 (1, 1)%nat (s_y mid, s_x mid) k).
    { intros k Hk. unfold owin. f_equal. apply FunctionalExtensionality.functional_extensionality. intros i.
      apply FunctionalExtensionality.functional_extensionality. intros j. destruct (_ && _) eqn:B; [|reflexivity].
      rewrite andb_true_iff, !Nat.ltb_lt in B. cbn [fst snd] in *. rewrite S1, S2. unfold oframe. cbn [holed nr nc px intact pmap stripes].
      destruct (in_axis 20 _ && in_axis 20 _); [|reflexivity].
      replace (Z.to_nat (10 - Z.of_nat k + Z.of_nat i) =? 7)%nat with false by (symmetry; apply Nat.eqb_neq; lia). reflexivity. }
    destruct good_stripes_mid as (_ & B & C).
    assert (K : steps (holed 7 10) 1 (1, 1)%nat (s_y mid, s_x mid) = 3%nat).
    { unfold steps. rewrite !Wk by lia. exact (steps_normal stripes 1 (1, 1)%nat ltac:(cbn; lia) ltac:(cbn; lia) mid B C). }
    pose proof (cut_one_some stats label (mkpicks false None) 1 (1, 1)%nat ltac:(cbn; lia) ltac:(cbn; lia) (holed 7 10) mid (O 7%nat 10%nat)) as E.
    rewrite (Wk 0%nat ltac:(lia)), window_nan, K in E. cbn zeta in E. cbn [Nat.eqb] in E. unfold judge in E. cbn [private_pick] in E.
    destruct (Go _ _ _ E) as (left & ex & X & Y). exists left, ex. eexists. split; [exact X|]. split; [|split; [|split; [|exact Y]]].
    + intros (i & j & Hi & Hj & (A1 & A2) & N). cbn [fst snd] in *. rewrite S1 in A1. rewrite S2 in A2.
      assert (i = 10%nat) by lia. assert (j = 10%nat) by lia. subst. discriminate.
    + exists 7%nat, 10%nat. split; [cbn; lia|]. split; [cbn; lia|]. split; [|reflexivity]. unfold in_stamp. cbn [fst snd].
      rewrite S1, S2. lia.
    + intros r c. unfold in_stamp. cbn [fst snd]. rewrite S1, S2. cbn. lia.
  - assert (N : nan_in (holed 10 10) (in_window (1, 1)%nat mid)).
    { exists 10%nat, 10%nat. split; [cbn; lia|]. split; [cbn; lia|]. split; [|reflexivity]. unfold in_window. cbn [fst snd]. rewrite S1, S2. lia. }
    pose proof (cut_one_some stats label (mkpicks false None) 1 (1, 1)%nat ltac:(cbn; lia) ltac:(cbn; lia) (holed 10 10) mid (O 10%nat 10%nat)) as E.
    assert (W : any_nan (owin (holed 10 10) 1 (1, 1)%nat (s_y mid, s_x mid) 0) = true).
    { apply owin_nan; [lia|]. destruct N as (i & j & Hi & Hj & (A & B) & E'). exists i, j. repeat split; auto; lia. }
    rewrite W in E. destruct (Go _ _ _ E) as (left & ex & X & _). exists left, ex. auto.
Qed.
