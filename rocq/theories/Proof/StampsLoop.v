(** Facts about the loop over the sources and the strict criteria. *)
From Coq Require Import ZArith List Bool Arith Reals Lia Lra Sorting.Sorted.
From Flocq Require Import Core.Raux.
From Verif.Model Require Import Py Plane Sources FindS Stamps.
From Verif.Spec Require Import FindS Stamps.
From Verif.Proof Require Import FindSMain SourcesMain Stamps.
Import ListNotations.
Local Open Scope R_scope.

(** * One source *)

Section One.
Variables (stats : plane R -> R * R * R) (label : plane bool -> plane nat * nat).
Variables (pk : picks) (image : plane R) (rms : R) (sh : nat * nat).
Hypothesis Hr : (0 < fst sh)%nat.
Hypothesis Hc : (0 < snd sh)%nat.
Variable s : src.
Let pos := (s_y s, s_x s).
Let w := window image rms sh pos.
Let T := 35 / 10 * rms.

Lemma one_no_overlap : ~ overlaps image sh pos ->
  one_stamp stats label pk image rms sh s = Raise NoOverlapError.
Proof. intros N. unfold one_stamp. now rewrite extract_no_overlap. Qed.

Lemma one_flat : overlaps image sh pos -> flat_border (w 0%nat) T \/ flat_border (w 1%nat) T ->
  one_stamp stats label pk image rms sh s = Raise TypeError.
Proof.
  intros O F. unfold one_stamp. fold pos. rewrite extract_overlap0 by exact O. cbn [bind].
  destruct (grow_result image rms sh pos Hr Hc O) as [[_ E]|[(_ & _ & E)|(N0 & N1 & _)]];
    [| |exfalso; destruct F; contradiction]; rewrite E; cbn [bind nr nc window STAMP_PADSIZE].
  - destruct (_ =? 0)%Z eqn:Q; [apply Z.eqb_eq in Q; exfalso; cbn in Q; lia|reflexivity].
  - destruct (_ =? 0)%Z eqn:Q; [apply Z.eqb_eq in Q; exfalso; cbn in Q; lia|reflexivity].
Qed.

Lemma one_normal : overlaps image sh pos -> ~ flat_border (w 0%nat) T -> ~ flat_border (w 1%nat) T ->
  one_stamp stats label pk image rms sh s =
  if private_pick pk
  then bind (strict stats label (subtract_level (w 3%nat)))
         (fun ok => Ok (if ok : bool then Some (stamp_of (w 3%nat)) else None))
  else Ok (Some (stamp_of (w 3%nat))).
Proof.
  intros O F0 F1. unfold one_stamp. fold pos. rewrite extract_overlap0 by exact O. cbn [bind].
  destruct (grow_result image rms sh pos Hr Hc O) as [[F _]|[(_ & F & _)|(_ & _ & E)]];
    [contradiction|contradiction|]. rewrite E. cbn [bind].
  change (nr (window image rms sh pos 3)) with (fst sh + 2 * 3)%nat.
  change (nc (window image rms sh pos 3)) with (snd sh + 2 * 3)%nat.
  replace (Z.of_nat (fst sh) - Z.of_nat (fst sh + 2 * 3) + Z.of_nat STAMP_PADSIZE)%Z with 0%Z
    by (cbn [STAMP_PADSIZE]; unfold STAMP_PADSIZE; lia).
  replace (Z.of_nat (snd sh) - Z.of_nat (snd sh + 2 * 3) + Z.of_nat STAMP_PADSIZE)%Z with 0%Z
    by (unfold STAMP_PADSIZE; lia).
  reflexivity.
Qed.

(** flat_border is decidable. *)
Lemma flat_dec p v : (0 < nr p)%nat -> (0 < nc p)%nat -> flat_border p v \/ ~ flat_border p v.
Proof.
  intros R0 C0. pose proof (check_margin_flat (v * 10 / 35) p R0 C0) as H.
  replace (35 / 10 * (v * 10 / 35)) with v in H by field.
  destruct (check_margin _ p); [right; intros F; apply H in F; discriminate|left; now apply H].
Qed.

Lemma overlaps_dec : overlaps image sh pos \/ ~ overlaps image sh pos.
Proof. unfold overlaps. lia. Qed.

Lemma one_cases :
  one_stamp stats label pk image rms sh s = Raise NoOverlapError \/
  one_stamp stats label pk image rms sh s = Raise TypeError \/
  (overlaps image sh pos /\ ~ flat_border (w 0%nat) T /\ ~ flat_border (w 1%nat) T).
Proof.
  destruct overlaps_dec as [O|N]; [|left; now apply one_no_overlap].
  destruct (flat_dec (w 0%nat) T) as [F|N0]; try (cbn; lia);
    [right; left; apply one_flat; auto|].
  destruct (flat_dec (w 1%nat) T) as [F|N1]; try (cbn; lia);
    [right; left; apply one_flat; auto|]. right; right. auto.
Qed.

Lemma one_ok v : one_stamp stats label pk image rms sh s = Ok v ->
  overlaps image sh pos /\ ~ flat_border (w 0%nat) T /\ ~ flat_border (w 1%nat) T /\
  (v = Some (stamp_of (w 3%nat)) \/ v = None).
Proof.
  intros H. destruct one_cases as [E|[E|(O & F0 & F1)]]; [congruence|congruence|].
  repeat (split; [assumption|]). rewrite one_normal in H by assumption.
  destruct (private_pick pk); [|injection H as <-; now left].
  destruct (strict _ _ _) as [[]|]; cbn in H; [injection H as <-; now left| |discriminate].
  injection H as <-. now right.
Qed.
End One.

Lemma one_pick stats label pk pk' image rms sh s : private_pick pk = private_pick pk' ->
  one_stamp stats label pk image rms sh s = one_stamp stats label pk' image rms sh s.
Proof. intros E. unfold one_stamp. now rewrite E. Qed.

Lemma find_S_not_type stats label q t ns e : find_S stats label q t ns = Raise e ->
  e = ValueError \/ e = IndexError.
Proof.
  unfold find_S. destruct (stats q) as [[mean med] std].
  destruct (label _) as [lab num]. generalize (seq 1 num). intros l.
  induction l as [|k l IH]; cbn [mapM]; [discriminate|].
  destruct (region_com q lab k) as [[x y]|]; [|cbn [bind]; intros [= <-]; auto].
  unfold pixel_at. destruct (py_index _ _); cbn [bind]; [|intros [= <-]; auto].
  destruct (py_index _ _); cbn [bind]; [|intros [= <-]; auto].
  destruct (mapM _ l); cbn [bind]; [discriminate|]. intros [= <-]. auto.
Qed.

Lemma strict_not_type stats label lev e : strict stats label lev = Raise e -> e = ValueError \/ e = IndexError.
Proof.
  unfold strict. destruct lev as [p|]; [|intros [= <-]; auto].
  destruct (Req_EM_T _ 0).
  - destruct (existsb _ _); [intros [= <-]; auto|discriminate].
  - unfold strict_finite. destruct (off_centre _ _ _); [discriminate|].
    destruct (Rlt_dec _ _); [discriminate|]. destruct (existsb _ _); [discriminate|].
    destruct (find_S _ _ _ _ _) as [cat|e'] eqn:F; cbn [bind].
    + destruct cat as [|[[y x] g] [|]]; discriminate.
    + intros [= <-]. eapply find_S_not_type; eauto.
Qed.

(** * The loop *)

Fixpoint kept {A} (jj : nat) (v : list (option A)) : list nat :=
  match v with [] => [] | Some _ :: t => jj :: kept (S jj) t | None :: t => kept (S jj) t end.
Fixpoint dropped {A} (jj : nat) (v : list (option A)) : list nat :=
  match v with [] => [] | Some _ :: t => dropped (S jj) t | None :: t => jj :: dropped (S jj) t end.
Fixpoint somes {A} (v : list (option A)) : list A :=
  match v with [] => [] | Some a :: t => a :: somes t | None :: t => somes t end.
Fixpoint pick {A B} (l : list A) (v : list (option B)) : list A :=
  match l, v with
  | a :: l', Some _ :: v' => a :: pick l' v'
  | _ :: l', None :: v' => pick l' v'
  | _, _ => []
  end.

Lemma stamp_loop_ok stats label pk image rms sh srcs : forall jj pos st del pos' st' del',
  stamp_loop stats label pk image rms sh srcs jj pos st del = Ok (pos', st', del') ->
  exists v, Forall2 (fun s o => one_stamp stats label pk image rms sh s = Ok o) srcs v /\
    pos' = pos ++ map (fun s => (s_y s, s_x s)) (pick srcs v) /\
    st' = st ++ somes v /\ del' = del ++ dropped jj v.
Proof.
  induction srcs as [|s srcs IH]; intros jj pos st del pos' st' del' H; cbn [stamp_loop] in H.
  - injection H as <- <- <-. exists []. split; [constructor|]. cbn. now rewrite !app_nil_r.
  - destruct (one_stamp stats label pk image rms sh s) as [[p|]|] eqn:E; [| |discriminate];
      apply IH in H; destruct H as (v & F & -> & -> & ->).
    + exists (Some p :: v). split; [now constructor|]. cbn. now rewrite <- !app_assoc.
    + exists (None :: v). split; [now constructor|]. cbn. now rewrite <- !app_assoc.
Qed.

Lemma stamp_loop_total stats label pk image rms sh srcs v :
  Forall2 (fun s o => one_stamp stats label pk image rms sh s = Ok o) srcs v ->
  forall jj pos st del, exists r, stamp_loop stats label pk image rms sh srcs jj pos st del = Ok r.
Proof.
  induction 1 as [|s o srcs v E F IH]; intros; [eexists; reflexivity|].
  cbn [stamp_loop]. rewrite E. destruct o; apply IH.
Qed.

Lemma stamp_loop_raise stats label pk image rms sh srcs : forall jj pos st del e,
  stamp_loop stats label pk image rms sh srcs jj pos st del = Raise e ->
  exists s, In s srcs /\ one_stamp stats label pk image rms sh s = Raise e.
Proof.
  induction srcs as [|s srcs IH]; intros jj pos st del e H; cbn [stamp_loop] in H; [discriminate|].
  destruct (one_stamp stats label pk image rms sh s) as [[p|]|] eqn:E.
  - apply IH in H. destruct H as (t & I & Et). exists t. split; [now right|exact Et].
  - apply IH in H. destruct H as (t & I & Et). exists t. split; [now right|exact Et].
  - injection H as <-. exists s. split; [now left|exact E].
Qed.

Lemma kept_ge {A} (v : list (option A)) : forall jj k, In k (kept jj v) -> (jj <= k)%nat.
Proof.
  induction v as [|[a|] v IH]; cbn; intros jj k; [intros []| |].
  - intros [->|I]; [lia|]. apply IH in I. lia.
  - intros I. apply IH in I. lia.
Qed.

Lemma dropped_ge {A} (v : list (option A)) : forall jj k, In k (dropped jj v) -> (jj <= k)%nat.
Proof.
  induction v as [|[a|] v IH]; cbn; intros jj k; [intros []| |].
  - intros I. apply IH in I. lia.
  - intros [->|I]; [lia|]. apply IH in I. lia.
Qed.

Lemma kept_sorted {A} (v : list (option A)) : forall jj, StronglySorted lt (kept jj v).
Proof.
  induction v as [|[a|] v IH]; intros jj; cbn; [constructor| |apply IH].
  constructor; [apply IH|]. apply Forall_forall. intros k I. apply kept_ge in I. lia.
Qed.

Lemma kept_in {A} (v : list (option A)) : forall jj k,
  In k (kept jj v) <-> (jj <= k)%nat /\ exists a, nth_error v (k - jj) = Some (Some a).
Proof.
  induction v as [|o v IH]; intros jj k.
  - cbn. split; [intros []|]. intros [_ [a E]]. destruct (k - jj)%nat; discriminate.
  - assert (G : In k (kept (S jj) v) <-> (S jj <= k)%nat /\ exists a, nth_error (o :: v) (k - jj) = Some (Some a)).
    { rewrite IH. split; intros [L [a E]]; (split; [lia|]); exists a.
      - replace (k - jj)%nat with (S (k - S jj)) by lia. exact E.
      - replace (k - jj)%nat with (S (k - S jj)) in E by lia. exact E. }
    destruct o as [a|]; cbn [kept In].
    + rewrite G. split.
      * intros [<-|[L H]]; [|split; [lia|exact H]]. split; [lia|]. exists a.
        now replace (jj - jj)%nat with 0%nat by lia.
      * intros [L H]. destruct (Nat.eq_dec jj k); [now left|]. right. split; [lia|exact H].
    + rewrite G. split.
      * intros [L H]. split; [lia|exact H].
      * intros [L [b H]]. destruct (Nat.eq_dec jj k) as [->|].
        { replace (k - k)%nat with 0%nat in H by lia. discriminate. }
        split; [lia|]. now exists b.
Qed.

(** The q-th kept index, the q-th stamp and the q-th picked source belong together. *)
Lemma kept_nth {A B} (l : list B) (v : list (option A)) : length l = length v ->
  forall jj q k, nth_error (kept jj v) q = Some k ->
  exists a b, nth_error v (k - jj) = Some (Some a) /\ nth_error (somes v) q = Some a /\
    nth_error l (k - jj) = Some b /\ nth_error (pick l v) q = Some b.
Proof.
  revert v. induction l as [|b l IH]; intros [|[a|] v] L jj q k E; cbn in L; try discriminate L.
  - destruct q; discriminate E.
  - injection L as L. cbn [kept] in E. destruct q as [|q]; cbn in E.
    + injection E as ->. exists a, b. replace (k - k)%nat with 0%nat by lia. cbn. auto.
    + pose proof (nth_error_In _ _ E) as I. apply kept_ge in I.
      destruct (IH v L _ _ _ E) as (a' & b' & E1 & E2 & E3 & E4). exists a', b'.
      replace (k - jj)%nat with (S (k - S jj)) by lia. cbn. auto.
  - injection L as L. cbn [kept] in E. pose proof (nth_error_In _ _ E) as I. apply kept_ge in I.
    destruct (IH v L _ _ _ E) as (a' & b' & E1 & E2 & E3 & E4). exists a', b'.
    replace (k - jj)%nat with (S (k - S jj)) by lia. cbn. auto.
Qed.

Lemma kept_length {A} (v : list (option A)) : forall jj, length (kept jj v) = length (somes v).
Proof. induction v as [|[a|] v IH]; intros jj; cbn; auto. Qed.

Lemma pick_length {A B} (l : list B) (v : list (option A)) : length l = length v ->
  length (pick l v) = length (somes v).
Proof.
  revert v. induction l as [|b l IH]; intros [|[a|] v] L; cbn in *; try discriminate L; auto.
Qed.

Lemma somes_dropped {A} (v : list (option A)) : forall jj,
  (length (somes v) + length (dropped jj v) = length v)%nat.
Proof. induction v as [|[a|] v IH]; intros jj; cbn; auto; rewrite <- (IH (S jj)); lia. Qed.

Lemma np_delete_drop {A B} (l : list B) (v : list (option A)) : length l = length v ->
  forall jj pre, (forall k, In k pre -> (k < jj)%nat) ->
  np_delete jj (pre ++ dropped jj v) l = pick l v.
Proof.
  revert v. induction l as [|b l IH]; intros [|[a|] v] L jj pre Hp; cbn in L; try discriminate L;
    [reflexivity| |]; injection L as L; cbn [np_delete dropped pick].
  - destruct (existsb (Nat.eqb jj) (pre ++ dropped (S jj) v)) eqn:E.
    + apply existsb_exists in E. destruct E as (k & I & Q). apply Nat.eqb_eq in Q. subst k.
      apply in_app_iff in I. destruct I as [I|I]; [apply Hp in I; lia|apply dropped_ge in I; lia].
    + f_equal. apply IH; [exact L|]. intros k I. apply Hp in I. lia.
  - replace (existsb (Nat.eqb jj) (pre ++ jj :: dropped (S jj) v)) with true.
    + replace (pre ++ jj :: dropped (S jj) v) with ((pre ++ [jj]) ++ dropped (S jj) v)
        by now rewrite <- app_assoc.
      apply IH; [exact L|]. intros k I. apply in_app_iff in I.
      destruct I as [I|[->|[]]]; [apply Hp in I; lia|lia].
    + symmetry. apply existsb_exists. exists jj. split; [apply in_app_iff; right; now left|apply Nat.eqb_refl].
Qed.

Lemma F2_len {A B} (P : A -> B -> Prop) l m : Forall2 P l m -> length l = length m.
Proof. induction 1; cbn; auto. Qed.

Lemma Ok_inj {A} (x y : A) : Ok x = Ok y -> x = y.
Proof. intros H. now injection H. Qed.

Lemma extract_ok stats label pk image rms sh sources ex :
  extract_stamps stats label pk image rms sh sources = Ok ex ->
  exists v, Forall2 (fun s o => one_stamp stats label pk image rms sh s = Ok o) sources v /\
    ex_pos ex = map (fun s => (s_y s, s_x s)) (pick sources v) /\
    ex_stamps ex = somes v /\
    ex_sources ex = (if Nat.leb 15 (length (somes v)) then pick sources v else sources) /\
    ex_shape ex = (fst sh + 6, snd sh + 6)%nat /\ ex_n ex = length (somes v) /\
    private_pick (ex_picks ex) = private_pick pk.
Proof.
  unfold extract_stamps.
  set (pk' := if Nat.leb (length sources) 20 then mkpicks (private_pick pk) (Some false) else pk).
  assert (Pk : private_pick pk' = private_pick pk) by (unfold pk'; destruct (Nat.leb _ _); reflexivity). clearbody pk'.
  destruct (stamp_loop _ _ _ _ _ _ _ _ _ _ _) as [[[pos st] del]|] eqn:E; cbn [bind]; [|discriminate].
  intros H. apply Ok_inj in H. subst ex. apply stamp_loop_ok in E. destruct E as (v & F & -> & -> & ->).
  cbn [app ex_pos ex_stamps ex_sources ex_shape ex_n ex_picks].
  assert (L : length sources = length v) by (eapply F2_len; eauto).
  exists v. split.
  { clear - F Pk. induction F as [|s o l v E F IH]; constructor; auto.
    rewrite <- E. apply one_pick. now symmetry. }
  split; [reflexivity|]. split; [reflexivity|]. split.
  { pose proof (somes_dropped v 0) as SD.
    replace (length sources - length (dropped 0 v))%nat with (length (somes v)) by lia.
    destruct (Nat.leb 15 _); [|reflexivity].
    exact (np_delete_drop sources v L 0 [] ltac:(intros k [])). }
  split; [reflexivity|]. split; [|exact Pk].
  rewrite map_length. now apply pick_length.
Qed.

Lemma extract_total stats label pk image rms sh sources v :
  Forall2 (fun s o => one_stamp stats label pk image rms sh s = Ok o) sources v ->
  exists ex, extract_stamps stats label pk image rms sh sources = Ok ex.
Proof.
  intros F. unfold extract_stamps.
  set (pk' := if Nat.leb (length sources) 20 then mkpicks (private_pick pk) (Some false) else pk).
  assert (Pk : private_pick pk = private_pick pk') by (unfold pk'; destruct (Nat.leb _ _); reflexivity). clearbody pk'.
  assert (F' : Forall2 (fun s o => one_stamp stats label pk' image rms sh s = Ok o) sources v).
  { clear - F Pk. induction F as [|s o l v E F IH]; constructor; auto. rewrite <- E. now apply one_pick. }
  destruct (stamp_loop_total _ _ _ _ _ _ _ _ F' 0 [] [] []) as [[[a b] c] E]. rewrite E. cbn [bind]. eauto.
Qed.

Lemma extract_raise stats label pk image rms sh sources e :
  extract_stamps stats label pk image rms sh sources = Raise e ->
  exists s, In s sources /\ one_stamp stats label pk image rms sh s = Raise e.
Proof.
  unfold extract_stamps.
  set (pk' := if Nat.leb (length sources) 20 then mkpicks (private_pick pk) (Some false) else pk).
  assert (Pk : private_pick pk' = private_pick pk) by (unfold pk'; destruct (Nat.leb _ _); reflexivity). clearbody pk'.
  destruct (stamp_loop _ _ _ _ _ _ _ _ _ _ _) as [[[pos st] del]|] eqn:E; cbn [bind]; [discriminate|].
  intros [= <-]. apply stamp_loop_raise in E. destruct E as (s & I & E). exists s. split; [exact I|].
  rewrite <- E. now apply one_pick.
Qed.

(** What a one-source catalogue gives. *)
Lemma extract_single stats label pk image rms sh s o :
  one_stamp stats label pk image rms sh s = Ok o ->
  exists ex, extract_stamps stats label pk image rms sh [s] = Ok ex /\ ex_stamps ex = somes [o].
Proof.
  intros E. assert (F : Forall2 (fun s o => one_stamp stats label pk image rms sh s = Ok o) [s] [o])
    by (constructor; [exact E|constructor]).
  destruct (extract_total _ _ _ _ _ _ _ _ F) as [ex H]. exists ex. split; [exact H|].
  apply extract_ok in H. destruct H as (v & F' & _ & -> & _).
  inversion F' as [|? o' ? v' E' F'']; subst. inversion F''; subst.
  rewrite E in E'. now injection E' as <-.
Qed.

(** * The strict criteria *)

Lemma before_trans a b c : before a b -> before b c -> before a c.
Proof. unfold before. lia. Qed.

Lemma SS_app {A} (r : A -> A -> Prop) l m : StronglySorted r l -> StronglySorted r m ->
  (forall x y, In x l -> In y m -> r x y) -> StronglySorted r (l ++ m).
Proof.
  induction 1 as [|a l S IH F]; intros M H; [exact M|]. cbn. constructor.
  - apply IH; [exact M|]. intros; apply H; [now right|assumption].
  - apply Forall_forall. intros x I. apply in_app_iff in I. destruct I as [I|I].
    + rewrite Forall_forall in F. auto.
    + apply H; [now left|exact I].
Qed.

Lemma cells_sorted n m : forall a b, StronglySorted before (list_prod (seq a n) (seq b m)).
Proof.
  intros a b. revert a. induction n as [|n IH]; intros a; cbn [seq list_prod]; [constructor|].
  apply SS_app; [|apply IH|].
  - clear. revert b. induction m as [|m IH]; intros b; cbn; [constructor|].
    constructor; [apply IH|]. apply Forall_forall. intros c I. apply in_map_iff in I.
    destruct I as (j & <- & I). apply in_seq in I. right. cbn. lia.
  - intros x y I J. apply in_map_iff in I. destruct I as (j & <- & I).
    destruct y as [r c]. apply in_prod_iff in J. destruct J as [J _]. apply in_seq in J.
    left. cbn. lia.
Qed.

Lemma argmax_fold (f : nat * nat -> R) l : forall b, StronglySorted before (b :: l) ->
  let r := fold_left (fun b c => if Rlt_dec (f b) (f c) then c else b) l b in
  In r (b :: l) /\ forall c, In c (b :: l) -> f c <= f r /\ (f c = f r -> r = c \/ before r c).
Proof.
  induction l as [|c l IH]; intros b S; cbn [fold_left].
  - cbn. split; [now left|]. intros c [->|[]]. split; [lra|]. intros _. now left.
  - inversion S as [|? ? S1 F1]; subst. inversion S1 as [|? ? S2 F2]; subst.
    inversion F1 as [|? ? Bc Fl]; subst.
    destruct (Rlt_dec (f b) (f c)) as [L|L].
    + destruct (IH c S1) as [I H]. cbn zeta. split; [now right|].
      intros d [->|J]; [|now apply H].
      destruct (H c (or_introl eq_refl)) as [Hc _]. split; [lra|]. intros Q. lra.
    + assert (Sb : StronglySorted before (b :: l)) by (constructor; assumption).
      destruct (IH b Sb) as [I H]. cbn zeta. split; [destruct I; [now left|right; now right]|].
      intros d [->|[->|J]].
      * apply H. now left.
      * destruct (H b (or_introl eq_refl)) as [Hb Eb]. split; [lra|]. intros Q.
        destruct Eb as [E|E]; [lra|right; rewrite E; exact Bc|right; eapply before_trans; eauto].
      * apply H. now right.
Qed.

Lemma argmax_spec q : (0 < nr q)%nat -> (0 < nc q)%nat ->
  let b := argmax q in
  (fst b < nr q)%nat /\ (snd b < nc q)%nat /\
  forall i j, (i < nr q)%nat -> (j < nc q)%nat ->
    px q i j <= px q (fst b) (snd b) /\
    (px q i j = px q (fst b) (snd b) -> (fst b < i \/ fst b = i /\ snd b <= j)%nat).
Proof.
  intros R0 C0. cbn zeta. unfold argmax.
  destruct (all_cells q) as [|c0 l] eqn:E.
  { exfalso. assert (I : In (0, 0)%nat (all_cells q)) by (apply in_cells; cbn; lia). rewrite E in I. destruct I. }
  assert (H0 : c0 = (0, 0)%nat).
  { unfold all_cells in E. destruct (nr q); [lia|]. destruct (nc q); [lia|].
    cbn [seq list_prod map app] in E. now injection E. }
  subst c0. cbn [fold_left]. destruct (Rlt_dec _ _) as [L|_]; [exfalso; lra|].
  assert (S : StronglySorted before ((0,0)%nat :: l)) by (rewrite <- E; apply cells_sorted).
  destruct (argmax_fold (fun c => px q (fst c) (snd c)) l _ S) as [I H].
  cbn beta zeta in I, H. set (r := fold_left _ l _) in *.
  rewrite <- E in I, H. apply in_cells in I. split; [apply I|]. split; [apply I|].
  intros i j Hi Hj. destruct (H (i, j)) as [Le Eq]; [apply in_cells; cbn; lia|].
  split; [exact Le|]. intros Q. destruct (Eq Q) as [->|B]; [cbn; lia|]. unfold before in B. cbn in B. lia.
Qed.

Lemma off_centre_near sh x y : off_centre sh x y = false <-> near sh x y.
Proof.
  unfold off_centre, near, PSF_CTR_TOL, Rsqr. destruct (Rlt_dec _ _); split; intros; try lra; try discriminate; auto.
Qed.

Lemma strict_finite_true stats label q : (0 < nr q)%nat -> (0 < nc q)%nat ->
  (strict_finite stats label q = Ok true <-> star_like stats label q).
Proof.
  intros R0 C0. pose proof (argmax_spec q R0 C0) as A. cbn zeta in A. destruct A as (A1 & A2 & A3).
  assert (Vals : forall P : R -> Prop, (forall x, In x (values q) -> P x) <->
     forall i j, (i < nr q)%nat -> (j < nc q)%nat -> P (px q i j)).
  { intros P. unfold values. split.
    - intros H i j Hi Hj. apply H. apply in_map_iff. exists (i, j). split; [reflexivity|]. apply in_cells. cbn. lia.
    - intros H x I. apply in_map_iff in I. destruct I as (c & <- & I). apply in_cells in I. now apply H. }
  unfold strict_finite, star_like. split.
  - destruct (off_centre _ _ _) eqn:O1; [discriminate|]. destruct (Rlt_dec _ _) as [|Sd]; [discriminate|].
    destruct (existsb _ _) eqn:X; [discriminate|].
    destruct (find_S _ _ _ _ _) as [cat|]; cbn [bind]; [|discriminate]. intros H.
    apply off_centre_near in O1. split.
    { exists (fst (argmax q)), (snd (argmax q)). auto. }
    split; [lra|]. split.
    { apply (Vals (fun x => x <= 1 / 2)). intros x I. destruct (Rlt_dec (1/2) x) as [L|L]; [|lra].
      exfalso. assert (existsb (fun x => if Rlt_dec (1 / 2) x then true else false) (values q) = true)
        by (apply existsb_exists; exists x; split; [exact I|]; destruct (Rlt_dec _ _); [reflexivity|lra]).
      congruence. }
    exists cat. split; [reflexivity|]. destruct cat as [|[[y x] g] [|]]; [now left| |discriminate].
    right. exists y, x, g. split; [reflexivity|]. apply off_centre_near.
    destruct (off_centre _ x y); [discriminate|reflexivity].
  - intros ((i & j & Hi & Hj & M & Nr) & Sd & Hv & cat & F & Hcat).
    assert (Ei : i = fst (argmax q) /\ j = snd (argmax q)).
    { destruct (A3 i j Hi Hj) as [L1 Q1]. destruct (M _ _ A1 A2) as [L2 Q2].
      assert (E : px q i j = px q (fst (argmax q)) (snd (argmax q))) by lra.
      specialize (Q1 E). specialize (Q2 (eq_sym E)). lia. }
    destruct Ei as [-> ->]. apply off_centre_near in Nr. rewrite Nr.
    destruct (Rlt_dec _ _) as [L|_]; [exfalso; lra|].
    replace (existsb _ _) with false.
    + rewrite F. cbn [bind]. destruct Hcat as [->|(y & x & g & -> & N)]; [reflexivity|].
      apply off_centre_near in N. now rewrite N.
    + symmetry. apply not_true_is_false. intros X. apply existsb_exists in X. destruct X as (x & I & X).
      destruct (Rlt_dec (1/2) x); [|discriminate].
      pose proof (proj2 (Vals (fun x => x <= 1 / 2)) Hv x I). cbn beta in H. lra.
Qed.
