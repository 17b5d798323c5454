(** A reference and any number of other images. *)
From Coq Require Import ZArith List Bool Arith Reals Lia Lra Permutation.
From Coquelicot Require Import Complex.
From Verif.Model Require Import Py Plane Ma Coadd.
From Verif.Spec Require Import Coadd.
From Verif.Proof Require Import Coadd CoaddThreads CoaddMain CoaddMore.
From Verif.Model Require Import Filter.
From Verif.Proof Require Import Filter FilterMain.
From Verif.Model Require Import Interp Subtract Filter Sources Stamps Transparency KL Session Chain ChainCoadd Again SubAgain Stopped Collection.
From Verif.Spec Require Import Transparency Session Uses UsesCoadd Again SubAgain Stopped Collection.
From Verif.Proof Require Import Transparency TransparencyMain TransparencyAgain StoppedMatch.
From Verif.Proof Require Import Session SessionBad SessionHist SessionMain SessionFrame SessionLm Chain ChainUnits Uses UsesCoadd UsesCoaddMain Again AgainMain SubAgain SubAgainMain SubAgainPair StoppedMain.
Import ListNotations.
Local Open Scope R_scope.
Set Bullet Behavior "Strict Subproofs".

Lemma put_same k h st : put k h st k = h.
Proof. unfold put. now rewrite Nat.eqb_refl. Qed.

Lemma put_other k h st i : i <> k -> put k h st i = st i.
Proof. intros H. unfold put. destruct (Nat.eqb_spec i k); [contradiction|reflexivity]. Qed.

(** The images that are not in the list stay, the others get what their own step gives. *)
Lemma partways_at op js : forall cs zs st st1, NoDup (map fst js) -> length cs = length js -> partways op js cs zs st = Ok st1 ->
  (forall i, ~ In i (map fst js) -> st1 i = st i) /\
  (forall p k n c, nth_error js p = Some (k, n) -> nth_error cs p = Some c -> partway op n c (nth p zs 0) (st k) = Ok (st1 k)).
Proof.
  induction js as [|[k n] js IH]; intros cs zs st st1 Nd Ln E.
  - cbn [partways] in E. injection E as <-. split; [reflexivity|]. intros [|p]; discriminate.
  - destruct cs as [|c cs]; [discriminate|]. cbn [map fst] in Nd. inversion Nd as [|? ? Nk Nd']; subst. cbn [partways] in E.
    destruct (partway op n c (hd 0 zs) (st k)) as [h|] eqn:Eh; [|discriminate]. cbn [bind] in E.
    destruct (partways op js cs (tl zs) st) as [st2|] eqn:E2; [|discriminate]. cbn [bind] in E. injection E as <-.
    destruct (IH cs (tl zs) st st2 Nd') as [A B]; [now injection Ln|exact E2|]. split.
    + intros i Hi. cbn [map fst] in Hi. rewrite put_other by (intros ->; apply Hi; now left). apply A. intros X. apply Hi. now right.
    + intros [|p] k' n' c' Kj Kc; cbn in Kj, Kc.
      * injection Kj as <- <-. injection Kc as <-. rewrite put_same. destruct zs; exact Eh.
      * rewrite put_other.
        -- pose proof (B p k' n' c' Kj Kc) as X. destruct zs as [|z zs]; cbn [tl] in X; [|exact X]. destruct p; exact X.
        -- intros ->. apply Nk. apply nth_error_In in Kj. apply (in_map fst) in Kj. exact Kj.
Qed.

Lemma partways_ok op js : forall cs zs st, NoDup (map fst js) -> length cs = length js ->
  (forall p k n c, nth_error js p = Some (k, n) -> nth_error cs p = Some c -> exists h, partway op n c (nth p zs 0) (st k) = Ok h) ->
  exists st1, partways op js cs zs st = Ok st1.
Proof.
  induction js as [|[k n] js IH]; intros cs zs st Nd Ln H; [eexists; reflexivity|].
  destruct cs as [|c cs]; [discriminate|]. inversion Nd as [|? ? Nk Nd']; subst. cbn [partways].
  destruct (H 0%nat k n c eq_refl eq_refl) as [h Eh]. assert (Ez : hd 0 zs = nth 0 zs 0) by now destruct zs. rewrite Ez, Eh. cbn [bind].
  destruct (IH cs (tl zs) st Nd') as [st1 ->]; [now injection Ln| |cbn [bind]; eauto].
  intros p k' n' c' Kj Kc. destruct (H (S p) k' n' c' Kj Kc) as [h' E']. exists h'. destruct zs as [|z zs]; cbn [tl]; [destruct p; exact E'|exact E'].
Qed.

(** The ingredients of an attempt. *)
Record steps (W : libs) (a : attempt) (st st1 : images) (c : cat) (bs : list cat) (t : outcome) : Prop := {
  s_c : catalogue_of (st 0%nat) = Ok c;
  s_bs : mapM (fun j => catalogue_of (st (fst j))) (at_others a) = Ok bs;
  s_t : transparency (l_query W) (l_sort W) (l_lsqr W) (c :: bs) None = Ok t;
  s_ref : partway (at_op a) (at_ref a) (mcat t) (nth 0 (zps t) 0) (st 0%nat) = Ok (st1 0%nat);
  s_others : forall p k n b, nth_error (at_others a) p = Some (k, n) -> nth_error (cats t) p = Some b ->
    partway (at_op a) n b (nth (S p) (zps t) 0) (st k) = Ok (st1 k);
  s_rest : forall i, i <> 0%nat -> ~ In i (map fst (at_others a)) -> st1 i = st i }.

Lemma begun_steps W N a st st1 : proper N a -> begun W a st = Ok st1 -> exists c bs t, steps W a st st1 c bs t /\ length (cats t) = length bs.
Proof.
  intros (Nd & Fk & _) E. unfold begun in E.
  destruct (catalogue_of (st 0%nat)) as [c|] eqn:Ec; [|discriminate]. cbn [bind] in E.
  destruct (mapM _ _) as [bs|] eqn:Eb; [|discriminate]. cbn [bind] in E.
  destruct (transparency _ _ _ _ _) as [t|] eqn:Et; [|discriminate]. cbn [bind] in E.
  destruct (partway _ _ _ _ _) as [r|] eqn:Er; [|discriminate]. cbn [bind] in E.
  destruct (partways _ _ _ _ _) as [st2|] eqn:E2; [|discriminate]. cbn [bind] in E. injection E as <-.
  assert (Lt : length (cats t) = length bs) by (rewrite (cats_are (l_query W) (l_sort W) (l_lsqr W) c bs t Et); apply map_length).
  destruct (mapM_nth _ _ _ Eb) as [Lb _].
  destruct (partways_at _ _ _ _ _ _ Nd (eq_trans Lt Lb) E2) as [A B].
  exists c, bs, t. split; [|exact Lt]. constructor; auto.
  - rewrite put_same. destruct (zps t); exact Er.
  - intros p k n b Kj Kc. rewrite put_other.
    + pose proof (B p k n b Kj Kc) as X. destruct (zps t) as [|z zs]; cbn [tl] in X; [|exact X]. destruct p; exact X.
    + rewrite Forall_forall in Fk. apply nth_error_In in Kj. apply (in_map fst) in Kj. apply Fk in Kj. cbn [fst] in Kj. lia.
  - intros i Hi Hn. rewrite put_other by exact Hi. now apply A.
Qed.

Lemma list_ext {A} (l l' : list A) : (forall p, nth_error l p = nth_error l' p) -> l = l'.
Proof.
  revert l'. induction l as [|a l IH]; intros [|b l'] H; try reflexivity; [discriminate (H 0%nat)|discriminate (H 0%nat)|].
  pose proof (H 0%nat) as X. cbn in X. injection X as ->. f_equal. apply IH. intros p. exact (H (S p)).
Qed.

Section Together.
Variables (W : libs) (fuel : nat) (shp : nat * nat) (us : nat -> built * list call) (N : nat).
Hypothesis EL : forall n c, length (fst (l_eigh W n c)) = n.
Hypothesis Nq : nearest (l_query W).
Hypothesis SP : forall r, Permutation (l_sort W r) r.
Hypothesis SC : canonical (l_sort W).
Hypothesis HN : (0 < N)%nat.
Hypothesis Hu : forall k, (k < N)%nat -> in_use W fuel shp (us k).

(** The images between attempts. *)
Definition well (st : images) : Prop :=
  (forall k, (k < N)%nat -> held_any W fuel shp (us k) (st k)) /\ match h_cat (st 0%nat) with Some c => good_ids c | None => True end.

Lemma well_start : well (untouched us).
Proof. split; [intros k _; left; now left|exact I]. Qed.

Lemma others_lt a p k n : proper N a -> nth_error (at_others a) p = Some (k, n) -> (0 < k < N)%nat.
Proof. intros (_ & F & _) K. rewrite Forall_forall in F. apply F. apply nth_error_In in K. now apply (in_map fst) in K. Qed.

Lemma in_others (a : attempt) k : In k (map fst (at_others a)) -> exists p n, nth_error (at_others a) p = Some (k, n).
Proof. intros H. apply in_map_iff in H as ([k' n] & X & Y). cbn in X. subst k'. apply In_nth_error in Y as [p Y]. eauto. Qed.

Lemma cats_at a st st1 c bs t p k n : steps W a st st1 c bs t -> length (cats t) = length bs -> nth_error (at_others a) p = Some (k, n) ->
  exists b, catalogue_of (st k) = Ok b /\ nth_error bs p = Some b /\ nth_error (cats t) p = Some (newcat (l_query W) (l_sort W) (with_source_ids c) b).
Proof.
  intros S Ln K. destruct S. destruct (mapM_nth _ _ _ s_bs0) as [Lb Hb]. destruct (Hb p _ K) as (b & Eb & Kb). cbn [fst] in Eb.
  exists b. split; [exact Eb|]. split; [exact Kb|]. rewrite (cats_are _ _ _ _ _ _ s_t0). now apply map_nth_error.
Qed.

Lemma well_step a st st1 : proper N a -> well st -> begun W a st = Ok st1 -> well st1.
Proof.
  intros Pa [Wh Wg] E. destruct (begun_steps W N a st st1 Pa E) as (c & bs & t & S & Ln).
  pose proof Pa as (_ & _ & Hl & _).
  pose proof (good_first _ _ Wg (s_c _ _ _ _ _ _ _ S)) as Gc.
  destruct (matched_again _ _ _ (c :: bs) t SP Gc (s_t _ _ _ _ _ _ _ S)) as (_ & Gm & _).
  assert (R : held_any W fuel shp (us 0%nat) (st1 0%nat) /\ match h_cat (st1 0%nat) with Some c => good_ids c | None => True end).
  { destruct (any_placed W fuel shp (us 0%nat) (st 0%nat) (map src_of (rows (mcat t))) EL (Hu _ HN) (Wh _ HN)) as (Lp & m & Pl).
    destruct (image_part W fuel shp _ _ _ Lp m _ _ _ _ (Hu _ HN) (Wh _ HN) Pl Hl (s_ref _ _ _ _ _ _ _ S)) as (m1 & O1 & _ & _ & C1).
    split; [exact O1|]. destruct C1 as [[C1 _]|(kept & C1 & _)]; rewrite C1; [exact Wg|]. apply keep_good. now destruct (mcat t). }
  split; [|exact (proj2 R)]. intros k Hk. destruct (Nat.eq_dec k 0) as [->|K0]; [exact (proj1 R)|].
  destruct (in_dec Nat.eq_dec k (map fst (at_others a))) as [I|I].
  - destruct (in_others a k I) as (p & n & Kp). destruct (cats_at _ _ _ _ _ _ _ _ _ S Ln Kp) as (b & _ & _ & Kc).
    pose proof (s_others _ _ _ _ _ _ _ S p k n _ Kp Kc) as Ep.
    destruct (any_placed W fuel shp (us k) (st k) (map src_of (rows (newcat (l_query W) (l_sort W) (with_source_ids c) b))) EL (Hu _ Hk) (Wh _ Hk)) as (Lp & m & Pl).
    destruct (image_part W fuel shp _ _ _ Lp m _ _ _ _ (Hu _ Hk) (Wh _ Hk) Pl Hl Ep) as (m1 & O1 & _). exact O1.
  - rewrite (s_rest _ _ _ _ _ _ _ S k K0 I). now apply Wh.
Qed.

Lemma well_all l : forall st st1, Forall (proper N) l -> well st -> begun_all W l st = Ok st1 -> well st1.
Proof.
  induction l as [|a l IH]; intros st st1 F Ws E; [now injection E as <-|]. cbn [begun_all] in E.
  destruct (begun W a st) as [st2|] eqn:E2; [|discriminate]. inversion F; subst. apply (IH st2); auto. now apply (well_step a st).
Qed.

(** What stays the same for the images at [st], compared to [st0]. When [Pv] holds, the filters
    that a coadd for the loss [lv] finds are the same, too. *)
Record alike (Pv : Prop) (lv : R) (zv : nat -> R) (st0 st : images) : Prop := {
  k_raise : forall k, (k < N)%nat -> (forall c, catalogue_of (st0 0%nat) <> Ok c) \/ (forall b, catalogue_of (st0 k) <> Ok b) -> st k = st0 k;
  k_ref : forall c0, catalogue_of (st0 0%nat) = Ok c0 -> exists c, catalogue_of (st 0%nat) = Ok c /\ good_ids c /\ map place (rows c) = map place (rows c0) /\
    map place (rows (with_source_ids c)) = map place (rows (with_source_ids c0)) /\ map r_id (rows (with_source_ids c)) = map r_id (rows (with_source_ids c0));
  k_other : forall k c0 b, (0 < k < N)%nat -> catalogue_of (st0 0%nat) = Ok c0 -> catalogue_of (st0 k) = Ok b ->
    exists b', catalogue_of (st k) = Ok b' /\ as_was b (newcat (l_query W) (l_sort W) (with_source_ids c0) b) b';
  k_at0 : forall c0 Lp m, catalogue_of (st0 0%nat) = Ok c0 -> placed_at (us 0%nat) (st0 0%nat) (map src_of (rows c0)) Lp m ->
    exists m1, placed_at (us 0%nat) (st 0%nat) (map src_of (rows c0)) Lp m1 /\ (Pv -> view lv (zv 0%nat) m1 = view lv (zv 0%nat) m);
  k_at : forall k c0 b Lp m, (0 < k < N)%nat -> catalogue_of (st0 0%nat) = Ok c0 -> catalogue_of (st0 k) = Ok b ->
    let left := map src_of (rows (newcat (l_query W) (l_sort W) (with_source_ids c0) b)) in placed_at (us k) (st0 k) left Lp m ->
    exists m1, placed_at (us k) (st k) left Lp m1 /\ (Pv -> view lv (zv k) m1 = view lv (zv k) m) }.

Lemma alike_self Pv lv zv st : well st -> alike Pv lv zv st st.
Proof.
  intros [_ Wg]. constructor; auto.
  - intros c0 E. exists c0. split; [exact E|]. split; [now apply (good_first (st 0%nat))|auto].
  - intros k c0 b _ _ E. exists b. split; [exact E|now left].
  - intros c0 Lp m _ P. exists m. auto.
  - intros k c0 b Lp m _ _ _ left P. exists m. auto.
Qed.

Lemma clear_ids c b : good_ids c -> clear_match c b -> clear_match (with_source_ids c) b.
Proof. intros G. apply clear_same; [|apply Permutation_refl]. destruct (fine_ids c G) as (_ & E). exact E. Qed.

(** What the matching of an attempt gives an image is what it would have given it at first. *)
Lemma newcat_first c0 c b b' : good_ids c0 -> clear_match c0 b ->
  map place (rows (with_source_ids c)) = map place (rows (with_source_ids c0)) -> map r_id (rows (with_source_ids c)) = map r_id (rows (with_source_ids c0)) ->
  as_was b (newcat (l_query W) (l_sort W) (with_source_ids c0) b) b' ->
  newcat (l_query W) (l_sort W) (with_source_ids c) b' = newcat (l_query W) (l_sort W) (with_source_ids c0) b.
Proof.
  intros G Cl Ep Ei Ha. destruct (fine_ids c0 G) as (F & _). apply (newcat_again (l_query W) Nq (l_sort W) SP SC (with_source_ids c0) (with_source_ids c) b b'); auto.
  now apply clear_ids.
Qed.

Lemma newcat_length mc b : length (rows (newcat (l_query W) (l_sort W) mc b)) = length (rows b).
Proof. pose proof (newcat_bare (l_query W) (l_sort W) SP mc b) as P. apply Permutation_length in P. rewrite !map_length in P. now symmetry. Qed.

Lemma alike_step Pv lv zv st0 a st st1 : proper N a -> well st0 -> well st -> clear_all N st0 -> alike Pv lv zv st0 st -> begun W a st = Ok st1 ->
  (forall k c c1, (k < N)%nat -> catalogue_of (st0 k) = Ok c -> catalogue_of (st1 k) = Ok c1 -> stars c1 = stars c) ->
  (Pv -> forall c bs t, steps W a st st1 c bs t -> is_sub (at_op a) \/ (lv = loss_asked (at_op a) /\ zv 0%nat = nth 0 (zps t) 0 /\
     forall p k n, nth_error (at_others a) p = Some (k, n) -> zv k = nth (S p) (zps t) 0)) ->
  alike Pv lv zv st0 st1.
Proof.
  intros Pa W0 [Wh Wg] Cl A E St Vw. destruct (begun_steps W N a st st1 Pa E) as (c & bs & t & S & Ln).
  specialize (fun H => Vw H c bs t S). pose proof Pa as (_ & _ & Hl & _). destruct A.
  pose proof (s_c _ _ _ _ _ _ _ S) as Ec. pose proof (good_first _ _ Wg Ec) as Gc.
  (* the reference of st0 has a catalogue *)
  destruct (catalogue_of (st0 0%nat)) as [c0|e0] eqn:E0.
  2: { exfalso. rewrite (k_raise0 0%nat HN) in Ec; [congruence|]. left. intros; congruence. }
  destruct (k_ref0 c0 eq_refl) as (c' & Ec' & _ & Pp & Ps & Pi). assert (c' = c) as -> by congruence. clear Ec'.
  assert (G0 : good_ids c0) by exact (good_first _ _ (proj2 W0) E0).
  pose proof (first_ids (l_query W) (l_sort W) SP (l_lsqr W) c bs t Gc (s_t _ _ _ _ _ _ _ S)) as Fi.
  destruct (Fi _ (or_intror eq_refl)) as (Gm & Pm & Pms & Pmi).
  assert (Lc : length (rows (mcat t)) = length (rows c0)) by (rewrite <- (map_length place), Pm, Pp; apply map_length).
  assert (Left0 : map src_of (rows (mcat t)) = map src_of (rows c0)) by (apply src_place; congruence).
  (* image 0 *)
  assert (R : (exists c1, catalogue_of (st1 0%nat) = Ok c1 /\ as_was c (mcat t) c1) /\
     forall Lp m, placed_at (us 0%nat) (st 0%nat) (map src_of (rows c0)) Lp m ->
     exists m1, placed_at (us 0%nat) (st1 0%nat) (map src_of (rows c0)) Lp m1 /\ (Pv -> view lv (zv 0%nat) m1 = view lv (zv 0%nat) m)).
  { split.
    - destruct (any_placed W fuel shp (us 0%nat) (st 0%nat) (map src_of (rows (mcat t))) EL (Hu _ HN) (Wh _ HN)) as (Lp & m & Pl).
      destruct (image_part W fuel shp _ _ _ Lp m _ _ _ _ (Hu _ HN) (Wh _ HN) Pl Hl (s_ref _ _ _ _ _ _ _ S)) as (m1 & _ & _ & _ & C1).
      destruct C1 as [[_ C1]|(kept & C1 & _)]; [exists c; split; [congruence|now left]|].
      eexists. split; [unfold catalogue_of; rewrite C1; reflexivity|]. right.
      assert (X : stars (mkcat (has_id (mcat t)) (has_det (mcat t)) (keep_rows (rows (mcat t)) kept)) = stars c0)
        by (apply (St 0%nat c0 _ HN E0); unfold catalogue_of; now rewrite C1).
      unfold stars in X. cbn [rows] in X. rewrite <- Lc in X. apply keep_all in X. rewrite X. now destruct (mcat t).
    - intros Lp m Pl. rewrite <- Left0 in Pl |- *.
      destruct (image_part W fuel shp _ _ _ Lp m _ _ _ _ (Hu _ HN) (Wh _ HN) Pl Hl (s_ref _ _ _ _ _ _ _ S)) as (m1 & _ & P1 & V1 & _).
      exists m1. split; [exact P1|]. intros HP. apply V1. destruct (Vw HP) as [Sb|(Ll & Z0 & _)]; [now left|right; split; [exact Ll|exact Z0]]. }
  (* another image *)
  assert (O : forall k b, (0 < k < N)%nat -> catalogue_of (st0 k) = Ok b ->
     let n0 := newcat (l_query W) (l_sort W) (with_source_ids c0) b in
     (exists b1, catalogue_of (st1 k) = Ok b1 /\ as_was b n0 b1) /\
     forall Lp m, placed_at (us k) (st k) (map src_of (rows n0)) Lp m ->
     exists m1, placed_at (us k) (st1 k) (map src_of (rows n0)) Lp m1 /\ (Pv -> view lv (zv k) m1 = view lv (zv k) m)).
  { intros k b Hk Eb n0. destruct (k_other0 k c0 b Hk eq_refl Eb) as (b' & Eb' & Ab).
    destruct (in_dec Nat.eq_dec k (map fst (at_others a))) as [I|I].
    2: { rewrite (s_rest _ _ _ _ _ _ _ S k) by (try exact I; lia). split; [exists b'; auto|]. intros Lp m Pl. exists m. auto. }
    destruct (in_others a k I) as (p & n & Kp). destruct (cats_at _ _ _ _ _ _ _ _ _ S Ln Kp) as (b2 & E2 & _ & Kc).
    assert (b2 = b') as -> by congruence. clear E2.
    pose proof (s_others _ _ _ _ _ _ _ S p k n _ Kp Kc) as Ep.
    rewrite (newcat_first c0 c b b' G0 (Cl k c0 b Hk E0 Eb) Ps Pi Ab) in Ep. fold n0 in Ep. pose proof (proj2 Hk) as Hk'. split.
    - destruct (any_placed W fuel shp (us k) (st k) (map src_of (rows n0)) EL (Hu _ Hk') (Wh _ Hk')) as (Lp & m & Pl).
      destruct (image_part W fuel shp _ _ _ Lp m _ _ _ _ (Hu _ Hk') (Wh _ Hk') Pl Hl Ep) as (m1 & _ & _ & _ & C1).
      destruct C1 as [[_ C1]|(kept & C1 & _)]; [exists b'; split; [congruence|exact Ab]|].
      eexists. split; [unfold catalogue_of; rewrite C1; reflexivity|]. right.
      assert (X : stars (mkcat (has_id n0) (has_det n0) (keep_rows (rows n0) kept)) = stars b)
        by (apply (St k b _ Hk' Eb); unfold catalogue_of; now rewrite C1).
      unfold stars in X. cbn [rows] in X. rewrite <- (newcat_length (with_source_ids c0) b) in X. fold n0 in X. apply keep_all in X. rewrite X. now destruct n0.
    - intros Lp m Pl. destruct (image_part W fuel shp _ _ _ Lp m _ _ _ _ (Hu _ Hk') (Wh _ Hk') Pl Hl Ep) as (m1 & _ & P1 & V1 & _).
      exists m1. split; [exact P1|]. intros HP. apply V1. destruct (Vw HP) as [Sb|(Ll & _ & Zk)]; [now left|right; split; [exact Ll|now apply (Zk p k n)]]. }
  constructor.
  - intros k Hk [X|X]; [exfalso; now apply (X c0)|]. destruct (Nat.eq_dec k 0) as [->|K0]; [exfalso; now apply (X c0)|].
    assert (Ek : st k = st0 k) by (apply k_raise0; auto).
    destruct (in_dec Nat.eq_dec k (map fst (at_others a))) as [I|I]; [|now rewrite (s_rest _ _ _ _ _ _ _ S k K0 I)].
    destruct (in_others a k I) as (p & n & Kp). destruct (cats_at _ _ _ _ _ _ _ _ _ S Ln Kp) as (b2 & E2 & _ & _). rewrite Ek in E2. exfalso. now apply (X b2).
  - intros c0' X. rewrite E0 in X. injection X as <-. destruct R as [(c1 & Ec1 & Aw) _]. destruct (Fi c1 Aw) as (G1 & P1 & P2 & P3).
    exists c1. split; [exact Ec1|]. split; [exact G1|]. split; [congruence|]. split; congruence.
  - intros k c0' b Hk X Eb. rewrite E0 in X. injection X as <-. exact (proj1 (O k b Hk Eb)).
  - intros c0' Lp m X Pl. rewrite E0 in X. injection X as <-. destruct (k_at1 c0 Lp m eq_refl Pl) as (m1 & Pl1 & V1).
    destruct (proj2 R Lp m1 Pl1) as (m2 & Pl2 & V2). exists m2. split; [exact Pl2|]. intros HP. rewrite V2 by exact HP. now apply V1.
  - intros k c0' b Lp m Hk X Eb left Pl. rewrite E0 in X. injection X as <-. destruct (k_at2 k c0 b Lp m Hk eq_refl Eb Pl) as (m1 & Pl1 & V1).
    destruct (proj2 (O k b Hk Eb) Lp m1 Pl1) as (m2 & Pl2 & V2). exists m2. split; [exact Pl2|]. intros HP. rewrite V2 by exact HP. now apply V1.
Qed.
Lemma begun_app l : forall l' st, begun_all W (l ++ l') st = bind (begun_all W l st) (begun_all W l').
Proof. induction l as [|a l IH]; intros l' st; [reflexivity|]. cbn [app begun_all]. destruct (begun W a st); [apply IH|reflexivity]. Qed.

(** The catalogues and the zero points of a matching of the reference with the images [ks]. *)
Lemma matched_alike (Pv : Prop) lv zv st0 st ks c0 bs0 t0 c bs t : well st0 -> well st -> clear_all N st0 -> alike Pv lv zv st0 st -> Forall (fun k => 0 < k < N)%nat ks ->
  catalogue_of (st0 0%nat) = Ok c0 -> mapM (fun k => catalogue_of (st0 k)) ks = Ok bs0 -> transparency (l_query W) (l_sort W) (l_lsqr W) (c0 :: bs0) None = Ok t0 ->
  catalogue_of (st 0%nat) = Ok c -> mapM (fun k => catalogue_of (st k)) ks = Ok bs -> transparency (l_query W) (l_sort W) (l_lsqr W) (c :: bs) None = Ok t ->
  zps t = zps t0 /\ cats t = cats t0 /\ map src_of (rows (mcat t)) = map src_of (rows c0) /\ map src_of (rows (mcat t0)) = map src_of (rows c0) /\
  cats t0 = map (newcat (l_query W) (l_sort W) (with_source_ids c0)) bs0.
Proof.
  intros [_ W0] [_ Ws] Cl A Fk E0 B0 T0 E B T. pose proof (good_first _ _ W0 E0) as G0. pose proof (good_first _ _ Ws E) as G.
  destruct A. destruct (k_ref0 c0 E0) as (c' & Ec & _ & Pp & Ps & Pi). assert (c' = c) as -> by congruence. clear Ec.
  destruct (mapM_nth _ _ _ B0) as [L0 H0]. destruct (mapM_nth _ _ _ B) as [L1 H1].
  assert (K : forall p b b', nth_error bs0 p = Some b -> nth_error bs p = Some b' -> clear_match c0 b /\ as_was b (newcat (l_query W) (l_sort W) (with_source_ids c0) b) b').
  { intros p b b' Kb Kb'. destruct (nth_length bs0 ks p b L0 Kb) as [k Kk]. destruct (H0 p k Kk) as (b2 & E2 & K2). assert (b2 = b) as -> by congruence.
    destruct (H1 p k Kk) as (b3 & E3 & K3). assert (b3 = b') as -> by congruence.
    assert (Hk : (0 < k < N)%nat) by (rewrite Forall_forall in Fk; apply Fk; now apply nth_error_In in Kk).
    split; [now apply (Cl k)|]. destruct (k_other0 k c0 b Hk E0 E2) as (b4 & E4 & Aw). congruence. }
  assert (Fc : Forall (clear_match c0) bs0).
  { apply Forall_forall. intros b Hb. apply In_nth_error in Hb as [p Kb]. destruct (nth_length bs0 bs p b (eq_trans L0 (eq_sym L1)) Kb) as [b' Kb'].
    exact (proj1 (K p b b' Kb Kb')). }
  assert (Ss : Forall2 same_sources bs0 bs).
  { apply Forall2_nth_error; [congruence|]. intros p b b' Kb Kb'. destruct (K p b b' Kb Kb') as [_ [->| ->]]; [apply Permutation_refl|].
    apply (bare_places b). apply newcat_bare. exact SP. }
  destruct (zps_same _ _ _ _ _ Nq Nq SP SP c0 c bs0 bs t0 t G0 G Pp Ss Fc T0 T) as [Ez _].
  destruct (first_ids (l_query W) (l_sort W) SP (l_lsqr W) c bs t G T _ (or_intror eq_refl)) as (_ & Pm & _).
  destruct (first_ids (l_query W) (l_sort W) SP (l_lsqr W) c0 bs0 t0 G0 T0 _ (or_intror eq_refl)) as (_ & Pm0 & _).
  split; [exact Ez|]. split; [|split; [apply src_place; congruence|split; [now apply src_place|exact (cats_are _ _ _ _ _ _ T0)]]].
  rewrite (cats_are _ _ _ _ _ _ T), (cats_are _ _ _ _ _ _ T0). apply list_ext. intros p.
  destruct (nth_error bs0 p) as [b|] eqn:Kb.
  - destruct (nth_length bs0 bs p b (eq_trans L0 (eq_sym L1)) Kb) as [b' Kb']. destruct (K p b b' Kb Kb') as [Cb Aw].
    rewrite (map_nth_error _ _ _ Kb), (map_nth_error _ _ _ Kb'). f_equal. exact (newcat_first c0 c b b' G0 Cb Ps Pi Aw).
  - assert (Kb' : nth_error bs p = None) by (apply nth_error_None; apply nth_error_None in Kb; lia).
    rewrite !nth_error_map, Kb, Kb'. reflexivity.
Qed.

Lemma alike_all (Pv : Prop) (lv : R) (zv : nat -> R) st0 l st : well st0 -> clear_all N st0 -> Forall (proper N) l -> begun_all W l st0 = Ok st -> none_lost W N l st0 ->
  (Pv -> forall done a todo st2 st3 c bs t, l = done ++ a :: todo -> begun_all W done st0 = Ok st2 -> well st2 -> alike Pv lv zv st0 st2 -> steps W a st2 st3 c bs t ->
     is_sub (at_op a) \/ (lv = loss_asked (at_op a) /\ zv 0%nat = nth 0 (zps t) 0 /\
     forall p k n, nth_error (at_others a) p = Some (k, n) -> zv k = nth (S p) (zps t) 0)) ->
  alike Pv lv zv st0 st /\ well st.
Proof.
  intros W0 Cl Fp E Nl Vw.
  assert (H : forall todo done st2, l = done ++ todo -> begun_all W done st0 = Ok st2 -> well st2 -> alike Pv lv zv st0 st2 -> begun_all W todo st2 = Ok st -> alike Pv lv zv st0 st /\ well st).
  { induction todo as [|a todo IH]; intros done st2 El Ed W2 A E2; [injection E2 as <-; auto|]. cbn [begun_all] in E2.
    destruct (begun W a st2) as [st3|] eqn:E3; [|discriminate]. cbn [bind] in E2.
    assert (Pa : proper N a) by (rewrite Forall_forall in Fp; apply Fp; rewrite El; apply in_or_app; right; now left).
    assert (Ed' : begun_all W (done ++ [a]) st0 = Ok st3) by (rewrite begun_app, Ed; cbn [bind begun_all]; now rewrite E3).
    assert (El' : l = (done ++ [a]) ++ todo) by (rewrite <- app_assoc; exact El).
    apply (IH (done ++ [a]) st3 El' Ed'); [now apply (well_step a st2)| |exact E2].
    apply (alike_step Pv lv zv st0 a st2 st3 Pa W0 W2 Cl A E3).
    - intros k c c1 Hk Ec Ec1. exact (Nl (done ++ [a]) todo st3 k c c1 El' Ed' Hk Ec Ec1).
    - intros HP c bs t S. exact (Vw HP done a todo st2 st3 c bs t El Ed W2 A S). }
  apply (H l [] st0 eq_refl eq_refl W0); [now apply alike_self|exact E].
Qed.

(** A subtraction after any attempts. *)
Lemma alike_subtract st0 st k l be sh it : well st0 -> well st -> clear_all N st0 -> alike False 0 (fun _ => 0) st0 st -> (0 < k < N)%nat -> 0 <= l ->
  result (subtract_run W l be sh it (st 0%nat) (st k)) = result (subtract_run W l be sh it (st0 0%nat) (st0 k)).
Proof.
  intros W0 Ws Cl A Hk Hl. pose proof (proj2 Hk) as Hk'.
  destruct (catalogue_of (st0 0%nat)) as [c0|e0] eqn:E0.
  2: { rewrite (k_raise _ _ _ _ _ A 0%nat HN), (k_raise _ _ _ _ _ A k Hk'); [reflexivity| |]; left; intros; congruence. }
  destruct (k_ref _ _ _ _ _ A c0 E0) as (c & Ec & _).
  destruct (any_placed W fuel shp (us 0%nat) (st0 0%nat) (map src_of (rows c0)) EL (Hu _ HN) (proj1 W0 _ HN)) as (Lp & m & Pl).
  destruct (k_at0 _ _ _ _ _ A c0 Lp m E0 Pl) as (m1 & Pl1 & _).
  destruct (catalogue_of (st0 k)) as [b|eb] eqn:Eb.
  2: { assert (Ek : st k = st0 k) by (apply (k_raise _ _ _ _ _ A k Hk'); right; intros; congruence).
       unfold subtract_run. rewrite Ek, Ec, E0, Eb. cbn [bind]. rewrite (proj1 Pl), (proj1 Pl1). cbn [bu_data with_attr]. destruct (negb _); reflexivity. }
  destruct (k_other _ _ _ _ _ A k c0 b Hk E0 Eb) as (b' & Eb' & _).
  destruct (any_placed W fuel shp (us k) (st0 k) (map src_of (rows (newcat (l_query W) (l_sort W) (with_source_ids c0) b))) EL (Hu _ Hk') (proj1 W0 _ Hk')) as (Lq & n & Pk).
  destruct (k_at _ _ _ _ _ A k c0 b Lq n Hk E0 Eb Pk) as (n1 & Pk1 & _).
  destruct (C48_total_lm (l_query W) (l_sort W) (l_lsqr W) [c0; b] None SP) as [(t0 & T0)|(X & _)]; [|discriminate].
  destruct (C48_total_lm (l_query W) (l_sort W) (l_lsqr W) [c; b'] None SP) as [(t & T)|(X & _)]; [|discriminate].
  destruct (matched_alike _ _ _ st0 st [k] c0 [b] t0 c [b'] t W0 Ws Cl A) as (Ez & Ecs & Er & Er0 & En); auto.
  { cbn [mapM]. now rewrite Eb. } { cbn [mapM]. now rewrite Eb'. }
  cbn [map] in En. rewrite En in Ecs. rewrite <- Er0 in Pl. rewrite <- Er in Pl1.
  rewrite (sub_is W (us 0%nat) (us k) _ _ c0 b t0 _ Lp Lq m n l be sh it E0 Eb T0 En Pl Pk Hl).
  rewrite (sub_is W (us 0%nat) (us k) _ _ c b' t _ Lp Lq m1 n1 l be sh it Ec Eb' T Ecs Pl1 Pk1 Hl).
  now rewrite Ez.
Qed.
(** A coadd after any subtractions, and coadds of the same images for the same loss. *)
Lemma alike_coadd st0 st zv ks c0 bs0 t0 f s l n r f' s' n' : well st0 -> well st -> clear_all N st0 -> alike True l zv st0 st ->
  Forall (fun k => 0 < k < N)%nat ks -> 0 <= l ->
  catalogue_of (st0 0%nat) = Ok c0 -> mapM (fun k => catalogue_of (st0 k)) ks = Ok bs0 -> transparency (l_query W) (l_sort W) (l_lsqr W) (c0 :: bs0) None = Ok t0 ->
  zv 0%nat = nth 0 (zps t0) 0 -> (forall p k, nth_error ks p = Some k -> zv k = nth (S p) (zps t0) 0) ->
  answer (coadd_run W f s l n (map st0 (0%nat :: ks))) = Some (Ok r) ->
  answer (coadd_run W f' s' l n' (map st (0%nat :: ks))) = answer (coadd_run W f' s' l n' (map st0 (0%nat :: ks))).
Proof.
  intros W0 Ws Cl A Fk Hl E0 B0 T0 Z0 Zk Er.
  destruct (coadd_run W f s l n (map st0 (0%nat :: ks))) as [[[r0 hs]|]|] eqn:Ec; try discriminate. clear Er.
  destruct (run_parts _ _ _ _ _ _ _ _ Ec) as (Hne & cs & t0' & ws & vs & Pa & _).
  rewrite (parts_run W f' s' l n' _ _ _ _ _ _ Hne Pa). destruct Pa as [Pc Pt Pw Pv _].
  assert (cs = c0 :: bs0) as ->.
  { cbn [map mapM] in Pc. rewrite E0 in Pc. cbn [bind] in Pc.
    assert (M : forall q, mapM catalogue_of (map st0 q) = mapM (fun k => catalogue_of (st0 k)) q) by (induction q as [|x q IH]; cbn; [reflexivity|now rewrite IH]).
    rewrite M, B0 in Pc. cbn [bind] in Pc. now injection Pc. }
  assert (t0' = t0) as -> by congruence. clear Pc Pt.
  destruct (k_ref _ _ _ _ _ A c0 E0) as (c & Ect & _).
  destruct (mapM_nth _ _ _ B0) as [L0 H0].
  assert (exists bs, mapM (fun k => catalogue_of (st k)) ks = Ok bs) as [bs Bs].
  { assert (Hc : forall k, In k ks -> exists b, catalogue_of (st k) = Ok b).
    { intros k Ik. assert (Hk : (0 < k < N)%nat) by (rewrite Forall_forall in Fk; now apply Fk). apply In_nth_error in Ik as [p Kp]. destruct (H0 p k Kp) as (b & Eb & _).
      destruct (k_other _ _ _ _ _ A k c0 b Hk E0 Eb) as (b' & Eb' & _). eauto. }
    clear -Hc. induction ks as [|k q IH]; [eexists; reflexivity|]. cbn [mapM]. destruct (Hc k (or_introl eq_refl)) as [b ->]. cbn [bind].
    destruct IH as [bs ->]; [intros; apply Hc; now right|]. cbn [bind]. eauto. }
  destruct (C48_total_lm (l_query W) (l_sort W) (l_lsqr W) (c :: bs) None SP) as [(t & T)|(X & _)]; [|discriminate].
  destruct (matched_alike _ _ _ st0 st ks c0 bs0 t0 c bs t W0 Ws Cl A Fk E0 B0 T0 Ect Bs T) as (Ez & Ecs & Em & Em0 & En).
  destruct (set_up_nth _ _ _ _ Pw) as [Lw Hw]. destruct (mapM_nth _ _ _ Pv) as [Lv Hv].
  assert (Lcs : length (cats t0) = length ks) by (rewrite En, map_length; exact L0).
  assert (Ls : forall st' t', cats t' = cats t0 -> length (seats (map st' (0%nat :: ks)) t') = S (length ks)).
  { intros st' t' Et'. unfold seats. rewrite map_length, combine_length, map_length. cbn [length]. rewrite Et', Lcs. lia. }
  (* position p: the image k, its catalogue and what it gives *)
  assert (Seat : forall p st' t', cats t' = cats t0 -> forall y, nth_error (seats (map st' (0%nat :: ks)) t') p = Some y ->
     exists k cc, nth_error (0%nat :: ks) p = Some k /\ nth_error (mcat t' :: cats t0) p = Some cc /\ y = with_best (map src_of (rows cc)) (h_img (st' k))).
  { intros p st' t' Et' y Ky. unfold seats in Ky. rewrite Et', nth_error_map in Ky.
    destruct (nth_error (combine _ _) p) as [[h cc]|] eqn:Kc; [|discriminate]. cbn [option_map fst snd] in Ky. injection Ky as <-.
    assert (Kp : (p < length (0%nat :: ks))%nat).
    { assert (X : nth_error (combine (map st' (0%nat :: ks)) (mcat t' :: cats t0)) p <> None) by congruence. apply nth_error_Some in X. rewrite combine_length, map_length in X. lia. }
    destruct (nth_error (0%nat :: ks) p) as [k|] eqn:Kk; [|apply nth_error_None in Kk; lia].
    destruct (nth_error (mcat t' :: cats t0) p) as [cc'|] eqn:Kcc; [|apply nth_error_None in Kcc; cbn [length] in *; lia].
    exists k, cc'. rewrite (nth_combine _ _ p (st' k) cc' (map_nth_error _ _ _ Kk) Kcc) in Kc. injection Kc as <- <-. auto. }
  assert (Seat0 : forall p k cc, nth_error (0%nat :: ks) p = Some k -> nth_error (mcat t0 :: cats t0) p = Some cc ->
     nth_error (seats (map st0 (0%nat :: ks)) t0) p = Some (with_best (map src_of (rows cc)) (h_img (st0 k)))).
  { intros p k cc Kk Kc. unfold seats. apply (map_nth_error (fun xc => with_best (map src_of (rows (snd xc))) (h_img (fst xc))) p _ (d := (st0 k, cc))).
    apply nth_combine; [now apply map_nth_error|exact Kc]. }
  destruct (set_up_seen l (seats (map st (0%nat :: ks)) t) (zps t) vs) as (ws1 & Ew1 & Ev1).
  { rewrite (Ls st t Ecs), Lv, Lw, (Ls st0 t0 eq_refl). reflexivity. }
  { intros p y Ky. destruct (Seat p st t Ecs y Ky) as (k & cc & Kk & Kc & ->).
    assert (exists cc0, nth_error (mcat t0 :: cats t0) p = Some cc0 /\ map src_of (rows cc0) = map src_of (rows cc)) as (cc0 & Kc0 & Ecc).
    { destruct p as [|p]; cbn [nth_error] in Kc |- *; [injection Kc as <-; exists (mcat t0); split; [reflexivity|congruence]|exists cc; auto]. }
    destruct (Hw p _ (Seat0 p k cc0 Kk Kc0)) as (z & s1 & Kz & Es & Kw). destruct (Hv p _ Kw) as (v & Sv & Kv).
    exists z, v. rewrite Ez. split; [exact Kz|]. split; [exact Kv|].
    assert (Zz : zv k = z).
    { destruct p as [|p]; cbn [nth_error] in Kk; [injection Kk as <-; rewrite Z0|rewrite (Zk p k Kk)]; now apply nth_error_nth. }
    assert (Hk : (k < N)%nat).
    { destruct p as [|p]; cbn [nth_error] in Kk; [injection Kk as <-; exact HN|]. rewrite Forall_forall in Fk. apply nth_error_In in Kk. now apply Fk in Kk. }
    assert (Q : exists Lp m m1, placed_at (us k) (st0 k) (map src_of (rows cc0)) Lp m /\ placed_at (us k) (st k) (map src_of (rows cc)) Lp m1 /\ view l z m1 = view l z m).
    { rewrite <- Ecc, <- Zz.
      destruct (any_placed W fuel shp (us k) (st0 k) (map src_of (rows cc0)) EL (Hu _ Hk) (proj1 W0 _ Hk)) as (Lp & m & Pl). exists Lp, m.
      destruct p as [|p]; cbn [nth_error] in Kk, Kc0.
      - injection Kk as <-. injection Kc0 as <-. rewrite Em0 in Pl |- *. destruct (k_at0 _ _ _ _ _ A c0 Lp m E0 Pl) as (m1 & Pl1 & V1). exists m1. auto.
      - assert (Hk0 : (0 < k < N)%nat) by (rewrite Forall_forall in Fk; apply nth_error_In in Kk; now apply Fk in Kk).
        destruct (H0 p k Kk) as (b & Eb & Kb). rewrite En, (map_nth_error _ _ _ Kb) in Kc0. injection Kc0 as <-.
        destruct (k_at _ _ _ _ _ A k c0 b Lp m Hk0 E0 Eb Pl) as (m1 & Pl1 & V1). exists m1. auto. }
    destruct Q as (Lp & m & m1 & Pl & Pl1 & V).
    pose proof (proj1 Pl) as I0. pose proof (proj1 Pl1) as I1.
    assert (F0 : fields_set l cc0 z (h_img (st0 k)) = (Ok tt, s1)) by exact Es.
    assert (Sv' : coadd_seen (with_attr (snd (fields_set l cc0 z (h_img (st0 k)))) (fst (us k))) = Ok v).
    { rewrite F0. cbn [snd]. rewrite I0 in Sv. exact Sv. }
    destruct (seen_needs (us k) (st0 k) cc0 Lp m l z v Pl Hl Sv') as [q Hq].
    destruct (seen_at (us k) (st0 k) cc0 Lp m l z q Pl Hl Hq) as [_ Sa]. destruct (seen_at (us k) (st k) cc Lp m1 l z q Pl1 Hl Hq) as [Fb Sb].
    rewrite V, <- Sa, Sv' in Sb. cbv zeta.
    change (setup_kl_a_fields _ _ _ (bu_lib (with_best (map src_of (rows cc)) (h_img (st k)))) (Some l) false
       (set_zp _ _ _ (Some z) (bu_attr (with_best (map src_of (rows cc)) (h_img (st k)))))) with (fields_set l cc z (h_img (st k))).
    split; [exact Fb|]. rewrite I1 at 2. exact Sb. }
  apply (parts_run W f' s' l n' (map st (0%nat :: ks)) (c :: bs) t ws1 vs (map leave (combine ws1 (mcat t :: cats t)))); [discriminate|]. constructor; auto.
  cbn [map mapM]. rewrite Ect. cbn [bind].
  assert (M : forall q, mapM catalogue_of (map st q) = mapM (fun k => catalogue_of (st k)) q) by (induction q as [|x q IH]; cbn; [reflexivity|now rewrite IH]).
  rewrite M, Bs. reflexivity.
Qed.
End Together.
