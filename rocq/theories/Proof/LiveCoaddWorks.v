(** When images that were used before can be coadded. *)
From Coq Require Import ZArith List Bool Arith Reals Lia Lra Permutation.
From Coquelicot Require Import Complex.
From Verif.Model Require Import Py Plane Ma Coadd.
From Verif.Spec Require Import Coadd.
From Verif.Model Require Import Image Interp Subtract Filter FindS Sources Stamps Cut KL Session Transparency Chain ChainCoadd CutChain CutCoadd Live LiveSub LiveCoadd.
From Verif.Spec Require Import Image Stamps Chain Session Uses UsesCoadd Cut CutCoadd Live LiveFar LiveCoadd.
From Verif.Proof Require Import Session SessionBad SessionHist SessionMain SessionLm Chain ChainMain ChainUnits ChainCoadd Uses UsesCoadd UsesCoaddMain CutLoop CutMain CutLeft CutChain CutChainLeft CutCoadd CutCoaddMain Live LiveSame LiveRaise LiveMain LiveSub LiveCoadd.
Import ListNotations.
Set Bullet Behavior "Strict Subproofs".
Local Open Scope R_scope.

Section One.
Variable W : libs.
Variables (fuel : nat) (sh : nat * nat) (o : choices) (x : built) (cs : list call) (left : list src).
Hypothesis Fit : fit_for W fuel sh ((o, x), cs).
Notation L := (live_lib W o x).
Notation s := (lived W o cs x).
Notation k := (cut_of x cs left).
Notation y := (opened W o k x).

Lemma one_works z loss v :
  (stamps_read (looked_at (bu_attr x)) cs = false -> exists st ps kept,
     extract (bu_lib (opened W o left x)) (stamp_shape (bu_attr x)) left = (st, Ok (ps, kept))) ->
  setup_kl_a_fields _ _ _ (bu_lib y) (Some loss) false (set_zp _ _ _ (Some z) (bu_attr (with_best left (after cs y)))) = (Ok tt, v) ->
  exists s2, l_setup_kl_a_fields _ _ _ _ L (Some loss) false (fst s, set_zp _ _ _ (Some z) (set_best _ _ _ (Some left) (snd s))) = (Ok tt, s2) /\
    snd s2 = v /\ exists ps, since _ _ _ _ ps (goodG W o x k) (fst s2) (snd s2).
Proof.
  intros Hex Eq. destruct (own_select W fuel sh o x cs Fit) as (Sel & (ex & First) & Bs & d & Bx). destruct (own_virgin W fuel sh o x cs Fit) as [V New].
  pose proof (proj2 Fit) as F. cbn [snd] in F.
  change (bu_attr (with_best left (after cs y))) with (set_best _ _ _ (Some left) (bu_attr (after cs y))) in Eq.
  rewrite <- (own_attr W fuel sh o x cs left Fit) in Eq.
  set (s1 := set_zp _ _ _ (Some z) (set_best _ _ _ (Some left) (snd s))) in *.
  unfold cut_of in *. destruct (stamps_read (looked_at (bu_attr x)) cs) eqn:Rd.
  - destruct (live_all W o x (own_sources x) ex Sel New First cs (plain_stamps cs F)) as [A G].
    assert (Ext : exists st p kk, extract (bu_lib (opened W o (own_sources x) x)) (stamp_shape (bu_attr x)) (own_sources x) = (st, Ok (p, kk))).
    { destruct (first_dump W o x (own_sources x) ex First) as (del & D & K). unfold opened. cbn [bu_lib extract]. unfold cut_for.
      rewrite D. cbn [bind]. eauto. }
    destruct Ext as (st & p & kk & Ext).
    pose proof (virgin_all _ _ _ (bu_lib (opened W o (own_sources x) x)) (stamp_shape (bu_attr x)) (own_sources x) st p kk Sel Ext cs _ _ F V) as P.
    rewrite Rd in P. change (exec_all (bu_lib (opened W o (own_sources x) x)) cs (bu_attr x)) with (bu_attr (after cs (opened W o (own_sources x) x))) in P.
    rewrite <- A in P. destruct G as [G|[_ G]]; [|destruct G as (_ & _ & _ & G & _); contradiction].
    assert (S1 : since _ _ _ _ (ex_pos ex) (goodG W o x (own_sources x)) (fst s) s1).
    { destruct G as (Q1 & Q2 & Q3 & Q4). repeat split; try assumption; destruct Q4 as [Q4 Q5].
      - rewrite (first_gone' W o x _ ex First) in Q4. exact Q4.
      - rewrite (first_gone' W o x _ ex First) in Q5. exact Q5. }
    destruct (fields_B _ _ _ _ L (untouched x) (picG W o x (own_sources x)) (own_sources x) (ex_pos ex) (goodG W o x (own_sources x))
      Sel (Some loss) false (fst s) s1 S1) as (r & p2 & t2 & E1 & E2 & G2).
    rewrite (still_gone W o x) in E2. rewrite E2 in Eq. injection Eq as -> <-.
    exists (p2, t2). split; [exact E1|]. split; [reflexivity|]. exists (ex_pos ex). exact G2.
  - destruct (unread W o x (own_sources x) (stamp_shape (bu_attr x)) cs Sel (looked_at (bu_attr x)) (untouched x) (bu_attr x) F V Rd)
      as (lk & sv & Es & (z0 & Ev)).
    assert (Es' : s = (untouched x, sv)) by exact Es. unfold s1 in *. clear s1. rewrite Es' in *. clear Es Es'. subst sv. cbn [fst snd] in *.
    set (s1 := set_zp _ _ _ (Some z) (set_best _ _ _ (Some left) (set_zp _ _ _ (Some z0) (fresh _ _ _ (stamp_shape (bu_attr x)) (if lk then Some (own_sources x) else None))))) in *.
    assert (Be : before _ _ _ (stamp_shape (bu_attr x)) left s1) by (unfold before; cbn; repeat split; auto).
    assert (Bst : best s1 = Some left) by reflexivity. clearbody s1.
    assert (Cu : exists st ps kept, cutting L (untouched x) (stamp_shape (bu_attr x)) left = (picG W o x left, (st, Ok (ps, kept)))).
    { destruct (Hex eq_refl) as (st & ps & kept & He). unfold opened in He. cbn [bu_lib extract] in He. unfold cut_for in He.
      cbn [live_lib cutting untouched pic_now pic_hat]. unfold picG, gone.
      destruct (cut_dump W _ _ _ (stamp_shape (bu_attr x)) left 0) as [now [st' r]]. cbn [fst].
      destruct r as [[pos del]|e]; [|discriminate]. cbn [bind]. do 3 eexists. reflexivity. }
    destruct Cu as (st & ps & kept & Cu).
    assert (Nb : best (snd (untouched x, s1)) <> None) by (cbn [snd]; rewrite Bst; discriminate).
    destruct (s_seta _ _ _ _ L (Ok left) (Some loss) false _ Nb) as [Sm _]. rewrite Sm.
    destruct (fields_A _ _ _ _ (other _ _ _ _ L (Ok left)) (untouched x) (picG W o x left) (stamp_shape (bu_attr x)) left
      st ps kept (goodG W o x left) eq_refl Cu (goodG1 W o x left) (Some loss) false s1 Be)
      as (r & p2 & t2 & E1 & E2 & G2).
    assert (St : still _ _ _ _ (other _ _ _ _ L (Ok left)) (untouched x) (picG W o x left) = given (bu_lib (opened W o left x)) left).
    { rewrite <- (still_gone W o x left). reflexivity. }
    rewrite St in E2. destruct (same_fields _ _ _ (bu_lib (opened W o left x)) left (Some loss) false s1 Nb) as [Sf _].
    rewrite Sf, E2 in Eq. injection Eq as -> <-. exists (p2, t2). split; [exact E1|]. split; [reflexivity|]. exists ps; exact G2.
Qed.
End One.

(** The stamps of the sources [left] can be extracted, if none were extracted before. *)
Definition cuttable (W : libs) (h : Verif.Spec.LiveCoadd.used) (left : list src) : Prop :=
  stamps_read (looked_at (bu_attr (snd (fst h)))) (snd h) = false -> exists st ps kept,
    extract (bu_lib (opened W (fst (fst h)) left (snd (fst h)))) (stamp_shape (bu_attr (snd (fst h)))) left = (st, Ok (ps, kept)).

Lemma set_up_live_ok W fuel sh loss : forall hs ls zs ys,
  length hs = length ls -> Forall (fit_for W fuel sh) hs ->
  Forall (fun h => exists c, l_looked W (live_of W h) = Ok c) hs -> Forall2 (cuttable W) hs ls ->
  set_up loss (map (fun hl => with_best (snd hl) (after (snd (fst hl)) (part_of W (fst hl) (snd hl)))) (combine hs ls)) zs = Ok ys ->
  exists us, set_up_live W loss (map (fun ul => l_given W (fst ul) (snd ul)) (combine (map (live_of W) hs) ls)) zs = Ok us.
Proof.
  induction hs as [|[[o x] cs] hs IH]; intros [|left ls] zs ys Ln F G K E; try discriminate; [eexists; reflexivity|].
  inversion F as [|? ? F1 F2]; inversion G as [|? ? G1 G2]; inversion K as [|? ? ? ? K1 K2]; subst. destruct G1 as (cr & Er).
  cbn [map combine set_up fst snd] in E. destruct zs as [|z zs]; [discriminate|].
  unfold part_of at 1 2 in E. cbn [fst snd] in E.
  change (bu_lib (with_best left (after cs (opened W o (cut_of x cs left) x)))) with (bu_lib (opened W o (cut_of x cs left) x)) in E.
  destruct (setup_kl_a_fields _ _ _ _ _ _ _) as [[[]|e] v] eqn:E1; [|discriminate].
  destruct (one_works W fuel sh o x cs left F1 z loss v K1 E1) as (s2 & E2 & _).
  destruct (set_up loss _ zs) as [ys'|] eqn:E3; [|discriminate].
  destruct (IH ls zs ys' ltac:(cbn in Ln; lia) F2 G2 K2 E3) as (us & Eu).
  cbn [map combine set_up_live fst snd].
  set (g := l_given W (live_of W (o, x, cs)) left).
  assert (Eg : snd g = (fst (lived W o cs x), set_best _ _ _ (Some left) (snd (lived W o cs x)))) by (apply (own_given W o x cs left cr); exact Er).
  assert (Ef : fst g = (o, x)) by reflexivity. unfold l_of. rewrite Eg, Ef. clearbody g. cbn [fst snd].
  rewrite E2, Eu. cbn [bind]. eexists. reflexivity.
Qed.

Lemma built_live W fuel sh fuel' sched loss n hs cs t r : (forall n m, length (fst (l_eigh W n m)) = n) ->
  Forall (fit_for W fuel sh) hs ->
  mapM (l_looked W) (map (live_of W) hs) = Ok cs ->
  transparency (l_query W) (l_sort W) (l_lsqr W) (map (fun c => mkcat false false (map row_of c)) cs) None = Ok t ->
  length (mcat t :: cats t) = length hs -> Forall2 (cuttable W) hs (map (fun c => map src_of (rows c)) (mcat t :: cats t)) ->
  coadd_built W fuel' sched loss n (map (fun u => after (snd u) (fst u))
    (map (part_pair W) (combine hs (map (fun c => map src_of (rows c)) (mcat t :: cats t))))) = Some (Ok r) ->
  coadd_live W fuel' sched loss n (map (live_of W) hs) = Some (Ok r).
Proof.
  intros EL F M T Ln K E. remember (mcat t :: cats t) as ks eqn:Ek. set (ls := map (fun c => map src_of (rows c)) ks) in *.
  assert (Ll : length hs = length ls) by (unfold ls; now rewrite map_length).
  assert (Lk : Forall (fun h => exists c, l_looked W (live_of W h) = Ok c) hs).
  { clear - M. revert cs M. induction hs as [|h hs IH]; intros cs M; [constructor|]. cbn [map mapM] in M.
    destruct (l_looked W (live_of W h)) as [c|] eqn:Eh; [|discriminate]. cbn [bind] in M.
    destruct (mapM _ (map _ hs)) as [cs'|] eqn:E'; [|discriminate]. constructor; [now exists c|]. exact (IH cs' eq_refl). }
  unfold coadd_live. unfold match_live. rewrite M. cbn [bind]. rewrite T. cbn [bind]. rewrite <- Ek.
  unfold coadd_built, match_all in E. rewrite <- (live_looks W fuel sh hs ls Ll F) in E. rewrite M in E. cbn [bind] in E. rewrite T in E. cbn [bind] in E. rewrite <- Ek in E.
  assert (E1 : map (fun uc => l_given W (fst uc) (map src_of (rows (snd uc)))) (combine (map (live_of W) hs) ks) =
               map (fun ul => l_given W (fst ul) (snd ul)) (combine (map (live_of W) hs) ls)).
  { unfold ls. clear. revert ks. induction hs as [|h hs IH]; intros [|c ks]; try reflexivity. cbn [map combine fst snd]. now rewrite IH. }
  assert (E2 : map (fun xc => with_best (map src_of (rows (snd xc))) (fst xc)) (combine (map (fun u => after (snd u) (fst u)) (map (part_pair W) (combine hs ls))) ks) =
               map (fun hl => with_best (snd hl) (after (snd (fst hl)) (part_of W (fst hl) (snd hl)))) (combine hs ls)).
  { unfold ls. clear. revert ks. induction hs as [|h hs IH]; intros [|c ks]; try reflexivity. cbn [map combine fst snd part_pair]. now rewrite IH. }
  rewrite E1. rewrite E2 in E.
  destruct hs as [|h hs]; [discriminate|]. destruct ls as [|l0 ls0] eqn:El; [discriminate|].
  destruct (set_up loss _ (zps t)) as [ys|] eqn:Ey; [|discriminate]. cbn [bind] in E.
  destruct (set_up_live_ok W fuel sh loss (h :: hs) (l0 :: ls0) (zps t) ys Ll F Lk K Ey) as (us & Eu).
  destruct (live_set_up W fuel sh loss (h :: hs) (l0 :: ls0) (zps t) us Ll F Lk Eu) as (ys' & Ey' & Em & _).
  rewrite Ey in Ey'. injection Ey' as <-.
  cbn [map combine] in Eu, E |- *. rewrite Eu. cbn [bind]. rewrite Em. exact E.
Qed.

(** One after the other, images that were used before and whose stars give a PSF can be coadded. *)
Lemma C141_works_lm : forall W fuel fuel' sched loss n sh hs cs t,
  (forall n c, length (fst (l_eigh W n c)) = n) -> (forall r, Permutation (l_sort W r) r) -> 0 <= loss -> (n <= 1)%Z ->
  hs <> [] -> Forall (fit_for W fuel sh) hs ->
  Forall2 (fun h c => l_looked W (live_of W h) = Ok c) hs cs ->
  transparency (l_query W) (l_sort W) (l_lsqr W) (map (fun c => mkcat false false (map row_of c)) cs) None = Ok t ->
  length (zps t) = length hs ->
  Forall2 (fun h c => let '(o, x, calls) := h in forall left, Permutation (map spot left) (map spot c) ->
    exists q, psf_for (stars_for (opened W o (cut_of x calls left) x) calls left) (stamp_shape (bu_attr x)) loss = Ok q /\
      snd q <> []) hs cs ->
  exists r, coadd_live W fuel' sched loss n (map (live_of W) hs) = Some (Ok r).
Proof.
  intros W fuel fuel' sched loss n sh hs cs t EL SP Hl Hn Ne Hu Fc Et Lz Hq.
  assert (Lc : length hs = length cs) by exact (Forall2_len _ _ _ Fc).
  assert (Ec : mapM (l_looked W) (map (live_of W) hs) = Ok cs).
  { clear - Fc. induction Fc as [|u c us cs E F IH]; [reflexivity|]. cbn [map mapM]. rewrite E. cbn [bind]. rewrite IH. reflexivity. }
  assert (Hk : length (mcat t :: cats t) = length cs /\ Forall2 (fun l c => Permutation (map spot l) (map spot c)) (map (fun c => map src_of (rows c)) (mcat t :: cats t)) cs).
  { destruct cs as [|c0 cs0]; [destruct hs; [congruence|discriminate]|]. cbn [map] in Et.
    rewrite <- (map_map (map row_of) (mkcat false false)) in Et.
    destruct (matched_all _ _ _ _ _ _ SP Et) as [M1 M2]. destruct (Forall2_nth _ _ _ M2) as [Ln _].
    rewrite map_length in Ln. split; [cbn; now rewrite <- Ln|].
    assert (P : forall r, map spot (map src_of r) = map rspot r) by (intros r; rewrite map_map; reflexivity).
    assert (P' : forall s, map rspot (map row_of s) = map spot s) by (intros s'; rewrite map_map; reflexivity).
    cbn [map]. constructor; [rewrite P, M1, P'; apply Permutation_refl|].
    clear - M2 P P'. revert M2. generalize (cats t). induction cs0 as [|c cs0 IH]; intros l M2; inversion M2; subst; cbn [map]; constructor; auto.
    rewrite P, <- P'. assumption. }
  destruct Hk as [Lk Hk]. rewrite <- Lc in Lk.
  set (ls := map (fun c => map src_of (rows c)) (mcat t :: cats t)) in *.
  assert (Ll : length ls = length hs) by (unfold ls; now rewrite map_length).
  assert (B : exists r, coadd_built W fuel' sched loss n (map (fun u => after (snd u) (fst u)) (map (part_pair W) (combine hs ls))) = Some (Ok r)).
  { apply (works_gen W fuel' sched loss n sh (map (part_pair W) (combine hs ls)) cs t SP Hl Hn).
    - destruct hs as [|a hs]; [congruence|]. destruct ls; discriminate.
    - apply Forall_forall. intros u Iu. apply in_map_iff in Iu as ([[[o x] calls] c] & <- & Ic).
      apply in_combine_l in Ic. pose proof (proj1 (Forall_forall _ _) Hu _ Ic) as (((d & B) & S1 & S2 & cat & last & ex & Es & F) & Pl).
      cbn [fst snd] in *. unfold ready, part_pair, part_of. cbn [fst snd]. split; [now apply (opened_usable W fuel o d)|].
      split; [exact S1|]. split; [exact S2|]. split; [|exact Pl].
      apply (cut_stamps_of W fuel o d (cut_of x calls c) x _ cat last ex B); [now left|exact Es|exact F].
    - clearbody ls. clear - Fc Ll Hu. revert ls Ll. induction Fc as [|[[o x] calls] c hs cs E F IH]; intros [|l ls] Ll; try discriminate; [constructor|].
      inversion Hu as [|? ? U1 U2]; subst. cbn [combine map]. constructor; [|apply IH; [assumption|now injection Ll]].
      rewrite <- E. symmetry. exact (own_best W fuel sh o x calls l U1).
    - exact Et.
    - rewrite Lz, map_length, combine_length, Ll. symmetry. apply Nat.min_id.
    - clearbody ls. clear - Hq Ll. revert ls Ll. induction Hq as [|[[o x] calls] c hs cs E F IH]; intros [|l ls] Ll; try discriminate; [constructor|].
      cbn [combine map]. constructor; [|apply IH; now injection Ll].
      intros left P. destruct (E left P) as (q & Eq & Nq). exists q. split; [|exact Nq].
      rewrite <- Eq. unfold part_pair, part_of, stars_for, cut_of. cbn [fst snd opened bu_attr bu_lib].
      destruct (stamps_read (looked_at (bu_attr x)) calls); reflexivity. }
  destruct B as (r & B). exists r.
  apply (built_live W fuel sh fuel' sched loss n hs cs t r EL Hu Ec Et Lk); [|exact B]. fold ls.
  clearbody ls. clear - Hq Hk. revert ls Hk. induction Hq as [|[[o x] calls] c hs cs E F IH]; intros ls Hk; inversion Hk as [|l ? ls' ? Pl Hk']; subst; constructor; [|now apply IH].
  unfold cuttable. cbn [fst snd]. intros Rd. destruct (E l Pl) as (q & Eq & _). unfold psf_for, stamps_of, stars_for, cut_of in Eq.
  cbn [opened bu_attr] in Eq. rewrite Rd in Eq. cbn [given Session.select] in Eq.
  change (extract (given (bu_lib (opened W o l x)) l)) with (extract (bu_lib (opened W o l x))) in Eq.
  destruct (extract (bu_lib (opened W o l x)) (stamp_shape (bu_attr x)) l) as [st [[p kk]|e]]; [eauto|discriminate].
Qed.
