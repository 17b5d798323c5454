(** The coadd of images with what their interpolated images have become. *)
From Coq Require Import ZArith List Bool Arith Reals Lia Lra Permutation.
From Coquelicot Require Import Complex.
From Verif.Model Require Import Py Plane Ma Coadd.
From Verif.Spec Require Import Coadd.
From Verif.Model Require Import Image Interp Subtract Filter FindS Sources Stamps Cut KL Session Transparency Chain ChainCoadd CutChain CutCoadd Live LiveSub LiveCoadd.
From Verif.Spec Require Import Image Stamps Chain Session Uses UsesCoadd Cut CutCoadd Live LiveFar LiveCoadd.
From Verif.Proof Require Import Session SessionBad SessionHist SessionMain SessionLm Chain ChainMain ChainUnits ChainCoadd Uses UsesCoadd UsesCoaddMain CutLoop CutMain CutLeft CutChain CutChainLeft CutCoadd CutCoaddMain Live LiveSame LiveRaise LiveMain LiveSub.
Import ListNotations.
Set Bullet Behavior "Strict Subproofs".
Local Open Scope R_scope.

(** A history that asks for no stamps does the same whatever the extraction is. *)
Lemma unread_same NI FT IM (L L' : lib NI FT IM) cat sh cs : select L = Ok cat -> select L' = Ok cat ->
  forall lk s, Forall plain cs -> virgin _ _ _ sh cat lk s -> stamps_read lk cs = false ->
  exec_all L cs s = exec_all L' cs s.
Proof.
  intros S S'. induction cs as [|c cs IH]; intros lk s F V Rd; [reflexivity|].
  inversion F as [|? ? Pc Fc]; subst. unfold exec_all. cbn [fold_left]. destruct V as (z & ->).
  destruct c; cbn [stamps_read] in Rd; try discriminate.
  - assert (E : forall l : lib NI FT IM, select l = Ok cat ->
      Session.exec l CBestSources (set_zp _ _ _ (Some z) (fresh _ _ _ sh (if lk then Some cat else None))) = set_zp _ _ _ (Some z) (fresh _ _ _ sh (Some cat))).
    { intros l Sl. cbn [Session.exec]. unfold void, Session.best_sources. destruct lk; [reflexivity|]. cbn. now rewrite Sl. }
    rewrite (E L S), (E L' S'). apply (IH true); [exact Fc|now exists z|exact Rd].
  - apply (IH lk (set_zp _ _ _ (Some z0) (fresh _ _ _ sh (if lk then Some cat else None)))); [exact Fc| |exact Rd]. now exists z0.
  - destruct lk; [discriminate|]. apply (IH false (set_zp _ _ _ (Some z) (fresh _ _ _ sh None))); [exact Fc| |exact Rd]. exists z. reflexivity.
Qed.

Definition part_of (W : libs) (h : Verif.Spec.LiveCoadd.used) (left : list src) : built :=
  opened W (fst (fst h)) (cut_of (snd (fst h)) (snd h) left) (snd (fst h)).

Section One.
Variable W : libs.
Variables (fuel : nat) (sh : nat * nat) (o : choices) (x : built) (cs : list call) (left : list src).
Hypothesis EL : forall n m, length (fst (l_eigh W n m)) = n.
Hypothesis Fit : fit_for W fuel sh ((o, x), cs).
Notation L := (live_lib W o x).
Notation s := (lived W o cs x).
Notation k := (cut_of x cs left).
Notation y := (opened W o k x).

Lemma own_select : Session.select (bu_lib x) = Ok (own_sources x) /\ (exists ex, snd (first_cut W o x (own_sources x)) = Ok ex) /\
  fst (Session.best_sources (bu_lib x) (bu_attr x)) = Ok (own_sources x) /\ exists d, build W fuel o d = Some (Ok x).
Proof.
  destruct Fit as (((d & Bx) & _ & _ & (c & last & ex & Sel & Fc)) & _). cbn [fst snd] in *.
  destruct (build_lib _ _ _ _ _ Bx) as (Dx & Lx & sh' & N & Sh). 
  assert (B : fst (Session.best_sources (bu_lib x) (bu_attr x)) = Ok c).
  { unfold Session.best_sources. destruct N as [->|(c' & S & ->)]; cbn [fresh best].
    - rewrite Sel. reflexivity.
    - cbn. congruence. }
  assert (O : own_sources x = c) by (unfold own_sources; now rewrite B).
  rewrite O. split; [exact Sel|]. split; [exists ex; now rewrite Fc|]. split; [exact B|]. now exists d.
Qed.

Lemma own_virgin : virgin _ _ _ (stamp_shape (bu_attr x)) (own_sources x) (looked_at (bu_attr x)) (bu_attr x) /\
  new_image (bu_lib x) (stamp_shape (bu_attr x)) (bu_attr x).
Proof.
  destruct own_select as (Sel & _ & Bs & d & Bx). destruct (build_catalogue _ _ _ _ _ _ Bx Bs) as [_ New]. split; [|exact New].
  exists 1. destruct New as [N|(c' & S & N)].
  - rewrite N. reflexivity.
  - rewrite N. cbn. assert (c' = own_sources x) by congruence. now subst c'.
Qed.

Lemma own_attr : snd s = bu_attr (after cs y).
Proof.
  destruct own_select as (Sel & (ex & First) & Bs & d & Bx). destruct own_virgin as [V New]. destruct Fit as [_ F]. cbn [snd] in F.
  destruct (live_all W o x (own_sources x) ex Sel New First cs (plain_stamps cs F)) as [A _]. rewrite A. unfold cut_of.
  destruct (stamps_read (looked_at (bu_attr x)) cs) eqn:Rd; [reflexivity|].
  exact (unread_same _ _ _ (bu_lib (opened W o (own_sources x) x)) (bu_lib (opened W o left x)) _ _ cs Sel Sel _ _ F V Rd).
Qed.

Lemma own_best : fst (l_best_sources L s) = fst (Session.best_sources (bu_lib y) (bu_attr (after cs y))).
Proof.
  pose proof own_attr as A. unfold l_best_sources, Session.best_sources in *. rewrite A. cbn [live_lib base].
  destruct (best (bu_attr (after cs y))); [reflexivity|].
  change (Session.select (bu_lib y)) with (Session.select (bu_lib x)). now destruct (Session.select (bu_lib x)).
Qed.

Lemma own_given cr : fst (l_best_sources L s) = Ok cr ->
  snd (l_given W ((o, x), s) left) = (fst s, set_best _ _ _ (Some left) (snd s)).
Proof.
  intros E. unfold l_given, l_of. cbn [fst snd]. unfold l_best_sources, Session.best_sources in *. unfold l_update_sources.
  destruct (best (snd s)) as [b|] eqn:B.
  - cbn [fst snd]. rewrite B. reflexivity.
  - cbn [live_lib base] in *. destruct (select _) as [b|]; [|discriminate]. reflexivity.
Qed.

Lemma one_setup z loss s2 :
  l_setup_kl_a_fields _ _ _ _ L (Some loss) false (fst s, set_zp _ _ _ (Some z) (set_best _ _ _ (Some left) (snd s))) = (Ok tt, s2) ->
  setup_kl_a_fields _ _ _ (bu_lib y) (Some loss) false (set_zp _ _ _ (Some z) (bu_attr (with_best left (after cs y)))) = (Ok tt, snd s2) /\
  exists ps, since _ _ _ _ ps (goodG W o x k) (fst s2) (snd s2).
Proof.
  intros Eq. destruct own_select as (Sel & (ex & First) & Bs & d & Bx). destruct own_virgin as [V New].
  pose proof (proj2 Fit) as F. cbn [snd] in F.
  change (bu_attr (with_best left (after cs y))) with (set_best _ _ _ (Some left) (bu_attr (after cs y))). rewrite <- own_attr.
  set (s1 := set_zp _ _ _ (Some z) (set_best _ _ _ (Some left) (snd s))) in *.
  unfold cut_of. destruct (stamps_read (looked_at (bu_attr x)) cs) eqn:Rd.
  - destruct (live_all W o x (own_sources x) ex Sel New First cs (plain_stamps cs F)) as [A G].
    assert (Ext : exists st p kk, extract (bu_lib (opened W o (own_sources x) x)) (stamp_shape (bu_attr x)) (own_sources x) = (st, Ok (p, kk))).
    { destruct (first_dump W o x (own_sources x) ex First) as (del & D & K). unfold opened. cbn [bu_lib extract]. unfold cut_for.
      rewrite D. cbn [bind]. eauto. }
    destruct Ext as (st & p & kk & Ext).
    pose proof (virgin_all _ _ _ (bu_lib (opened W o (own_sources x) x)) (stamp_shape (bu_attr x)) (own_sources x) st p kk Sel Ext cs _ _ F V) as P.
    rewrite Rd in P. change (exec_all (bu_lib (opened W o (own_sources x) x)) cs (bu_attr x)) with (bu_attr (after cs (opened W o (own_sources x) x))) in P.
    rewrite <- A in P. destruct G as [G|[_ G]]; [|destruct G as (_ & _ & _ & G & _); contradiction].
    assert (S1 : since _ _ _ _ (ex_pos ex) (goodG W o x (own_sources x)) (fst s) s1).
    { destruct G as (Q1 & Q2 & Q3 & Q4). repeat split; try assumption; destruct Q4 as [Q4 Q5].
      - rewrite (first_gone' W o x _ ex First) in Q4. exact Q4.
      - rewrite (first_gone' W o x _ ex First) in Q5. exact Q5. }
    destruct (fields_B _ _ _ _ L (untouched x) (picG W o x (own_sources x)) (own_sources x) (ex_pos ex) (goodG W o x (own_sources x))
      Sel (Some loss) false (fst s) s1 S1) as (r & p2 & t2 & E1 & E2 & G2).
    rewrite E1 in Eq. injection Eq as -> <-. rewrite (still_gone W o x) in E2. split; [exact E2|]. exists (ex_pos ex). exact G2.
  - destruct (unread W o x (own_sources x) (stamp_shape (bu_attr x)) cs Sel (looked_at (bu_attr x)) (untouched x) (bu_attr x) F V Rd)
      as (lk & sv & Es & (z0 & Ev)).
    assert (Es' : s = (untouched x, sv)) by exact Es. unfold s1 in *. clear s1. rewrite Es' in *. clear Es Es'. subst sv. cbn [fst snd] in *.
    set (s1 := set_zp _ _ _ (Some z) (set_best _ _ _ (Some left) (set_zp _ _ _ (Some z0) (fresh _ _ _ (stamp_shape (bu_attr x)) (if lk then Some (own_sources x) else None))))) in *.
    assert (Be : before _ _ _ (stamp_shape (bu_attr x)) left s1) by (unfold before; cbn; repeat split; auto).
    assert (Bst : best s1 = Some left) by reflexivity. clearbody s1.
    destruct (cut_gone W o x left) as ([st [[ps kept]|e]] & Cu).
    2:{ destruct (fields_raises _ _ _ _ L _ _ _ _ _ _ _ loss false Be Bst Cu) as (x' & Hr). rewrite Hr in Eq. discriminate. }
    assert (Nb : best (snd (untouched x, s1)) <> None) by (cbn [snd]; rewrite Bst; discriminate).
    destruct (s_seta _ _ _ _ L (Ok left) (Some loss) false _ Nb) as [Sm _]. rewrite Sm in Eq.
    destruct (fields_A _ _ _ _ (other _ _ _ _ L (Ok left)) (untouched x) (picG W o x left) (stamp_shape (bu_attr x)) left
      st ps kept (goodG W o x left) eq_refl Cu (goodG1 W o x left) (Some loss) false s1 Be)
      as (r & p2 & t2 & E1 & E2 & G2).
    rewrite E1 in Eq. injection Eq as -> <-. split; [|exists ps; exact G2].
    assert (St : still _ _ _ _ (other _ _ _ _ L (Ok left)) (untouched x) (picG W o x left) = given (bu_lib (opened W o left x)) left).
    { rewrite <- (still_gone W o x left). reflexivity. }
    rewrite St in E2. destruct (same_fields _ _ _ (bu_lib (opened W o left x)) left (Some loss) false s1 Nb) as [Sf _].
    rewrite Sf. exact E2.
Qed.

Lemma one_seen s2 ps : since _ _ _ _ ps (goodG W o x k) (fst s2) (snd s2) ->
  l_coadd_seen W ((o, x), s2) = coadd_seen (with_attr (snd s2) (with_best left (after cs y))).
Proof.
  intros S. destruct own_select as (Sel & _). unfold l_coadd_seen, coadd_seen, l_of. cbn [fst snd with_attr bu_lib bu_attr bu_data bu_back].
  change (bu_lib (with_best left (after cs y))) with (bu_lib y).
  change (bu_data (with_best left (after cs y))) with (bu_data x). change (bu_back (with_best left (after cs y))) with (bu_back x).
  destruct (shat_B _ _ _ _ L (untouched x) (picG W o x k) (own_sources x) ps (goodG W o x k) Sel (goodGS W o x k) (goodGR W o x k) _ _ S)
    as (r & p3 & t3 & E1 & E2 & G3).
  rewrite (still_gone W o x) in E2. rewrite E2. unfold lbind at 1. destruct s2 as [p2 t2]. cbn [fst snd] in *. rewrite E1.
  destruct r as [[h|e]|e]; [|reflexivity|reflexivity]. cbn [bind].
  unfold lbind at 1, lget. cbn [fst snd]. unfold sqnorm_of. cbn [with_attr bu_lib bu_attr bu_data bu_back].
  change (bu_lib (with_best left (after cs y))) with (bu_lib y). change (bu_data (with_best left (after cs y))) with (bu_data x).
  destruct (basis_B _ _ _ _ L (untouched x) (picG W o x k) ps (goodG W o x k) _ _ G3)
    as (r & p4 & t4 & E3 & E4 & G4).
  rewrite (still_gone W o x) in E4. rewrite E4. unfold lbind at 1. rewrite E3. destruct r as [b|e]; [|reflexivity]. cbn [bind].
  destruct (afields_B _ _ _ _ L (untouched x) (picG W o x k) (own_sources x) ps (goodG W o x k) Sel _ _ G4)
    as (r & p5 & t5 & E5 & E6 & G5).
  rewrite (still_gone W o x) in E6. rewrite E6. unfold lbind at 1. rewrite E5. destruct r as [a|e]; reflexivity.
Qed.
End One.

(** * All images *)
Definition part_pair (W : libs) (hl : Verif.Spec.LiveCoadd.used * list src) : built * list call :=
  (part_of W (fst hl) (snd hl), snd (fst hl)).

Lemma live_set_up W fuel sh loss : forall hs ls zs us,
  length hs = length ls -> Forall (fit_for W fuel sh) hs ->
  Forall (fun h => exists c, l_looked W (live_of W h) = Ok c) hs ->
  set_up_live W loss (map (fun ul => l_given W (fst ul) (snd ul)) (combine (map (live_of W) hs) ls)) zs = Ok us ->
  exists ys, set_up loss (map (fun hl => with_best (snd hl) (after (snd (fst hl)) (part_of W (fst hl) (snd hl)))) (combine hs ls)) zs = Ok ys /\
    mapM (l_coadd_seen W) us = mapM coadd_seen ys /\ length us = length hs.
Proof.
  induction hs as [|[[o x] cs] hs IH]; intros [|left ls] zs us Ln F G E; try discriminate.
  - cbn in E. injection E as <-. exists []. repeat split.
  - inversion F as [|? ? F1 F2]; inversion G as [|? ? G1 G2]; subst. destruct G1 as (cr & Er).
    cbn [map combine set_up_live fst snd] in E. destruct zs as [|z zs]; [discriminate|].
    set (g := l_given W (live_of W (o, x, cs)) left) in E.
    assert (Eg : snd g = (fst (lived W o cs x), set_best _ _ _ (Some left) (snd (lived W o cs x)))) by (apply (own_given W o x cs left cr); exact Er).
    assert (Ef : fst g = (o, x)) by reflexivity. unfold l_of in E. rewrite Eg, Ef in E. clearbody g. cbn [fst snd] in E.
    destruct (l_setup_kl_a_fields _ _ _ _ (live_lib W o x) (Some loss) false _) as [[[]|e] s2] eqn:E1; [|discriminate].
    destruct (one_setup W fuel sh o x cs left F1 z loss s2 E1) as (E2 & ps & S2).
    destruct (set_up_live W loss _ zs) as [us'|] eqn:E3; [|discriminate]. cbn [bind] in E. injection E as <-.
    destruct (IH ls zs us' ltac:(cbn in Ln; lia) F2 G2 E3) as (ys & E4 & E5 & E6).
    exists (with_attr (snd s2) (with_best left (after cs (part_of W (o, x, cs) left))) :: ys). split; [|split].
    + cbn [map combine set_up fst snd]. unfold part_of at 1 2. cbn [fst snd].
      change (bu_lib (with_best left (after cs (opened W o (cut_of x cs left) x)))) with (bu_lib (opened W o (cut_of x cs left) x)).
      rewrite E2. rewrite E4. reflexivity.
    + cbn [mapM]. rewrite E5. refine (f_equal (fun v => bind v (fun b => bind (mapM coadd_seen ys) (fun r => Ok (b :: r)))) _).
      exact (one_seen W fuel sh o x cs left F1 s2 ps S2).
    + cbn [length]. now rewrite E6.
Qed.

Lemma live_looks W fuel sh hs ls : length hs = length ls -> Forall (fit_for W fuel sh) hs ->
  mapM (l_looked W) (map (live_of W) hs) =
  mapM (fun x => fst (Session.best_sources (bu_lib x) (bu_attr x))) (map (fun u => after (snd u) (fst u)) (map (part_pair W) (combine hs ls))).
Proof.
  revert ls. induction hs as [|[[o x] cs] hs IH]; intros [|left ls] Ln F; try discriminate; [reflexivity|].
  inversion F as [|? ? F1 F2]; subst. cbn [map combine mapM part_pair fst snd].
  rewrite <- (IH ls) by (try assumption; cbn in Ln; lia).
  replace (l_looked W (live_of W (o, x, cs))) with
    (fst (Session.best_sources (bu_lib (after cs (part_of W (o, x, cs) left))) (bu_attr (after cs (part_of W (o, x, cs) left))))); [reflexivity|].
  symmetry. exact (own_best W fuel sh o x cs left F1).
Qed.

Lemma live_built W fuel sh fuel' sched loss n hs cs t r : (forall n m, length (fst (l_eigh W n m)) = n) ->
  Forall (fit_for W fuel sh) hs ->
  mapM (l_looked W) (map (live_of W) hs) = Ok cs ->
  transparency (l_query W) (l_sort W) (l_lsqr W) (map (fun c => mkcat false false (map row_of c)) cs) None = Ok t ->
  length (mcat t :: cats t) = length hs ->
  coadd_live W fuel' sched loss n (map (live_of W) hs) = Some (Ok r) ->
  coadd_built W fuel' sched loss n (map (fun u => after (snd u) (fst u))
    (map (part_pair W) (combine hs (map (fun c => map src_of (rows c)) (mcat t :: cats t))))) = Some (Ok r).
Proof.
  intros EL F M T Ln E. remember (mcat t :: cats t) as ks eqn:Ek. set (ls := map (fun c => map src_of (rows c)) ks).
  assert (Ll : length hs = length ls) by (unfold ls; now rewrite map_length).
  assert (Lk : Forall (fun h => exists c, l_looked W (live_of W h) = Ok c) hs).
  { clear - M. revert cs M. induction hs as [|h hs IH]; intros cs M; [constructor|]. cbn [map mapM] in M.
    destruct (l_looked W (live_of W h)) as [c|] eqn:Eh; [|discriminate]. cbn [bind] in M.
    destruct (mapM _ (map _ hs)) as [cs'|] eqn:E'; [|discriminate]. constructor; [now exists c|]. exact (IH cs' eq_refl). }
  unfold coadd_live in E. unfold match_live in E. rewrite M in E. cbn [bind] in E. rewrite T in E. cbn [bind] in E. rewrite <- Ek in E.
  unfold coadd_built, match_all. rewrite <- (live_looks W fuel sh hs ls Ll F). rewrite M. cbn [bind]. rewrite T. cbn [bind]. rewrite <- Ek.
  assert (E1 : map (fun uc => l_given W (fst uc) (map src_of (rows (snd uc)))) (combine (map (live_of W) hs) ks) =
               map (fun ul => l_given W (fst ul) (snd ul)) (combine (map (live_of W) hs) ls)).
  { unfold ls. clear. revert ks. induction hs as [|h hs IH]; intros [|c ks]; try reflexivity. cbn [map combine fst snd]. now rewrite IH. }
  assert (E2 : map (fun xc => with_best (map src_of (rows (snd xc))) (fst xc)) (combine (map (fun u => after (snd u) (fst u)) (map (part_pair W) (combine hs ls))) ks) =
               map (fun hl => with_best (snd hl) (after (snd (fst hl)) (part_of W (fst hl) (snd hl)))) (combine hs ls)).
  { unfold ls. clear. revert ks. induction hs as [|h hs IH]; intros [|c ks]; try reflexivity. cbn [map combine fst snd part_pair]. now rewrite IH. }
  rewrite E1 in E. rewrite E2.
  destruct hs as [|h hs]; [discriminate|]. destruct ls as [|l0 ls0] eqn:El; [discriminate|].
  cbn [map combine] in E |- *. 
  change (l_given W (fst (live_of W h, l0)) (snd (live_of W h, l0)) :: map (fun ul => l_given W (fst ul) (snd ul)) (combine (map (live_of W) hs) ls0))
    with (map (fun ul => l_given W (fst ul) (snd ul)) (combine (map (live_of W) (h :: hs)) (l0 :: ls0))) in E.
  destruct (set_up_live W loss _ (zps t)) as [us|] eqn:Es; [|discriminate]. cbn [bind] in E.
  destruct (live_set_up W fuel sh loss (h :: hs) (l0 :: ls0) (zps t) us Ll F Lk Es) as (ys & Ey & Em & _).
  cbn [map combine] in Ey. rewrite Ey. cbn [bind]. rewrite <- Em. exact E.
Qed.

(** What a coadd uses of each image, after any history of plain calls on it: the stamps are those
    of the sources found in the image if the history has asked for stamps, and otherwise those of
    the sources that the matching left; the filter reads the image that their extraction left. *)
Lemma C141_coadd_lm : forall W fuel fuel' sched loss n sh hs Rr P m,
  (forall n c, length (fst (l_eigh W n c)) = n) -> (forall r, Permutation (l_sort W r) r) -> 0 <= loss ->
  Forall (fit_for W fuel sh) hs -> run_limits fuel' (seq 0 (length hs)) n ->
  coadd_live W fuel' sched loss n (map (live_of W) hs) = Some (Ok (Rr, P, m)) ->
  exists cs t parts S Q ps raw,
    Forall2 (fun h c => l_looked W (live_of W h) = Ok c) hs cs /\
    transparency (l_query W) (l_sort W) (l_lsqr W) (map (fun c => mkcat false false (map row_of c)) cs) None = Ok t /\
    length parts = length hs /\
    (forall k o x calls c p, nth_error hs k = Some (o, x, calls) -> nth_error cs k = Some c -> nth_error parts k = Some p ->
       exists left z, Permutation (map spot left) (map spot c) /\ (k = 0%nat -> map spot left = map spot c) /\
         nth_error (zps t) k = Some z /\ pt_weight p = (z / var (bu_back x))%R /\
         adds W loss (opened W o (cut_of x calls left) x) calls left z (pt_filtered p) (pt_squared p)) /\
    shape S = sh /\ shape Q = sh /\
    (forall i j, (i < fst sh)%nat -> (j < snd sh)%nat ->
      px S i j = total (fun p => px (pt_filtered p) i j) parts /\
      px Q i j = total (fun p => (RtoC (pt_weight p ^ 2)%R * px (pt_squared p) i j)%C) parts) /\
    (exists h, In h hs /\ ps = (fst (stamp_shape (bu_attr (snd (fst h)))) + 6)%nat) /\
    (forall h, In h hs -> (fst (stamp_shape (bu_attr (snd (fst h)))) + 6 <= ps)%nat) /\
    plane_eq Rr (ifft2 (pmap2 Cdiv S (pmap csqrt Q))) /\
    plane_eq raw (ifft2 (fourier_shift (pmap csqrt Q) (INR ps) (INR ps))) /\
    plane_eq P (pmap (fun z => (z / psum raw)%C) raw) /\
    is_union (fun h => Full (m_msk (bu_data (snd (fst h))))) hs sh m.
Proof.
  intros W fuel fuel' sched loss n sh hs Rr P m EL SP Hl Hu Hrl E.
  assert (X : exists cs t, mapM (l_looked W) (map (live_of W) hs) = Ok cs /\
     transparency (l_query W) (l_sort W) (l_lsqr W) (map (fun c => mkcat false false (map row_of c)) cs) None = Ok t).
  { pose proof E as E0. unfold coadd_live in E0. destruct hs as [|a hs]; [discriminate|]. cbn [map] in E0. unfold match_live in E0.
    change (live_of W a :: map (live_of W) hs) with (map (live_of W) (a :: hs)) in E0.
    destruct (mapM (l_looked W) (map (live_of W) (a :: hs))) as [cs|]; [|discriminate]. cbn [bind] in E0.
    destruct (transparency _ _ _ _ _) as [t|] eqn:Et; [|discriminate]. eauto. }
  destruct X as (cs & t & Ec & Et).
  assert (Lc : length cs = length hs) by (destruct (mapM_nth _ _ _ Ec) as [A _]; now rewrite A, map_length).
  assert (Ne : hs <> []) by (intros ->; discriminate).
  assert (Lk : length (mcat t :: cats t) = length hs).
  { rewrite <- Lc. destruct cs as [|c0 cs0]; [destruct hs; [congruence|discriminate]|]. cbn [map] in Et.
    rewrite <- (map_map (map row_of) (mkcat false false)) in Et.
    destruct (matched_all _ _ _ _ _ _ SP Et) as [_ M2]. destruct (Forall2_nth _ _ _ M2) as [Ln _].
    rewrite map_length in Ln. cbn. now rewrite <- Ln. }
  apply (live_built W fuel sh fuel' sched loss n hs cs t _ EL Hu Ec Et Lk) in E.
  set (ls := map (fun c => map src_of (rows c)) (mcat t :: cats t)) in *.
  assert (Ll : length ls = length hs) by (unfold ls; rewrite map_length; congruence).
  set (us := map (part_pair W) (combine hs ls)) in *.
  assert (Lu : length us = length hs) by (unfold us; rewrite map_length, combine_length, Ll; apply Nat.min_id).
  assert (Hr : Forall (ready W sh) us).
  { apply Forall_forall. intros u Iu. unfold us in Iu. apply in_map_iff in Iu as ([[[o x] calls] c] & <- & Ic).
    apply in_combine_l in Ic. pose proof (proj1 (Forall_forall _ _) Hu _ Ic) as (((d & B) & S1 & S2 & cat & last & ex & Es & F) & Pl).
    cbn [fst snd] in *. unfold ready, part_pair, part_of. cbn [fst snd]. split; [now apply (opened_usable W fuel o d)|].
    split; [exact S1|]. split; [exact S2|]. split; [|exact Pl].
    apply (cut_stamps_of W fuel o d (cut_of x calls c) x _ cat last ex B); [now left|exact Es|exact F]. }
  rewrite <- Lu in Hrl.
  destruct (coadd_gen W fuel' sched loss n sh us Rr P m SP Hl Hr Hrl E)
    as (cs' & t' & parts & S & Q & ps & raw & A1 & A2 & A3 & A4 & A5 & A6 & A7 & A8 & A9 & B1 & B2 & B3 & B4).
  assert (Nu : forall k o x calls c, nth_error hs k = Some (o, x, calls) -> nth_error ls k = Some c ->
    nth_error us k = Some (opened W o (cut_of x calls c) x, calls)).
  { intros k o x calls c No Nl. unfold us. apply (map_nth_error (part_pair W) k _ (d := ((o, x, calls), c))).
    now apply combine_nth_error. }
  assert (Uo : forall u, In u us -> exists h c, In h hs /\ u = (opened W (fst (fst h)) c (snd (fst h)), snd h)).
  { intros u Iu. unfold us in Iu. apply in_map_iff in Iu as ([h c] & <- & Ic). apply in_combine_l in Ic. eexists h, _. split; [exact Ic|reflexivity]. }
  assert (Ou : forall h, In h hs -> exists c, In (opened W (fst (fst h)) c (snd (fst h)), snd h) us).
  { intros [[o x] calls] Ia. apply In_nth_error in Ia as (k & Nk). assert (Lt : (k < length ls)%nat) by (rewrite Ll; apply nth_error_Some; congruence).
    destruct (nth_error ls k) as [c|] eqn:Nl; [|apply nth_error_None in Nl; lia]. exists (cut_of x calls c).
    apply (nth_error_In us k). exact (Nu k o x calls c Nk Nl). }
  assert (Fc : Forall2 (fun h c => l_looked W (live_of W h) = Ok c) hs cs).
  { clear - Ec. revert cs Ec. induction hs as [|a hs IH]; cbn [map mapM]; intros cs Ec; [injection Ec as <-; constructor|].
    destruct (l_looked W (live_of W a)) as [c|] eqn:B; [|discriminate]. cbn [bind] in Ec.
    destruct (mapM _ (map _ hs)) as [cs'|]; [|discriminate]. cbn [bind] in Ec. injection Ec as <-. constructor; [exact B|now apply IH]. }
  assert (Ecs : cs' = cs).
  { assert (M2 : mapM (fun x => fst (Session.best_sources (bu_lib x) (bu_attr x))) (map (fun u => after (snd u) (fst u)) us) = Ok cs).
    { rewrite <- Ec. symmetry. apply (live_looks W fuel sh hs ls); [now rewrite Ll|exact Hu]. }
    clear - A1 M2. revert cs cs' A1 M2. induction us as [|u us IH]; intros cs cs' A1 M2; inversion A1 as [|? c1 ? ? B A1']; subst.
    - cbn in M2. now injection M2.
    - cbn [map mapM] in M2. change (bu_lib (after (snd u) (fst u))) with (bu_lib (fst u)) in M2. rewrite B in M2. cbn [bind] in M2.
      destruct (mapM _ (map _ us)) as [cs1|] eqn:M3; [|discriminate]. cbn [bind] in M2. injection M2 as <-. f_equal. now apply (IH cs1). }
  subst cs'. assert (t' = t) by congruence. subst t'.
  exists cs, t, parts, S, Q, ps, raw. split; [exact Fc|]. split; [exact Et|]. split; [congruence|]. split.
  { intros k o x calls c p No Nc Np.
    assert (Lt : (k < length ls)%nat) by (rewrite Ll; apply nth_error_Some; congruence).
    destruct (nth_error ls k) as [c0|] eqn:Nl; [|apply nth_error_None in Nl; lia].
    destruct (A4 k _ c p (Nu k o x calls c0 No Nl) Nc Np) as (left & z & D1 & D2 & D3 & D4 & D5 & D6).
    fold ls in D1. rewrite Nl in D1. injection D1 as <-. cbn [fst snd] in *. cbn [opened bu_back] in D5.
    exists c0, z. auto. }
  split; [exact A5|]. split; [exact A6|]. split; [exact A7|]. split.
  { destruct A8 as (u & Iu & Eps). destruct (Uo u Iu) as (h & c & Ih & ->). exists h. split; [exact Ih|exact Eps]. }
  split.
  { intros h Ih. destruct (Ou h Ih) as (c & Ic). exact (A9 _ Ic). }
  split; [exact B1|]. split; [exact B2|]. split; [exact B3|].
  destruct B4 as (V1 & V2 & V3). split; [|split; [|exact V3]].
  - intros i j Hi Hj. rewrite (V1 i j Hi Hj). split.
    + intros (u & Iu & Mu). destruct (Uo u Iu) as (h & c & Ih & ->). exists h. split; [exact Ih|exact Mu].
    + intros (h & Ih & Mu). destruct (Ou h Ih) as (c & Ic). eexists. split; [exact Ic|exact Mu].
  - rewrite V2. split.
    + intros H h i j Ih Hi Hj. destruct (Ou h Ih) as (c & Ic). exact (H _ i j Ic Hi Hj).
    + intros H u i j Iu Hi Hj. destruct (Uo u Iu) as (h & c & Ih & ->). exact (H h i j Ih Hi Hj).
Qed.
