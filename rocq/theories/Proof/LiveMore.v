(** Images that were given other sources after their stamps were cut. *)
From Coq Require Import ZArith List Bool Arith Reals Lia Lra Permutation.
From Coquelicot Require Import Complex.
From Verif.Model Require Import Py Plane Ma Interp Coadd Subtract FindS Filter Sources Stamps Cut KL Session Transparency Chain Again SubAgain CutChain Live LiveSub.
From Verif.Spec Require Import Stamps Chain Session Uses Cut CutCoadd Live LiveMore.
From Verif.Proof Require Import Session SessionBad SessionHist SessionMain SessionLm Chain ChainMain ChainUnits Uses SubAgain CutMain CutLeft CutChain CutChainLeft CutUses Live LiveSame LiveMain LiveSub.
Import ListNotations.
Set Bullet Behavior "Strict Subproofs".
Local Open Scope R_scope.

Section One.
Variable W : libs.
Variables (o : choices) (x : built) (c k : list src) (ps : list (R * R)).
Hypothesis Sel : Session.select (bu_lib x) = Ok c.
Notation L := (live_lib W o x).
Notation Ly := (bu_lib (opened W o k x)).
Notation Lk := (given (bu_lib (opened W o k x)) k).
Notation sh := (stamp_shape (bu_attr x)).
Notation sin := (since _ _ _ _ ps (goodG W o x k)).

Lemma exec_since cl p s : no_new_sources cl -> Verif.Spec.Live.same_stamps cl -> cl <> CClean -> sin p s ->
  exists p' s', l_exec L cl (p, s) = (p', s') /\ Session.exec Ly cl s = s' /\ sin p' s'.
Proof.
  intros N O Cl S. rewrite <- (still_gone W o x k).
  assert (V : forall X (m : LM _ _ _ _ X) m', simB _ _ _ _ ps (goodG W o x k) m m' ->
    exists p' s', lvoid _ _ _ _ m (p, s) = (p', s') /\ void _ _ _ m' s = s' /\ sin p' s').
  { intros X m m' HB. unfold lvoid, void. destruct (HB p s S) as (r & p' & s' & E1 & E2 & K). rewrite E1, E2. cbn. eauto. }
  destruct cl; cbn [l_exec Session.exec no_new_sources Verif.Spec.Live.same_stamps] in *; try contradiction; try subst.
  - apply V. eapply best_B. exact Sel.
  - apply V. eapply stamps_B.
  - apply V. eapply n_B.
  - apply V. eapply cov_B.
  - apply V. eapply eig_B.
  - apply V. eapply basis_B.
  - apply V. eapply afields_B. exact Sel.
  - apply V. eapply psf_B. exact Sel.
  - apply V. eapply normal_B. exact Sel.
  - apply V. eapply shat_B; [exact Sel|apply goodGS|apply goodGR].
  - apply V. eapply scomp_B; [exact Sel|apply goodGS|apply goodGR].
  - cbn [fst snd]. assert (S1 : sin p (set_zp _ _ _ (Some z) s)) by exact S.
    unfold lvoid, void.
    destruct (fields_B _ _ _ _ L (untouched x) (picG W o x k) c ps (goodG W o x k) Sel (Some l) false p (set_zp _ _ _ (Some z) s) S1)
      as (r & p2 & t2 & E1 & E2 & G2).
    rewrite E1, E2. cbn. eauto.
  - exists p, (set_zp _ _ _ (Some z) s). auto.
  - exists p, (set_inf_loss l s). auto.
Qed.

(** The stamps are those of the sources [k], and the image has a catalogue. *)
Definition settled (s : lstate) : Prop :=
  sin (fst s) (snd s) /\ best (snd s) <> None /\ exists m, reached _ _ _ Lk sh (snd s) m.

Lemma settled_best l s : settled s -> settled (fst s, set_best _ _ _ (Some l) (snd s)).
Proof.
  intros (S & _ & m & Re). split; [exact S|]. split; [discriminate|]. exists m. cbn [snd].
  destruct Re as (J & mode & (Js & I) & H1 & H2 & H3 & H4 & H5 & H6 & H7 & H8 & H9 & H10). exists J, mode.
  split; [split; [apply (proj1 H10); [exact Js|destruct S as (_ & S & _); rewrite S; discriminate]|exact I]|]. auto 12.
Qed.

Lemma settled_step cl s : later cl -> settled s -> settled (l_exec L cl s).
Proof.
  intros P H. destruct cl as [| | | | | | |l q| | | |l z|z|new|l|q|] eqn:Ec.
  14:{ cbn [l_exec]. unfold lvoid, l_update_sources. destruct H as (S & B & m & Re). destruct (best (snd s)) as [b|] eqn:Eb; [|congruence].
    destruct new as [l|].
    - change (settled (fst s, set_best _ _ _ (Some l) (snd s))). apply settled_best. split; [exact S|]. split; [congruence|]. now exists m.
    - assert (E : snd ((lbind _ _ _ _ (lupd _ _ _ _ (set_best _ _ _ None)) (fun _ =>
          lbind _ _ _ _ (l_best_sources L) (fun _ => lbind _ _ _ _ (l_n_sources _ _ _ _ L) (fun _ => lret _ _ _ _ tt)))) s) =
          (fst s, set_best _ _ _ (Some c) (snd s))).
      { unfold lbind, lupd, l_best_sources, Session.best_sources. cbn [fst snd].
        change (best (set_best _ _ _ None (snd s))) with (@None (list src)). cbn [live_lib base]. cbv iota. rewrite Sel. cbn [fst snd].
        unfold l_n_sources. cbn [snd]. destruct S as (_ & _ & S3 & _).
        change (nsrc (set_best _ _ _ (Some c) (set_best _ _ _ None (snd s)))) with (nsrc (snd s)). rewrite S3. reflexivity. }
      rewrite E. apply settled_best. split; [exact S|]. split; [congruence|]. now exists m. }
  all: rewrite <- Ec; assert (N : no_new_sources cl) by (rewrite Ec; exact I);
    assert (Pl : plain cl) by (rewrite Ec; exact P); assert (Cl : cl <> CClean) by (rewrite Ec; first [discriminate|contradiction]).
  all: assert (O : Verif.Spec.Live.same_stamps cl) by (pose proof (plain_stamps [cl] ltac:(repeat constructor; exact Pl)) as F; now inversion F).
  all: clear Ec P; destruct H as (S & B & m & Re); destruct s as [p s]; cbn [fst snd] in *;
    destruct (exec_since cl p s N O Cl S) as (p' & s' & E1 & E2 & S'); rewrite E1;
    destruct (Verif.Proof.Uses.same_exec _ _ _ Ly k cl s N B) as [E3 B']; rewrite E2 in E3, B';
    (split; [exact S'|]; split; [exact B'|]);
    eexists; cbn [snd]; rewrite E3; apply (reached_all _ _ _ Lk sh [cl] s m Re); repeat constructor; exact Pl.
Qed.

Lemma settled_all cs : Forall later cs -> forall s, settled s -> settled (l_exec_all L cs s).
Proof. induction 1 as [|cl cs P F IH]; intros s H; [exact H|]. unfold l_exec_all. cbn [fold_left]. apply IH. now apply settled_step. Qed.

Lemma settled_psf s l : settled s -> 0 <= l ->
  fst (l_get_variable_psf L (Some l) None s) = psf_for Lk sh l /\ fst (l_stamps_pos L s) = Ok ps /\
  goodG W o x k (fst s) /\ settled (snd (l_get_variable_psf L (Some l) None s)).
Proof.
  intros H Hl. pose proof (settled_step (CGetPSF (Some l) None) s (conj Hl eq_refl) H) as H'. cbn [l_exec] in H'. unfold lvoid in H'.
  destruct H as (S & B & m & Re). destruct s as [p s]. cbn [fst snd] in *.
  destruct (psf_B _ _ _ _ L (untouched x) (picG W o x k) c ps (goodG W o x k) Sel (Some l) p s S) as (r & p2 & t2 & E1 & E2 & G2).
  rewrite (still_gone W o x k) in E2. split; [|split; [|split; [exact (proj2 (proj2 (proj2 S)))|exact H']]].
  - rewrite E1. cbn [fst]. pose proof (reached_psf _ _ _ Lk sh s m (Some l) Re Hl) as Q.
    destruct (Verif.Proof.Uses.same_psf _ _ _ Ly k (Some l) None s B) as [E3 _]. rewrite E2 in E3. rewrite <- E3 in Q. exact Q.
  - destruct (stamps_B _ _ _ _ L (untouched x) (picG W o x k) ps (goodG W o x k) p s S) as (r' & p3 & t3 & E3 & E4 & _).
    rewrite E3. cbn [fst]. unfold Session.stamps_pos, Session.reshaped in E4. destruct S as (S1 & S2 & _). rewrite S1, S2 in E4. now injection E4 as <- _.
Qed.
End One.

Lemma given_same NI FT IM (L : lib NI FT IM) c : Session.select L = Ok c -> given L c = L.
Proof. destruct L. cbn. now intros ->. Qed.

(** The calls on an image that a subtraction makes. *)
Lemma settle_first W fuel o d x pre c ex left z l0 : (forall n m, length (fst (l_eigh W n m)) = n) ->
  build W fuel o d = Some (Ok x) -> Forall plain pre -> fst (Session.best_sources (bu_lib x) (bu_attr x)) = Ok c -> 0 <= l0 ->
  let k := if stamps_read (looked_at (bu_attr x)) pre then c else left in
  snd (first_cut W o x k) = Ok ex ->
  settled W o x k (ex_pos ex) (lived W o (pre ++ [CBestSources; CUpdateSources (Some left); CSetZp z; CGetPSF (Some l0) None]) x).
Proof.
  intros EL Bx F Bs Hl k First. destruct (build_catalogue _ _ _ _ _ _ Bx Bs) as [Hsel New].
  destruct (build_lib _ _ _ _ _ Bx) as (Dx & Lx & _).
  assert (LO : forall c, lib_ok (bu_lib (opened W o c x))) by (intros; apply opened_ok; rewrite Lx; exact EL).
  assert (V0 : virgin _ _ _ (stamp_shape (bu_attr x)) c (looked_at (bu_attr x)) (bu_attr x)).
  { exists 1. destruct New as [N|(c' & S & N)].
    - rewrite N. reflexivity.
    - rewrite N. cbn. assert (c' = c) by congruence. now subst c'. }
  unfold lived, l_exec_all. rewrite fold_left_app. change (fold_left _ pre _) with (lived W o pre x). set (s := lived W o pre x).
  cbn [fold_left]. revert First. unfold k. clear k. destruct (stamps_read (looked_at (bu_attr x)) pre) eqn:Rd; intros First.
  - assert (Ny : new_image (bu_lib (opened W o c x)) (stamp_shape (bu_attr x)) (bu_attr x)) by exact New.
    destruct (live_all W o x c ex Hsel New First pre (plain_stamps pre F)) as [A G]. fold s in A, G.
    assert (Ext : exists st p kk, extract (bu_lib (opened W o c x)) (stamp_shape (bu_attr x)) c = (st, Ok (p, kk))).
    { destruct (first_dump W o x c ex First) as (del & D & K). unfold opened. cbn [bu_lib extract]. unfold cut_for.
      rewrite D. cbn [bind]. eauto. }
    destruct Ext as (st & p & kk & Ext).
    pose proof (virgin_all _ _ _ (bu_lib (opened W o c x)) (stamp_shape (bu_attr x)) c st p kk Hsel Ext pre (looked_at (bu_attr x)) (bu_attr x) F V0) as P.
    rewrite Rd in P. change (exec_all (bu_lib (opened W o c x)) pre (bu_attr x)) with (bu_attr (after pre (opened W o c x))) in P.
    rewrite <- A in P. destruct G as [G|[_ G]]; [|destruct G as (_ & _ & _ & G & _); contradiction].
    pose proof (reached_history _ _ _ (bu_lib (opened W o c x)) (stamp_shape (bu_attr x)) (bu_attr x) pre (LO c) Ny F) as Re.
    change (exec_all (bu_lib (opened W o c x)) pre (bu_attr x)) with (bu_attr (after pre (opened W o c x))) in Re. rewrite <- A in Re.
    assert (S0 : since _ _ _ _ (ex_pos ex) (goodG W o x c) (fst s) (snd s)).
    { destruct G as (Q1 & Q2 & Q3 & Q4). repeat split; try assumption; destruct Q4 as [Q4 Q5].
      - rewrite (first_gone' W o x _ ex First) in Q4. exact Q4.
      - rewrite (first_gone' W o x _ ex First) in Q5. exact Q5. }
    assert (St : settled W o x c (ex_pos ex) (l_exec (live_lib W o x) CBestSources s)).
    { clearbody s. clear A P G. destruct s as [p1 s1]. cbn [fst snd] in *.
      destruct (exec_since W o x c c (ex_pos ex) Hsel CBestSources p1 s1 I I ltac:(discriminate) S0) as (p' & s' & E1 & E2 & S').
      rewrite E1. split; [exact S'|]. cbn [fst snd]. split.
      - rewrite <- E2. cbn [Session.exec]. unfold void, Session.best_sources. destruct (best s1) eqn:B; [cbn; congruence|].
        change (Session.select (bu_lib (opened W o c x))) with (Session.select (bu_lib x)). rewrite Hsel. discriminate.
      - rewrite (given_same _ _ _ (bu_lib (opened W o c x)) c Hsel). eexists. rewrite <- E2.
        apply (reached_all _ _ _ (bu_lib (opened W o c x)) _ [CBestSources] _ _ Re). now repeat constructor. }
    apply (settled_step W o x c c (ex_pos ex) Hsel); [exact (conj Hl eq_refl)|].
    apply (settled_step W o x c c (ex_pos ex) Hsel (CSetZp z)); [exact I|].
    apply (settled_step W o x c c (ex_pos ex) Hsel (CUpdateSources (Some left))); [exact I|exact St].
  - destruct (unread W o x c (stamp_shape (bu_attr x)) pre Hsel (looked_at (bu_attr x)) (untouched x) (bu_attr x) F V0 Rd)
      as (lk & sv & Es & (z0 & Ev)).
    assert (Es' : s = (untouched x, sv)) by exact Es. clearbody s. subst s sv.
    set (s1 := exec_all (given (bu_lib (opened W o left x)) left) [CSetZp z] (fresh _ _ _ (stamp_shape (bu_attr x)) (Some left))).
    assert (E0 : l_exec (live_lib W o x) (CSetZp z) (l_exec (live_lib W o x) (CUpdateSources (Some left)) (l_exec (live_lib W o x) CBestSources
        (untouched x, set_zp _ _ _ (Some z0) (fresh _ _ _ (stamp_shape (bu_attr x)) (if lk then Some c else None))))) = (untouched x, s1)).
    { assert (Eb : l_exec (live_lib W o x) CBestSources (untouched x, set_zp _ _ _ (Some z0) (fresh _ _ _ (stamp_shape (bu_attr x)) (if lk then Some c else None))) =
        (untouched x, set_zp _ _ _ (Some z0) (fresh _ _ _ (stamp_shape (bu_attr x)) (Some c)))).
      { cbn [l_exec]. unfold lvoid, l_best_sources, Session.best_sources. cbn [fst snd live_lib base]. destruct lk; [reflexivity|]. cbn. now rewrite Hsel. }
      rewrite Eb. reflexivity. }
    rewrite E0. clear E0.
    assert (Be : before _ _ _ (stamp_shape (bu_attr x)) left s1) by (unfold before; cbn; repeat split; auto).
    assert (Nb : best (snd (untouched x, s1)) <> None) by (cbn; discriminate).
    pose proof (first_cutting W o x left ex First) as Cu. rewrite (first_gone W o x left ex First) in Cu.
    destruct (s_psf _ _ _ _ (live_lib W o x) (Ok left) (Some l0) None _ Nb) as [Sm Sb].
    cbn [l_exec]. unfold lvoid. rewrite Sm in Sb |- *.
    destruct (psf_A _ _ _ _ (other _ _ _ _ (live_lib W o x) (Ok left)) (untouched x) (picG W o x left) (stamp_shape (bu_attr x)) left
      _ (ex_pos ex) _ (goodG W o x left) eq_refl Cu (goodG1 W o x left) (Some l0) s1 Be)
      as (rr & p2 & t2 & E1 & E2 & G2).
    rewrite E1 in Sb |- *. cbn [fst snd] in *. split; [exact G2|]. split; [exact Sb|].
    assert (St : still _ _ _ _ (other _ _ _ _ (live_lib W o x) (Ok left)) (untouched x) (picG W o x left) = given (bu_lib (opened W o left x)) left).
    { rewrite <- (still_gone W o x left). reflexivity. }
    rewrite St in E2. cbn [fst snd].
    exists (history [CSetZp z; CGetPSF (Some l0) None]).
    replace t2 with (exec_all (given (bu_lib (opened W o left x)) left) [CSetZp z; CGetPSF (Some l0) None] (fresh _ _ _ (stamp_shape (bu_attr x)) (Some left))).
    + apply reached_history; [exact (LO left)|right; exists left; now split|constructor; [exact I|constructor; [exact (conj Hl eq_refl)|constructor]]].
    + change (void _ _ _ (get_variable_psf (given (bu_lib (opened W o left x)) left) (Some l0) None) s1 = t2). unfold void. now rewrite E2.
Qed.

(** The stamps of an image are cut once, also when it is given other sources again and again.
    After any plain calls the image is given the sources [left] and a zero point, as a matching
    does, and its PSF is asked for. From then on, whatever sources it is given or told to look for
    and whatever plain calls are made, its PSF for every loss and its stamps stay those of one
    extraction from the image as it was built, and its pixels those that this extraction left. *)
Lemma C142_psf_lm : forall W fuel o d x pre c ex left z l0 post,
  (forall n m, length (fst (l_eigh W n m)) = n) ->
  build W fuel o d = Some (Ok x) -> fst (Session.best_sources (bu_lib x) (bu_attr x)) = Ok c ->
  Forall plain pre -> 0 <= l0 -> Forall later post ->
  let k := if stamps_read (looked_at (bu_attr x)) pre then c else left in
  snd (first_cut W o x k) = Ok ex ->
  let s := lived W o (pre ++ [CBestSources; CUpdateSources (Some left); CSetZp z; CGetPSF (Some l0) None] ++ post) x in
  (forall l, 0 <= l -> fst (l_get_variable_psf (live_lib W o x) (Some l) None s) =
     psf_for (given (bu_lib (opened W o k x)) k) (stamp_shape (bu_attr x)) l) /\
  fst (l_stamps_pos (live_lib W o x) s) = Ok (ex_pos ex) /\
  pic_now (fst s) = fst (first_cut W o x k) /\ spectral (fst s) = fst (first_cut W o x k).
Proof.
  intros W fuel o d x pre c ex left z l0 post EL Bx Bs Fp Hl Fq k First s.
  destruct (build_catalogue _ _ _ _ _ _ Bx Bs) as [Hsel _].
  assert (H : settled W o x k (ex_pos ex) s).
  { unfold s. rewrite app_assoc. unfold lived, l_exec_all. rewrite fold_left_app.
    apply (settled_all W o x c k (ex_pos ex) Hsel post Fq).
    exact (settle_first W fuel o d x pre c ex left z l0 EL Bx Fp Bs Hl First). }
  destruct (settled_psf W o x c k (ex_pos ex) Hsel s 0 H (Rle_refl 0)) as (_ & P2 & (P3 & P4) & _).
  assert (G : gone W o x k = fst (first_cut W o x k)).
  { rewrite <- (first_gone' W o x k ex First). reflexivity. }
  split; [intros l H0; exact (proj1 (settled_psf W o x c k (ex_pos ex) Hsel s l H H0))|].
  split; [exact P2|]. split; [now rewrite P3|]. unfold spectral. destruct P4 as [-> | ->]; congruence.
Qed.
