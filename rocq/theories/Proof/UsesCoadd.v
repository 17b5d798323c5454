(** What a coadd uses of images built from pixels. *)
From Coq Require Import ZArith List Bool Arith Reals Lia Lra Permutation.
From Coquelicot Require Import Complex.
From Verif.Model Require Import Py Plane Ma Interp Coadd Subtract Filter Sources Stamps Transparency KL Session Chain ChainCoadd.
From Verif.Spec Require Import Session Uses UsesCoadd.
From Verif.Proof Require Import Session SessionBad SessionHist SessionMain SessionFrame SessionLm ChainUnits Uses.
Import ListNotations.
Local Open Scope R_scope.
Set Bullet Behavior "Strict Subproofs".

(** Without stamps nothing was filtered. *)
Lemma unread_memory cs : forall lk m, stamps_read lk cs = false -> m_norm m = None -> m_filt m = None -> m_loss m = 2 / 10 ->
  let m' := fold_left (fun m c => recall c m) cs m in
  m_norm m' = None /\ m_filt m' = None /\ m_loss m' = 2 / 10.
Proof.
  induction cs as [|c cs IH]; intros lk m H N F Ls; [cbn; auto|].
  destruct c; cbn [stamps_read] in H; try discriminate.
  - apply (IH true); auto.
  - apply (IH lk); auto.
  - destruct lk; [discriminate|]. apply (IH false); auto.
Qed.

Section One.
Variables NI FT IM : Type.
Notation state := (si NI FT IM).
Variable L : lib NI FT IM.
Variable sh : nat * nat.
Variable s0 : state.
Variable cs : list call.
Variable left : list src.
Variables loss z : R.
Variable sp : list (plane R) * list (R * R).
Hypothesis Hok : lib_ok L.
Hypothesis Hn : new_image L sh s0.
Hypothesis Hsp : stamps_of _ _ _ L sh = Ok sp.
Hypothesis Hp : Forall plain cs.
Hypothesis Hl : 0 <= loss.

Let L' := if stamps_read (looked_at s0) cs then L else given L left.
Let s' := exec L (CCoadd loss z) (set_best _ _ _ (Some left) (exec_all L cs s0)).
Let mem := history (cs ++ [CCoadd loss z]).

Lemma selected : exists cat st p k, select L = Ok cat /\ extract L sh cat = (st, Ok (p, k)).
Proof.
  unfold stamps_of in Hsp. destruct (select L) as [cat|]; [|discriminate].
  destruct (extract L sh cat) as [st [[p k]|]] eqn:E; [|discriminate]. eauto 8.
Qed.

Lemma first_virgin cat : select L = Ok cat -> virgin _ _ _ sh cat (looked_at s0) s0.
Proof.
  intros Hs. exists 1. destruct Hn as [->|(c & Hc & ->)]; cbn; [reflexivity|]. rewrite Hs in Hc. now injection Hc as ->.
Qed.

(** The state after the coadd has set it up. *)
Lemma coadd_reached : exists m, reached NI FT IM L' sh s' m /\ best s' <> None /\
  (fst (made_of (need_filt m)) = loss /\ snd (made_of (need_filt m)) = snd (made_of (need_filt mem)) /\
   norm_loss (need_filt m) = norm_loss (need_filt mem)) /\
  m_loss m = loss /\ m_zp m = z.
Proof.
  destruct selected as (cat & st & p & k & Hs & He).
  pose proof (virgin_all _ _ _ L sh cat st p k Hs He cs (looked_at s0) s0 Hp (first_virgin cat Hs)) as X.
  assert (Pc : Forall plain [CCoadd loss z]) by (constructor; [exact Hl|constructor]).
  assert (Em : mem = recall (CCoadd loss z) (history cs)) by (unfold mem, history; now rewrite fold_left_app).
  assert (Lm : m_loss mem = loss /\ m_zp mem = z) by (rewrite Em; split; reflexivity).
  set (s := exec_all L cs s0) in *.
  assert (Bs : best (set_best _ _ _ (Some left) s) <> None) by discriminate.
  destruct (same_exec NI FT IM L left (CCoadd loss z) (set_best _ _ _ (Some left) s) I Bs) as [Es Bn].
  fold s' in Es, Bn.
  unfold L'. destruct (stamps_read (looked_at s0) cs) eqn:Sr.
  - exists mem. split; [|split; [exact Bn|split; [|exact Lm]]].
    + pose proof (reached_history NI FT IM L sh s0 cs Hok Hn Hp) as Rd. fold s in Rd.
      assert (Rd' : reached NI FT IM L sh (set_best _ _ _ (Some left) s) (history cs)).
      { destruct Rd as (J & mode & (Js & I) & H1 & H2 & H3 & H4 & H5 & H6 & H7 & H8 & H9 & H10 & H11). exists J, mode.
        split; [split; [now apply H10|exact I]|]. auto 12. }
      apply (reached_all NI FT IM L sh [CCoadd loss z]) in Rd'; [|exact Pc]. rewrite Em. exact Rd'.
    + split; [rewrite made_of_loss; apply Lm|]. split; reflexivity.
  - destruct X as (lk & (z0 & Ez) & _).
    exists (history [CSetZp z0; CCoadd loss z]). split; [|split; [exact Bn|split]].
    + rewrite Es.
      assert (E1 : exec (given L left) (CCoadd loss z) (set_best _ _ _ (Some left) s) =
                   exec_all (given L left) [CSetZp z0; CCoadd loss z] (fresh NI FT IM sh (Some left))).
      { rewrite Ez. reflexivity. }
      rewrite E1. apply reached_history.
      * exact Hok.
      * right. exists left. now split.
      * constructor; [exact I|exact Pc].
    + destruct (unread_memory cs _ (remember (2 / 10) 1 None None None) Sr eq_refl eq_refl eq_refl) as (A & B & D). fold (history cs) in A, B, D.
      split; [rewrite made_of_loss; reflexivity|].
      assert (Q : need_filt mem = remember loss z (Some loss) (Some (loss, z)) (m_comp (history cs))).
      { rewrite Em. unfold recall. cbn [loss_of zp_of]. unfold need_filt. cbn [m_filt]. rewrite B.
        unfold need_norm. cbn [m_norm m_loss m_zp m_filt m_comp]. rewrite A. reflexivity. }
      rewrite Q. split; reflexivity.
    + split; reflexivity.
Qed.

Lemma coadd_filter :
  fst (s_hat_comp L s') = filt_for L' sh loss (snd (made_of (need_filt mem))) (norm_loss (need_filt mem)).
Proof.
  destruct coadd_reached as (m & Rd & Bn & (M1 & M2 & M3) & Ml & Mz).
  assert (Eh : s_hat_comp L s' = s_hat_comp L' s').
  { destruct (same_shat NI FT IM L left s' Bn) as [E _]. unfold L'. now destruct (stamps_read _ _). }
  pose proof (reached_filt NI FT IM L' sh s' m Rd) as Rf. now rewrite <- Eh, M1, M2, M3 in Rf.
Qed.

(** The answers used by the coadd. *)
Lemma coadd_answers q : psf_for L' sh loss = Ok q ->
  fst (s_hat_comp L s') = filt_for L' sh loss (snd (made_of (need_filt mem))) (norm_loss (need_filt mem)) /\
  let s2 := snd (s_hat_comp L s') in
  get_zp _ _ _ s2 = z /\ inf_loss s2 = loss /\ stamp_shape s2 = (fst sh + 6, snd sh + 6)%nat /\
  fst (Session.kl_basis _ _ _ L s2) = Ok (snd q) /\
  fst (kl_afields _ _ _ L (snd (Session.kl_basis _ _ _ L s2))) = Ok (fst q).
Proof.
  intros Q. destruct coadd_reached as (m & Rd & Bn & (M1 & M2 & M3) & Ml & Mz).
  assert (Same : forall A (f : lib NI FT IM -> M NI FT IM A), same NI FT IM (f L) (f (given L left)) ->
            f L s' = f L' s' /\ best (snd (f L s')) <> None).
  { intros A f H. destruct (H s' Bn) as [E B]. split; [|exact B]. unfold L'. now destruct (stamps_read _ _). }
  destruct (Same _ (fun L => s_hat_comp L) (same_shat NI FT IM L left)) as [Eh Bh].
  pose proof (reached_filt NI FT IM L' sh s' m Rd) as Rf. rewrite <- Eh, M1, M2, M3 in Rf.
  split; [exact Rf|]. intros s2. fold s2 in Bh.
  assert (Rd2 : reached NI FT IM L' sh s2 (recall CSHat m)).
  { apply (reached_all NI FT IM L' sh [CSHat]) in Rd; [|constructor; [exact I|constructor]].
    cbn [fold_left] in Rd. unfold s2. rewrite Eh. exact Rd. }
  destruct (reached_loss _ _ _ _ _ _ _ Rd2) as (Lo & Lo0 & Zp).
  assert (Fl : m_loss (recall CSHat m) = loss /\ m_zp (recall CSHat m) = z).
  { unfold recall. cbn [loss_of zp_of m_loss m_zp]. unfold need_filt. destruct (m_filt m) as [[l1 z1]|].
    - destruct (Req_EM_T l1 (m_loss m)); [now split|]. destruct (need_norm_same m) as (A & B & _). cbn. now rewrite A, B.
    - destruct (need_norm_same m) as (A & B & _). cbn. now rewrite A, B. }
  destruct Fl as [Fl Fz].
  split; [unfold get_zp; now rewrite Zp, Fz|]. split; [now rewrite Lo, Fl|].
  destruct (same_basis NI FT IM L left s2 Bh) as [Eb Bb].
  destruct (same_afields NI FT IM L left _ Bb) as [Ea _].
  assert (Eb' : Session.kl_basis _ _ _ L s2 = Session.kl_basis _ _ _ L' s2) by (unfold L'; now destruct (stamps_read _ _)).
  assert (Ea' : kl_afields _ _ _ L (snd (Session.kl_basis _ _ _ L s2)) = kl_afields _ _ _ L' (snd (Session.kl_basis _ _ _ L s2)))
    by (unfold L'; now destruct (stamps_read _ _)).
  destruct Rd2 as (J & mode & (Js & I2) & H1 & H2 & H3 & H4 & H5 & H6 & H7 & H8 & H9 & H10 & H11).
  split.
  - (* the stamp shape *)
    assert (Sel : exists cat st p k, select L' = Ok cat /\ extract L' sh cat = (st, Ok (p, k))).
    { unfold psf_for, stamps_of in Q. destruct (select L') as [cat|]; [|discriminate].
      destruct (extract L' sh cat) as [st [[p k]|]] eqn:E; [|discriminate]. eauto 8. }
    destruct Sel as (cat & st & p & k & Hs' & He').
    destruct (H9 cat st p k s2 Hs' He' Js) as [Fr|Rdy]; [exfalso|exact (r_sh _ _ _ _ _ _ _ _ Rdy)].
    assert (Ps : pos s' <> None).
    { destruct selected as (cat1 & st1 & p1 & k1 & Hs1 & He1).
      pose proof (virgin_all _ _ _ L sh cat1 st1 p1 k1 Hs1 He1 cs (looked_at s0) s0 Hp (first_virgin cat1 Hs1)) as X.
      destruct (stamps_read (looked_at s0) cs) eqn:Sr.
      - exact (hp_exec_all NI FT IM L [CCoadd loss z] (set_best _ _ _ (Some left) (exec_all L cs s0)) X).
      - destruct X as (lk & (z0 & Ez) & _). unfold s'. rewrite Ez.
        assert (B1 : best (set_best NI FT IM (Some left) (set_zp NI FT IM (Some z0) (fresh NI FT IM sh (if lk then Some cat1 else None)))) <> None)
          by discriminate.
        destruct (same_exec NI FT IM L left (CCoadd loss z) _ I B1) as [-> _].
        assert (Hs2 : select (given L left) = Ok cat /\ extract (given L left) sh cat = (st, Ok (p, k))).
        { unfold L' in Hs', He'. now split. }
        destruct Hs2 as [Hs2 He2]. cbn in Hs2. injection Hs2 as <-.
        pose proof (takes_fields NI FT IM (given L left) sh left st p k eq_refl He2 (Some loss) false (Some z) (2 / 10) true) as T.
        exact T. }
    assert (P2 : pos s2 <> None) by exact (hp_shat NI FT IM L s' Ps).
    destruct Fr. now apply P2.
  - destruct (proj1 H11 s2 q Js) as [K1 K2]; [rewrite Lo; exact Lo0|rewrite Lo, Fl; exact Q|].
    rewrite <- Eb' in K1, K2. rewrite <- Ea' in K2. now split.
Qed.

(** Nothing is raised when the stars give a PSF. *)
Lemma coadd_ready q : psf_for L' sh loss = Ok q ->
  fst (setup_kl_a_fields _ _ _ L (Some loss) false
         (set_zp _ _ _ (Some z) (set_best _ _ _ (Some left) (exec_all L cs s0)))) = Ok tt /\
  exists h, fst (s_hat_comp L s') = Ok h.
Proof.
  intros Q. set (s1 := set_zp _ _ _ (Some z) (set_best _ _ _ (Some left) (exec_all L cs s0))).
  assert (B1 : best s1 <> None) by discriminate.
  assert (Rd : exists m, reached NI FT IM L' sh s1 m).
  { destruct selected as (cat & st & p & k & Hs & He).
    pose proof (virgin_all _ _ _ L sh cat st p k Hs He cs (looked_at s0) s0 Hp (first_virgin cat Hs)) as X.
    unfold L'. destruct (stamps_read (looked_at s0) cs) eqn:Sr.
    - exists (fold_left (fun m c => recall c m) [CSetZp z] (history cs)).
      pose proof (reached_history NI FT IM L sh s0 cs Hok Hn Hp) as Rd.
      assert (Rd' : reached NI FT IM L sh (set_best _ _ _ (Some left) (exec_all L cs s0)) (history cs)).
      { destruct Rd as (J & mode & (Js & I) & H1 & H2 & H3 & H4 & H5 & H6 & H7 & H8 & H9 & H10 & H11). exists J, mode.
        split; [split; [now apply H10|exact I]|]. auto 12. }
      apply (reached_all NI FT IM L sh [CSetZp z]) in Rd'; [exact Rd'|]. constructor; [exact I|constructor].
    - destruct X as (lk & (z0 & Ez) & _). exists (history [CSetZp z]).
      assert (E1 : s1 = exec_all (given L left) [CSetZp z] (fresh NI FT IM sh (Some left))) by (unfold s1; rewrite Ez; reflexivity).
      rewrite E1. apply reached_history; [exact Hok|right; exists left; now split|]. constructor; [exact I|constructor]. }
  destruct Rd as (m & Rd). split.
  - destruct (same_fields NI FT IM L left (Some loss) false s1 B1) as [E _].
    assert (E' : setup_kl_a_fields _ _ _ L (Some loss) false s1 = setup_kl_a_fields _ _ _ L' (Some loss) false s1)
      by (unfold L'; now destruct (stamps_read _ _)).
    rewrite E'. pose proof (reached_loss _ _ _ _ _ _ _ Rd) as (Lo & Lo0 & _).
    destruct Rd as (J & mode & (Js & I2) & H1 & H2 & H3 & H4 & H5 & H6 & H7 & H8 & H9 & H10 & H11).
    apply (proj2 H11 loss s1 q Hl Js); [rewrite Lo; exact Lo0|exact Q].
  - rewrite coadd_filter. unfold filt_for. rewrite Q. cbn [bind].
    assert (exists q', psf_for L' sh (norm_loss (need_filt mem)) = Ok q') as (q' & Q').
    { destruct coadd_reached as (m' & Rd' & _ & (_ & _ & M3) & _). rewrite <- M3.
      destruct Rd' as (J & mode & (Js & I2) & H1 & _). rewrite (H1 loss Hl) in Q.
      assert (N : 0 <= norm_loss (need_filt m')).
      { destruct I2 as (_ & _ & Mo & _). apply norm_loss_nonneg. now apply need_filt_ok. }
      rewrite (H1 _ N). destruct mode; [eauto|discriminate]. }
    unfold norm_for. rewrite Q'. cbn [bind]. eauto.
Qed.
End One.
