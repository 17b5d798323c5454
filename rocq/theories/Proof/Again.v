(** Coadding the same images again. *)
From Coq Require Import ZArith List Bool Arith Reals Lia Lra Permutation.
From Coquelicot Require Import Complex.
From Verif.Model Require Import Py Plane Ma Coadd.
From Verif.Spec Require Import Coadd.
From Verif.Proof Require Import Coadd CoaddThreads CoaddMain CoaddMore.
From Verif.Model Require Import Filter.
From Verif.Proof Require Import Filter FilterMain.
From Verif.Model Require Import Interp Subtract Filter Sources Stamps Transparency KL Session Chain ChainCoadd Again.
From Verif.Spec Require Import Transparency Session Uses UsesCoadd Again.
From Verif.Proof Require Import Transparency TransparencyMain TransparencyAgain.
From Verif.Proof Require Import Session SessionBad SessionHist SessionMain SessionFrame SessionLm Chain ChainUnits Uses UsesCoadd UsesCoaddMain.
Import ListNotations.
Local Open Scope R_scope.
Set Bullet Behavior "Strict Subproofs".

(** Once stamps were extracted the sources stay as they are; also when no star is rejected. *)
Section Settled.
Variables NI FT IM : Type.
Notation state := (si NI FT IM).
Variable L : lib NI FT IM.
Variable l0 : list src.

Definition loyal : Prop := forall sh st p k, extract L sh l0 = (st, Ok (p, k)) -> k = l0.
Definition settled (s : state) : Prop := best s = Some l0 /\ (loyal \/ pos s <> None /\ req_shape s = None).
Notation st := (pres NI FT IM settled).

Lemma st_upd f : (forall s, settled s -> settled (f s)) -> st (upd _ _ _ f).
Proof. exact (pres_upd _ _ _ _ f). Qed.

Ltac sm := repeat first
  [ apply pres_ret | apply pres_raise | apply pres_get
  | (apply st_upd; intros ? ?; assumption)
  | (apply pres_bind; [|intros ?]) ].

Lemma st_best : st (best_sources L).
Proof. intros s H. unfold best_sources. rewrite (proj1 H). exact H. Qed.

Lemma st_stamps : st (stamps_pos L).
Proof.
  intros s [B [Ly|[P Q]]].
  - unfold stamps_pos.
    assert (X : forall s1, best s1 = Some l0 -> settled (snd ((mbind _ _ _ (best_sources L) (fun cat =>
       mbind _ _ _ (get _ _ _) (fun s =>
       let sh := stamp_shape s in
       let '(stamps, r) := extract L sh cat in
       mbind _ _ _ (upd _ _ _ (set_db _ _ _ (Some stamps))) (fun _ =>
       match r with
       | Raise e => raise _ _ _ e
       | Ok (p, kept) =>
           mbind _ _ _ (upd _ _ _ (set_best _ _ _ (Some kept))) (fun _ =>
           mbind _ _ _ (upd _ _ _ (set_stamp_shape _ _ _ (fst sh + 6, snd sh + 6)%nat)) (fun _ =>
           mbind _ _ _ (upd _ _ _ (set_pos _ _ _ (Some p) (Some (length p)))) (fun _ => ret _ _ _ p)))
       end)))) s1))).
    { intros s1 B1. unfold mbind at 1, best_sources. rewrite B1. unfold mbind at 1, get at 1. cbn zeta.
      destruct (extract L (stamp_shape s1) l0) as [stt [[p k]|e]] eqn:E; cbn.
      - rewrite (Ly _ _ _ _ E). now split; [|left].
      - split; [exact B1|now left]. }
    destruct (pos s); destruct (reshaped _ _ _ s); try (split; [exact B|now left]); apply X; exact B.
  - unfold stamps_pos, reshaped. rewrite Q. destruct (pos s) eqn:Ep; [|now elim P].
    cbn. split; [exact B|]. right. split; [congruence|exact Q].
Qed.

Lemma st_n : st (n_sources L).
Proof.
  intros s H. unfold n_sources. destruct (nsrc s); [exact H|]. revert s H.
  apply pres_bind; [exact st_stamps|]. intros _. apply pres_bind; [apply pres_get|]. intros s1. destruct (nsrc s1); sm.
Qed.

Lemma st_cov : st (Session.cov_matrix _ _ _ L).
Proof.
  intros s H. unfold Session.cov_matrix. destruct (cov s); [exact H|]. revert s H.
  apply pres_bind; [exact st_n|]. intros n. apply pres_bind; [apply pres_get|]. intros s1.
  destruct (no_file _ _ _ _ _); [sm|]. destruct (Nat.ltb _ _); [sm|]. cbn zeta. destruct (KL.cov_matrix _ _); sm.
Qed.

Lemma st_eig : st (Session.eigenv _ _ _ L).
Proof.
  intros s H. unfold Session.eigenv. destruct (eig s); [exact H|]. revert s H.
  apply pres_bind; [exact st_cov|]. intros c. destruct (Nat.eqb _ _); [sm|]. cbn zeta. sm.
Qed.

Lemma st_build e : st (build_basis _ _ _ L e).
Proof.
  intros s H. unfold build_basis. destruct e as [valh vech]. destruct (mcols s) as [[rows stt]|].
  - destruct (_ || _); exact H.
  - apply pres_bind; [exact st_n| |exact H]. intros n. apply pres_bind; [apply pres_get|]. intros s1. cbn zeta.
    destruct (no_file _ _ _ _ _); [sm|]. destruct (Nat.ltb _ _); [sm|]. destruct (_ || _); sm.
Qed.

Lemma st_setup l : st (setup_kl_basis _ _ _ L l).
Proof.
  intros s H. unfold setup_kl_basis. destruct (_ || _); [|exact H].
  apply pres_bind; [destruct l; sm| |exact H]. intros _.
  apply pres_bind; [exact st_eig|]. intros e. apply pres_bind; [apply st_build|]. intros b. sm.
Qed.

Lemma st_basis : st (Session.kl_basis _ _ _ L).
Proof.
  intros s H. unfold Session.kl_basis. apply pres_bind; [destruct (basis s); [sm|apply st_setup]| |exact H].
  intros _. apply pres_bind; [sm|]. intros s1. destruct (basis s1); sm.
Qed.

Lemma st_fields l u : st (setup_kl_a_fields _ _ _ L l u).
Proof.
  intros s H. unfold setup_kl_a_fields. destruct (_ || _ || _); [|exact H].
  apply pres_bind; [| |exact H].
  - destruct l; [|sm]. apply pres_bind; [apply st_setup|]. intros _. sm.
  - intros _. apply pres_bind; [exact st_basis|]. intros b. cbn zeta. destruct (Nat.eqb _ _); [sm|].
    apply pres_bind; [exact st_best|]. intros _. apply pres_bind; [exact st_stamps|]. intros p.
    destruct (Nat.eqb _ _); [sm|]. apply pres_bind; [exact st_eig|]. intros e. cbn zeta.
    destruct (_ && _); sm.
Qed.

Lemma st_afields : st (kl_afields _ _ _ L).
Proof.
  intros s H. unfold kl_afields. apply pres_bind; [destruct (fields s); [sm|apply st_fields]| |exact H].
  intros _. apply pres_bind; [sm|]. intros s1. destruct (fields s1); sm.
Qed.

Lemma st_psf l : st (get_variable_psf L l None).
Proof.
  intros s H. unfold get_variable_psf. apply pres_bind; [sm| |exact H].
  intros _. apply pres_bind; [sm|]. intros s1. cbn zeta. apply pres_bind; [apply st_setup|]. intros _.
  apply pres_bind; [apply st_fields|]. intros _. apply pres_bind; [exact st_afields|]. intros a.
  apply pres_bind; [exact st_basis|]. intros b. destruct a as [|[|f fs]]; [destruct b|..]; sm.
Qed.

Lemma st_normal : st (normal_image L).
Proof.
  intros s H. unfold normal_image. destruct (normal s); [exact H|].
  apply pres_bind; [apply st_psf| |exact H]. intros q. cbn zeta. sm.
Qed.

Lemma st_shat : st (s_hat_comp L).
Proof.
  intros s H. unfold s_hat_comp. destruct (match shat s with None => true | Some (_, l) => _ end).
  - apply pres_bind; [apply st_psf| |exact H]. intros q. apply pres_bind; [exact st_normal|]. intros nrm.
    apply pres_bind; [sm|]. intros s1. cbn zeta. sm.
  - destruct (shat s) as [[h l]|]; exact H.
Qed.

Lemma settled_coadd l z s : settled s -> settled (exec_all L [CSHat; CBasis; CAfields] (exec L (CCoadd l z) s)).
Proof.
  intros H. cbn [exec_all fold_left exec]. unfold void.
  apply st_afields, st_basis, st_shat, st_fields. exact H.
Qed.
End Settled.

(** What is known of an image that was in a coadd: the library its PSF comes from, and what the
    user remembers. *)
Section Used.
Variable x : built.
Notation L := (bu_lib x).
Variable sh : nat * nat.
Variable Lp : lib (plane R) (res (plane C)) (res (plane R)).
Hypothesis HLp : Lp = L \/ exists left, Lp = given L left.
Notation state := (si (plane R) (res (plane C)) (res (plane R))).

Definition usable (s : state) (m : memory) : Prop :=
  reached _ _ _ Lp sh s m /\ best s <> None /\ pos s <> None.

Lemma same_Lp {A} (f : lib (plane R) (res (plane C)) (res (plane R)) -> M (plane R) (res (plane C)) (res (plane R)) A) (s : state) :
  (forall left, same _ _ _ (f L) (f (given L left))) -> best s <> None -> f L s = f Lp s /\ best (snd (f L s)) <> None.
Proof.
  intros H B. destruct HLp as [->|[left ->]]; [|exact (H left s B)]. split; [reflexivity|]. exact (proj2 (H [] s B)).
Qed.

Lemma usable_exec c s m : plain c -> no_new_sources c -> usable s m -> usable (exec L c s) (recall c m).
Proof.
  intros Pc N (Rd & B & P). assert (E : exec L c s = exec Lp c s /\ best (exec L c s) <> None).
  { destruct HLp as [->|[left ->]]; [split; [reflexivity|]|]; [exact (proj2 (same_exec _ _ _ L [] c s N B))|exact (same_exec _ _ _ L left c s N B)]. }
  destruct E as [E B']. split; [|split; [exact B'|exact (hp_exec_all _ _ _ L [c] s P)]].
  rewrite E. exact (reached_all _ _ _ Lp sh [c] s m Rd (Forall_cons _ Pc (Forall_nil _))).
Qed.

Lemma usable_best s m l : usable s m -> usable (set_best _ _ _ (Some l) s) m.
Proof.
  intros (Rd & B & P). split; [|split; [discriminate|exact P]].
  destruct Rd as (J & mode & (Js & I) & H1 & H2 & H3 & H4 & H5 & H6 & H7 & H8 & H9 & H10 & H11). exists J, mode.
  split; [split; [now apply H10|exact I]|]. auto 12.
Qed.

Lemma recall_shat m : m_loss (recall CSHat m) = m_loss m /\ m_zp (recall CSHat m) = m_zp m /\
  m_filt (recall CSHat m) = Some (made_of (need_filt m)) /\ m_norm (recall CSHat m) = m_norm (need_filt m).
Proof.
  unfold recall. cbn [loss_of zp_of m_loss m_zp m_filt m_norm]. destruct (need_norm_same m) as (A & B & _).
  unfold need_filt, made_of. destruct (m_filt m) as [[l1 z1]|] eqn:E.
  - destruct (Req_EM_T l1 (m_loss m)); [rewrite E; auto|]. cbn. rewrite A, B. auto.
  - cbn. rewrite A, B. auto.
Qed.

Lemma usable_set_up s m l z q : usable s m -> 0 <= l -> psf_for Lp sh l = Ok q ->
  fst (setup_kl_a_fields _ _ _ L (Some l) false (set_zp _ _ _ (Some z) s)) = Ok tt.
Proof.
  intros U Hl Q. assert (U2 : usable (set_zp _ _ _ (Some z) s) (recall (CSetZp z) m)) by exact (usable_exec (CSetZp z) s m I I U).
  destruct U2 as (Rd & B & P).
  destruct (same_Lp (fun L => setup_kl_a_fields _ _ _ L (Some l) false) _ (fun left => same_fields _ _ _ L left (Some l) false) B) as [-> _].
  pose proof (reached_loss _ _ _ _ _ _ _ Rd) as (Lo & Lo0 & _).
  destruct Rd as (J & mode & (Js & I2) & H1 & H2 & H3 & H4 & H5 & H6 & H7 & H8 & H9 & H10 & H11).
  apply (proj2 H11 l _ q Hl Js); [rewrite Lo; exact Lo0|exact Q].
Qed.

Lemma usable_ready s m l q : usable s m -> psf_for Lp sh l = Ok q ->
  stamp_shape s = (fst sh + 6, snd sh + 6)%nat /\ req_shape s = None.
Proof.
  intros (Rd & B & P) Q.
  assert (Sel : exists cat st p k, select Lp = Ok cat /\ extract Lp sh cat = (st, Ok (p, k))).
  { unfold psf_for, stamps_of in Q. destruct (select Lp) as [cat|]; [|discriminate].
    destruct (extract Lp sh cat) as [st [[p k]|]] eqn:E; [|discriminate]. eauto 8. }
  destruct Sel as (cat & st & p & k & Hs' & He').
  destruct Rd as (J & mode & (Js & I2) & H1 & H2 & H3 & H4 & H5 & H6 & H7 & H8 & H9 & H10 & H11).
  destruct (H9 cat st p k s Hs' He' Js) as [Fr|Rdy]; [destruct Fr; now elim P|].
  split; [exact (r_sh _ _ _ _ _ _ _ _ Rdy)|exact (r_req _ _ _ _ _ _ _ _ Rdy)].
Qed.

(** The image as the workers see it. *)
Lemma seen_is s m q : usable s m -> psf_for Lp sh (m_loss m) = Ok q ->
  coadd_seen (with_attr s x) =
  bind (filt_for Lp sh (m_loss m) (snd (made_of (need_filt m))) (norm_loss (need_filt m))) (fun h => bind h (fun h =>
  Ok (mksimg (shape (m_dat (bu_data x))) (Full (m_msk (bu_data x))) (b_rms (bu_back x)) (m_zp m) (m_loss m)
        (fst sh + 6) (fun _ => px h)
        (fun _ => px (psf_hat_sqnorm (shape (m_dat (bu_data x))) (on_pixels (fst q)) (map numbers (snd q))))
        (Some (px h)) (Some (m_loss m)) false true))).
Proof.
  intros U Q. pose proof (usable_exec CSHat s m I I U) as U2. destruct (recall_shat m) as (Ml & Mz & _ & _).
  destruct U as (Rd & B & P). destruct (same_Lp (fun L => s_hat_comp L) s (same_shat _ _ _ L) B) as [Eh Bh].
  pose proof (reached_filt _ _ _ Lp sh s m Rd) as Rf. rewrite <- Eh, made_of_loss in Rf.
  cbn [exec] in U2. unfold void in U2.
  unfold coadd_seen. change (bu_lib (with_attr s x)) with L. change (bu_attr (with_attr s x)) with s.
  destruct (s_hat_comp L s) as [rh s2]. cbn [fst snd] in *. subst rh.
  destruct (filt_for _ _ _ _ _) as [[h|]|]; cbn [bind]; [|reflexivity|reflexivity].
  destruct (usable_ready s2 _ _ q U2 Q) as [St _].
  destruct U2 as (Rd2 & B2 & P2). pose proof (reached_loss _ _ _ _ _ _ _ Rd2) as (Lo & Lo0 & Zp). rewrite Ml in Lo, Lo0. rewrite Mz in Zp.
  destruct (same_Lp (fun L => Session.kl_basis _ _ _ L) s2 (same_basis _ _ _ L) B2) as [Eb Bb].
  destruct (same_Lp (fun L => kl_afields _ _ _ L) _ (same_afields _ _ _ L) Bb) as [Ea _].
  destruct Rd2 as (J & mode & (Js & I2) & H1 & H2 & H3 & H4 & H5 & H6 & H7 & H8 & H9 & H10 & H11).
  destruct (proj1 H11 s2 q Js) as [K1 K2]; [rewrite Lo; exact Lo0|rewrite Lo; exact Q|].
  rewrite <- Eb in K1, K2. rewrite <- Ea in K2.
  unfold sqnorm_of. change (bu_lib (with_attr s2 (with_attr s x))) with L. change (bu_attr (with_attr s2 (with_attr s x))) with s2.
  destruct (Session.kl_basis _ _ _ L s2) as [rb s3]. cbn [fst snd] in *. subst rb. cbn [bind]. rewrite K2. cbn [bind].
  unfold get_zp. rewrite Zp, Lo, St. reflexivity.
Qed.

Lemma seen_psf s m v : usable s m -> coadd_seen (with_attr s x) = Ok v -> exists q, psf_for Lp sh (m_loss m) = Ok q.
Proof.
  intros (Rd & B & P). destruct (same_Lp (fun L => s_hat_comp L) s (same_shat _ _ _ L) B) as [Eh Bh].
  pose proof (reached_filt _ _ _ Lp sh s m Rd) as Rf. rewrite <- Eh, made_of_loss in Rf.
  unfold coadd_seen. change (bu_lib (with_attr s x)) with L. change (bu_attr (with_attr s x)) with s.
  destruct (s_hat_comp L s) as [rh s2]. cbn [fst snd] in *. subst rh. unfold filt_for.
  destruct (psf_for Lp sh (m_loss m)) as [q|]; [eauto|]. cbn [bind]. discriminate.
Qed.

(** The image in a coadd, then in a coadd with the same loss and zero point. *)
Lemma seen_again s m v left2 : usable s m -> coadd_seen (with_attr s x) = Ok v ->
  let s1 := set_zp _ _ _ (Some (m_zp m)) (set_best _ _ _ (Some left2) (exec_all L [CSHat; CBasis; CAfields] s)) in
  fst (setup_kl_a_fields _ _ _ L (Some (m_loss m)) false s1) = Ok tt /\
  coadd_seen (with_attr (snd (setup_kl_a_fields _ _ _ L (Some (m_loss m)) false s1)) x) = Ok v.
Proof.
  intros U E s1. destruct (seen_psf s m v U E) as [q Q]. rewrite (seen_is s m q U Q) in E.
  pose proof (reached_loss _ _ _ _ _ _ _ (proj1 U)) as (_ & Lo0 & _).
  assert (U1 : usable (exec_all L [CSHat; CBasis; CAfields] s) (recall CSHat m)).
  { pose proof (usable_exec CSHat s m I I U) as X1. pose proof (usable_exec CBasis _ _ I I X1) as X2.
    pose proof (usable_exec CAfields _ _ I I X2) as X3. exact X3. }
  assert (U2 : usable (set_best _ _ _ (Some left2) (exec_all L [CSHat; CBasis; CAfields] s)) (recall CSHat m)) by now apply usable_best.
  split; [exact (usable_set_up _ _ _ _ q U2 Lo0 Q)|].
  pose proof (usable_exec (CCoadd (m_loss m) (m_zp m)) _ _ Lo0 I U2) as U3. cbn [exec] in U3. unfold void in U3. fold s1 in U3.
  set (m3 := recall (CCoadd (m_loss m) (m_zp m)) (recall CSHat m)) in *.
  assert (M3 : m_loss m3 = m_loss m /\ m_zp m3 = m_zp m) by (split; reflexivity). destruct M3 as [M3l M3z].
  rewrite (seen_is _ m3 q U3); [|now rewrite M3l]. rewrite M3l, M3z.
  destruct (recall_shat m) as (Ml & Mz & Mf & Mn).
  assert (F3 : m_filt m3 = Some (made_of (need_filt m))) by exact Mf.
  assert (N3 : need_filt m3 = m3).
  { unfold need_filt. rewrite F3. destruct (made_of (need_filt m)) as [l1 z1] eqn:Em.
    pose proof (made_of_loss m) as Y. rewrite Em in Y. cbn in Y. subst l1. rewrite M3l. now destruct (Req_EM_T _ _). }
  assert (D3 : made_of m3 = made_of (need_filt m)) by (unfold made_of at 1; now rewrite F3).
  assert (Z3 : norm_loss m3 = norm_loss (need_filt m)).
  { unfold norm_loss. change (m_norm m3) with (m_norm (recall CSHat m)). rewrite Mn, M3l.
    destruct (m_norm (need_filt m)); [reflexivity|]. change (m_loss m) with (m_loss m). rewrite <- Ml. unfold recall. reflexivity. }
  rewrite N3, D3, Z3. exact E.
Qed.
End Used.
