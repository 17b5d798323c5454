(** The cached attributes when no stamp can be extracted. *)
From Coq Require Import ZArith List Bool Arith Reals Lia Lra.
From Verif.Model Require Import Py Plane Sources KL Session.
From Verif.Proof Require Import Session.
Import ListNotations.
Local Open Scope R_scope.

Section Bad.
Variables NI FT IM : Type.
Variable L : lib NI FT IM.
Variable sh0 : nat * nat.
Notation state := (si NI FT IM).

Variable e0 : exn.
Hypothesis Hbad : select L = Raise e0 \/
  exists cat st, select L = Ok cat /\ extract L sh0 cat = (st, Raise e0).

Record badS (s : state) : Prop := {
  b_req : req_shape s = None;
  b_sh : stamp_shape s = sh0;
  b_best : best s = None \/ exists cat, select L = Ok cat /\ best s = Some cat;
  b_pos : pos s = None;
  b_n : nsrc s = None;
  b_cov : cov s = None;
  b_m : mcols s = None;
  b_eig : eig s = None;
  b_basis : basis s = None;
  b_fields : fields s = None }.

Lemma bad_loss l s : badS s -> badS (set_inf_loss _ _ _ l s).
Proof. intros []. now constructor. Qed.

Lemma bad_best s : badS s -> exists s', best_sources _ _ _ L s = (select L, s') /\ badS s' /\ keep _ _ _ s s'.
Proof.
  intros B. unfold best_sources. destruct (b_best s B) as [H|(cat & Hs & H)]; rewrite H.
  - destruct (select L) as [cat|e] eqn:Hs.
    + eexists. split; [reflexivity|]. split; [|now constructor]. destruct B. constructor; cbn; try assumption.
      right. exists cat. auto.
    + exists s. split; [reflexivity|]. split; [exact B|now constructor].
  - exists s. rewrite Hs. split; [reflexivity|]. split; [exact B|now constructor].
Qed.

Lemma bad_stamps s : badS s -> exists s', stamps_pos _ _ _ L s = (Raise e0, s') /\ badS s' /\ keep _ _ _ s s'.
Proof.
  intros B. unfold stamps_pos. rewrite (b_pos s B). unfold reshaped. rewrite (b_req s B).
  assert (B1 : badS (set_db _ _ _ (Some []) s)) by (destruct B; now constructor).
  destruct (bad_best _ B1) as (s1 & E & B2 & K). unfold mbind at 1. rewrite E.
  destruct Hbad as [H|(cat & st & H & H')].
  - rewrite H. exists s1. split; [reflexivity|]. split; [exact B2|]. destruct K. now constructor.
  - rewrite H. unfold mbind, get, upd, raise. rewrite (b_sh s1 B2), H'. eexists. split; [reflexivity|].
    split; [destruct B2; now constructor|]. destruct K. now constructor.
Qed.

Lemma bad_n s : badS s -> exists s', n_sources _ _ _ L s = (Raise e0, s') /\ badS s' /\ keep _ _ _ s s'.
Proof.
  intros B. unfold n_sources. rewrite (b_n s B). destruct (bad_stamps s B) as (s' & E & B' & K).
  unfold mbind at 1. rewrite E. eauto.
Qed.

Lemma bad_cov s : badS s -> exists s', Session.cov_matrix _ _ _ L s = (Raise e0, s') /\ badS s' /\ keep _ _ _ s s'.
Proof.
  intros B. unfold Session.cov_matrix. rewrite (b_cov s B). destruct (bad_n s B) as (s' & E & B' & K).
  unfold mbind at 1. rewrite E. eauto.
Qed.

Lemma bad_eig s : badS s -> exists s', Session.eigenv _ _ _ L s = (Raise e0, s') /\ badS s' /\ keep _ _ _ s s'.
Proof.
  intros B. unfold Session.eigenv. rewrite (b_eig s B). destruct (bad_cov s B) as (s' & E & B' & K).
  unfold mbind at 1. rewrite E. eauto.
Qed.

Notation loss_after := (loss_after NI FT IM).
Notation keep3 := (keep3 NI FT IM).

Lemma keep_keep3 s s' : keep _ _ _ s s' -> keep3 s s'.
Proof. intros []. now constructor. Qed.

Lemma bad_setup l s : badS s -> exists s', setup_kl_basis _ _ _ L l s = (Raise e0, s') /\ badS s' /\ keep3 s s' /\
  inf_loss s' = loss_after l s.
Proof.
  intros B. unfold setup_kl_basis. rewrite (b_basis s B). cbn [orb].
  set (s1 := match l with Some l => set_inf_loss _ _ _ l s | None => s end).
  assert (B1 : badS s1) by (unfold s1; destruct l; [apply bad_loss|]; exact B).
  destruct (bad_eig s1 B1) as (s' & E & B' & K). exists s'.
  assert (R : (mbind _ _ _ (match l with Some l => upd _ _ _ (set_inf_loss _ _ _ l) | None => ret _ _ _ tt end)
        (fun _ => mbind _ _ _ (Session.eigenv _ _ _ L) (fun e => mbind _ _ _ (build_basis _ _ _ L e)
           (fun b => upd _ _ _ (set_basis _ _ _ (Some b)))))) s = (Raise e0, s')).
  { transitivity ((mbind _ _ _ (Session.eigenv _ _ _ L) (fun e => mbind _ _ _ (build_basis _ _ _ L e)
           (fun b => upd _ _ _ (set_basis _ _ _ (Some b))))) s1); [destruct l; reflexivity|].
    unfold mbind. rewrite E. reflexivity. }
  rewrite R. split; [reflexivity|]. split; [exact B'|]. split.
  - destruct K. unfold s1 in *. destruct l; constructor; cbn in *; congruence.
  - rewrite (k_loss _ _ _ _ _ K). unfold s1, Session.loss_after. destruct l; reflexivity.
Qed.

Lemma bad_basis s : badS s -> exists s', Session.kl_basis _ _ _ L s = (Raise e0, s') /\ badS s' /\ keep3 s s' /\
  inf_loss s' = inf_loss s.
Proof.
  intros B. unfold Session.kl_basis. rewrite (b_basis s B). destruct (bad_setup None s B) as (s' & E & B' & K).
  unfold mbind at 1. rewrite E. eauto.
Qed.

Lemma bad_fields l u s : badS s -> exists s', setup_kl_a_fields _ _ _ L l u s = (Raise e0, s') /\ badS s' /\ keep3 s s' /\
  inf_loss s' = loss_after l s.
Proof.
  intros B. unfold setup_kl_a_fields. rewrite (b_fields s B). cbn [orb]. destruct l as [l|].
  - destruct (bad_setup (Some l) s B) as (s' & E & B' & K & Hl). unfold mbind at 1. unfold mbind at 1.
    rewrite E. eauto.
  - unfold mbind at 1. unfold ret at 1. destruct (bad_basis s B) as (s' & E & B' & K).
    unfold mbind at 1. rewrite E. eauto.
Qed.

Lemma bad_afields s : badS s -> exists s', kl_afields _ _ _ L s = (Raise e0, s') /\ badS s' /\ keep3 s s' /\
  inf_loss s' = inf_loss s.
Proof.
  intros B. unfold kl_afields. rewrite (b_fields s B). destruct (bad_fields None false s B) as (s' & E & B' & K).
  unfold mbind at 1. rewrite E. eauto.
Qed.

Lemma bad_psf l s : badS s -> exists s', get_variable_psf _ _ _ L l None s = (Raise e0, s') /\ badS s' /\ keep3 s s' /\
  inf_loss s' = loss_after l s.
Proof.
  intros B. unfold get_variable_psf. unfold mbind at 1. unfold ret at 1. unfold mbind at 1. unfold get at 1. cbn zeta.
  destruct (bad_setup l s B) as (s' & E & B' & K). unfold mbind at 1. rewrite E. eauto.
Qed.

Lemma bad_update s : badS s -> exists r s', update_sources _ _ _ L None s = (r, s') /\ badS s' /\ keep _ _ _ s s'.
Proof.
  intros B. unfold update_sources. destruct (best s) as [c|] eqn:E.
  - unfold mbind at 1. unfold upd at 1.
    assert (B1 : badS (set_best _ _ _ None s)) by (destruct B; constructor; cbn; try assumption; now left).
    destruct (bad_best _ B1) as (s2 & E2 & B2 & K2). unfold mbind at 1. rewrite E2.
    assert (K02 : keep _ _ _ s s2) by (destruct K2; now constructor).
    assert (X : (exists cat, select L = Ok cat) \/ exists e, select L = Raise e)
      by (clear; destruct (select L); eauto).
    destruct X as [[cat X]|[e X]]; rewrite X.
    + destruct (bad_n s2 B2) as (s3 & E3 & B3 & K3). unfold mbind. rewrite E3. do 2 eexists.
      split; [reflexivity|]. split; [exact B3|]. eapply keep_trans; eassumption.
    + do 2 eexists. split; [reflexivity|]. auto.
  - do 2 eexists. split; [reflexivity|]. split; [exact B|now constructor].
Qed.
End Bad.
