(** Subtracting and coadding the same two images again. *)
From Coq Require Import ZArith List Bool Arith Reals Lia Lra Permutation.
From Coquelicot Require Import Complex.
From Verif.Model Require Import Py Plane Ma Coadd.
From Verif.Spec Require Import Coadd.
From Verif.Proof Require Import Coadd CoaddThreads CoaddMain CoaddMore.
From Verif.Model Require Import Filter.
From Verif.Proof Require Import Filter FilterMain.
From Verif.Model Require Import Interp Subtract Filter Sources Stamps Transparency KL Session Chain ChainCoadd Again SubAgain.
From Verif.Spec Require Import Transparency Session Uses UsesCoadd Again SubAgain.
From Verif.Proof Require Import Transparency TransparencyMain TransparencyAgain.
From Verif.Proof Require Import Session SessionBad SessionHist SessionMain SessionFrame SessionLm Chain ChainUnits Uses UsesCoadd UsesCoaddMain Again AgainMain.
Import ListNotations.
Local Open Scope R_scope.
Set Bullet Behavior "Strict Subproofs".

(** The PSF does not depend on the zero point. *)
Section Blind.
Variables NI FT IM : Type.
Notation state := (si NI FT IM).
Variable L : lib NI FT IM.
Variable z : option R.

Definition blind {A} (m : M NI FT IM A) : Prop :=
  forall s, m (set_zp _ _ _ z s) = (fst (m s), set_zp _ _ _ z (snd (m s))).

Lemma bl_ret {A} (a : A) : blind (ret _ _ _ a).
Proof. intros s. reflexivity. Qed.
Lemma bl_raise {A} e : blind (@raise _ _ _ A e).
Proof. intros s. reflexivity. Qed.
Lemma bl_upd f : (forall s, f (set_zp _ _ _ z s) = set_zp _ _ _ z (f s)) -> blind (upd _ _ _ f).
Proof. intros H s. unfold upd. cbn [fst snd]. now rewrite H. Qed.
Lemma bl_bind {A B} (m : M NI FT IM A) (k : A -> M NI FT IM B) : blind m -> (forall a, blind (k a)) -> blind (mbind _ _ _ m k).
Proof.
  intros Hm Hk s. unfold mbind. rewrite (Hm s). destruct (m s) as [[a|e] s1]; cbn [fst snd]; [apply Hk|reflexivity].
Qed.
Lemma bl_get {B} (k : state -> M NI FT IM B) : (forall s, k (set_zp _ _ _ z s) = k s) -> (forall s, blind (k s)) -> blind (mbind _ _ _ (get _ _ _) k).
Proof. intros E Hk s. unfold mbind, get. rewrite E. apply Hk. Qed.
(** The same of a method that looks at its state first. *)
Lemma bl_read {A} (k : state -> M NI FT IM A) : (forall s, k (set_zp _ _ _ z s) = k s) -> (forall s, blind (k s)) -> blind (fun s => k s s).
Proof. intros E Hk s. rewrite E. apply Hk. Qed.

Ltac sm := repeat first [ apply bl_ret | apply bl_raise | apply bl_upd; intros ?; reflexivity ].

Lemma bl_best : blind (best_sources L).
Proof. intros s. unfold best_sources. change (best (set_zp _ _ _ z s)) with (best s). destruct (best s); [reflexivity|]. destruct (select L); reflexivity. Qed.


Lemma bl_stamps : blind (stamps_pos L).
Proof.
  intros s. unfold stamps_pos. change (reshaped _ _ _ (set_zp _ _ _ z s)) with (reshaped _ _ _ s). change (pos (set_zp _ _ _ z s)) with (pos s).
  set (body := mbind _ _ _ (best_sources L) _). assert (B : blind body).
  { apply bl_bind; [exact bl_best|]. intros cat. apply bl_get; [reflexivity|]. intros s1. cbn zeta.
    destruct (extract L (stamp_shape s1) cat) as [stm r]. apply bl_bind; [sm|]. intros _. destruct r as [[p k]|]; [|sm].
    apply bl_bind; [sm|]. intros _. apply bl_bind; [sm|]. intros _. apply bl_bind; [sm|]. intros _. sm. }
  assert (X : body (set_db _ _ _ (Some []) (if reshaped _ _ _ s then set_stamp_shape _ _ _ (match req_shape s with Some sh => sh | None => stamp_shape s end) (set_zp _ _ _ z s) else set_zp _ _ _ z s)) =
     (fst (body (set_db _ _ _ (Some []) (if reshaped _ _ _ s then set_stamp_shape _ _ _ (match req_shape s with Some sh => sh | None => stamp_shape s end) s else s))),
      set_zp _ _ _ z (snd (body (set_db _ _ _ (Some []) (if reshaped _ _ _ s then set_stamp_shape _ _ _ (match req_shape s with Some sh => sh | None => stamp_shape s end) s else s)))))).
  { rewrite <- B. now destruct (reshaped _ _ _ s). }
  destruct (pos s) as [p|], (reshaped _ _ _ s); solve [reflexivity|exact X].
Qed.

Lemma bl_n : blind (n_sources L).
Proof.
  intros s. unfold n_sources. change (nsrc (set_zp _ _ _ z s)) with (nsrc s). destruct (nsrc s); [reflexivity|]. revert s.
  apply bl_bind; [exact bl_stamps|]. intros _. apply bl_get; [reflexivity|]. intros s1. destruct (nsrc s1); sm.
Qed.

Lemma bl_cov : blind (Session.cov_matrix _ _ _ L).
Proof.
  intros s. unfold Session.cov_matrix. change (cov (set_zp _ _ _ z s)) with (cov s). destruct (cov s); [reflexivity|]. revert s.
  apply bl_bind; [exact bl_n|]. intros n. apply bl_get; [reflexivity|]. intros s1.
  destruct (no_file _ _ _ _ _); [sm|]. destruct (Nat.ltb _ _); [sm|]. cbn zeta. destruct (KL.cov_matrix _ _); [|sm].
  apply bl_bind; [sm|]. intros _. sm.
Qed.

Lemma bl_eig : blind (Session.eigenv _ _ _ L).
Proof.
  intros s. unfold Session.eigenv. change (eig (set_zp _ _ _ z s)) with (eig s). destruct (eig s); [reflexivity|]. revert s.
  apply bl_bind; [exact bl_cov|]. intros c. destruct (Nat.eqb _ _); [sm|]. cbn zeta. apply bl_bind; [sm|]. intros _. sm.
Qed.

Lemma bl_build e : blind (build_basis _ _ _ L e).
Proof.
  intros s. unfold build_basis. destruct e as [valh vech]. change (mcols (set_zp _ _ _ z s)) with (mcols s).
  change (stamp_shape (set_zp _ _ _ z s)) with (stamp_shape s). change (inf_loss (set_zp _ _ _ z s)) with (inf_loss s).
  destruct (mcols s) as [[rows stt]|].
  - cbn zeta. destruct (_ || _); reflexivity.
  - cbn zeta. generalize (stamp_shape s) as sh, (inf_loss s) as l. intros sh l. revert s.
    apply bl_bind; [exact bl_n|]. intros n. apply bl_get; [reflexivity|]. intros s1.
    destruct (no_file _ _ _ _ _); [sm|]. destruct (Nat.ltb _ _); [sm|]. destruct (_ || _ || _); sm.
Qed.

Lemma bl_setup l : blind (setup_kl_basis _ _ _ L l).
Proof.
  intros s. unfold setup_kl_basis. change (differs _ _ _ l (set_zp _ _ _ z s)) with (differs _ _ _ l s). change (basis (set_zp _ _ _ z s)) with (basis s).
  destruct (_ || _); [|reflexivity]. revert s. apply bl_bind; [destruct l; sm|]. intros _.
  apply bl_bind; [exact bl_eig|]. intros e. apply bl_bind; [apply bl_build|]. intros b. sm.
Qed.

Lemma bl_basis : blind (Session.kl_basis _ _ _ L).
Proof.
  intros s. unfold Session.kl_basis. change (basis (set_zp _ _ _ z s)) with (basis s). generalize (basis s) as b. intros b. revert s.
  apply bl_bind; [destruct b; [sm|apply bl_setup]|].
  intros _. apply bl_get; [reflexivity|]. intros s1. destruct (basis s1); sm.
Qed.

Lemma bl_fields l u : blind (setup_kl_a_fields _ _ _ L l u).
Proof.
  intros s. unfold setup_kl_a_fields. change (differs _ _ _ l (set_zp _ _ _ z s)) with (differs _ _ _ l s). change (fields (set_zp _ _ _ z s)) with (fields s).
  destruct (_ || _ || _); [|reflexivity]. revert s.
  apply bl_bind.
  - destruct l; [|sm]. apply bl_bind; [apply bl_setup|]. intros _. sm.
  - intros _. apply bl_bind; [exact bl_basis|]. intros b. cbn zeta. destruct (Nat.eqb _ _); [sm|].
    apply bl_bind; [exact bl_best|]. intros _. apply bl_bind; [exact bl_stamps|]. intros ps. destruct (Nat.eqb _ _); [sm|].
    apply bl_bind; [exact bl_eig|]. intros e. destruct (_ && _); sm.
Qed.

Lemma bl_afields : blind (kl_afields _ _ _ L).
Proof.
  intros s. unfold kl_afields. change (fields (set_zp _ _ _ z s)) with (fields s). generalize (fields s) as f. intros f. revert s.
  apply bl_bind; [destruct f; [sm|apply bl_fields]|].
  intros _. apply bl_get; [reflexivity|]. intros s1. destruct (fields s1); sm.
Qed.

Lemma bl_psf l sh : blind (get_variable_psf L l sh).
Proof.
  intros s. unfold get_variable_psf. revert s. apply bl_bind; [destruct sh; sm|].
  intros _. apply bl_get; [reflexivity|]. intros s1. cbn zeta. apply bl_bind; [apply bl_setup|]. intros _.
  apply bl_bind; [apply bl_fields|]. intros _. apply bl_bind; [exact bl_afields|]. intros a.
  apply bl_bind; [exact bl_basis|]. intros b. destruct a as [|[|? ?]]; [destruct b|..]; sm.
  apply bl_bind; [sm|]. intros _. sm.
Qed.
End Blind.
