(** Invariants of an image that concern its stars only. *)
From Coq Require Import ZArith List Bool Arith Reals Lia Lra.
From Verif.Model Require Import Py Plane Interp Filter Sources Stamps KL Session.
From Verif.Spec Require Import Session.
From Verif.Proof Require Import Session SessionBad SessionHist SessionMain SessionFrame SessionLm.
Import ListNotations.
Local Open Scope R_scope.
Set Bullet Behavior "Strict Subproofs".

Definition no_update (c : call) : Prop := match c with CUpdateSources _ => False | _ => True end.

Section Keep.
Variables NI FT IM : Type.
Notation state := (si NI FT IM).
Variable L : lib NI FT IM.
Variable I : state -> Prop.

(** [I] says something about the requested shape, the stamp shape, the sources, the positions and
    the number of sources only. *)
Hypothesis I_frame : forall s s', I s -> req_shape s' = req_shape s -> stamp_shape s' = stamp_shape s ->
  best s' = best s -> pos s' = pos s -> nsrc s' = nsrc s -> I s'.
Notation st := (pres NI FT IM I).
Hypothesis st_best : st (best_sources L).
Hypothesis st_stamps : st (stamps_pos L).

Lemma st_upd f : (forall s, I s -> I (f s)) -> st (upd _ _ _ f).
Proof. exact (pres_upd _ _ _ _ f). Qed.

Ltac sm := repeat first
  [ apply pres_ret | apply pres_raise | apply pres_get
  | (apply st_upd; intros s0 H0; refine (I_frame s0 _ H0 _ _ _ _ _); reflexivity)
  | (apply pres_bind; [|intros ?]) ].

Lemma st_n : st (n_sources L).
Proof.
  intros s H. unfold n_sources. destruct (nsrc s); [exact H|]. revert s H.
  apply pres_bind; [exact st_stamps|]. intros _. apply pres_bind; [apply pres_get|]. intros s1. destruct (nsrc s1); sm.
Qed.

Lemma st_cov : st (Session.cov_matrix _ _ _ L).
Proof.
  intros s H. unfold Session.cov_matrix. destruct (cov s); [exact H|]. revert s H.
  apply pres_bind; [exact st_n|]. intros n. apply pres_bind; [apply pres_get|]. intros s1.
  destruct (no_file _ _ _ _ _); [sm|]. destruct (Nat.ltb _ _); [sm|]. cbn zeta. destruct (KL.cov_matrix _ _); sm.
Qed.

Lemma st_eig : st (Session.eigenv _ _ _ L).
Proof.
  intros s H. unfold Session.eigenv. destruct (eig s); [exact H|]. revert s H.
  apply pres_bind; [exact st_cov|]. intros c. destruct (Nat.eqb _ _); [sm|]. cbn zeta. sm.
Qed.

Lemma st_build e : st (build_basis _ _ _ L e).
Proof.
  intros s H. unfold build_basis. destruct e as [valh vech]. destruct (mcols s) as [[rows stt]|].
  - destruct (_ || _); exact H.
  - apply pres_bind; [exact st_n| |exact H]. intros n. apply pres_bind; [apply pres_get|]. intros s1. cbn zeta.
    destruct (no_file _ _ _ _ _); [sm|]. destruct (Nat.ltb _ _); [sm|]. destruct (_ || _); sm.
Qed.

Lemma st_setup l : st (setup_kl_basis _ _ _ L l).
Proof.
  intros s H. unfold setup_kl_basis. destruct (_ || _); [|exact H].
  apply pres_bind; [destruct l; sm| |exact H]. intros _.
  apply pres_bind; [exact st_eig|]. intros e. apply pres_bind; [apply st_build|]. intros b. sm.
Qed.

Lemma st_basis : st (Session.kl_basis _ _ _ L).
Proof.
  intros s H. unfold Session.kl_basis. apply pres_bind; [destruct (basis s); [sm|apply st_setup]| |exact H].
  intros _. apply pres_bind; [sm|]. intros s1. destruct (basis s1); sm.
Qed.

Lemma st_fields l u : st (setup_kl_a_fields _ _ _ L l u).
Proof.
  intros s H. unfold setup_kl_a_fields. destruct (_ || _ || _); [|exact H].
  apply pres_bind; [| |exact H].
  - destruct l; [|sm]. apply pres_bind; [apply st_setup|]. intros _. sm.
  - intros _. apply pres_bind; [exact st_basis|]. intros b. cbn zeta. destruct (Nat.eqb _ _); [sm|].
    apply pres_bind; [exact st_best|]. intros _. apply pres_bind; [exact st_stamps|]. intros p.
    destruct (Nat.eqb _ _); [sm|]. apply pres_bind; [exact st_eig|]. intros e. cbn zeta.
    destruct (_ && _); sm.
Qed.

Lemma st_afields : st (kl_afields _ _ _ L).
Proof.
  intros s H. unfold kl_afields. apply pres_bind; [destruct (fields s); [sm|apply st_fields]| |exact H].
  intros _. apply pres_bind; [sm|]. intros s1. destruct (fields s1); sm.
Qed.

Lemma st_psf l : st (get_variable_psf L l None).
Proof.
  intros s H. unfold get_variable_psf. apply pres_bind; [sm| |exact H].
  intros _. apply pres_bind; [sm|]. intros s1. cbn zeta. apply pres_bind; [apply st_setup|]. intros _.
  apply pres_bind; [apply st_fields|]. intros _. apply pres_bind; [exact st_afields|]. intros a.
  apply pres_bind; [exact st_basis|]. intros b. destruct a as [|[|f fs]]; [destruct b|..]; sm.
Qed.

Lemma st_normal : st (normal_image L).
Proof.
  intros s H. unfold normal_image. destruct (normal s); [exact H|].
  apply pres_bind; [apply st_psf| |exact H]. intros q. cbn zeta. sm.
Qed.

Lemma st_shat : st (s_hat_comp L).
Proof.
  intros s H. unfold s_hat_comp. destruct (match shat s with None => true | Some (_, l) => _ end).
  - apply pres_bind; [apply st_psf| |exact H]. intros q. apply pres_bind; [exact st_normal|]. intros nrm.
    apply pres_bind; [sm|]. intros s1. cbn zeta. sm.
  - destruct (shat s) as [[h l]|]; exact H.
Qed.


Lemma st_scomp : st (s_component L).
Proof.
  intros s H. unfold s_component. apply pres_bind; [| |exact H].
  - destruct (scomp s); [sm|]. apply pres_bind; [exact st_shat|]. intros h. sm.
  - intros _. apply pres_bind; [sm|]. intros s1. destruct (scomp s1) as [[c l]|]; [|sm].
    destruct (Req_EM_T _ _); [sm|]. apply pres_bind; [exact st_shat|]. intros h. cbn zeta. sm.
Qed.

Lemma st_zp z s : I s -> I (set_zp _ _ _ z s).
Proof. intros H. refine (I_frame s _ H _ _ _ _ _); reflexivity. Qed.

Lemma st_coadd l z s : I s -> I (exec L (CCoadd l z) s).
Proof. intros H. cbn [exec]. unfold void. apply st_fields. now apply st_zp. Qed.

(** Calls that do not give the image other sources. *)
Lemma st_exec c s : plain c -> no_update c -> I s -> I (exec L c s).
Proof.
  intros P N H. destruct c as [| | | | | | |l sh| | | |l z|z|new|l|sh|]; cbn [exec plain no_update] in *; unfold void; try contradiction.
  - now apply st_best.
  - now apply st_stamps.
  - now apply st_n.
  - now apply st_cov.
  - now apply st_eig.
  - now apply st_basis.
  - now apply st_afields.
  - assert (sh = None) as -> by (destruct l; tauto). now apply st_psf.
  - now apply st_normal.
  - now apply st_shat.
  - now apply st_scomp.
  - apply st_fields. now apply st_zp.
  - now apply st_zp.
Qed.

Hypothesis I_none : forall s, I s -> I (set_best _ _ _ None s).

Lemma st_update s : I s -> I (exec L (CUpdateSources None) s).
Proof.
  intros H. cbn [exec]. unfold void, update_sources. destruct (best s); [|exact H].
  apply pres_bind; [apply st_upd; exact I_none| |exact H]. intros _.
  apply pres_bind; [exact st_best|]. intros _. apply pres_bind; [exact st_n|]. intros _. sm.
Qed.

Lemma st_history cs : forall s, Forall plain cs -> I s -> I (exec_all L cs s).
Proof.
  induction cs as [|c cs IH]; intros s F H; [exact H|]. inversion F as [|? ? P F']; subst. change (exec_all L (c :: cs) s) with (exec_all L cs (exec L c s)). apply IH; [exact F'|].
  destruct c as [| | | | | | |l sh| | | |l z|z|new|l|sh|]; try (apply st_exec; [exact P|exact Logic.I|exact H]).
  cbn in P. subst new. now apply st_update.
Qed.
End Keep.
