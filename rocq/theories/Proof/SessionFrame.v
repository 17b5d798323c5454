(** What each method leaves alone, in any state. *)
From Coq Require Import ZArith List Bool Arith Reals Lia.
From Verif.Model Require Import Py Plane Sources KL Session.
From Verif.Proof Require Import Session.
Import ListNotations.

Section Frame.
Variables NI FT IM : Type.
Variable L : lib NI FT IM.
Notation state := (si NI FT IM).
Variable P : state -> Prop.

Definition pres {A} (m : M NI FT IM A) : Prop := forall s, P s -> P (snd (m s)).

Lemma pres_ret {A} (a : A) : pres (ret _ _ _ a).
Proof. intros s H. exact H. Qed.
Lemma pres_raise {A} e : pres (@raise _ _ _ A e).
Proof. intros s H. exact H. Qed.
Lemma pres_get : pres (get _ _ _).
Proof. intros s H. exact H. Qed.
Lemma pres_upd f : (forall s, P s -> P (f s)) -> pres (upd _ _ _ f).
Proof. intros Hf s H. exact (Hf s H). Qed.
Lemma pres_bind {A B} (m : M NI FT IM A) (k : A -> M NI FT IM B) :
  pres m -> (forall a, pres (k a)) -> pres (mbind _ _ _ m k).
Proof.
  intros Hm Hk s H. unfold mbind. specialize (Hm s H). destruct (m s) as [[a|e] s']; [|exact Hm].
  apply (Hk a s' Hm).
Qed.

Hypothesis Hdb : forall x s, P s -> P (set_db _ _ _ x s).
Hypothesis Hbest : forall x s, P s -> P (set_best _ _ _ x s).
Hypothesis Hsh : forall x s, P s -> P (set_stamp_shape _ _ _ x s).
Hypothesis Hpos : forall x y s, P s -> P (set_pos _ _ _ (Some x) y s).

Lemma best_pres : pres (best_sources _ _ _ L).
Proof.
  intros s H. unfold best_sources. destruct (best s); [exact H|]. destruct (select L); cbn; auto.
Qed.

Lemma stamps_pres : pres (stamps_pos _ _ _ L).
Proof.
  intros s H. unfold stamps_pos.
  assert (G : forall s1, P s1 -> P (snd ((mbind _ _ _ (best_sources _ _ _ L) (fun cat =>
       mbind _ _ _ (get _ _ _) (fun s =>
       let sh := stamp_shape s in
       let '(stamps, r) := extract L sh cat in
       mbind _ _ _ (upd _ _ _ (set_db _ _ _ (Some stamps))) (fun _ =>
       match r with
       | Raise e => raise _ _ _ e
       | Ok (p, kept) =>
           mbind _ _ _ (upd _ _ _ (set_best _ _ _ (Some kept))) (fun _ =>
           mbind _ _ _ (upd _ _ _ (set_stamp_shape _ _ _ (fst sh + 6, snd sh + 6)%nat)) (fun _ =>
           mbind _ _ _ (upd _ _ _ (set_pos _ _ _ (Some p) (Some (length p)))) (fun _ => ret _ _ _ p)))
       end)))) s1))).
  { intros s1 H1. apply pres_bind; [exact best_pres| |exact H1]. intros cat. apply pres_bind; [exact pres_get|].
    intros s2. cbn zeta. destruct (extract L (stamp_shape s2) cat) as [st r].
    apply pres_bind; [apply pres_upd; auto|]. intros _. destruct r as [[p k]|e]; [|apply pres_raise].
    apply pres_bind; [apply pres_upd; auto|]. intros _.
    apply pres_bind; [apply pres_upd; auto|]. intros _.
    apply pres_bind; [apply pres_upd; auto|]. intros _. apply pres_ret. }
  destruct (pos s); destruct (reshaped _ _ _ s); try exact H; apply G; auto.
Qed.

Lemma n_pres : pres (n_sources _ _ _ L).
Proof.
  intros s H. unfold n_sources. destruct (nsrc s); [exact H|].
  apply pres_bind; [exact stamps_pres| |exact H]. intros _. apply pres_bind; [exact pres_get|].
  intros s1. destruct (nsrc s1); [apply pres_ret|apply pres_raise].
Qed.

Lemma build_pres e : pres (build_basis _ _ _ L e).
Proof.
  intros s H. unfold build_basis. destruct e as [valh vech]. destruct (mcols s) as [[rows st]|].
  - destruct (_ || _); exact H.
  - apply pres_bind; [exact n_pres| |exact H]. intros n. apply pres_bind; [exact pres_get|]. intros s1. cbn zeta.
    destruct (no_file _ _ _ _ _); [apply pres_raise|]. destruct (Nat.ltb _ _); [apply pres_raise|]. destruct (_ || _); [apply pres_raise|apply pres_ret].
Qed.

Hypothesis Hcov : forall x y s, P s -> P (set_cov _ _ _ x y s).
Hypothesis Heig : forall x s, P s -> P (set_eig _ _ _ x s).

Lemma cov_pres : pres (Session.cov_matrix _ _ _ L).
Proof.
  intros s H. unfold Session.cov_matrix. destruct (cov s); [exact H|].
  apply pres_bind; [exact n_pres| |exact H]. intros n. apply pres_bind; [exact pres_get|]. intros s1.
  destruct (no_file _ _ _ _ _); [apply pres_raise|].
  destruct (Nat.ltb _ _); [apply pres_raise|]. cbn zeta. destruct (KL.cov_matrix _ _); [|apply pres_raise].
  apply pres_bind; [apply pres_upd; auto|]. intros _. apply pres_ret.
Qed.

Lemma eig_pres : pres (Session.eigenv _ _ _ L).
Proof.
  intros s H. unfold Session.eigenv. destruct (eig s); [exact H|].
  apply pres_bind; [exact cov_pres| |exact H]. intros c. destruct (Nat.eqb _ _); [apply pres_raise|]. cbn zeta.
  apply pres_bind; [apply pres_upd; auto|]. intros _. apply pres_ret.
Qed.

Hypothesis Hloss : forall x s, P s -> P (set_inf_loss _ _ _ x s).
Hypothesis Hbasis : forall x s, P s -> P (set_basis _ _ _ x s).

Lemma setup_pres l : pres (setup_kl_basis _ _ _ L l).
Proof.
  intros s H. unfold setup_kl_basis. destruct (_ || _); [|exact H].
  apply pres_bind; [destruct l; [apply pres_upd; auto|apply pres_ret]| |exact H]. intros _.
  apply pres_bind; [exact eig_pres|]. intros e. apply pres_bind; [apply build_pres|]. intros b. apply pres_upd; auto.
Qed.

Lemma basis_pres : pres (Session.kl_basis _ _ _ L).
Proof.
  intros s H. unfold Session.kl_basis. apply pres_bind; [destruct (basis s); [apply pres_ret|apply setup_pres]| |exact H].
  intros _. apply pres_bind; [exact pres_get|]. intros s1. destruct (basis s1); [apply pres_ret|apply pres_raise].
Qed.

Hypothesis Hfields : forall x s, P s -> P (set_fields _ _ _ x s).

Lemma fields_pres l u : pres (setup_kl_a_fields _ _ _ L l u).
Proof.
  intros s H. unfold setup_kl_a_fields. destruct (_ || _ || _); [|exact H].
  apply pres_bind; [| |exact H].
  - destruct l; [|apply pres_ret]. apply pres_bind; [apply setup_pres|]. intros _. apply pres_upd; auto.
  - intros _. apply pres_bind; [exact basis_pres|]. intros b. cbn zeta. destruct (Nat.eqb _ _); [apply pres_upd; auto|].
    apply pres_bind; [exact best_pres|]. intros _. apply pres_bind; [exact stamps_pres|]. intros p.
    destruct (Nat.eqb _ _); [apply pres_raise|]. apply pres_bind; [exact eig_pres|]. intros e. cbn zeta.
    destruct (_ && _); [apply pres_raise|apply pres_upd; auto].
Qed.

Lemma afields_pres : pres (kl_afields _ _ _ L).
Proof.
  intros s H. unfold kl_afields. apply pres_bind; [destruct (fields s); [apply pres_ret|apply fields_pres]| |exact H].
  intros _. apply pres_bind; [exact pres_get|]. intros s1. destruct (fields s1); [apply pres_ret|apply pres_raise].
Qed.

Hypothesis Hreq : forall x s, P s -> P (set_req_shape _ _ _ x s).

Lemma psf_pres l sh : pres (get_variable_psf _ _ _ L l sh).
Proof.
  intros s H. unfold get_variable_psf. apply pres_bind; [destruct sh; [apply pres_upd; auto|apply pres_ret]| |exact H].
  intros _. apply pres_bind; [exact pres_get|]. intros s1. cbn zeta. apply pres_bind; [apply setup_pres|]. intros _.
  apply pres_bind; [apply fields_pres|]. intros _. apply pres_bind; [exact afields_pres|]. intros a.
  apply pres_bind; [exact basis_pres|]. intros b. destruct a as [|[|f fs]].
  - destruct b; [apply pres_raise|]. apply pres_bind; [apply pres_upd; auto|]. intros _. apply pres_ret.
  - apply pres_raise.
  - apply pres_ret.
Qed.

Lemma update_pres new : pres (update_sources _ _ _ L new).
Proof.
  intros s H. unfold update_sources. destruct (best s); [|exact H].
  apply pres_bind; [apply pres_upd; auto| |exact H]. intros _. destruct new; [apply pres_upd; auto|].
  apply pres_bind; [exact best_pres|]. intros _. apply pres_bind; [exact n_pres|]. intros _. apply pres_ret.
Qed.

Hypothesis Hzp : forall x s, P s -> P (set_zp _ _ _ x s).
Hypothesis Hshat : forall x s, P s -> P (set_shat _ _ _ x s).
Hypothesis Hscomp : forall x s, P s -> P (set_scomp _ _ _ x s).
Hypothesis Hnormal : pres (normal_image _ _ _ L).

Lemma shat_pres : pres (s_hat_comp _ _ _ L).
Proof.
  intros s H. unfold s_hat_comp. destruct (match shat s with None => true | Some (_, l) => _ end).
  - apply pres_bind; [apply psf_pres| |exact H]. intros q. apply pres_bind; [exact Hnormal|]. intros nrm.
    apply pres_bind; [exact pres_get|]. intros s1. cbn zeta. apply pres_bind; [apply pres_upd; auto|]. intros _. apply pres_ret.
  - destruct (shat s) as [[h l]|]; exact H.
Qed.

Lemma scomp_pres : pres (s_component _ _ _ L).
Proof.
  intros s H. unfold s_component. apply pres_bind; [| |exact H].
  - destruct (scomp s); [apply pres_ret|]. apply pres_bind; [exact shat_pres|]. intros h.
    apply pres_bind; [exact pres_get|]. intros s1. apply pres_upd; auto.
  - intros _. apply pres_bind; [exact pres_get|]. intros s1. destruct (scomp s1) as [[c l]|]; [|apply pres_raise].
    destruct (Req_EM_T _ _); [apply pres_ret|]. apply pres_bind; [exact shat_pres|]. intros h. cbn zeta.
    apply pres_bind; [apply pres_upd; auto|]. intros _. apply pres_ret.
Qed.

Lemma exec_pres c s : P s -> P (exec _ _ _ L c s).
Proof.
  destruct c; cbn [exec]; unfold void; intros H;
    try (apply (best_pres s H) || apply (stamps_pres s H) || apply (n_pres s H) || apply (cov_pres s H) ||
         apply (eig_pres s H) || apply (basis_pres s H) || apply (afields_pres s H) || apply (psf_pres _ _ s H) ||
         apply (Hnormal s H) || apply (shat_pres s H) || apply (scomp_pres s H) || apply (update_pres _ s H)); auto.
  apply fields_pres; auto.
Qed.

Lemma exec_all_pres cs : forall s, P s -> P (exec_all _ _ _ L cs s).
Proof.
  induction cs as [|c cs IH]; intros s H; [exact H|]. cbn. apply IH. now apply exec_pres.
Qed.
End Frame.

(** The normalisation image is never made again. *)
Lemma normal_stays NI FT IM (L : lib NI FT IM) n cs s : normal s = Some n -> normal (exec_all _ _ _ L cs s) = Some n.
Proof.
  intros H. apply (exec_all_pres NI FT IM L (fun s => normal s = Some n)); try (intros; assumption).
  intros s1 H1. unfold normal_image. rewrite H1. exact H1.
Qed.
