(** Images whose sources are known do not detect any. *)
From Coq Require Import ZArith List Bool Arith Reals Lia.
From Verif.Model Require Import Py Plane Sources KL Session Live.
From Verif.Proof Require Import Session SessionLm Live.
Import ListNotations.
Set Bullet Behavior "Strict Subproofs".
Local Open Scope R_scope.

Section Same.
Variables PIC NI FT IM : Type.
Variable L : llib PIC NI FT IM.
Variable sel : res (list src).

(** The same image with another detection. *)
Definition other : llib PIC NI FT IM :=
  mkllib
    (mklib NI FT IM sel (extract (base L)) (eigh (base L)) (smooth (base L)) (Session.fit (base L)) (normal_of (base L))
       (shat_of (base L)) (ifft_real (base L)))
    (cutting L) (filtering L).

Notation state := (si NI FT IM).
Notation LMt := (LM PIC NI FT IM).
Definition lsame {X} (m m' : LMt X) : Prop := forall x, best (snd x) <> None -> m x = m' x /\ best (snd (snd (m x))) <> None.

Lemma s_ret X (a : X) : lsame (lret _ _ _ _ a) (lret _ _ _ _ a).
Proof. intros x H. now split. Qed.
Lemma s_raise X e : lsame (X := X) (lraise _ _ _ _ e) (lraise _ _ _ _ e).
Proof. intros x H. now split. Qed.
Lemma s_bind X Y (m m' : LMt X) (k k' : X -> LMt Y) : lsame m m' -> (forall a, lsame (k a) (k' a)) ->
  lsame (lbind _ _ _ _ m k) (lbind _ _ _ _ m' k').
Proof.
  intros H K x Hx. unfold lbind. destruct (H x Hx) as [E B]. rewrite <- E. destruct (m x) as [[a|e] x1]; cbn [snd] in B |- *; [now apply K|now split].
Qed.
Lemma s_get X (k k' : state -> LMt X) : (forall s, lsame (k s) (k' s)) -> lsame (lbind _ _ _ _ (lget _ _ _ _) k) (lbind _ _ _ _ (lget _ _ _ _) k').
Proof. intros H x Hx. exact (H (snd x) x Hx). Qed.
Lemma s_upd f : (forall s, best s <> None -> best (f s) <> None) -> lsame (lupd _ _ _ _ f) (lupd _ _ _ _ f).
Proof. intros H x Hx. split; [reflexivity|]. cbn. now apply H. Qed.

Ltac supd := apply s_upd; intros; cbn; solve [assumption|discriminate].
Ltac stepS := first
  [ apply s_ret | apply s_raise | supd
  | apply s_get; intros ?
  | apply s_bind; [|intros ?]
  | match goal with |- context [match ?x with _ => _ end] => destruct x end ].

Lemma s_best : lsame (l_best_sources _ _ _ _ L) (l_best_sources _ _ _ _ other).
Proof.
  intros x H. unfold l_best_sources, best_sources. destruct (best (snd x)) eqn:B; [|now elim H]. split; [reflexivity|]. cbn [snd]. congruence.
Qed.

Lemma s_stamps : lsame (l_stamps_pos _ _ _ _ L) (l_stamps_pos _ _ _ _ other).
Proof.
  intros x H. unfold l_stamps_pos. cbn [other cutting].
  assert (G : lsame (lbind PIC NI FT IM (l_best_sources PIC NI FT IM L) (fun cat =>
       lbind PIC NI FT IM (lget PIC NI FT IM) (fun s =>
       let sh := stamp_shape s in
       lbind PIC NI FT IM (fun s => let '(p, x) := cutting L (fst s) sh cat in (Ok x, (p, snd s))) (fun x =>
       let '(stamps, r) := x in
       lbind PIC NI FT IM (lupd PIC NI FT IM (set_db _ _ _ (Some stamps))) (fun _ =>
       match r with
       | Raise e => lraise PIC NI FT IM e
       | Ok (p, kept) =>
           lbind PIC NI FT IM (lupd PIC NI FT IM (set_best _ _ _ (Some kept))) (fun _ =>
           lbind PIC NI FT IM (lupd PIC NI FT IM (set_stamp_shape _ _ _ (fst sh + 6, snd sh + 6)%nat)) (fun _ =>
           lbind PIC NI FT IM (lupd PIC NI FT IM (set_pos _ _ _ (Some p) (Some (length p)))) (fun _ =>
           lret PIC NI FT IM p)))
       end)))))
    (lbind PIC NI FT IM (l_best_sources PIC NI FT IM other) (fun cat =>
       lbind PIC NI FT IM (lget PIC NI FT IM) (fun s =>
       let sh := stamp_shape s in
       lbind PIC NI FT IM (fun s => let '(p, x) := cutting L (fst s) sh cat in (Ok x, (p, snd s))) (fun x =>
       let '(stamps, r) := x in
       lbind PIC NI FT IM (lupd PIC NI FT IM (set_db _ _ _ (Some stamps))) (fun _ =>
       match r with
       | Raise e => lraise PIC NI FT IM e
       | Ok (p, kept) =>
           lbind PIC NI FT IM (lupd PIC NI FT IM (set_best _ _ _ (Some kept))) (fun _ =>
           lbind PIC NI FT IM (lupd PIC NI FT IM (set_stamp_shape _ _ _ (fst sh + 6, snd sh + 6)%nat)) (fun _ =>
           lbind PIC NI FT IM (lupd PIC NI FT IM (set_pos _ _ _ (Some p) (Some (length p)))) (fun _ =>
           lret PIC NI FT IM p)))
       end)))))).
  { apply s_bind; [exact s_best|]. intros cat. apply s_get. intros s. cbv zeta. apply s_bind.
    - intros y Hy. split; [reflexivity|]. now destruct (cutting L (fst y) (stamp_shape s) cat).
    - intros [st r]. apply s_bind; [supd|intros _]. destruct r as [[ps kept]|e]; repeat stepS. }
  destruct (pos (snd x)), (reshaped _ _ _ (snd x)); try (apply G; cbn; exact H). split; [reflexivity|exact H].
Qed.

Lemma s_n : lsame (l_n_sources _ _ _ _ L) (l_n_sources _ _ _ _ other).
Proof.
  intros x H. unfold l_n_sources. destruct (nsrc (snd x)); [now split|].
  refine (s_bind _ _ _ _ _ _ s_stamps _ x H). intros a. repeat stepS.
Qed.
Lemma s_cov : lsame (l_cov_matrix _ _ _ _ L) (l_cov_matrix _ _ _ _ other).
Proof.
  intros x H. unfold l_cov_matrix. destruct (cov (snd x)); [now split|].
  refine (s_bind _ _ _ _ _ _ s_n _ x H). intros a. repeat stepS.
Qed.
Lemma s_eig : lsame (l_eigenv _ _ _ _ L) (l_eigenv _ _ _ _ other).
Proof.
  intros x H. unfold l_eigenv. destruct (eig (snd x)); [now split|].
  refine (s_bind _ _ _ _ _ _ s_cov _ x H). intros a. cbn [other base eigh]. repeat stepS.
Qed.
Lemma s_build e : lsame (l_build_basis _ _ _ _ L e) (l_build_basis _ _ _ _ other e).
Proof.
  intros x H. unfold l_build_basis. destruct e as [v w]. cbn [other base smooth]. destruct (mcols (snd x)) as [[rows t]|].
  - destruct (_ || _); now split.
  - refine (s_bind _ _ _ _ _ _ s_n _ x H). intros a. repeat stepS.
Qed.
Lemma s_setb l : lsame (l_setup_kl_basis _ _ _ _ L l) (l_setup_kl_basis _ _ _ _ other l).
Proof.
  intros x H. unfold l_setup_kl_basis. destruct (_ || _); [|now split].
  refine (s_bind _ _ _ _ _ _ _ _ x H).
  - destruct l; [supd|apply s_ret].
  - intros _. apply s_bind; [exact s_eig|]. intros e. apply s_bind; [apply s_build|]. intros b. supd.
Qed.
Lemma s_basis : lsame (l_kl_basis _ _ _ _ L) (l_kl_basis _ _ _ _ other).
Proof.
  intros x H. unfold l_kl_basis. refine (s_bind _ _ _ _ _ _ _ _ x H).
  - destruct (basis (snd x)); [apply s_ret|apply s_setb].
  - intros _. repeat stepS.
Qed.
Lemma s_seta l u : lsame (l_setup_kl_a_fields _ _ _ _ L l u) (l_setup_kl_a_fields _ _ _ _ other l u).
Proof.
  intros x H. unfold l_setup_kl_a_fields. destruct (_ || _); [|now split].
  refine (s_bind _ _ _ _ _ _ _ _ x H).
  - destruct l; [|apply s_ret]. apply s_bind; [apply s_setb|]. intros _. supd.
  - intros _. apply s_bind; [exact s_basis|]. intros b. cbv zeta. destruct (Nat.eqb _ 1); [supd|].
    apply s_bind; [exact s_best|]. intros _. apply s_bind; [exact s_stamps|]. intros ps.
    destruct (Nat.eqb _ 0); [apply s_raise|]. apply s_bind; [exact s_eig|]. intros e. cbn [other base Session.fit]. repeat stepS.
Qed.
Lemma s_af : lsame (l_kl_afields _ _ _ _ L) (l_kl_afields _ _ _ _ other).
Proof.
  intros x H. unfold l_kl_afields. refine (s_bind _ _ _ _ _ _ _ _ x H).
  - destruct (fields (snd x)); [apply s_ret|apply s_seta].
  - intros _. repeat stepS.
Qed.
Lemma s_psf l sh : lsame (l_get_variable_psf _ _ _ _ L l sh) (l_get_variable_psf _ _ _ _ other l sh).
Proof.
  intros x H. unfold l_get_variable_psf. refine (s_bind _ _ _ _ _ _ _ _ x H).
  - destruct sh as [q|]; [supd|apply s_ret].
  - intros _. apply s_get. intros s. cbv zeta. apply s_bind; [apply s_setb|]. intros _. apply s_bind; [apply s_seta|]. intros _.
    apply s_bind; [exact s_af|]. intros a. apply s_bind; [exact s_basis|]. intros b. repeat stepS.
Qed.

(** When the first extraction raises, so does the PSF. *)
Lemma psf_raises p0 sh0 cat p' st e s l : before NI FT IM sh0 cat s -> best s = Some cat ->
  cutting L p0 sh0 cat = (p', (st, Raise e)) ->
  exists x', l_get_variable_psf _ _ _ _ L (Some l) None (p0, s) = (Raise e, x').
Proof.
  intros (A & B & _ & D & E1 & E2 & E3 & E4 & _) Bs Cu.
  set (s1 := set_inf_loss l s).
  assert (S : exists x', l_stamps_pos _ _ _ _ L (p0, s1) = (Raise e, x')).
  { unfold l_stamps_pos, reshaped. cbn [fst snd]. change (req_shape s1) with (req_shape s). change (pos s1) with (pos s). rewrite A, D.
    unfold lbind, l_best_sources, best_sources, lget, lupd, lraise. cbn [fst snd].
    change (best (set_db NI FT IM (Some []) s1)) with (best s). rewrite Bs. cbn [fst snd].
    change (stamp_shape (set_db NI FT IM (Some []) s1)) with (stamp_shape s). rewrite B, Cu. eexists. reflexivity. }
  destruct S as (x1 & S).
  assert (N : l_n_sources _ _ _ _ L (p0, s1) = (Raise e, x1)).
  { unfold l_n_sources. cbn [snd]. change (nsrc s1) with (nsrc s). rewrite E1. unfold lbind at 1. now rewrite S. }
  assert (C : l_cov_matrix _ _ _ _ L (p0, s1) = (Raise e, x1)).
  { unfold l_cov_matrix. cbn [snd]. change (cov s1) with (cov s). rewrite E2. unfold lbind at 1. now rewrite N. }
  assert (G : l_eigenv _ _ _ _ L (p0, s1) = (Raise e, x1)).
  { unfold l_eigenv. cbn [snd]. change (eig s1) with (eig s). rewrite E3. unfold lbind at 1. now rewrite C. }
  exists x1. unfold l_get_variable_psf. unfold lbind at 1, lret at 1. unfold lbind at 1, lget at 1. cbn [snd].
  unfold lbind at 1, l_setup_kl_basis at 1. cbn [snd]. rewrite E4. cbn [orb].
  unfold lbind at 1, lupd at 1. cbn [fst snd]. fold s1. unfold lbind at 1. now rewrite G.
Qed.
End Same.
