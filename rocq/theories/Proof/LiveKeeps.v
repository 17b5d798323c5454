(** What any history leaves alone in the interpolated image. *)
From Coq Require Import ZArith List Bool Arith Reals Lia.
From Verif.Model Require Import Py Plane Sources KL Session Live.
From Verif.Spec Require Import Live LiveFar.
From Verif.Proof Require Import Session SessionLm Live.
Import ListNotations.
Set Bullet Behavior "Strict Subproofs".
Local Open Scope R_scope.

Section Keeps.
Variables PIC NI FT IM : Type.
Variable L : llib PIC NI FT IM.
Variables (pinv : PIC -> Prop) (shape_ok : nat * nat -> Prop) (src_ok : src -> Prop).
Hypothesis Hsel : forall c, select (base L) = Ok c -> Forall src_ok c.
Hypothesis HC : forall p sh c p' st r, pinv p -> shape_ok sh -> Forall src_ok c ->
  cutting L p sh c = (p', (st, r)) -> pinv p' /\ forall ps kept, r = Ok (ps, kept) -> Forall src_ok kept.
Hypothesis HF : forall p z a b n, pinv p -> pinv (fst (filtering L p z a b n)).

Notation state := (si NI FT IM).
Notation LMt := (LM PIC NI FT IM).

Definition holds (x : PIC * state) : Prop :=
  pinv (fst x) /\ (forall c, best (snd x) = Some c -> Forall src_ok c) /\
  (forall q, req_shape (snd x) = Some q -> shape_ok q) /\
  (pos (snd x) = None -> shape_ok (stamp_shape (snd x))).
Definition keeps {X} (m : LMt X) : Prop := forall x, holds x -> holds (snd (m x)).

Lemma k_ret X (a : X) : keeps (lret _ _ _ _ a).
Proof. intros x H. exact H. Qed.
Lemma k_raise X e : keeps (X := X) (lraise _ _ _ _ e).
Proof. intros x H. exact H. Qed.
Lemma k_bind X Y (m : LMt X) (k : X -> LMt Y) : keeps m -> (forall a, keeps (k a)) -> keeps (lbind _ _ _ _ m k).
Proof.
  intros H K x Hx. unfold lbind. specialize (H x Hx). destruct (m x) as [[a|e] x']; cbn [snd] in H |- *; [now apply K|exact H].
Qed.
Lemma k_get X (k : state -> LMt X) : (forall s, keeps (k s)) -> keeps (lbind _ _ _ _ (lget _ _ _ _) k).
Proof. intros H x Hx. exact (H (snd x) x Hx). Qed.
Lemma k_upd f : (forall s, best (f s) = best s /\ req_shape (f s) = req_shape s /\ pos (f s) = pos s /\ stamp_shape (f s) = stamp_shape s) ->
  keeps (lupd _ _ _ _ f).
Proof.
  intros H x (A & B & C & D). destruct (H (snd x)) as (E1 & E2 & E3 & E4). unfold holds, lupd. cbn [fst snd].
  rewrite E1, E2, E3, E4. now repeat split.
Qed.

Ltac kupd := apply k_upd; intros; cbn; repeat split; auto.
Ltac stepK := first
  [ apply k_ret | apply k_raise | solve [kupd]
  | apply k_get; intros ?
  | apply k_bind; [|intros ?]
  | match goal with |- context [match ?x with _ => _ end] => destruct x end ].

Lemma k_best : keeps (l_best_sources _ _ _ _ L).
Proof.
  intros [p s] (A & B & C & D). unfold l_best_sources, best_sources. cbn [fst snd] in *.
  destruct (best s) eqn:Bs; [cbn [snd]; repeat split; cbn [fst snd]; auto; now rewrite Bs|].
  destruct (select (base L)) eqn:S; cbn [snd].
  - unfold holds. cbn. repeat split; auto. intros c [= <-]. now apply Hsel.
  - repeat split; cbn [fst snd]; auto. now rewrite Bs.
Qed.

Lemma k_stamps : keeps (l_stamps_pos _ _ _ _ L).
Proof.
  intros [p s] (A & B & C & D). unfold l_stamps_pos. cbn [fst snd] in *.
  assert (G : forall s0 : state,
    (forall c, best s0 = Some c -> Forall src_ok c) -> (forall q, req_shape s0 = Some q -> shape_ok q) ->
    shape_ok (stamp_shape s0) ->
    holds (snd (lbind PIC NI FT IM (l_best_sources PIC NI FT IM L) (fun cat =>
       lbind PIC NI FT IM (lget PIC NI FT IM) (fun s =>
       let sh := stamp_shape s in
       lbind PIC NI FT IM (fun s => let '(p, x) := cutting L (fst s) sh cat in (Ok x, (p, snd s))) (fun x =>
       let '(stamps, r) := x in
       lbind PIC NI FT IM (lupd PIC NI FT IM (set_db _ _ _ (Some stamps))) (fun _ =>
       match r with
       | Raise e => lraise PIC NI FT IM e
       | Ok (p, kept) =>
           lbind PIC NI FT IM (lupd PIC NI FT IM (set_best _ _ _ (Some kept))) (fun _ =>
           lbind PIC NI FT IM (lupd PIC NI FT IM (set_stamp_shape _ _ _ (fst sh + 6, snd sh + 6)%nat)) (fun _ =>
           lbind PIC NI FT IM (lupd PIC NI FT IM (set_pos _ _ _ (Some p) (Some (length p)))) (fun _ =>
           lret PIC NI FT IM p)))
       end)))) (p, set_db _ _ _ (Some []) s0)))).
  { intros s0 B0 C0 S0. unfold lbind, l_best_sources, best_sources, lget, lupd, lret, lraise. cbn [fst snd].
    assert (G : forall cat s1, Forall src_ok cat -> (forall c, best s1 = Some c -> Forall src_ok c) ->
      (forall q, req_shape s1 = Some q -> shape_ok q) -> shape_ok (stamp_shape s1) ->
      holds (snd (let '(r, s') := let '(p1, x) := cutting L p (stamp_shape s1) cat in (Ok x, (p1, s1)) in
                  match r with
                  | Ok x => (let '(stamps, r) := x in fun s2 : PIC * state =>
                     match r with
                     | Ok (p2, kept) => (Ok p2, (fst s2, set_pos NI FT IM (Some p2) (Some (length p2))
                          (set_stamp_shape NI FT IM (fst (stamp_shape s1) + 6, snd (stamp_shape s1) + 6)%nat
                            (set_best NI FT IM (Some kept) (set_db NI FT IM (Some stamps) (snd s2))))))
                     | Raise e => (Raise e, (fst s2, set_db NI FT IM (Some stamps) (snd s2)))
                     end) s'
                  | Raise e => (@Raise (list (R * R)) e, s')
                  end))).
    { intros cat s1 F1 B1 C1 S1. destruct (cutting L p (stamp_shape s1) cat) as [p1 [st r]] eqn:Cu.
      destruct (HC _ _ _ _ _ _ A S1 F1 Cu) as [P1 K]. destruct r as [[ps kept]|e]; cbn [snd fst].
      - unfold holds. cbn. repeat split; auto.
        + intros c [= <-]. now apply (K ps).
        + discriminate.
      - unfold holds. cbn. now repeat split. }
    change (best (set_db NI FT IM (Some []) s0)) with (best s0).
    destruct (best s0) as [cat|] eqn:Bs.
    - specialize (G cat (set_db _ _ _ (Some []) s0) (B0 cat eq_refl)). cbn [fst snd] in G |- *.
      assert (Z : holds (snd (let '(r, s') := let '(p1, x) := cutting L p (stamp_shape (set_db NI FT IM (Some []) s0)) cat in (Ok x, (p1, set_db NI FT IM (Some []) s0)) in
                  match r with
                  | Ok x => (let '(stamps, r) := x in fun s2 : PIC * state =>
                     match r with
                     | Ok (p2, kept) => (Ok p2, (fst s2, set_pos NI FT IM (Some p2) (Some (length p2))
                          (set_stamp_shape NI FT IM (fst (stamp_shape (set_db NI FT IM (Some []) s0)) + 6, snd (stamp_shape (set_db NI FT IM (Some []) s0)) + 6)%nat
                            (set_best NI FT IM (Some kept) (set_db NI FT IM (Some stamps) (snd s2))))))
                     | Raise e => (Raise e, (fst s2, set_db NI FT IM (Some stamps) (snd s2)))
                     end) s'
                  | Raise e => (@Raise (list (R * R)) e, s')
                  end))).
      { apply G; cbn; auto; now rewrite Bs. }
      destruct (cutting L p (stamp_shape (set_db NI FT IM (Some []) s0)) cat) as [p1 [st [[ps kept]|e]]]; exact Z.
    - destruct (select (base L)) as [cat|e] eqn:S.
      + set (s1 := set_best NI FT IM (Some cat) (set_db NI FT IM (Some []) s0)).
        assert (Z := G cat s1 (Hsel cat eq_refl)). cbn [fst snd] in Z |- *.
        assert (Z' := Z ltac:(cbn; intros c [= <-]; now apply Hsel) ltac:(cbn; auto) ltac:(cbn; auto)). clear Z.
        destruct (cutting L p (stamp_shape s1) cat) as [p1 [st [[ps kept]|e]]]; exact Z'.
      + cbn [snd fst]. unfold holds. cbn. repeat split; auto. rewrite Bs. discriminate. }
  destruct (pos s) as [ps|] eqn:P, (reshaped _ _ _ s) eqn:Q.
  - apply G; cbn; auto. unfold reshaped in Q. destruct (req_shape s) as [q|] eqn:Rq; [|discriminate]. now apply C.
  - cbn [snd]. repeat split; auto. cbn [snd]. rewrite P. discriminate.
  - apply G; cbn; auto. unfold reshaped in Q. destruct (req_shape s) as [q|] eqn:Rq; [|discriminate]. now apply C.
  - apply G; auto.
Qed.

Lemma k_n : keeps (l_n_sources _ _ _ _ L).
Proof.
  intros x H. unfold l_n_sources. destruct (nsrc (snd x)); [exact H|]. revert x H. fold (keeps (X := nat) (fun x => (lbind PIC NI FT IM (l_stamps_pos PIC NI FT IM L)
   (fun _ => lbind PIC NI FT IM (lget PIC NI FT IM) (fun s => match nsrc s with Some n => lret PIC NI FT IM n | None => lraise PIC NI FT IM AttributeError end))) x)).
  apply k_bind; [exact k_stamps|]. intros a. repeat stepK.
Qed.

Lemma k_cov : keeps (l_cov_matrix _ _ _ _ L).
Proof.
  intros x H. unfold l_cov_matrix. destruct (cov (snd x)); [exact H|].
  refine (k_bind _ _ _ _ k_n _ x H). intros a. repeat stepK.
Qed.
Lemma k_eig : keeps (l_eigenv _ _ _ _ L).
Proof.
  intros x H. unfold l_eigenv. destruct (eig (snd x)); [exact H|].
  refine (k_bind _ _ _ _ k_cov _ x H). intros a. repeat stepK.
Qed.
Lemma k_build e : keeps (l_build_basis _ _ _ _ L e).
Proof.
  intros x H. unfold l_build_basis. destruct e as [v w]. destruct (mcols (snd x)) as [[rows t]|].
  - destruct (_ || _); exact H.
  - refine (k_bind _ _ _ _ k_n _ x H). intros a. repeat stepK.
Qed.
Lemma k_setb l : keeps (l_setup_kl_basis _ _ _ _ L l).
Proof.
  intros x H. unfold l_setup_kl_basis. destruct (_ || _); [|exact H].
  refine (k_bind _ _ _ _ _ _ x H).
  - destruct l; [kupd|apply k_ret].
  - intros _. apply k_bind; [exact k_eig|]. intros e. apply k_bind; [apply k_build|]. intros b. kupd.
Qed.
Lemma k_basis : keeps (l_kl_basis _ _ _ _ L).
Proof.
  intros x H. unfold l_kl_basis. refine (k_bind _ _ _ _ _ _ x H).
  - destruct (basis (snd x)); [apply k_ret|apply k_setb].
  - intros _. repeat stepK.
Qed.
Lemma k_seta l u : keeps (l_setup_kl_a_fields _ _ _ _ L l u).
Proof.
  intros x H. unfold l_setup_kl_a_fields. destruct (_ || _); [|exact H].
  refine (k_bind _ _ _ _ _ _ x H).
  - destruct l; [|apply k_ret]. apply k_bind; [apply k_setb|]. intros _. kupd.
  - intros _. apply k_bind; [exact k_basis|]. intros b. destruct (Nat.eqb _ 1); [kupd|].
    apply k_bind; [exact k_best|]. intros _. apply k_bind; [exact k_stamps|]. intros ps.
    destruct (Nat.eqb _ 0); [apply k_raise|]. apply k_bind; [exact k_eig|]. intros e. repeat stepK.
Qed.
Lemma k_af : keeps (l_kl_afields _ _ _ _ L).
Proof.
  intros x H. unfold l_kl_afields. refine (k_bind _ _ _ _ _ _ x H).
  - destruct (fields (snd x)); [apply k_ret|apply k_seta].
  - intros _. repeat stepK.
Qed.
Lemma k_psf l sh : (forall q, sh = Some q -> shape_ok q) -> keeps (l_get_variable_psf _ _ _ _ L l sh).
Proof.
  intros Q x H. unfold l_get_variable_psf. refine (k_bind _ _ _ _ _ _ x H).
  - destruct sh as [q|]; [|apply k_ret]. intros [p s] (A & B & C & D). unfold holds. cbn in *. repeat split; auto; intros q' [= <-]; now apply Q.
  - intros _. apply k_get. intros s. apply k_bind; [apply k_setb|]. intros _. apply k_bind; [apply k_seta|]. intros _.
    apply k_bind; [exact k_af|]. intros a. apply k_bind; [exact k_basis|]. intros b. repeat stepK.
Qed.
Lemma k_normal : keeps (l_normal_image _ _ _ _ L).
Proof.
  intros x H. unfold l_normal_image. destruct (normal (snd x)); [exact H|].
  refine (k_bind _ _ _ _ (k_psf _ _ _) _ x H); [discriminate|]. intros a. repeat stepK.
Qed.
Lemma k_shat : keeps (l_s_hat_comp _ _ _ _ L).
Proof.
  intros x H. unfold l_s_hat_comp. destruct (match shat (snd x) with None => _ | Some _ => _ end).
  - refine (k_bind _ _ _ _ (k_psf _ _ _) _ x H); [discriminate|]. intros psf. apply k_bind; [exact k_normal|]. intros nrm.
    apply k_get. intros s. apply k_bind; [|intros h; repeat stepK].
    intros [p t] (A & B & C & D). cbn [fst snd] in *.
    pose proof (HF p (get_zp _ _ _ s) (fst psf) (snd psf) nrm A) as F. destruct (filtering L p _ _ _ _) as [p' h]. cbn [fst snd] in *.
    now repeat split.
  - destruct (shat (snd x)) as [[h l]|]; exact H.
Qed.
Lemma k_scomp : keeps (l_s_component _ _ _ _ L).
Proof.
  intros x H. unfold l_s_component. refine (k_bind _ _ _ _ _ _ x H).
  - destruct (scomp (snd x)); [apply k_ret|]. apply k_bind; [exact k_shat|]. intros h. apply k_get. intros s. kupd.
  - intros _. apply k_get. intros s. destruct (scomp s) as [[c l]|]; [|apply k_raise].
    destruct (Req_EM_T _ _); [apply k_ret|]. apply k_bind; [exact k_shat|]. intros h. repeat stepK.
Qed.
Lemma k_updates new : (forall c, new = Some c -> Forall src_ok c) -> keeps (l_update_sources _ _ _ _ L new).
Proof.
  intros N x H. unfold l_update_sources. destruct (best (snd x)); [|exact H].
  refine (k_bind _ _ _ _ _ _ x H).
  - intros [p s] (A & B & C & D). unfold holds. cbn in *. repeat split; auto. discriminate.
  - intros _. destruct new as [c|].
    + intros [p s] (A & B & C & D). unfold holds. cbn in *. repeat split; auto; intros c' [= <-]; now apply N.
    + apply k_bind; [exact k_best|]. intros _. apply k_bind; [exact k_n|]. intros _. apply k_ret.
Qed.

Lemma k_exec c : (forall q, In q (asks_shape c) -> shape_ok q) -> (forall s, In s (brings c) -> src_ok s) ->
  forall x, holds x -> holds (l_exec L c x).
Proof.
  intros Q B x H. destruct c; cbn [l_exec]; unfold lvoid.
  - now apply k_best.
  - now apply k_stamps.
  - now apply k_n.
  - now apply k_cov.
  - now apply k_eig.
  - now apply k_basis.
  - now apply k_af.
  - apply k_psf; [|exact H]. intros q ->. apply Q. now left.
  - now apply k_normal.
  - now apply k_shat.
  - now apply k_scomp.
  - apply k_seta. exact H.
  - exact H.
  - apply k_updates; [|exact H]. intros c ->. now apply Forall_forall.
  - exact H.
  - destruct H as (A & B' & C & D). unfold holds. cbn. repeat split; auto. intros _. apply Q. now left.
  - exact H.
Qed.

Lemma k_all cs : (forall q, In q (flat_map asks_shape cs) -> shape_ok q) -> (forall s, In s (flat_map brings cs) -> src_ok s) ->
  forall x, holds x -> holds (l_exec_all L cs x).
Proof.
  induction cs as [|c cs IH]; intros Q B x H; [exact H|]. cbn [l_exec_all fold_left flat_map] in *.
  apply IH; [intros; apply Q, in_app_iff; auto|intros; apply B, in_app_iff; auto|].
  apply k_exec; [intros; apply Q, in_app_iff; auto|intros; apply B, in_app_iff; auto|exact H].
Qed.

(** A call that needs no stamps. *)
Lemma idle_exec c x : idle c -> fst (l_exec L c x) = fst x.
Proof.
  intros I. destruct x as [p s]. destruct c; try destruct I; cbn; try reflexivity.
  - unfold lvoid, l_best_sources. cbn. now destruct (best_sources (base L) s).
  - destruct new; [|destruct I]. unfold lvoid, l_update_sources. cbn. destruct (best s); reflexivity.
Qed.
Lemma idle_all cs : Forall idle cs -> forall x, fst (l_exec_all L cs x) = fst x.
Proof.
  induction 1 as [|c cs I F IH]; intros x; [reflexivity|]. cbn [l_exec_all fold_left]. rewrite <- (idle_exec c x I). apply IH.
Qed.
End Keeps.

