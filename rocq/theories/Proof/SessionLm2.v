(** The statements about update_sources, a requested shape, and failed requests. *)
From Coq Require Import ZArith List Bool Arith Reals Lia Lra.
From Verif.Model Require Import Py Plane Sources KL Session.
From Verif.Spec Require Import KL Session.
From Verif.Proof Require Import KLMain Session SessionFrame SessionMain SessionLm.
Import ListNotations.
Local Open Scope R_scope.
Set Bullet Behavior "Strict Subproofs".
Arguments set_best {NI FT IM} b s.
Arguments set_req_shape {NI FT IM} r s.
Arguments reshaped {NI FT IM} s.

(** * update_sources *)

(** An image whose sources were not looked at. *)
Lemma C36_not_read_lm : forall NI FT IM (L : lib NI FT IM) s new,
  best s = None -> update_sources L new s = (Raise AttributeError, s).
Proof. intros NI FT IM L s new H. unfold update_sources. now rewrite H. Qed.

(** The new list is what best_sources returns; nothing else moves. *)
Lemma C36_sources_lm : forall NI FT IM (L : lib NI FT IM) s c0 new,
  best s = Some c0 ->
  exists s1, update_sources L (Some new) s = (Ok tt, s1) /\
    best_sources L s1 = (Ok new, s1) /\ db s1 = db s /\
    (forall p, pos s = Some p -> reshaped s = false ->
       stamps_pos L s = (Ok p, s) /\ stamps_pos L s1 = (Ok p, s1)) /\
    (forall n, nsrc s = Some n -> n_sources L s = (Ok n, s) /\ n_sources L s1 = (Ok n, s1)).
Proof.
  intros NI FT IM L s c0 new H. exists (set_best (Some new) s).
  split; [unfold update_sources; rewrite H; reflexivity|]. split; [reflexivity|]. split; [reflexivity|]. split.
  - intros p Hp Hr. unfold stamps_pos. cbn [pos set_best]. change (reshaped (set_best (Some new) s)) with (reshaped s).
    rewrite Hp, Hr. auto.
  - intros n Hn. unfold n_sources. cbn [nsrc set_best]. rewrite Hn. auto.
Qed.

(** Before the extraction it decides what is extracted. *)
Lemma C36_before_lm : forall NI FT IM (L : lib NI FT IM) s c0 new st r s1,
  best s = Some c0 -> pos s = None -> reshaped s = false ->
  extract L (stamp_shape s) new = (st, r) ->
  update_sources L (Some new) s = (Ok tt, s1) ->
  fst (stamps_pos L s1) = bind r (fun pk => Ok (fst pk)) /\ db (snd (stamps_pos L s1)) = Some st.
Proof.
  intros NI FT IM L s c0 new st r s1 H Hp Hr He Hu.
  unfold update_sources in Hu. rewrite H in Hu. unfold mbind, upd in Hu. injection Hu as <-.
  unfold stamps_pos, mbind, get, upd, ret, raise. cbn [pos set_best]. rewrite Hp.
  change (reshaped _) with (reshaped s). rewrite Hr.
  unfold best_sources. cbn [best set_best set_db stamp_shape]. rewrite He.
  destruct r as [[p k]|e]; split; reflexivity.
Qed.

(** Afterwards it has no effect on anything computed from the PSF. *)
Section NoEffect.
Variables NI FT IM : Type.
Variable L : lib NI FT IM.
Variable new : list src.
Notation state := (si NI FT IM).
Let B : state -> state := set_best (Some new).
Definition settled (s : state) : Prop := best s <> None /\ pos s <> None /\ reshaped s = false.

Definition same {A} (m : M NI FT IM A) : Prop :=
  forall s, settled s -> m (B s) = (fst (m s), B (snd (m s))) /\ settled (snd (m s)).

Lemma same_ret {A} (a : A) : same (ret _ _ _ a).
Proof. intros s H. split; [reflexivity|exact H]. Qed.
Lemma same_raise {A} e : same (@raise _ _ _ A e).
Proof. intros s H. split; [reflexivity|exact H]. Qed.
Lemma same_upd f : (forall s, f (B s) = B (f s)) -> (forall s, settled s -> settled (f s)) -> same (upd _ _ _ f).
Proof. intros H1 H2 s H. unfold upd. cbn. rewrite H1. auto. Qed.
Lemma same_bind {A C} (m : M NI FT IM A) (k : A -> M NI FT IM C) :
  same m -> (forall a, same (k a)) -> same (mbind _ _ _ m k).
Proof.
  intros Hm Hk s H. destruct (Hm s H) as (E & S). unfold mbind. rewrite E.
  destruct (m s) as [[a|e] s1]; cbn [fst snd] in *; [|auto]. exact (Hk a s1 S).
Qed.
Lemma same_get {C} (k : state -> M NI FT IM C) :
  (forall s0, same (k s0)) -> (forall s0, k (B s0) = k s0) -> same (mbind _ _ _ (get _ _ _) k).
Proof. intros H1 H2 s H. unfold mbind, get. rewrite H2. exact (H1 s s H). Qed.

Lemma same_best : same (mbind _ _ _ (best_sources L) (fun _ => ret _ _ _ tt)).
Proof.
  intros s H. unfold mbind, best_sources, B. cbn [best set_best]. destruct H as (H1 & H2). destruct (best s) eqn:E; [|congruence].
  cbn. split; [reflexivity|]. split; [congruence|exact H2].
Qed.

Lemma same_best_then {C} (m : M NI FT IM C) : same m -> same (mbind _ _ _ (best_sources L) (fun _ => m)).
Proof.
  intros Hm s H. pose proof (Hm s H) as Q. destruct H as (H1 & H2). unfold mbind, best_sources. unfold B at 1 2 3. cbn [best set_best].
  destruct (best s) eqn:E; [|congruence]. exact Q.
Qed.

Lemma same_stamps : same (stamps_pos L).
Proof.
  intros s (H1 & H2 & H3). unfold stamps_pos, B. cbn [pos set_best]. change (reshaped (set_best (Some new) s)) with (reshaped s).
  destruct (pos s) eqn:E; [|congruence]. rewrite H3. cbn. split; [reflexivity|]. split; [exact H1|]. split; [congruence|exact H3].
Qed.

Lemma settled_keep s s' : best s' = best s -> pos s' = pos s -> req_shape s' = req_shape s -> stamp_shape s' = stamp_shape s ->
  settled s -> settled s'.
Proof. intros E1 E2 E3 E4 (H1 & H2 & H3). unfold settled, reshaped in *. now rewrite E1, E2, E3, E4. Qed.

Lemma same_n : same (n_sources L).
Proof.
  intros s H. unfold n_sources. change (nsrc (B s)) with (nsrc s). destruct (nsrc s) as [n|]; [split; [reflexivity|exact H]|].
  apply same_bind; [exact same_stamps| |exact H]. intros _. apply same_get; [|reflexivity].
  intros s0. destruct (nsrc s0); [apply same_ret|apply same_raise].
Qed.

Lemma same_cov : same (Session.cov_matrix _ _ _ L).
Proof.
  intros s H. unfold Session.cov_matrix. change (cov (B s)) with (cov s). destruct (cov s) as [c|]; [split; [reflexivity|exact H]|].
  apply same_bind; [exact same_n| |exact H]. intros n. apply same_get; [|reflexivity]. intros s0.
  destruct (no_file _ _ _ _ _); [apply same_raise|]. destruct (Nat.ltb _ _); [apply same_raise|]. cbn zeta. destruct (KL.cov_matrix _ _); [|apply same_raise].
  apply same_bind; [|intros _; apply same_ret]. apply same_upd; [reflexivity|]. intros s1. now apply settled_keep.
Qed.

Lemma same_eig : same (Session.eigenv _ _ _ L).
Proof.
  intros s H. unfold Session.eigenv. change (eig (B s)) with (eig s). destruct (eig s) as [c|]; [split; [reflexivity|exact H]|].
  apply same_bind; [exact same_cov| |exact H]. intros c. destruct (Nat.eqb _ _); [apply same_raise|]. cbn zeta.
  apply same_bind; [|intros _; apply same_ret]. apply same_upd; [reflexivity|]. intros s1. now apply settled_keep.
Qed.

Lemma same_build e : same (build_basis _ _ _ L e).
Proof.
  intros s H. unfold build_basis. destruct e as [valh vech]. change (mcols (B s)) with (mcols s).
  change (stamp_shape (B s)) with (stamp_shape s). change (inf_loss (B s)) with (inf_loss s).
  destruct (mcols s) as [[rows st]|].
  - destruct (_ || _); split; try reflexivity; exact H.
  - apply same_bind; [exact same_n| |exact H]. intros n. apply same_get; [|reflexivity]. intros s0. cbn zeta.
    destruct (no_file _ _ _ _ _); [apply same_raise|]. destruct (Nat.ltb _ _); [apply same_raise|]. destruct (_ || _); [apply same_raise|apply same_ret].
Qed.

Lemma same_setup l : same (setup_kl_basis _ _ _ L l).
Proof.
  intros s H. unfold setup_kl_basis. change (basis (B s)) with (basis s).
  change (differs _ _ _ l (B s)) with (differs _ _ _ l s).
  destruct (_ || _); [|split; [reflexivity|exact H]].
  apply same_bind; [| |exact H].
  - destruct l; [|apply same_ret]. apply same_upd; [reflexivity|]. intros s1. now apply settled_keep.
  - intros _. apply same_bind; [exact same_eig|]. intros e. apply same_bind; [apply same_build|]. intros b.
    apply same_upd; [reflexivity|]. intros s1. now apply settled_keep.
Qed.

Lemma same_basis : same (Session.kl_basis _ _ _ L).
Proof.
  intros s H. unfold Session.kl_basis. change (basis (B s)) with (basis s).
  apply same_bind; [destruct (basis s); [apply same_ret|apply same_setup]| |exact H]. intros _.
  apply same_get; [|reflexivity]. intros s0. destruct (basis s0); [apply same_ret|apply same_raise].
Qed.

Lemma same_fields l u : same (setup_kl_a_fields _ _ _ L l u).
Proof.
  intros s H. unfold setup_kl_a_fields. change (fields (B s)) with (fields s).
  change (differs _ _ _ l (B s)) with (differs _ _ _ l s).
  destruct (_ || _ || _); [|split; [reflexivity|exact H]].
  apply same_bind; [| |exact H].
  - destruct l; [|apply same_ret]. apply same_bind; [apply same_setup|]. intros _.
    apply same_upd; [reflexivity|]. intros s1. now apply settled_keep.
  - intros _. apply same_bind; [exact same_basis|]. intros b. cbn zeta. destruct (Nat.eqb _ _).
    + apply same_upd; [reflexivity|]. intros s1. now apply settled_keep.
    + apply same_best_then. apply same_bind; [exact same_stamps|]. intros p. destruct (Nat.eqb _ _); [apply same_raise|].
      apply same_bind; [exact same_eig|]. intros e. cbn zeta. destruct (_ && _); [apply same_raise|].
      apply same_upd; [reflexivity|]. intros s1. now apply settled_keep.
Qed.

Lemma same_afields : same (kl_afields _ _ _ L).
Proof.
  intros s H. unfold kl_afields. change (fields (B s)) with (fields s).
  apply same_bind; [destruct (fields s); [apply same_ret|apply same_fields]| |exact H]. intros _.
  apply same_get; [|reflexivity]. intros s0. destruct (fields s0); [apply same_ret|apply same_raise].
Qed.

Lemma same_psf l : same (get_variable_psf L l None).
Proof.
  intros s H. unfold get_variable_psf. apply same_bind; [apply same_ret| |exact H]. intros _.
  apply same_get; [|reflexivity]. intros s0. cbn zeta. apply same_bind; [apply same_setup|]. intros _.
  apply same_bind; [apply same_fields|]. intros _. apply same_bind; [exact same_afields|]. intros a.
  apply same_bind; [exact same_basis|]. intros b. destruct a as [|[|f fs]].
  - destruct b; [apply same_raise|]. apply same_bind; [|intros _; apply same_ret].
    apply same_upd; [reflexivity|]. intros s1. now apply settled_keep.
  - apply same_raise.
  - apply same_ret.
Qed.

Lemma same_normal : same (normal_image L).
Proof.
  intros s H. unfold normal_image. change (normal (B s)) with (normal s). destruct (normal s); [split; [reflexivity|exact H]|].
  apply same_bind; [apply same_psf| |exact H]. intros q. cbn zeta. apply same_bind; [|intros _; apply same_ret].
  apply same_upd; [reflexivity|]. intros s1. now apply settled_keep.
Qed.

Lemma same_shat : same (s_hat_comp L).
Proof.
  intros s H. unfold s_hat_comp. change (shat (B s)) with (shat s). change (inf_loss (B s)) with (inf_loss s).
  destruct (match shat s with None => true | Some (_, l) => _ end).
  - apply same_bind; [apply same_psf| |exact H]. intros q. apply same_bind; [exact same_normal|]. intros nrm.
    apply same_get; [|reflexivity]. intros s0. cbn zeta. apply same_bind; [|intros _; apply same_ret].
    apply same_upd; [reflexivity|]. intros s1. now apply settled_keep.
  - destruct (shat s) as [[h l]|]; split; try reflexivity; exact H.
Qed.

Lemma same_scomp : same (s_component L).
Proof.
  intros s H. unfold s_component. change (scomp (B s)) with (scomp s).
  apply same_bind; [| |exact H].
  - destruct (scomp s); [apply same_ret|]. apply same_bind; [exact same_shat|]. intros h.
    apply same_get; [|reflexivity]. intros s0. apply same_upd; [reflexivity|]. intros s1. now apply settled_keep.
  - intros _. apply same_get; [|reflexivity]. intros s0. destruct (scomp s0) as [[c l]|]; [|apply same_raise].
    destruct (Req_EM_T _ _); [apply same_ret|]. apply same_bind; [exact same_shat|]. intros h. cbn zeta.
    apply same_bind; [|intros _; apply same_ret]. apply same_upd; [reflexivity|]. intros s1. now apply settled_keep.
Qed.
End NoEffect.

Lemma C36_no_effect_lm : forall NI FT IM (L : lib NI FT IM) s c0 p new s1,
  best s = Some c0 -> pos s = Some p -> reshaped s = false ->
  update_sources L (Some new) s = (Ok tt, s1) ->
  (forall l, fst (get_variable_psf L l None s1) = fst (get_variable_psf L l None s)) /\
  fst (normal_image L s1) = fst (normal_image L s) /\
  fst (s_hat_comp L s1) = fst (s_hat_comp L s) /\
  fst (s_component L s1) = fst (s_component L s).
Proof.
  intros NI FT IM L s c0 p new s1 H1 H2 H3 Hu.
  unfold update_sources in Hu. rewrite H1 in Hu. unfold mbind, upd in Hu. injection Hu as <-.
  assert (S : settled NI FT IM s) by (split; [congruence|split; [congruence|exact H3]]).
  change (set_best (Some new) (set_best None s)) with (set_best (Some new) s).
  split; [intros l; now rewrite (proj1 (same_psf NI FT IM L new l s S))|].
  split; [now rewrite (proj1 (same_normal NI FT IM L new s S))|].
  split; [now rewrite (proj1 (same_shat NI FT IM L new s S))|now rewrite (proj1 (same_scomp NI FT IM L new s S))].
Qed.

(** Without a list the sources are detected again, but after the extraction nothing computed
    from them is. When the detection raises, the image is left without sources. *)
Lemma C36_redetect_lm : forall NI FT IM (L : lib NI FT IM) s c0 p n,
  best s = Some c0 -> pos s = Some p -> nsrc s = Some n -> reshaped s = false ->
  match select L with
  | Ok c => exists s1, update_sources L None s = (Ok tt, s1) /\
      best_sources L s1 = (Ok c, s1) /\ stamps_pos L s1 = (Ok p, s1) /\ n_sources L s1 = (Ok n, s1) /\
      db s1 = db s /\
      (forall l, fst (get_variable_psf L l None s1) = fst (get_variable_psf L l None s)) /\
      fst (normal_image L s1) = fst (normal_image L s) /\
      fst (s_hat_comp L s1) = fst (s_hat_comp L s) /\
      fst (s_component L s1) = fst (s_component L s)
  | Raise e => exists s1, update_sources L None s = (Raise e, s1) /\ best s1 = None /\
      forall new, fst (update_sources L new s1) = Raise AttributeError
  end.
Proof.
  intros NI FT IM L s c0 p n H1 H2 H3 H4. destruct (select L) as [c|e] eqn:E.
  - exists (set_best (Some c) s). split.
    + unfold update_sources. rewrite H1. unfold mbind, upd, best_sources at 1. cbn [best set_best]. rewrite E.
      unfold n_sources. cbn [nsrc set_best]. rewrite H3. reflexivity.
    + destruct (C36_sources_lm NI FT IM L s c0 c H1) as (s1 & U & A & D & P & N).
      assert (X : s1 = set_best (Some c) s).
      { unfold update_sources in U. rewrite H1 in U. unfold mbind, upd in U. injection U as <-. reflexivity. }
      subst s1. split; [exact A|]. split; [now apply P|]. split; [now apply N|]. split; [exact D|].
      exact (C36_no_effect_lm NI FT IM L s c0 p c _ H1 H2 H4 U).
  - exists (set_best None s). split; [|split; [reflexivity|intros new; reflexivity]].
    unfold update_sources. rewrite H1. unfold mbind, upd, best_sources. cbn [best set_best]. now rewrite E.
Qed.

(** * A requested shape *)

Lemma shape_eqb_spec a b : shape_eqb a b = true <-> a = b.
Proof.
  unfold shape_eqb. destruct a, b. cbn. rewrite andb_true_iff, !Nat.eqb_eq. split; [intros [-> ->]; reflexivity|].
  intros H. injection H as -> ->. auto.
Qed.

(** What an access to stamps_pos does when it extracts. *)
Lemma stamps_extract0 NI FT IM (L : lib NI FT IM) s sh cat st r :
  req_shape s = Some sh -> (stamp_shape s <> sh \/ pos s = None) ->
  best s = Some cat -> extract L sh cat = (st, r) ->
  exists s1, stamps_pos L s = (bind r (fun pk => Ok (fst pk)), s1) /\
    req_shape s1 = Some sh /\ db s1 = Some st /\ (keep _ _ _ s s1 /\ eig s1 = eig s /\ mcols s1 = mcols s) /\
    match r with
    | Ok (p, kept) => stamp_shape s1 = (fst sh + 6, snd sh + 6)%nat /\ best s1 = Some kept /\
                      pos s1 = Some p /\ nsrc s1 = Some (length p)
    | Raise _ => stamp_shape s1 = sh /\ best s1 = Some cat /\ pos s1 = pos s /\ nsrc s1 = nsrc s
    end.
Proof.
  intros Hr Hc Hb He.
  assert (Sh : stamp_shape (if reshaped s then set_stamp_shape _ _ _ sh s else s) = sh).
  { unfold reshaped. rewrite Hr. destruct (shape_eqb sh (stamp_shape s)) eqn:E; cbn; [|reflexivity].
    apply shape_eqb_spec in E. congruence. }
  assert (Run : stamps_pos L s =
    (bind r (fun pk => Ok (fst pk)),
     let s0 := set_db _ _ _ (Some st) (if reshaped s then set_stamp_shape _ _ _ sh s else s) in
     match r with
     | Ok (p, kept) => set_pos _ _ _ (Some p) (Some (length p)) (set_stamp_shape _ _ _ (fst sh + 6, snd sh + 6)%nat (set_best (Some kept) s0))
     | Raise _ => s0
     end)).
  { unfold stamps_pos. rewrite Hr.
    assert (X : forall s2, best s2 = Some cat -> stamp_shape s2 = sh ->
      (mbind _ _ _ (best_sources L) (fun cat => mbind _ _ _ (get _ _ _) (fun s =>
       let sh := stamp_shape s in
       let '(stamps, r) := extract L sh cat in
       mbind _ _ _ (upd _ _ _ (set_db _ _ _ (Some stamps))) (fun _ =>
       match r with
       | Raise e => raise _ _ _ e
       | Ok (p, kept) =>
           mbind _ _ _ (upd _ _ _ (set_best (Some kept))) (fun _ =>
           mbind _ _ _ (upd _ _ _ (set_stamp_shape _ _ _ (fst sh + 6, snd sh + 6)%nat)) (fun _ =>
           mbind _ _ _ (upd _ _ _ (set_pos _ _ _ (Some p) (Some (length p)))) (fun _ => ret _ _ _ p)))
       end)))) (set_db _ _ _ (Some []) s2) =
      (bind r (fun pk => Ok (fst pk)),
       match r with
       | Ok (p, kept) => set_pos _ _ _ (Some p) (Some (length p)) (set_stamp_shape _ _ _ (fst sh + 6, snd sh + 6)%nat
            (set_best (Some kept) (set_db _ _ _ (Some st) s2)))
       | Raise _ => set_db _ _ _ (Some st) s2
       end)).
    { intros s2 B2 S2. unfold mbind, best_sources, get, upd, ret, raise. cbn [best set_db stamp_shape].
      rewrite B2. cbn [stamp_shape set_db]. rewrite S2, He. destruct r as [[p k]|e]; reflexivity. }
    assert (Br : forall b : bool, best (if b then set_stamp_shape _ _ _ sh s else s) = Some cat)
      by (intros []; exact Hb).
    destruct (pos s) as [p0|] eqn:Hp.
    - destruct (reshaped s) eqn:E.
      + apply (X (set_stamp_shape _ _ _ sh s)); [exact Hb|exact Sh].
      + exfalso. destruct Hc as [Hc|Hc]; [|discriminate]. apply Hc. exact Sh.
    - apply (X (if reshaped s then set_stamp_shape _ _ _ sh s else s)); [apply Br|exact Sh]. }
  rewrite Run. eexists. split; [reflexivity|]. cbn zeta.
  destruct r as [[p k]|e]; (destruct (reshaped s); cbn in *; (split; [assumption|]; split; [reflexivity|];
    split; [split; [constructor; reflexivity|split; reflexivity]|auto 8])).
Qed.

Lemma stamps_extract NI FT IM (L : lib NI FT IM) s sh cat st r :
  req_shape s = Some sh -> (stamp_shape s <> sh \/ pos s = None) ->
  fst (best_sources L s) = Ok cat -> extract L sh cat = (st, r) ->
  exists s1, stamps_pos L s = (bind r (fun pk => Ok (fst pk)), s1) /\
    req_shape s1 = Some sh /\ db s1 = Some st /\ (keep _ _ _ s s1 /\ eig s1 = eig s /\ mcols s1 = mcols s) /\
    match r with
    | Ok (p, kept) => stamp_shape s1 = (fst sh + 6, snd sh + 6)%nat /\ best s1 = Some kept /\
                      pos s1 = Some p /\ nsrc s1 = Some (length p)
    | Raise _ => stamp_shape s1 = sh /\ best s1 = Some cat /\ pos s1 = pos s /\ nsrc s1 = nsrc s
    end.
Proof.
  intros Hr Hc Hb He. unfold best_sources in Hb. destruct (best s) as [c|] eqn:B.
  - cbn in Hb. injection Hb as ->. now apply (stamps_extract0 NI FT IM L s sh cat st r).
  - destruct (select L) as [c|] eqn:S; [|discriminate]. cbn in Hb. injection Hb as ->.
    destruct (stamps_extract0 NI FT IM L (set_best (Some cat) s) sh cat st r Hr Hc eq_refl He) as
      (s1 & E & R1 & D & (K & Eg & Mc) & Q).
    exists s1. split.
    + rewrite <- E. unfold stamps_pos. cbn [pos set_best req_shape].
      change (reshaped (set_best (Some cat) s)) with (reshaped s).
      assert (Bq : forall s' : si NI FT IM, best s' = None -> best_sources L s' = best_sources L (set_best (Some cat) s')).
      { intros s' H. unfold best_sources. rewrite H, S. reflexivity. }
      assert (Run : forall X (k : list src -> M NI FT IM X) s', best s' = None ->
        mbind _ _ _ (best_sources L) k s' = mbind _ _ _ (best_sources L) k (set_best (Some cat) s')).
      { intros X k s' H. unfold mbind. now rewrite (Bq s' H). }
      destruct (pos s) as [p0|] eqn:P; destruct (reshaped s) eqn:Rr.
      * rewrite Run by exact B. reflexivity.
      * exfalso. unfold reshaped in Rr. rewrite Hr in Rr. apply negb_false_iff, shape_eqb_spec in Rr.
        destruct Hc; congruence.
      * rewrite Run by exact B. reflexivity.
      * rewrite Run by exact B. reflexivity.
    + split; [exact R1|]. split; [exact D|]. split; [|exact Q].
      split; [destruct K; now constructor|auto].
Qed.

(** Every access extracts again with the shape asked for, from the sources kept the last
    time. *)
Lemma C63_access_lm : forall NI FT IM (L : lib NI FT IM) s sh cat st p kept,
  req_shape s = Some sh -> (stamp_shape s <> sh \/ pos s = None) -> fst (best_sources L s) = Ok cat ->
  extract L sh cat = (st, Ok (p, kept)) ->
  exists s1, stamps_pos L s = (Ok p, s1) /\ db s1 = Some st /\
    stamp_shape s1 = (fst sh + 6, snd sh + 6)%nat /\ best_sources L s1 = (Ok kept, s1) /\
    n_sources L s1 = (Ok (length p), s1) /\
    (forall st2 r2, extract L sh kept = (st2, r2) ->
       fst (stamps_pos L s1) = bind r2 (fun pk => Ok (fst pk)) /\ db (snd (stamps_pos L s1)) = Some st2).
Proof.
  intros NI FT IM L s sh cat st p kept Hr Hc Hb He.
  destruct (stamps_extract NI FT IM L s sh cat st _ Hr Hc Hb He) as (s1 & E & R1 & D & _ & S1 & B1 & P1 & N1).
  exists s1. split; [exact E|]. split; [exact D|]. split; [exact S1|].
  split; [unfold best_sources; now rewrite B1|]. split; [unfold n_sources; now rewrite N1|].
  intros st2 r2 He2.
  destruct (stamps_extract NI FT IM L s1 sh kept st2 r2 R1) as (s2 & E2 & _ & D2 & _); [|unfold best_sources; now rewrite B1|exact He2|].
  - left. rewrite S1. destruct sh as [a b]. cbn. intros Q. injection Q as Q1 Q2. lia.
  - rewrite E2. auto.
Qed.

(** A failed extraction is forgotten: the next access gives the old positions, and the file
    holds the stamps of the failed one. *)
Lemma C63_failed_lm : forall NI FT IM (L : lib NI FT IM) s sh cat st e p0,
  req_shape s = Some sh -> stamp_shape s <> sh -> pos s = Some p0 -> fst (best_sources L s) = Ok cat ->
  extract L sh cat = (st, Raise e) ->
  exists s1, stamps_pos L s = (Raise e, s1) /\ stamps_pos L s1 = (Ok p0, s1) /\ db s1 = Some st.
Proof.
  intros NI FT IM L s sh cat st e p0 Hr Hs Hp Hb He.
  destruct (stamps_extract NI FT IM L s sh cat st _ Hr (or_introl Hs) Hb He) as (s1 & E & R1 & D & _ & S1 & B1 & P1 & N1).
  exists s1. split; [exact E|]. split; [|exact D]. rewrite Hp in P1. unfold stamps_pos.
  rewrite P1. unfold reshaped. rewrite R1, S1.
  assert (Q : shape_eqb sh sh = true) by now apply shape_eqb_spec. rewrite Q. reflexivity.
Qed.

(** A PSF already computed is returned as it is. *)
Lemma C63_cached_lm : forall NI FT IM (L : lib NI FT IM) s l0 sh0 psf s1 sh,
  get_variable_psf L l0 sh0 s = (Ok psf, s1) ->
  get_variable_psf L None (Some sh) s1 = (Ok psf, set_req_shape (Some sh) s1).
Proof.
  intros NI FT IM L s l0 sh0 [f b] s1 sh H. destruct (psf_stored _ _ _ _ _ _ _ _ _ H) as (B & F & Sh). cbn [fst snd] in B, F.
  change (get_variable_psf L None (Some sh) s1) with (get_variable_psf L None None (set_req_shape (Some sh) s1)).
  apply psf_cached; [exact B|exact F|now left|]. destruct f; exact Sh.
Qed.

(** A loss not asked for before, together with a shape: the basis is that of the old stamps,
    the fields are fitted at the positions of the new ones. *)
Lemma build_req NI FT IM (L : lib NI FT IM) e r s n : nsrc s = Some n ->
  build_basis _ _ _ L e (set_req_shape r s) =
  (fst (build_basis _ _ _ L e s), set_req_shape r (snd (build_basis _ _ _ L e s))).
Proof.
  intros H. unfold build_basis. destruct e as [valh vech]. cbn [mcols set_req_shape stamp_shape inf_loss].
  destruct (mcols s) as [[rows st]|]; [destruct (_ || _); reflexivity|].
  unfold mbind, n_sources. cbn [nsrc set_req_shape]. rewrite H. unfold get, no_file, stored. cbn [db set_req_shape]. cbn zeta.
  destruct (db s) as [l|]; [|destruct (negb _); [reflexivity|]];
  (destruct (Nat.ltb _ _); [reflexivity|]; destruct (_ || _); reflexivity).
Qed.

Lemma C63_mixed_lm : forall NI FT IM (L : lib NI FT IM) sh s0 cs l fs b stamps p e sh2 cat st2 p2 k2,
  lib_ok L -> new_image L sh s0 -> Forall plain cs -> 0 <= l -> l <> last_loss cs ->
  stamps_of NI FT IM L sh = Ok (stamps, p) ->
  KL.eigenv (eigh L) (fst sh + 6, snd sh + 6)%nat stamps = Ok e ->
  psf_for L sh l = Ok (Fields fs, b) ->
  let s := exec_all L (cs ++ [CEigenv]) s0 in
  fst (best_sources L s) = Ok cat -> extract L sh2 cat = (st2, Ok (p2, k2)) ->
  sh2 <> (fst sh + 6, snd sh + 6)%nat -> p2 <> [] ->
  fst (get_variable_psf L (Some l) (Some sh2) s) =
  if Nat.eqb (length p2) (length stamps)
  then Ok (Fields (map (fun k => fit L p2 (eigen_component (length stamps) (snd e) k)) (seq 0 (length b))), b)
  else Raise ValueError.
Proof.
  intros NI FT IM L sh s0 cs l fs b stamps p e sh2 cat st2 p2 k2 (Hlen & Heig) Hn F Hl Hll Hst He Hpsf s Hbest Hext2 Hsh2 Hp2.
  assert (Hst' := Hst). unfold stamps_of in Hst'. destruct (select L) as [cat0|] eqn:Hsel; [|discriminate].
  destruct (extract L sh cat0) as [st0 [[p0 k0]|]] eqn:Hext; [|discriminate]. injection Hst' as -> ->.
  pose proof (C39_fields_lm NI FT IM L sh l _ (conj Hlen Heig) Hpsf) as Ff. unfold fields_fit in Ff. cbn in Ff.
  assert (Hkb : KL.kl_basis (eigh L) (smooth L) (fst sh + 6, snd sh + 6)%nat stamps l = Ok b).
  { unfold psf_for in Hpsf. rewrite Hst in Hpsf. cbn [bind] in Hpsf. destruct (KL.kl_basis _ _ _ _ _) as [b'|]; [|discriminate].
    cbn [bind] in Hpsf. destruct (Nat.eqb _ 1); [discriminate|]. destruct (Nat.eqb _ 0); [discriminate|].
    rewrite He in Hpsf. cbn [bind] in Hpsf. injection Hpsf as _ ->. reflexivity. }
  pose proof (reached_history NI FT IM L sh s0 cs (conj Hlen Heig) Hn F) as Rd.
  pose proof (reached_loss _ _ _ _ _ _ _ Rd) as (Lo & _). rewrite (proj1 (history_loss cs)) in Lo.
  destruct Rd as (J & mode & (Js & _) & _ & _ & _ & _ & _ & _ & _ & _ & HG & _).
  pose proof (HG _ _ _ _ _ Hsel Hext Js) as G. clear HG Js.
  set (s' := exec_all L cs s0) in *.
  destruct (eig_good NI FT IM L sh Hlen cat0 stamps p k0 Hsel Hext s' G) as (s1 & E1 & R1 & K1 & Q1).
  specialize (Q1 e He). assert (Es : s = s1).
  { unfold s, exec_all. rewrite fold_left_app. change (fold_left _ cs s0) with s'. cbn [fold_left exec]. unfold void.
    now rewrite E1. }
  clearbody s. subst s1. clearbody s'. clear E1.
  pose proof (k_loss _ _ _ _ _ K1) as L1. rewrite Lo in L1.
  destruct (eig_len NI FT IM L sh Heig stamps e He) as (Le & _).
  (* the basis *)
  pose (sa := set_inf_loss l s).
  assert (Ra : ready NI FT IM L sh stamps p sa) by (destruct R1; now constructor).
  pose proof (build_ok NI FT IM L sh Heig stamps p sa e Ra He Q1) as Bd. cbn [inf_loss sa set_inf_loss] in Bd. rewrite Hkb in Bd.
  pose (sb := set_req_shape (Some sh2) s).
  assert (D1 : differs _ _ _ (Some l) sb = true).
  { unfold differs. cbn [sb inf_loss set_req_shape]. rewrite L1. destruct (Req_EM_T _ _); [congruence|reflexivity]. }
  pose (sc := set_basis _ _ _ (Some b) (set_req_shape (Some sh2) sa)).
  assert (E1 : setup_kl_basis _ _ _ L (Some l) sb = (Ok tt, sc)).
  { unfold setup_kl_basis. rewrite D1, orb_true_r. unfold mbind, upd.
    change (set_inf_loss l sb) with (set_req_shape (Some sh2) sa).
    assert (Ev : Session.eigenv _ _ _ L (set_req_shape (Some sh2) sa) = (Ok e, set_req_shape (Some sh2) sa)).
    { unfold Session.eigenv. cbn [eig set_req_shape sa set_inf_loss]. now rewrite Q1. }
    rewrite Ev. rewrite (build_req _ _ _ L e (Some sh2) sa (length stamps)) by exact (r_n _ _ _ _ _ _ _ _ Ra).
    rewrite Bd. reflexivity. }
  assert (Dc : differs _ _ _ (Some l) sc = false).
  { unfold differs. cbn. destruct (Req_EM_T l l); [reflexivity|congruence]. }
  assert (E2 : setup_kl_basis _ _ _ L (Some l) sc = (Ok tt, sc)).
  { unfold setup_kl_basis. rewrite Dc. reflexivity. }
  (* the sources *)
  assert (Bs : exists sd, best_sources L sc = (Ok cat, sd) /\ best sd = Some cat /\ keep _ _ _ sc sd /\ eig sd = eig sc /\ req_shape sd = req_shape sc /\ stamp_shape sd = stamp_shape sc).
  { unfold best_sources in Hbest |- *. cbn [best sc set_basis set_req_shape sa set_inf_loss].
    destruct (best s) as [c|] eqn:B.
    - cbn in Hbest. injection Hbest as ->. exists sc. split; [reflexivity|]. split; [exact B|]. split; [apply keep_refl|auto].
    - rewrite Hsel in Hbest |- *. cbn in Hbest. injection Hbest as ->. eexists. split; [reflexivity|].
      split; [reflexivity|]. split; [now constructor|auto]. }
  destruct Bs as (sd & Ed & Bd' & Kd & Eg & Rq & Ss).
  destruct (stamps_extract NI FT IM L sd sh2 cat st2 (Ok (p2, k2))) as (se & Ee & Re & De & (Ke & Ege & _) & Se & _);
    [rewrite Rq; reflexivity| |unfold best_sources; now rewrite Bd'|exact Hext2|].
  { left. rewrite Ss. cbn. rewrite (r_sh _ _ _ _ _ _ _ _ R1). congruence. }
  cbn [bind fst] in Ee.
  assert (Ev : Session.eigenv _ _ _ L se = (Ok e, se)).
  { unfold Session.eigenv. rewrite Ege, Eg. cbn. now rewrite Q1. }
  assert (N1 : Nat.eqb (length b) 1 = false) by (apply Nat.eqb_neq; lia).
  assert (N0 : Nat.eqb (length b) 0 = false) by (apply Nat.eqb_neq; lia).
  assert (Np : Nat.eqb (length p2) 0 = false) by (apply Nat.eqb_neq; destruct p2; [congruence|cbn; lia]).
  assert (Xc : set_inf_loss l sc = sc) by reflexivity.
  assert (E3 : setup_kl_a_fields _ _ _ L (Some l) true sc =
    if Nat.eqb (length p2) (length stamps)
    then (Ok tt, set_fields _ _ _ (Some (Fields (map (fun k => fit L p2 (measures (length stamps) (snd e) k)) (seq 0 (length b))))) se)
    else (Raise ValueError, se)).
  { unfold setup_kl_a_fields. rewrite !orb_true_r. unfold mbind, upd. rewrite E2, Xc.
    assert (Kb : Session.kl_basis _ _ _ L sc = (Ok b, sc)) by reflexivity.
    rewrite Kb. cbn zeta. rewrite N1, Ed, Ee, Np, Ev. cbn zeta. rewrite Le, N0. cbn [negb andb].
    destruct (Nat.eqb (length p2) (length stamps)); reflexivity. }
  assert (Start : forall X (m : M NI FT IM X), mbind _ _ _ (upd _ _ _ (set_req_shape (Some sh2))) (fun _ => m) s = m sb) by reflexivity.
  unfold get_variable_psf. rewrite Start. unfold mbind at 1. unfold get at 1. cbn zeta. rewrite D1.
  unfold mbind at 1. rewrite E1. unfold mbind at 1. rewrite E3. clear E3.
  destruct (Nat.eqb (length p2) (length stamps)); [|reflexivity].
  assert (Be : basis se = Some b) by (rewrite (k_basis _ _ _ _ _ Ke), (k_basis _ _ _ _ _ Kd); reflexivity).
  set (ff := map _ _). set (sx := set_fields _ _ _ _ se).
  assert (Bx : basis sx = Some b) by exact Be.
  assert (Fx : fields sx = Some (Fields ff)) by reflexivity.
  assert (E4 : kl_afields _ _ _ L sx = (Ok (Fields ff), sx)) by (unfold kl_afields, mbind, get, ret; now rewrite !Fx).
  assert (E5 : Session.kl_basis _ _ _ L sx = (Ok b, sx)) by (unfold Session.kl_basis, mbind, get, ret; now rewrite !Bx).
  unfold mbind. rewrite E4, E5. destruct ff as [|f0 ft] eqn:Sq; [|reflexivity].
  apply (f_equal (@length _)) in Sq. unfold ff in Sq. rewrite map_length, seq_length in Sq. cbn in Sq. lia.
Qed.

(** * A request that fails *)

Lemma mbind_raise {NI FT IM A B} (m : M NI FT IM A) (k : A -> M NI FT IM B) s e s' :
  mbind _ _ _ m k s = (Raise e, s') ->
  m s = (Raise e, s') \/ exists a s1, m s = (Ok a, s1) /\ k a s1 = (Raise e, s').
Proof. unfold mbind. destruct (m s) as [[a|x] s1]; [eauto|intros H; injection H as -> ->; auto]. Qed.

(** [s1]: the PSF was computed. A request with a new loss fails; the second time the request
    does not fail, or fails for want of any element, and the coefficient fields are the old ones. *)
Lemma C84_retry_lm : forall NI FT IM (L : lib NI FT IM) psf s1 l e s2,
  get_variable_psf L None None s1 = (Ok psf, s1) ->
  get_variable_psf L (Some l) None s1 = (Raise e, s2) ->
  (forall psf', fst (get_variable_psf L (Some l) None s2) = Ok psf' -> fst psf' = fst psf) /\
  (forall x, fst (get_variable_psf L (Some l) None s2) = Raise x -> x = IndexError).
Proof.
  intros NI FT IM L [f b] s1 l e s2 H H2. cbn [fst].
  destruct (psf_stored _ _ _ _ _ _ _ _ _ H) as (B & F & Sh). cbn [fst snd] in B, F.
  assert (Dl : inf_loss s1 <> l).
  { intros <-. rewrite (psf_cached NI FT IM L (Some (inf_loss s1)) s1 f b B F) in H2; [discriminate|now right|destruct f; exact Sh]. }
  pose (P := fun s : si NI FT IM => fields s = Some f /\ basis s <> None).
  assert (P1 : P s1) by (split; congruence).
  pose (Q := fun s : si NI FT IM => fields s = Some f /\ basis s <> None /\ inf_loss s = l).
  (* the setters *)
  assert (Cl : forall g : si NI FT IM -> si NI FT IM,
     (forall s, fields (g s) = fields s /\ basis (g s) = basis s /\ inf_loss (g s) = inf_loss s) -> forall s, Q s -> Q (g s)).
  { intros g Hg s3 (A1 & A2 & A3). destruct (Hg s3) as (G1 & G2 & G3). unfold Q. rewrite G1, G2, G3. auto. }
  assert (Hb1 : forall x s, Q s -> Q (set_best x s)) by (intros x; apply Cl; intros; cbn; auto).
  assert (Hb2 : forall x s, Q s -> Q (set_db NI FT IM x s)) by (intros x; apply Cl; intros; cbn; auto).
  assert (Hb3 : forall x s, Q s -> Q (set_stamp_shape NI FT IM x s)) by (intros x; apply Cl; intros; cbn; auto).
  assert (Hb4 : forall x y s, Q s -> Q (set_pos NI FT IM (Some x) y s)) by (intros x y; apply Cl; intros; cbn; auto).
  assert (Hb5 : forall x y s, Q s -> Q (set_cov NI FT IM x y s)) by (intros x y; apply Cl; intros; cbn; auto).
  assert (Hb6 : forall x s, Q s -> Q (set_eig NI FT IM x s)) by (intros x; apply Cl; intros; cbn; auto).
  assert (QB : forall x s, Q s -> Q (set_basis NI FT IM (Some x) s)).
  { intros x s3 (A1 & A2 & A3). split; [exact A1|]. split; [discriminate|exact A3]. }
  pose proof (best_pres NI FT IM L Q Hb1) as Pbest.
  pose proof (stamps_pres NI FT IM L Q Hb2 Hb1 Hb3 Hb4) as Pst.
  pose proof (build_pres NI FT IM L Q Hb2 Hb1 Hb3 Hb4) as Pbu.
  pose proof (eig_pres NI FT IM L Q Hb2 Hb1 Hb3 Hb4 Hb5 Hb6) as Peig.
  (* after failing the loss is the new one; the fields are the old ones, or the answer is empty *)
  assert (Fail : inf_loss s2 = l /\ exists b2 f2, basis s2 = Some b2 /\ fields s2 = Some f2 /\
            (f2 = f \/ f2 = Fields [] \/ (f2 = NoField /\ b2 = []))).
  { assert (Easy : forall s, Q s -> inf_loss s = l /\ exists b2 f2, basis s = Some b2 /\ fields s = Some f2 /\
            (f2 = f \/ f2 = Fields [] \/ (f2 = NoField /\ b2 = []))).
    { intros s9 (X1 & X2 & X3). split; [exact X3|]. destruct (basis s9) as [b9|]; [|congruence]. eauto 8. }
    (* the basis step *)
    assert (St : forall r s3, setup_kl_basis _ _ _ L (Some l) s1 = (r, s3) -> Q s3).
    { intros r s3. unfold setup_kl_basis. rewrite B. unfold differs.
      destruct (Req_EM_T (inf_loss s1) l); [contradiction|]. cbn [orb].
      assert (Q1 : Q (set_inf_loss l s1)) by (split; [exact F|split; [cbn; congruence|reflexivity]]).
      unfold mbind at 1. unfold upd at 1. intros E.
      match type of E with ?m _ = _ => assert (Pm : pres NI FT IM Q m) end.
      { apply pres_bind; [exact Peig|]. intros ev. apply pres_bind; [apply Pbu|]. intros b'. apply pres_upd. apply QB. }
      specialize (Pm _ Q1). rewrite E in Pm. exact Pm. }
    unfold get_variable_psf in H2. unfold mbind at 1 in H2. unfold ret at 1 in H2. unfold mbind at 1 in H2. unfold get at 1 in H2.
    cbn zeta in H2. apply mbind_raise in H2. destruct H2 as [H2|(u & s3 & E3 & H2)]; [exact (Easy _ (St _ _ H2))|].
    pose proof (St _ _ E3) as Q3. destruct Q3 as (F3 & B3 & L3).
    assert (Q3 : Q s3) by (split; auto).
    assert (Fl : forall r s4, setup_kl_a_fields _ _ _ L (Some l) (differs _ _ _ (Some l) s1) s3 = (r, s4) ->
              match r with
              | Raise _ => Q s4
              | Ok _ => exists s' f', Q s' /\ s4 = set_fields _ _ _ (Some f') s'
              end).
    { intros r s4 E. unfold setup_kl_a_fields in E. rewrite F3 in E. cbn [orb] in E.
      assert (D3 : differs _ _ _ (Some l) s3 = false).
      { unfold differs. destruct (Req_EM_T (inf_loss s3) l); [reflexivity|contradiction]. }
      assert (U : differs _ _ _ (Some l) s1 = true).
      { unfold differs. destruct (Req_EM_T (inf_loss s1) l); [contradiction|reflexivity]. }
      rewrite D3, U in E. cbn [orb] in E.
      assert (Es : setup_kl_basis _ _ _ L (Some l) s3 = (Ok tt, s3)).
      { unfold setup_kl_basis. rewrite D3. destruct (basis s3); [reflexivity|congruence]. }
      assert (Q5 : Q (set_inf_loss l s3)) by (split; [exact F3|split; [exact B3|reflexivity]]).
      assert (Kb : exists b6, Session.kl_basis _ _ _ L (set_inf_loss l s3) = (Ok b6, set_inf_loss l s3)).
      { unfold Session.kl_basis. cbn [basis set_inf_loss]. destruct (basis s3) eqn:Bs; [|congruence].
        unfold mbind, ret, get. cbn [basis set_inf_loss]. rewrite Bs. eauto. }
      destruct Kb as (b6 & Kb).
      unfold mbind at 1 2 in E. rewrite Es in E. unfold upd at 1 in E. unfold mbind at 1 in E. rewrite Kb in E.
      cbn zeta in E. destruct (Nat.eqb (length b6) 1).
      { unfold upd in E. injection E as <- <-. eauto. }
      unfold mbind at 1 in E. pose proof (Pbest _ Q5) as Q6. destruct (best_sources L _) as [[c7|x] s7]; cbn in Q6;
        [|injection E as <- <-; exact Q6].
      unfold mbind at 1 in E. pose proof (Pst _ Q6) as Q7. destruct (stamps_pos L _) as [[p8|x] s8]; cbn in Q7;
        [|injection E as <- <-; exact Q7].
      destruct (Nat.eqb _ 0); [unfold raise in E; injection E as <- <-; exact Q7|].
      unfold mbind at 1 in E. pose proof (Peig _ Q7) as Q8. destruct (Session.eigenv _ _ _ L _) as [[e9|x] s9]; cbn in Q8;
        [|injection E as <- <-; exact Q8].
      cbn zeta in E. destruct (_ && _); [unfold raise in E; injection E as <- <-; exact Q8|].
      unfold upd in E. injection E as <- <-. eauto. }
    apply mbind_raise in H2. destruct H2 as [H2|(u2 & s4 & E4 & H2)]; [exact (Easy _ (Fl _ _ H2))|].
    destruct (Fl _ _ E4) as (s5 & f' & (F5 & B5 & L5) & ->).
    unfold mbind at 1, kl_afields in H2. unfold mbind at 1 2, ret at 1, get at 1 in H2. cbn [fields set_fields] in H2.
    unfold ret at 1 in H2. unfold mbind at 1, Session.kl_basis in H2. unfold mbind at 1 2 in H2. cbn [basis set_fields] in H2.
    destruct (basis s5) as [b5|] eqn:Eb; [|congruence]. unfold ret at 1, get at 1 in H2. cbn [basis set_fields] in H2.
    rewrite Eb in H2. unfold ret at 1 in H2.
    destruct f' as [|[|f0 fs]].
    - destruct b5; [|discriminate]. unfold raise in H2. injection H2 as _ <-. cbn. split; [exact L5|]. rewrite Eb. eauto 8.
    - unfold raise in H2. injection H2 as _ <-. cbn. split; [exact L5|]. rewrite Eb. eauto 8.
    - discriminate. }
  destruct Fail as (L2 & b2 & f2 & B2 & F2 & Or).
  assert (D : differs _ _ _ (Some l) s2 = false).
  { unfold differs. destruct (Req_EM_T (inf_loss s2) l); [reflexivity|contradiction]. }
  assert (E1 : setup_kl_basis _ _ _ L (Some l) s2 = (Ok tt, s2)) by (unfold setup_kl_basis; now rewrite B2, D).
  assert (E2 : setup_kl_a_fields _ _ _ L (Some l) false s2 = (Ok tt, s2)) by (unfold setup_kl_a_fields; now rewrite F2, D).
  assert (E3 : kl_afields _ _ _ L s2 = (Ok f2, s2)) by (unfold kl_afields, mbind, get, ret; now rewrite !F2).
  assert (E4 : Session.kl_basis _ _ _ L s2 = (Ok b2, s2)) by (unfold Session.kl_basis, mbind, get, ret; now rewrite !B2).
  assert (Run : fst (get_variable_psf L (Some l) None s2) =
    match f2, b2 with
    | Fields [], _ => Raise IndexError
    | NoField, [] => Raise IndexError
    | NoField, p :: t => Ok (NoField, unit_total p :: t)
    | _, _ => Ok (f2, b2)
    end).
  { unfold get_variable_psf, mbind, ret, get, upd. rewrite D, E1, E2, E3, E4.
    destruct f2 as [|[|? ?]]; [destruct b2; reflexivity|reflexivity|reflexivity]. }
  rewrite Run. clear -Or. split.
  - intros psf' H. destruct Or as [O|[O|[O1 O2]]]; subst.
    + destruct f as [|[|? ?]]; [destruct b2|discriminate|]; try discriminate; injection H as <-; reflexivity.
    + discriminate.
    + discriminate.
  - intros x H. destruct f2 as [|[|? ?]]; [destruct b2|..]; try discriminate; now injection H as <-.
Qed.

(** The state after the PSF was computed and then a shape asked for. *)
Lemma asked NI FT IM (L : lib NI FT IM) sh s0 cs f b cat0 stamps p k0 e sh2 :
  lib_ok L -> new_image L sh s0 -> Forall plain cs ->
  select L = Ok cat0 -> extract L sh cat0 = (stamps, Ok (p, k0)) ->
  KL.eigenv (eigh L) (fst sh + 6, snd sh + 6)%nat stamps = Ok e ->
  psf_for L sh (last_loss cs) = Ok (f, b) ->
  exists sb, exec_all L (cs ++ [CGetPSF None None; CEigenv; CGetPSF None (Some sh2)]) s0 = set_req_shape (Some sh2) sb /\
    ready NI FT IM L sh stamps p sb /\ eig sb = Some e /\ basis sb = Some b /\ fields sb = Some f /\
    inf_loss sb = last_loss cs /\
    match f with NoField => exists q t, b = unit_total q :: t | Fields fs => fs <> [] end.
Proof.
  intros (Hlen & Heig) Hn F Hsel Hext He Hpsf.
  (* after the first request *)
  assert (F1 : Forall plain (cs ++ [CGetPSF None None])) by (apply Forall_app; split; [exact F|repeat constructor]).
  pose proof (C39_history_lm NI FT IM L sh s0 cs (conj Hlen Heig) Hn F) as (_ & Hg & _). rewrite Hpsf in Hg.
  pose proof (reached_history NI FT IM L sh s0 _ (conj Hlen Heig) Hn F1) as Rd.
  pose proof (reached_loss _ _ _ _ _ _ _ Rd) as (Lo & _). rewrite (proj1 (history_loss _)), last_loss_app in Lo. cbn [fold_left loss_of] in Lo.
  destruct Rd as (J & mode & (Js & _) & _ & _ & _ & _ & _ & _ & _ & _ & HG & _).
  pose proof (HG _ _ _ _ _ Hsel Hext Js) as G. clear HG Js.
  assert (Ea : exec_all L (cs ++ [CGetPSF None None]) s0 = snd (get_variable_psf L None None (exec_all L cs s0))).
  { unfold exec_all. rewrite fold_left_app. reflexivity. }
  destruct (get_variable_psf L None None (exec_all L cs s0)) as [r sa] eqn:Ga. cbn [fst snd] in *. subst r.
  destruct (psf_stored _ _ _ _ _ _ _ _ _ Ga) as (Ba & Fa & Sh). cbn [fst snd] in Ba, Fa.
  rewrite Ea in Lo, G.
  destruct (eig_good NI FT IM L sh Hlen cat0 stamps p k0 Hsel Hext sa G) as (sb & E1 & R1 & K1 & Q1).
  specialize (Q1 e He).
  assert (Bb : basis sb = Some b) by (rewrite (k_basis _ _ _ _ _ K1); exact Ba).
  assert (Fb : fields sb = Some f) by (rewrite (k_fields _ _ _ _ _ K1); exact Fa).
  assert (Lb : inf_loss sb = last_loss cs) by (rewrite (k_loss _ _ _ _ _ K1); exact Lo).
  assert (Shf : match f with NoField => exists q t, b = unit_total q :: t | Fields fs => fs <> [] end) by (destruct f; exact Sh).
  assert (Es : exec_all L (cs ++ [CGetPSF None None; CEigenv; CGetPSF None (Some sh2)]) s0 = set_req_shape (Some sh2) sb).
  { unfold exec_all. rewrite fold_left_app. change (fold_left _ cs s0) with (exec_all L cs s0).
    cbn [fold_left]. change (exec L (CGetPSF None None) (exec_all L cs s0)) with (snd (get_variable_psf L None None (exec_all L cs s0))).
    rewrite Ga. change (exec L CEigenv (snd (Ok (f, b), sa))) with (snd (Session.eigenv _ _ _ L sa)). rewrite E1.
    assert (Ex3 : forall s', exec L (CGetPSF None (Some sh2)) s' = snd (get_variable_psf L None None (set_req_shape (Some sh2) s')))
      by reflexivity.
    rewrite Ex3. cbn [snd].
    erewrite psf_cached; [reflexivity|exact Bb|exact Fb|now left|exact Shf]. }
  exists sb. auto 8.
Qed.

(** Such a state meets the hypotheses of the statements above. *)
Lemma C63_reached_lm : forall NI FT IM (L : lib NI FT IM) sh s0 cs psf stamps p e sh2,
  lib_ok L -> new_image L sh s0 -> Forall plain cs ->
  stamps_of NI FT IM L sh = Ok (stamps, p) ->
  KL.eigenv (eigh L) (fst sh + 6, snd sh + 6)%nat stamps = Ok e ->
  psf_for L sh (last_loss cs) = Ok psf ->
  let s := exec_all L (cs ++ [CGetPSF None None; CEigenv; CGetPSF None (Some sh2)]) s0 in
  req_shape s = Some sh2 /\ stamp_shape s = (fst sh + 6, snd sh + 6)%nat /\ pos s = Some p /\ db s = Some stamps /\
  exists cat, fst (best_sources L s) = Ok cat.
Proof.
  intros NI FT IM L sh s0 cs [f b] stamps p e sh2 Hok Hn F Hst He Hpsf s.
  unfold stamps_of in Hst. destruct (select L) as [cat0|] eqn:Hsel; [|discriminate].
  destruct (extract L sh cat0) as [st0 [[p0 k0]|]] eqn:Hext; [|discriminate]. injection Hst as -> ->.
  destruct (asked NI FT IM L sh s0 cs f b cat0 stamps p k0 e sh2 Hok Hn F Hsel Hext He Hpsf) as (sb & Es & R1 & _).
  unfold s. rewrite Es. destruct R1. cbn. split; [reflexivity|]. split; [exact r_sh|]. split; [exact r_pos|].
  split; [exact r_db|]. unfold best_sources. cbn [best set_req_shape].
  destruct (best sb) as [c|]; [|rewrite Hsel]; eexists; reflexivity.
Qed.

(** A shape asked for, the stamps extracted again, a new loss: an error the first time, the
    answer for the old loss the second time. *)
Lemma C84_shape_lm : forall NI FT IM (L : lib NI FT IM) sh s0 cs psf stamps p e l sh2 cat st2 p2 k2,
  lib_ok L -> new_image L sh s0 -> Forall plain cs -> 0 <= l -> l <> last_loss cs ->
  stamps_of NI FT IM L sh = Ok (stamps, p) -> (length stamps <= 250)%nat ->
  KL.eigenv (eigh L) (fst sh + 6, snd sh + 6)%nat stamps = Ok e ->
  psf_for L sh (last_loss cs) = Ok psf ->
  let s := exec_all L (cs ++ [CGetPSF None None; CEigenv; CGetPSF None (Some sh2)]) s0 in
  fst (best_sources L s) = Ok cat -> extract L sh2 cat = (st2, Ok (p2, k2)) ->
  sh2 <> (fst sh + 6, snd sh + 6)%nat ->
  ((fst sh2 + 6) * (snd sh2 + 6) <> (fst sh + 6) * (snd sh + 6))%nat ->
  let s1 := exec L CStampsPos s in
  get_variable_psf L None None s1 = (Ok psf, s1) /\
  fst (get_variable_psf L (Some l) None s1) = Raise ValueError /\
  fst (get_variable_psf L (Some l) None (exec L (CGetPSF (Some l) None) s1)) = Ok psf.
Proof.
  intros NI FT IM L sh s0 cs [f b] stamps p e l sh2 cat st2 p2 k2 (Hlen & Heig) Hn F Hl Hll Hst H250 He Hpsf s Hbest Hext2 Hsh2 Har s1.
  assert (Hst' := Hst). unfold stamps_of in Hst'. destruct (select L) as [cat0|] eqn:Hsel; [|discriminate].
  destruct (extract L sh cat0) as [st0 [[p0 k0]|]] eqn:Hext; [|discriminate]. injection Hst' as -> ->.
  pose proof (C39_fields_lm NI FT IM L sh _ _ (conj Hlen Heig) Hpsf) as Ff. unfold fields_fit in Ff. cbn in Ff.
  assert (Hkb : KL.kl_basis (eigh L) (smooth L) (fst sh + 6, snd sh + 6)%nat stamps (last_loss cs) = Ok b).
  { unfold psf_for in Hpsf. rewrite Hst in Hpsf. cbn [bind] in Hpsf. destruct (KL.kl_basis _ _ _ _ _) as [b'|]; [|discriminate].
    cbn [bind] in Hpsf. destruct (Nat.eqb _ 1); [injection Hpsf as _ ->; reflexivity|]. destruct (Nat.eqb _ 0); [discriminate|].
    rewrite He in Hpsf. cbn [bind] in Hpsf. injection Hpsf as _ ->. reflexivity. }
  destruct (eig_len NI FT IM L sh Heig stamps e He) as (Le & c0 & Kc & N1 & Ee0).
  assert (Nz : (1 <= length stamps)%nat).
  { pose proof (KLMain.kl_basis_length (eigh L) (smooth L) _ stamps _ c0 b Kc Hkb). destruct f; lia. }
  destruct (asked NI FT IM L sh s0 cs f b cat0 stamps p k0 e sh2 (conj Hlen Heig) Hn F Hsel Hext He Hpsf) as
    (sb & Es & R1 & Q1 & Bb & Fb & Lb & Shf).
  fold s in Es. clearbody s. subst s.
  (* the new extraction *)
  assert (X : exists sx, stamps_pos L (set_req_shape (Some sh2) sb) = (Ok p2, sx) /\ keep _ _ _ sb sx /\ eig sx = eig sb /\
      mcols sx = mcols sb /\ stamp_shape sx = (fst sh2 + 6, snd sh2 + 6)%nat).
  { destruct (stamps_extract NI FT IM L (set_req_shape (Some sh2) sb) sh2 cat st2 (Ok (p2, k2)) eq_refl) as
      (sx & Ex & _ & _ & (Kx & Egx & Mx) & Sx & _); [|exact Hbest|exact Hext2|].
    { left. cbn. rewrite (r_sh _ _ _ _ _ _ _ _ R1). congruence. }
    exists sx. split; [exact Ex|]. split; [destruct Kx; now constructor|auto]. }
  destruct X as (sx & Ex & Kx & Egx & Mx & Sx).
  assert (S1 : s1 = sx) by (unfold s1; cbn [exec]; unfold void; now rewrite Ex).
  clearbody s1. subst s1.
  assert (Dx : differs _ _ _ (Some l) sx = true).
  { unfold differs. rewrite (k_loss _ _ _ _ _ Kx), Lb. destruct (Req_EM_T _ _); [congruence|reflexivity]. }
  assert (Mc : mcols sx = Some ((fst sh + 6) * (snd sh + 6), stamps)%nat).
  { rewrite Mx. destruct (r_eig _ _ _ _ _ _ _ _ R1) as [Q|(c & _ & Qc & _)]; [congruence|].
    destruct (r_cov _ _ _ _ _ _ _ _ R1) as [[Q _]|(c' & _ & _ & Qm)]; [congruence|]. rewrite Qm.
    destruct (Nat.leb_spec (length stamps) 250); [reflexivity|lia]. }
  assert (Run : get_variable_psf L (Some l) None sx = (Raise ValueError, set_inf_loss l sx)).
  { unfold get_variable_psf, mbind, ret, get. rewrite Dx. unfold setup_kl_basis at 1. rewrite Dx, orb_true_r.
    unfold mbind, upd.
    assert (Ev : Session.eigenv _ _ _ L (set_inf_loss l sx) = (Ok e, set_inf_loss l sx)).
    { unfold Session.eigenv. cbn [eig set_inf_loss]. now rewrite Egx, Q1. }
    rewrite Ev. unfold build_basis. destruct e as [valh vech]. cbn [mcols set_inf_loss stamp_shape inf_loss]. rewrite Mc, Sx.
    assert (Cut : (1 <= kl_cut l valh)%nat).
    { unfold kl_cut. destruct (Req_EM_T _ 0); [lia|].
      assert (Z : forall el pw k, (k <= cut_loop l pw k el)%nat).
      { clear. induction el as [|x el IH]; intros pw k; cbn [cut_loop]; [lia|].
        destruct (Rlt_dec _ _); [|lia]. specialize (IH (pw - x) (S k)). lia. }
      apply Z. }
    assert (Z1 : Nat.eqb (length stamps - (length stamps - kl_cut l valh)) 0 = false) by (apply Nat.eqb_neq; lia).
    assert (Z2 : Nat.eqb ((fst sh + 6) * (snd sh + 6)) ((fst sh2 + 6) * (snd sh2 + 6)) = false) by (apply Nat.eqb_neq; lia).
    cbn [fst snd]. rewrite Z1, Z2. reflexivity. }
  split.
  { apply psf_cached; [rewrite (k_basis _ _ _ _ _ Kx); exact Bb|rewrite (k_fields _ _ _ _ _ Kx); exact Fb|now left|exact Shf]. }
  split; [now rewrite Run|].
  change (exec L (CGetPSF (Some l) None) sx) with (snd (get_variable_psf L (Some l) None sx)). rewrite Run. cbn [snd].
  rewrite (psf_cached NI FT IM L (Some l) (set_inf_loss l sx) f b); [reflexivity| | |now right|exact Shf].
  - cbn. rewrite (k_basis _ _ _ _ _ Kx). exact Bb.
  - cbn. rewrite (k_fields _ _ _ _ _ Kx). exact Fb.
Qed.
