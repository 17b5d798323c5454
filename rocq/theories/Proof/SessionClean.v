(** What is left of an image whose temporary files were removed. *)
From Coq Require Import ZArith List Bool Arith Reals Lia Lra.
From Verif.Model Require Import Py Plane Sources KL Session.
From Verif.Spec Require Import KL Session.
From Verif.Proof Require Import KL KLMain Session SessionFrame SessionMain SessionLm SessionLm2.
Import ListNotations.
Local Open Scope R_scope.
Set Bullet Behavior "Strict Subproofs".
Local Arguments set_db {NI FT IM} d s.
Local Arguments Session.cov_matrix {NI FT IM} L s.
Local Arguments Session.eigenv {NI FT IM} L s.
Local Arguments Session.kl_basis {NI FT IM} L s.
Local Arguments kl_afields {NI FT IM} L s.
Local Arguments setup_kl_a_fields {NI FT IM} L l updating s.
Local Arguments setup_kl_basis {NI FT IM} L l s.

Section Clean.
Variables NI FT IM : Type.
Variable L : lib NI FT IM.
Notation state := (si NI FT IM).
Let B : state -> state := set_db None.

(** The stamps are in memory. *)
Definition loaded (s : state) : Prop :=
  pos s <> None /\ nsrc s <> None /\ reshaped s = false /\ cov s <> None /\ mcols s <> None.

Definition same {A} (m : M NI FT IM A) : Prop :=
  forall s, loaded s -> m (B s) = (fst (m s), B (snd (m s))) /\ loaded (snd (m s)).

Lemma same_ret {A} (a : A) : same (ret _ _ _ a).
Proof. intros s H. split; [reflexivity|exact H]. Qed.
Lemma same_raise {A} e : same (@raise _ _ _ A e).
Proof. intros s H. split; [reflexivity|exact H]. Qed.
Lemma same_upd f : (forall s, f (B s) = B (f s)) -> (forall s, loaded s -> loaded (f s)) -> same (upd _ _ _ f).
Proof. intros H1 H2 s H. unfold upd. cbn. rewrite H1. auto. Qed.
Lemma same_bind {A C} (m : M NI FT IM A) (k : A -> M NI FT IM C) :
  same m -> (forall a, same (k a)) -> same (mbind _ _ _ m k).
Proof.
  intros Hm Hk s H. destruct (Hm s H) as (E & S). unfold mbind. rewrite E.
  destruct (m s) as [[a|e] s1]; cbn [fst snd] in *; [|auto]. exact (Hk a s1 S).
Qed.
Lemma same_get {C} (k : state -> M NI FT IM C) :
  (forall s0, same (k s0)) -> (forall s0, k (B s0) = k s0) -> same (mbind _ _ _ (get _ _ _) k).
Proof. intros H1 H2 s H. unfold mbind, get. rewrite H2. exact (H1 s s H). Qed.

Lemma loaded_keep s s' : pos s' = pos s -> nsrc s' = nsrc s -> req_shape s' = req_shape s -> stamp_shape s' = stamp_shape s ->
  cov s' = cov s -> mcols s' = mcols s -> loaded s -> loaded s'.
Proof. intros E1 E2 E3 E4 E5 E6 (H1 & H2 & H3 & H4 & H5). unfold loaded, reshaped in *. now rewrite E1, E2, E3, E4, E5, E6. Qed.

Ltac keeps := apply same_upd; [reflexivity|]; intros ?; now apply loaded_keep.

Lemma same_best : same (best_sources L).
Proof.
  intros s H. unfold best_sources. change (best (B s)) with (best s).
  destruct (best s); [split; [reflexivity|exact H]|]. destruct (select L); (split; [reflexivity|]); [|exact H].
  now apply (loaded_keep s).
Qed.

Lemma same_stamps : same (stamps_pos L).
Proof.
  intros s H. pose proof H as (H1 & _ & H3 & _). unfold stamps_pos. change (pos (B s)) with (pos s).
  change (reshaped (B s)) with (reshaped s).
  destruct (pos s) eqn:E; [|congruence]. rewrite H3. split; [reflexivity|exact H].
Qed.

Lemma same_n : same (n_sources L).
Proof.
  intros s H. pose proof H as (_ & H2 & _). unfold n_sources. change (nsrc (B s)) with (nsrc s).
  destruct (nsrc s) as [n|]; [split; [reflexivity|exact H]|congruence].
Qed.

Lemma same_cov : same (Session.cov_matrix L).
Proof.
  intros s H. pose proof H as (_ & _ & _ & H4 & _). unfold Session.cov_matrix. change (cov (B s)) with (cov s).
  destruct (cov s) as [c|]; [split; [reflexivity|exact H]|congruence].
Qed.

Lemma same_eig : same (Session.eigenv L).
Proof.
  intros s H. unfold Session.eigenv. change (eig (B s)) with (eig s). destruct (eig s) as [c|]; [split; [reflexivity|exact H]|].
  apply same_bind; [exact same_cov| |exact H]. intros c. destruct (Nat.eqb _ _); [apply same_raise|]. cbn zeta.
  apply same_bind; [|intros _; apply same_ret]. keeps.
Qed.

Lemma same_build e : same (build_basis _ _ _ L e).
Proof.
  intros s H. pose proof H as (_ & _ & _ & _ & H5). unfold build_basis. destruct e as [valh vech]. change (mcols (B s)) with (mcols s).
  change (stamp_shape (B s)) with (stamp_shape s). change (inf_loss (B s)) with (inf_loss s).
  destruct (mcols s) as [[rows st]|]; [|congruence].
  destruct (_ || _); split; try reflexivity; exact H.
Qed.

Lemma same_setup l : same (setup_kl_basis L l).
Proof.
  intros s H. unfold setup_kl_basis. change (basis (B s)) with (basis s).
  change (differs _ _ _ l (B s)) with (differs _ _ _ l s).
  destruct (_ || _); [|split; [reflexivity|exact H]].
  apply same_bind; [| |exact H].
  - destruct l; [|apply same_ret]. keeps.
  - intros _. apply same_bind; [exact same_eig|]. intros e. apply same_bind; [apply same_build|]. intros b. keeps.
Qed.

Lemma same_basis : same (Session.kl_basis L).
Proof.
  intros s H. unfold Session.kl_basis. change (basis (B s)) with (basis s).
  apply same_bind; [destruct (basis s); [apply same_ret|apply same_setup]| |exact H]. intros _.
  apply same_get; [|reflexivity]. intros s0. destruct (basis s0); [apply same_ret|apply same_raise].
Qed.

Lemma same_fields l u : same (setup_kl_a_fields L l u).
Proof.
  intros s H. unfold setup_kl_a_fields. change (fields (B s)) with (fields s).
  change (differs _ _ _ l (B s)) with (differs _ _ _ l s).
  destruct (_ || _ || _); [|split; [reflexivity|exact H]].
  apply same_bind; [| |exact H].
  - destruct l; [|apply same_ret]. apply same_bind; [apply same_setup|]. intros _. keeps.
  - intros _. apply same_bind; [exact same_basis|]. intros b. cbn zeta. destruct (Nat.eqb _ _); [keeps|].
    apply same_bind; [exact same_best|]. intros _. apply same_bind; [exact same_stamps|]. intros p.
    destruct (Nat.eqb _ _); [apply same_raise|].
    apply same_bind; [exact same_eig|]. intros e. cbn zeta. destruct (_ && _); [apply same_raise|]. keeps.
Qed.

Lemma same_afields : same (kl_afields L).
Proof.
  intros s H. unfold kl_afields. change (fields (B s)) with (fields s).
  apply same_bind; [destruct (fields s); [apply same_ret|apply same_fields]| |exact H]. intros _.
  apply same_get; [|reflexivity]. intros s0. destruct (fields s0); [apply same_ret|apply same_raise].
Qed.

Lemma same_psf l : same (get_variable_psf L l None).
Proof.
  intros s H. unfold get_variable_psf. apply same_bind; [apply same_ret| |exact H]. intros _.
  apply same_get; [|reflexivity]. intros s0. cbn zeta. apply same_bind; [apply same_setup|]. intros _.
  apply same_bind; [apply same_fields|]. intros _. apply same_bind; [exact same_afields|]. intros a.
  apply same_bind; [exact same_basis|]. intros b. destruct a as [|[|f fs]].
  - destruct b; [apply same_raise|]. apply same_bind; [|intros _; apply same_ret]. keeps.
  - apply same_raise.
  - apply same_ret.
Qed.

Lemma same_normal : same (normal_image L).
Proof.
  intros s H. unfold normal_image. change (normal (B s)) with (normal s). destruct (normal s); [split; [reflexivity|exact H]|].
  apply same_bind; [apply same_psf| |exact H]. intros q. cbn zeta. apply same_bind; [|intros _; apply same_ret]. keeps.
Qed.

Lemma same_shat : same (s_hat_comp L).
Proof.
  intros s H. unfold s_hat_comp. change (shat (B s)) with (shat s). change (inf_loss (B s)) with (inf_loss s).
  destruct (match shat s with None => true | Some (_, l) => _ end).
  - apply same_bind; [apply same_psf| |exact H]. intros q. apply same_bind; [exact same_normal|]. intros nrm.
    apply same_get; [|reflexivity]. intros s0. cbn zeta. apply same_bind; [|intros _; apply same_ret]. keeps.
  - destruct (shat s) as [[h l]|]; split; try reflexivity; exact H.
Qed.

Lemma same_scomp : same (s_component L).
Proof.
  intros s H. unfold s_component. change (scomp (B s)) with (scomp s).
  apply same_bind; [| |exact H].
  - destruct (scomp s); [apply same_ret|]. apply same_bind; [exact same_shat|]. intros h.
    apply same_get; [|reflexivity]. intros s0. keeps.
  - intros _. apply same_get; [|reflexivity]. intros s0. destruct (scomp s0) as [[c l]|]; [|apply same_raise].
    destruct (Req_EM_T _ _); [apply same_ret|]. apply same_bind; [exact same_shat|]. intros h. cbn zeta.
    apply same_bind; [|intros _; apply same_ret]. keeps.
Qed.

Lemma same_update : same (update_sources L None).
Proof.
  intros s H. unfold update_sources. change (best (B s)) with (best s).
  destruct (best s); [|split; [reflexivity|exact H]].
  apply same_bind; [keeps| |exact H]. intros _. apply same_bind; [exact same_best|]. intros _.
  apply same_bind; [exact same_n|]. intros _. apply same_ret.
Qed.

Lemma same_exec c : plain c -> forall s, loaded s -> exec L c (B s) = B (exec L c s) /\ loaded (exec L c s).
Proof.
  assert (V : forall A (m : M NI FT IM A), same m -> forall s, loaded s ->
    void _ _ _ m (B s) = B (void _ _ _ m s) /\ loaded (void _ _ _ m s)).
  { intros A m Hm s H. unfold void. destruct (Hm s H) as (E & S). rewrite E. split; [reflexivity|exact S]. }
  intros Pc s H. destruct c; cbn [plain] in Pc; cbn [exec]; try (now apply V; auto using same_best, same_stamps, same_n, same_cov, same_eig, same_basis, same_afields, same_normal, same_shat, same_scomp).
  - assert (sh = None) as -> by (destruct l; tauto). apply (V _ (get_variable_psf L l None)); [apply same_psf|exact H].
  - change (set_zp _ _ _ (Some z) (B s)) with (B (set_zp _ _ _ (Some z) s)).
    apply (V _ (setup_kl_a_fields L (Some l) false)); [apply same_fields|]. now apply (loaded_keep s).
  - split; [reflexivity|]. now apply (loaded_keep s).
  - subst new. apply (V _ (update_sources L None)); [apply same_update|exact H].
  - contradiction.
  - contradiction.
  - contradiction.
Qed.

Lemma cleaned_all cs : Forall plain_or_clean cs -> forall s t, loaded s -> t = s \/ t = B s ->
  let s' := exec_all L (without_cleaning cs) s in
  loaded s' /\ (exec_all L cs t = s' \/ exec_all L cs t = B s').
Proof.
  induction 1 as [|c cs Pc _ IH]; intros s t Ls Ht.
  - split; assumption.
  - destruct Pc as [->|Pc].
    + change (without_cleaning (CClean :: cs)) with (without_cleaning cs).
      change (exec_all L (CClean :: cs) t) with (exec_all L cs (B t)). apply (IH s (B t) Ls).
      right. destruct Ht as [->| ->]; reflexivity.
    + assert (W : without_cleaning (c :: cs) = c :: without_cleaning cs) by (destruct c; try reflexivity; contradiction).
      rewrite W. change (exec_all L (c :: ?l) ?x) with (exec_all L l (exec L c x)).
      destruct (same_exec c Pc s Ls) as (E & S1). apply (IH (exec L c s) (exec L c t) S1).
      destruct Ht as [->| ->]; [now left|right; exact E].
Qed.

Lemma same_answer {A} (m : M NI FT IM A) s t : same m -> loaded s -> t = s \/ t = B s -> fst (m t) = fst (m s).
Proof. intros Hm Ls [->| ->]; [reflexivity|]. now rewrite (proj1 (Hm s Ls)). Qed.
End Clean.

Lemma exec_all_app NI FT IM (L : lib NI FT IM) cs cs' s : exec_all L (cs ++ cs') s = exec_all L cs' (exec_all L cs s).
Proof. unfold exec_all. now rewrite fold_left_app. Qed.

Lemma plain_without cs : Forall plain_or_clean cs -> Forall plain (without_cleaning cs).
Proof.
  induction 1 as [|c cs Pc _ IH]; [constructor|]. cbn. destruct Pc as [->|Pc]; [exact IH|].
  destruct (is_clean c); cbn; [exact IH|now constructor].
Qed.

(** With at most 250 stamps, once their covariances are known, the files are not needed. *)
Lemma C107_memory_lm : forall NI FT IM (L : lib NI FT IM) sh s0 cs cs' stamps p c,
  lib_ok L -> new_image L sh s0 -> Forall plain cs -> Forall plain_or_clean cs' ->
  stamps_of NI FT IM L sh = Ok (stamps, p) -> (length stamps <= 250)%nat ->
  KL.cov_matrix (fst sh + 6, snd sh + 6)%nat stamps = Ok c ->
  let s := exec_all L (cs ++ CCov :: cs') s0 in
  let kept := cs ++ CCov :: without_cleaning cs' in
  (forall l, 0 <= l -> fst (get_variable_psf L (Some l) None s) = psf_for L sh l) /\
  fst (get_variable_psf L None None s) = psf_for L sh (last_loss kept) /\
  fst (@Session.cov_matrix NI FT IM L s) = Ok (length stamps, c) /\
  fst (normal_image L s) = fst (normal_image L (exec_all L kept s0)) /\
  fst (s_hat_comp L s) = fst (s_hat_comp L (exec_all L kept s0)) /\
  fst (s_component L s) = fst (s_component L (exec_all L kept s0)) /\
  fst (stamps_pos L s) = Ok p.
Proof.
  intros NI FT IM L sh s0 cs cs' stamps p c Hok Hn F F' Hst H250 Hc s kept.
  assert (Hst' := Hst). unfold stamps_of in Hst'. destruct (select L) as [cat0|] eqn:Hsel; [|discriminate].
  destruct (extract L sh cat0) as [st0 [[p0 k0]|]] eqn:Hext; [|discriminate]. injection Hst' as -> ->.
  pose proof Hok as (Hlen & Heig).
  pose proof (reached_history NI FT IM L sh s0 cs Hok Hn F) as Rd.
  assert (G : good NI FT IM L sh cat0 stamps p (exec_all L cs s0)).
  { destruct Rd as (J & mode & (Js & _) & _ & _ & _ & _ & _ & _ & _ & _ & HG & _). exact (HG _ _ _ _ _ Hsel Hext Js). }
  destruct (cov_good NI FT IM L sh Hlen cat0 stamps p k0 Hsel Hext _ G) as (s1 & E1 & R1 & K1 & Q1).
  specialize (Q1 c Hc).
  assert (S1 : exec_all L (cs ++ [CCov]) s0 = s1).
  { rewrite exec_all_app. cbn [exec_all fold_left exec]. unfold void.
    change (fold_left _ cs s0) with (exec_all L cs s0) in *. now rewrite E1. }
  assert (Ld : loaded NI FT IM s1).
  { destruct R1. unfold loaded, reshaped. rewrite r_pos, r_n, r_req, Q1.
    destruct r_cov as [[Q _]|(c' & _ & _ & Qm)]; [congruence|]. rewrite Qm.
    rewrite (proj2 (Nat.leb_le _ _) H250). repeat split; discriminate. }
  assert (Es : forall x, exec_all L (cs ++ CCov :: x) s0 = exec_all L x s1).
  { intros x. rewrite <- S1, <- exec_all_app, <- app_assoc. reflexivity. }
  destruct (cleaned_all NI FT IM L cs' F' s1 s1 Ld (or_introl eq_refl)) as (Ls & Hs).
  assert (Ek : exec_all L kept s0 = exec_all L (without_cleaning cs') s1) by apply Es.
  rewrite <- Ek in Ls. rewrite <- Ek, <- (Es cs') in Hs. change (exec_all L (cs ++ CCov :: cs') s0) with s in Hs.
  assert (Fk : Forall plain kept).
  { apply Forall_app. split; [exact F|]. constructor; [exact I|]. now apply plain_without. }
  destruct (C39_history_lm NI FT IM L sh s0 kept Hok Hn Fk) as (A & B & _).
  assert (G' : good NI FT IM L sh cat0 stamps p (exec_all L kept s0)).
  { destruct (reached_history NI FT IM L sh s0 kept Hok Hn Fk) as (J & mode & (Js & _) & _ & _ & _ & _ & _ & _ & _ & _ & HG & _).
    exact (HG _ _ _ _ _ Hsel Hext Js). }
  split; [|split; [|split; [|split; [|split; [|split]]]]].
  - intros l Hl. rewrite <- (A l Hl). eapply same_answer; [apply same_psf|exact Ls|exact Hs].
  - rewrite <- B. eapply same_answer; [apply same_psf|exact Ls|exact Hs].
  - destruct (cov_good NI FT IM L sh Hlen cat0 stamps p k0 Hsel Hext _ G') as (s2 & E2 & _).
    rewrite Hc in E2. cbn [bind] in E2.
    rewrite (same_answer NI FT IM _ _ s (same_cov NI FT IM L) Ls Hs). now rewrite E2.
  - eapply same_answer; [apply same_normal|exact Ls|exact Hs].
  - eapply same_answer; [apply same_shat|exact Ls|exact Hs].
  - eapply same_answer; [apply same_scomp|exact Ls|exact Hs].
  - destruct (stamps_good NI FT IM L sh Hlen cat0 stamps p k0 Hsel Hext _ G') as (s2 & E2 & _).
    rewrite (same_answer NI FT IM _ _ s (same_stamps NI FT IM L) Ls Hs). now rewrite E2.
Qed.

(** Nothing was extracted yet: the removal changes nothing at all. *)
Lemma C107_before_lm : forall NI FT IM (L : lib NI FT IM) sh s0 cs cs',
  new_image L sh s0 -> Forall (fun c => c = CBestSources \/ exists z, c = CSetZp z) cs ->
  exec_all L (cs ++ CClean :: cs') s0 = exec_all L (cs ++ cs') s0.
Proof.
  intros NI FT IM L sh s0 cs cs' Hn F. rewrite !exec_all_app. change (exec_all L (CClean :: cs') ?x) with (exec_all L cs' (set_db None x)).
  f_equal. assert (D : db s0 = None) by (destruct Hn as [->|(? & _ & ->)]; reflexivity). clear Hn.
  revert s0 D. induction F as [|c cs Pc _ IH]; intros s0 D.
  - destruct s0. cbn in *. now subst.
  - change (exec_all L (c :: cs) s0) with (exec_all L cs (exec L c s0)). apply IH.
    destruct Pc as [->|(z & ->)]; [|exact D]. cbn [exec]. unfold void, best_sources.
    destruct (best s0); [exact D|]. destruct (select L); exact D.
Qed.

Section Lost.
Variables NI FT IM : Type.
Variable L : lib NI FT IM.
Notation state := (si NI FT IM).
Variables (p : list (R * R)) (n : nat).
Hypothesis Hn : n <> 0%nat.

(** The stamps were extracted, nothing was computed from them, and they are gone. *)
Record lost (s : state) : Prop := {
  l_req : req_shape s = None;
  l_pos : pos s = Some p;
  l_n : nsrc s = Some n;
  l_db : db s = None;
  l_cov : cov s = None;
  l_eig : eig s = None;
  l_basis : basis s = None;
  l_fields : fields s = None;
  l_normal : normal s = None;
  l_shat : shat s = None;
  l_scomp : scomp s = None }.

Lemma lost_cov s : lost s -> Session.cov_matrix L s = (Raise IOError, s).
Proof.
  intros []. unfold Session.cov_matrix, mbind, get, raise. rewrite l_cov0. unfold n_sources. rewrite l_n0.
  unfold no_file. rewrite l_db0. now rewrite (proj2 (Nat.eqb_neq n 0) Hn).
Qed.
Lemma lost_eig s : lost s -> Session.eigenv L s = (Raise IOError, s).
Proof. intros H. unfold Session.eigenv, mbind. rewrite (l_eig s H). now rewrite (lost_cov s H). Qed.
Lemma lost_loss l s : lost s -> lost (set_inf_loss l s).
Proof. intros []. now constructor. Qed.
Lemma lost_zp z s : lost s -> lost (set_zp _ _ _ z s).
Proof. intros []. now constructor. Qed.
Lemma lost_setup l s : lost s -> exists s', setup_kl_basis L l s = (Raise IOError, s') /\ lost s'.
Proof.
  intros H. unfold setup_kl_basis. rewrite (l_basis s H). cbn [orb]. unfold mbind, upd, ret. destruct l as [l|].
  - rewrite (lost_eig _ (lost_loss l s H)). eexists. split; [reflexivity|now apply lost_loss].
  - rewrite (lost_eig _ H). eauto.
Qed.
Lemma lost_kl s : lost s -> exists s', Session.kl_basis L s = (Raise IOError, s') /\ lost s'.
Proof.
  intros H. unfold Session.kl_basis. rewrite (l_basis s H). unfold mbind.
  destruct (lost_setup None s H) as (s' & E & H'). rewrite E. eauto.
Qed.
Lemma lost_afields l u s : lost s -> exists s', setup_kl_a_fields L l u s = (Raise IOError, s') /\ lost s'.
Proof.
  intros H. unfold setup_kl_a_fields. rewrite (l_fields s H). cbn [orb]. unfold mbind, upd, ret. destruct l as [l|].
  - destruct (lost_setup (Some l) s H) as (s' & E & H'). rewrite E. eauto.
  - destruct (lost_kl s H) as (s' & E & H'). rewrite E. eauto.
Qed.
Lemma lost_klaf s : lost s -> exists s', kl_afields L s = (Raise IOError, s') /\ lost s'.
Proof.
  intros H. unfold kl_afields. rewrite (l_fields s H). unfold mbind.
  destruct (lost_afields None false s H) as (s' & E & H'). rewrite E. eauto.
Qed.
Lemma lost_psf l s : lost s -> exists s', get_variable_psf L l None s = (Raise IOError, s') /\ lost s'.
Proof.
  intros H. unfold get_variable_psf, mbind, ret, get. destruct (lost_setup l s H) as (s' & E & H'). rewrite E. eauto.
Qed.
Lemma lost_norm s : lost s -> exists s', normal_image L s = (Raise IOError, s') /\ lost s'.
Proof.
  intros H. unfold normal_image, mbind. rewrite (l_normal s H). destruct (lost_psf None s H) as (s' & E & H'). rewrite E. eauto.
Qed.
Lemma lost_hat s : lost s -> exists s', s_hat_comp L s = (Raise IOError, s') /\ lost s'.
Proof.
  intros H. unfold s_hat_comp, mbind. rewrite (l_shat s H). destruct (lost_psf None s H) as (s' & E & H'). rewrite E. eauto.
Qed.
Lemma lost_comp s : lost s -> exists s', s_component L s = (Raise IOError, s') /\ lost s'.
Proof.
  intros H. unfold s_component, mbind. rewrite (l_scomp s H). destruct (lost_hat s H) as (s' & E & H'). rewrite E. eauto.
Qed.
Lemma lost_best s : lost s -> lost (snd (best_sources L s)).
Proof.
  intros H. unfold best_sources. destruct (best s); [exact H|]. destruct (select L); [|exact H]. destruct H. now constructor.
Qed.
Lemma lost_n s : lost s -> n_sources L s = (Ok n, s).
Proof. intros []. unfold n_sources. now rewrite l_n0. Qed.
Lemma lost_pos s : lost s -> stamps_pos L s = (Ok p, s).
Proof. intros []. unfold stamps_pos, reshaped. now rewrite l_pos0, l_req0. Qed.

Lemma lost_exec c s : plain_or_clean c -> lost s -> lost (exec L c s).
Proof.
  intros [->|Pc] H; [destruct H; now constructor|].
  assert (W : forall A (m : M NI FT IM A), (exists s', m s = (Raise IOError, s') /\ lost s') -> lost (void _ _ _ m s)).
  { intros A m (s' & E & H'). unfold void. now rewrite E. }
  destruct c; cbn [plain] in Pc; cbn [exec]; try contradiction.
  - now apply lost_best.
  - unfold void. now rewrite (lost_pos s H).
  - unfold void. now rewrite (lost_n s H).
  - apply W. exists s. now rewrite (lost_cov s H).
  - apply W. exists s. now rewrite (lost_eig s H).
  - apply W. now apply lost_kl.
  - apply W. now apply lost_klaf.
  - apply W. assert (sh = None) as -> by (destruct l; tauto). now apply lost_psf.
  - apply W. now apply lost_norm.
  - apply W. now apply lost_hat.
  - apply W. now apply lost_comp.
  - unfold void. destruct (lost_afields (Some l) false _ (lost_zp (Some z) s H)) as (s' & E & H'). now rewrite E.
  - now apply lost_zp.
  - subst new. unfold void, update_sources. destruct (best s); [|exact H]. unfold mbind, upd, ret.
    assert (H1 : lost (set_best None s)) by (destruct H; now constructor).
    pose proof (lost_best _ H1) as H2. destruct (best_sources L (set_best None s)) as [[x|e] s2]; [|exact H2]. cbn [snd] in H2.
    now rewrite (lost_n s2 H2).
Qed.

Lemma lost_all cs s : Forall plain_or_clean cs -> lost s -> lost (exec_all L cs s).
Proof.
  intros F. revert s. induction F as [|c cs Pc _ IH]; intros s H; [exact H|].
  apply (IH (exec L c s)). now apply lost_exec.
Qed.
End Lost.

(** The stamps were extracted, and removed before anything was computed from them. *)
Lemma C107_lost_lm : forall NI FT IM (L : lib NI FT IM) sh s0 cs cs' stamps p,
  lib_ok L -> new_image L sh s0 -> Forall only_stars cs -> Forall plain_or_clean cs' ->
  stamps_of NI FT IM L sh = Ok (stamps, p) -> stamps <> [] ->
  let s := exec_all L (cs ++ [CNSources; CClean] ++ cs') s0 in
  fst (stamps_pos L s) = Ok p /\ fst (n_sources L s) = Ok (length stamps) /\
  fst (@Session.cov_matrix NI FT IM L s) = Raise IOError /\
  (forall l, fst (get_variable_psf L l None s) = Raise IOError) /\
  fst (normal_image L s) = Raise IOError /\
  fst (s_hat_comp L s) = Raise IOError /\
  fst (s_component L s) = Raise IOError.
Proof.
  intros NI FT IM L sh s0 cs cs' stamps p (Hlen & Heig) Hn F F' Hst Ne s.
  assert (Hst' := Hst). unfold stamps_of in Hst'. destruct (select L) as [cat0|] eqn:Hsel; [|discriminate].
  destruct (extract L sh cat0) as [st0 [[p0 k0]|]] eqn:Hext; [|discriminate]. injection Hst' as -> ->.
  pose (W := fun s : si NI FT IM => good NI FT IM L sh cat0 stamps p s /\ cov s = None /\ eig s = None /\ basis s = None /\
    fields s = None /\ normal s = None /\ shat s = None /\ scomp s = None).
  assert (Wk : forall a b, W a -> good NI FT IM L sh cat0 stamps p b -> keep NI FT IM a b -> cov b = cov a -> eig b = eig a -> W b).
  { intros a b (_ & A1 & A2 & A3 & A4 & A5 & A6 & A7) G [] C E. unfold W. intuition congruence. }
  assert (Wn : forall a, W a -> exists b, n_sources L a = (Ok (length stamps), b) /\ W b /\ ready NI FT IM L sh stamps p b).
  { intros a Wa. destruct (n_good NI FT IM L sh Hlen cat0 stamps p k0 Hsel Hext a (proj1 Wa)) as (b & E & Rb & K & C & _ & Eg).
    exists b. split; [exact E|]. split; [|exact Rb]. apply (Wk a b Wa); [now right|exact K|exact C|exact Eg]. }
  assert (Wb : forall a, W a -> W (snd (best_sources L a))).
  { intros a Wa. unfold best_sources. destruct (best a) eqn:B; [exact Wa|]. rewrite Hsel. cbn [snd].
    apply (Wk a _ Wa); try reflexivity; [|now constructor].
    destruct Wa as ([[]|[]] & _); [left|right]; constructor; cbn; try assumption. right; now left. }
  assert (W0 : W s0).
  { destruct Hn as [->|(cat & Hs & ->)]; (split; [left; constructor; cbn; try reflexivity|repeat split]); [now left|].
    right; left. congruence. }
  assert (W1 : forall cs, Forall only_stars cs -> forall a, W a -> W (exec_all L cs a)).
  { clear - W Wk Wn Wb Hlen Hsel Hext. induction 1 as [|c cs Pc _ IH]; intros a Wa; [exact Wa|]. apply (IH (exec L c a)).
    destruct c; cbn [only_stars] in Pc; try contradiction; cbn [exec]; unfold void.
    - now apply Wb.
    - destruct (proj1 Wa) as [Fa|Ra].
      + destruct (stamps_fresh NI FT IM L sh Hlen cat0 stamps p k0 Hsel Hext a Fa) as (b & E & Rb & K & C & _ & Eg).
        rewrite E. destruct Wa as (? & C0 & E0 & ?). apply (Wk a b); [unfold W; auto|now right|exact K|cbn; congruence|cbn; congruence].
      + rewrite (stamps_ready NI FT IM L sh stamps p a Ra). exact Wa.
    - destruct (Wn a Wa) as (b & E & Wb' & _). now rewrite E.
    - destruct Wa as (Ga & Wa). split; [|exact Wa]. destruct Ga as [[]|[]]; [left|right]; now constructor.
    - destruct new; [contradiction|]. unfold update_sources. destruct (best a); [|exact Wa]. unfold mbind, upd, ret.
      assert (W2 : W (set_best None a)).
      { apply (Wk a _ Wa); try reflexivity; [|now constructor].
        destruct (proj1 Wa) as [[]|[]]; [left|right]; constructor; cbn; try assumption. now left. }
      pose proof (Wb _ W2) as W3. destruct (best_sources L (set_best None a)) as [[x|e] b]; [|exact W3]. cbn [snd] in W3.
      destruct (Wn b W3) as (d & E & W4 & _). now rewrite E. }
  destruct (Wn _ (W1 cs F s0 W0)) as (b & E & (_ & A1 & A2 & A3 & A4 & A5 & A6 & A7) & Rb).
  assert (Nz : length stamps <> 0%nat) by (destruct stamps; [congruence|discriminate]).
  assert (Lo : lost NI FT IM p (length stamps) s).
  { unfold s. rewrite !exec_all_app. apply lost_all; [exact Nz|exact F'|].
    change (exec_all L [CNSources; CClean] ?x) with (set_db (NI := NI) (FT := FT) (IM := IM) None (snd (n_sources L x))).
    rewrite E. destruct Rb. cbn [snd]. now constructor. }
  clearbody s. clear - Lo Nz.
  split; [now rewrite (lost_pos NI FT IM L p _ s Lo)|].
  split; [now rewrite (lost_n NI FT IM L p _ s Lo)|].
  split; [now rewrite (lost_cov NI FT IM L p _ Nz s Lo)|].
  split; [intros l; destruct (lost_psf NI FT IM L p _ Nz l s Lo) as (s' & E & _); now rewrite E|].
  split; [destruct (lost_norm NI FT IM L p _ Nz s Lo) as (s' & E & _); now rewrite E|].
  split; [destruct (lost_hat NI FT IM L p _ Nz s Lo) as (s' & E & _); now rewrite E|].
  destruct (lost_comp NI FT IM L p _ Nz s Lo) as (s' & E & _); now rewrite E.
Qed.
