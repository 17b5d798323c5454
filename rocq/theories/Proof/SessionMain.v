(** Properties of the cached attributes. *)
From Coq Require Import ZArith List Bool Arith Reals Lia Lra.
From Verif.Model Require Import Py Plane Sources KL Session.
From Verif.Spec Require Import Session.
From Verif.Proof Require Import Session SessionBad SessionHist.
Import ListNotations.
Local Open Scope R_scope.

Arguments psf_for {NI FT IM} L sh l.
Arguments norm_for {NI FT IM} L sh l.
Arguments filt_for {NI FT IM} L sh l z ln.
Arguments comp_for {NI FT IM} L sh l z ln.

Section Main.
Variables NI FT IM : Type.
Notation state := (si NI FT IM).

(** What is known of a state reached by a history that the user remembers as [m]. *)
Definition reached (L : lib NI FT IM) (sh : nat * nat) (s : state) (m : memory) : Prop :=
  exists (J : state -> Prop) mode,
    Inv NI FT IM L J mode s m /\
    (forall l, 0 <= l -> psf_for L sh l = match mode with inl pf => Ok (pf l) | inr e => Raise e end) /\
    (forall l s, J s -> 0 <= inf_loss s -> 0 <= loss_after _ _ _ l s ->
      exists s', get_variable_psf _ _ _ L l None s = (psf_for L sh (loss_after _ _ _ l s), s') /\ J s' /\ keep3 _ _ _ s s' /\
        inf_loss s' = loss_after _ _ _ l s) /\
    (forall z s, J s -> J (set_zp _ _ _ z s)) /\
    (forall x s, J s -> J (set_normal _ _ _ x s)) /\
    (forall x s, J s -> J (set_shat _ _ _ x s)) /\
    (forall x s, J s -> J (set_scomp _ _ _ x s)) /\
    (forall c s, lower_call c -> J s -> 0 <= inf_loss s ->
       J (exec _ _ _ L c s) /\ keep3 _ _ _ s (exec _ _ _ L c s) /\ inf_loss (exec _ _ _ L c s) = inf_loss s) /\
    (forall l s, 0 <= l -> J s -> 0 <= inf_loss s ->
       J (snd (setup_kl_a_fields _ _ _ L (Some l) false s)) /\
       keep3 _ _ _ s (snd (setup_kl_a_fields _ _ _ L (Some l) false s)) /\
       inf_loss (snd (setup_kl_a_fields _ _ _ L (Some l) false s)) = l) /\
    (forall cat st p k s, select L = Ok cat -> extract L sh cat = (st, Ok (p, k)) -> J s ->
       good NI FT IM L sh cat st p s) /\
    (forall b s, J s -> pos s <> None -> J (set_best _ _ _ b s)) /\
    (forall s q, J s -> 0 <= inf_loss s -> psf_for L sh (inf_loss s) = Ok q ->
       fst (Session.kl_basis _ _ _ L s) = Ok (snd q) /\
       fst (kl_afields _ _ _ L (snd (Session.kl_basis _ _ _ L s))) = Ok (fst q)) /\
    (forall l s q, 0 <= l -> J s -> 0 <= inf_loss s -> psf_for L sh l = Ok q ->
       fst (setup_kl_a_fields _ _ _ L (Some l) false s) = Ok tt).

Lemma reached_all L sh cs s m : reached L sh s m -> Forall plain cs ->
  reached L sh (exec_all _ _ _ L cs s) (fold_left (fun m c => recall c m) cs m).
Proof.
  intros (J & mode & I & H1 & H2 & H3 & H4 & H5 & H6 & H7 & H8 & H9 & H10) F. exists J, mode.
  split; [|auto 12]. eapply all_step; eauto.
Qed.

(** What the steps do to the states below the PSF. *)
Definition closed (L : lib NI FT IM) (sh : nat * nat) (J : state -> Prop)
  (mode : (R -> fieldset * list (plane (option R))) + exn) : Prop :=
    (forall l, 0 <= l -> psf_for L sh l = match mode with inl pf => Ok (pf l) | inr e => Raise e end) /\
    (forall l s, J s -> 0 <= inf_loss s -> 0 <= loss_after _ _ _ l s ->
      exists s', get_variable_psf _ _ _ L l None s = (psf_for L sh (loss_after _ _ _ l s), s') /\ J s' /\ keep3 _ _ _ s s' /\
        inf_loss s' = loss_after _ _ _ l s) /\
    (forall z s, J s -> J (set_zp _ _ _ z s)) /\
    (forall x s, J s -> J (set_normal _ _ _ x s)) /\
    (forall x s, J s -> J (set_shat _ _ _ x s)) /\
    (forall x s, J s -> J (set_scomp _ _ _ x s)) /\
    (forall c s, lower_call c -> J s -> 0 <= inf_loss s ->
       J (exec _ _ _ L c s) /\ keep3 _ _ _ s (exec _ _ _ L c s) /\ inf_loss (exec _ _ _ L c s) = inf_loss s) /\
    (forall l s, 0 <= l -> J s -> 0 <= inf_loss s ->
       J (snd (setup_kl_a_fields _ _ _ L (Some l) false s)) /\
       keep3 _ _ _ s (snd (setup_kl_a_fields _ _ _ L (Some l) false s)) /\
       inf_loss (snd (setup_kl_a_fields _ _ _ L (Some l) false s)) = l) /\
    (forall cat st p k s, select L = Ok cat -> extract L sh cat = (st, Ok (p, k)) -> J s ->
       good NI FT IM L sh cat st p s) /\
    (forall b s, J s -> pos s <> None -> J (set_best _ _ _ b s)) /\
    (forall s q, J s -> 0 <= inf_loss s -> psf_for L sh (inf_loss s) = Ok q ->
       fst (Session.kl_basis _ _ _ L s) = Ok (snd q) /\
       fst (kl_afields _ _ _ L (snd (Session.kl_basis _ _ _ L s))) = Ok (fst q)) /\
    (forall l s q, 0 <= l -> J s -> 0 <= inf_loss s -> psf_for L sh l = Ok q ->
       fst (setup_kl_a_fields _ _ _ L (Some l) false s) = Ok tt).

(** Those with the extraction to come or done, and nothing but the PSF of the loss in force. *)
Definition Jgood (L : lib NI FT IM) (sh : nat * nat) cat st p (s : state) : Prop :=
  good NI FT IM L sh cat st p s /\ basis_ok NI FT IM L sh st s /\ fields_ok NI FT IM L sh st p s.

Lemma fresh_holds L (J : state -> Prop) mode sh b : J (fresh _ _ _ sh b) ->
  Inv NI FT IM L J mode (fresh _ _ _ sh b) (remember (2 / 10) 1 None None None).
Proof.
  intros H. split; [exact H|]. split; [reflexivity|]. split; [reflexivity|]. split.
  - constructor; cbn; try congruence. lra.
  - unfold holds. destruct mode; cbn; auto.
Qed.

Lemma engine L sh cat st p k : lib_ok L -> select L = Ok cat -> extract L sh cat = (st, Ok (p, k)) ->
  exists mode, closed L sh (Jgood L sh cat st p) mode.
Proof.
  intros (Hlen & Heig) Hs He.
    assert (PE : forall l, psf_for L sh l = KP NI FT IM L sh st p l).
    { intros l. unfold psf_for, stamps_of. rewrite Hs, He. unfold KP, KF. cbn [bind].
      destruct (KL.kl_basis _ _ _ _ _) as [b0|]; [|reflexivity]. cbn [bind].
      destruct (Nat.eqb _ 1); [reflexivity|]. destruct (Nat.eqb _ 0); [reflexivity|].
      destruct (KL.eigenv _ _ _) as [e|]; reflexivity. }
    pose (J := Jgood L sh cat st p).
    assert (Mode : exists mode : (R -> fieldset * list (plane (option R))) + exn, forall l, 0 <= l ->
      psf_for L sh l = match mode with inl pf => Ok (pf l) | inr e => Raise e end).
    { destruct (KP NI FT IM L sh st p 0) as [q|e] eqn:K0.
      - exists (inl (fun l => match KP NI FT IM L sh st p l with Ok q => q | Raise _ => q end)).
        intros l Hl. rewrite PE. destruct (KP NI FT IM L sh st p l) as [q'|e] eqn:Kl; [reflexivity|exfalso].
        unfold KP in K0, Kl.
        destruct (KL.kl_basis (eigh L) (smooth L) ((fst sh + 6)%nat, (snd sh + 6)%nat) st 0) as [b0|] eqn:B0; [|discriminate].
        cbn [bind] in K0. destruct (KF NI FT IM L sh st p 0) as [f0|] eqn:F0; [|discriminate].
        destruct (KF NI FT IM L sh st p l) as [f1|e1] eqn:F1.
        + destruct (KL.kl_basis _ _ _ _ l) as [b1|] eqn:B1; [discriminate|].
          unfold KF in F1. rewrite B1 in F1. discriminate.
        + destruct (kf_raise_all NI FT IM L sh Hlen Heig cat st p k He l e1 Hl F1 0) as (e2 & F2); [lra|].
          congruence.
      - exists (inr e). intros l Hl. rewrite PE.
        (* the exception does not depend on the loss *)
        unfold KP, KF in *.
        destruct (KL.eigenv (eigh L) ((fst sh + 6)%nat, (snd sh + 6)%nat) st) as [ev|ee] eqn:Ke.
        + destruct (kb_total NI FT IM L sh Heig st ev 0 Ke) as (b0 & B0); [lra|].
          destruct (kb_total NI FT IM L sh Heig st ev l Ke Hl) as (b1 & B1).
          rewrite B0 in K0. rewrite B1. cbn [bind] in K0 |- *.
          destruct (Nat.eqb_spec (length b0) 1); [discriminate|].
          destruct (Nat.eqb_spec (length p) 0) as [P0|]; [|discriminate].
          destruct (Nat.eqb_spec (length b1) 1) as [One|]; [exfalso|exact K0].
          destruct (eig_len NI FT IM L sh Heig st ev Ke) as (Le & c & Kc & N1 & Q).
          pose proof (KLMain.kl_basis_length (eigh L) (smooth L) _ st l c b1 Kc B1) as X.
          pose proof (Hlen _ _ _ _ _ He). lia.
        + rewrite (kb_ke_raise NI FT IM L sh st ee l Ke). rewrite (kb_ke_raise NI FT IM L sh st ee 0 Ke) in K0.
          exact K0. }
    destruct Mode as (mode & Mode). exists mode. fold J.
    assert (Jany : forall (f : state -> state),
      (forall s, req_shape (f s) = req_shape s /\ stamp_shape (f s) = stamp_shape s /\ best (f s) = best s /\
         pos (f s) = pos s /\ nsrc (f s) = nsrc s /\ db (f s) = db s /\ cov (f s) = cov s /\ mcols (f s) = mcols s /\
         eig (f s) = eig s /\ basis (f s) = basis s /\ fields (f s) = fields s /\ inf_loss (f s) = inf_loss s) ->
      forall s, J s -> J (f s)).
    { intros f Hf s (G & B & F). destruct (Hf s) as (Q1 & Q2 & Q3 & Q4 & Q5 & Q6 & Q7 & Q8 & Q9 & Q10 & Q11 & Q12).
      split; [|split].
      - destruct G as [[]|[]]; [left|right]; constructor; rewrite ?Q1, ?Q2, ?Q3, ?Q4, ?Q5, ?Q6, ?Q7, ?Q8, ?Q9, ?Q10, ?Q11; assumption.
      - unfold basis_ok. rewrite Q10, Q12. exact B.
      - unfold fields_ok. rewrite Q11, Q12. exact F. }
    assert (Jkeep : forall s s', good NI FT IM L sh cat st p s' -> keep NI FT IM s s' -> J s -> J s').
    { intros s s' G K (_ & B & F). split; [exact G|]. destruct K. split.
      - unfold basis_ok. rewrite k_loss, k_basis. exact B.
      - unfold fields_ok. rewrite k_loss, k_fields. exact F. }
    split; [exact Mode|]. split.
    { intros l s (G & B & F) H0 H1. rewrite PE.
      destruct (psf_good NI FT IM L sh Hlen Heig cat st p k Hs He l s G B F H0 H1) as (s' & E & G' & K & B' & F' & L').
      exists s'. split; [exact E|]. split; [split; [exact G'|split; [exact B'|exact F']]|]. split; [exact K|exact L']. }
    split; [intros z; apply Jany; intros; cbn; auto 13|].
    split; [intros z; apply Jany; intros; cbn; auto 13|].
    split; [intros z; apply Jany; intros; cbn; auto 13|].
    split; [intros z; apply Jany; intros; cbn; auto 13|].
    split.
    { intros c s Lc Js Hl. pose proof Js as (G & B & F).
      assert (Kp : forall s', good NI FT IM L sh cat st p s' -> keep NI FT IM s s' ->
         J s' /\ keep3 NI FT IM s s' /\ inf_loss s' = inf_loss s).
      { intros s' G' K. split; [eapply Jkeep; eassumption|]. split; [now apply keep_keep3|apply (k_loss _ _ _ _ _ K)]. }
      destruct c; try contradiction; unfold exec, void.
      - destruct (best_good NI FT IM L sh cat st p Hs s G) as (x & s' & E & G' & K & _). rewrite E. now apply Kp.
      - destruct (stamps_good NI FT IM L sh Hlen cat st p k Hs He s G) as (s' & E & G' & K). rewrite E.
        apply Kp; [now right|exact K].
      - destruct (n_good NI FT IM L sh Hlen cat st p k Hs He s G) as (s' & E & G' & K & _). rewrite E.
        apply Kp; [now right|exact K].
      - destruct (cov_good NI FT IM L sh Hlen cat st p k Hs He s G) as (s' & E & G' & K & _). rewrite E.
        apply Kp; [now right|exact K].
      - destruct (eig_good NI FT IM L sh Hlen cat st p k Hs He s G) as (s' & E & G' & K & _). rewrite E.
        apply Kp; [now right|exact K].
      - destruct (kl_basis_good NI FT IM L sh Hlen Heig cat st p k Hs He s G B Hl) as (s' & E & G' & K & B' & L'). rewrite E.
        cbn [snd]. split; [|split; [now apply keep2_keep3|exact L']]. split; [exact G'|]. split; [exact B'|].
        unfold fields_ok. rewrite (k2_fields _ _ _ _ _ K), L'. exact F.
      - destruct (afields_good NI FT IM L sh Hlen Heig cat st p k Hs He s G B F Hl) as (s' & E & G' & K & B' & F' & L').
        rewrite E. cbn [snd]. split; [split; [exact G'|split; assumption]|]. split; [exact K|exact L'].
      - cbn in Lc. subst new. destruct (best s) as [x|] eqn:Bs.
        + assert (G1 : good NI FT IM L sh cat st p (set_best _ _ _ None s)).
          { destruct G as [[]|[]]; [left|right]; constructor; cbn; auto. }
          assert (K1 : keep NI FT IM s (set_best _ _ _ None s)) by now constructor.
          destruct (best_good NI FT IM L sh cat st p Hs _ G1) as (y & s2 & E2 & G2 & K2 & _).
          destruct (n_good NI FT IM L sh Hlen cat st p k Hs He s2 G2) as (s3 & E3 & G3 & K3 & _).
          assert (Run : update_sources _ _ _ L None s = (Ok tt, s3)).
          { unfold update_sources, mbind, upd, ret. rewrite Bs, E2, E3. reflexivity. }
          rewrite Run. cbn [snd]. apply Kp; [now right|].
          eapply keep_trans; [exact K1|]. eapply keep_trans; eassumption.
        + unfold update_sources. rewrite Bs. cbn [snd]. apply Kp; [exact G|apply keep_refl]. }
    split.
    { intros l s Hl (G & B & F) H0.
      destruct (fields_good NI FT IM L sh Hlen Heig cat st p k Hs He (Some l) false s G B) as (s' & E & G' & K & B' & F' & L' & _);
        [now apply fields_ok_old|exact Hl|now right|].
      rewrite E. cbn [snd]. split; [split; [exact G'|split; assumption]|]. split; [exact K|exact L']. }
    split.
    { intros cat' st' p' k' s Hs' He' (G & _). rewrite Hs in Hs'. injection Hs' as <-. rewrite He in He'.
      injection He' as <- <- <-. exact G. }
    split.
    { intros b1 s1 ([[]|[]] & B1 & F1) NP; [now elim NP|]. split; [right; now constructor|]. split; [exact B1|exact F1]. }
    split; cycle 1.
    { intros l s q Hl (G & B & F) H0 Q. rewrite PE in Q. unfold KP in Q.
      destruct (fields_good NI FT IM L sh Hlen Heig cat st p k Hs He (Some l) false s G B) as (s' & E & _);
        [now apply fields_ok_old|exact Hl|now right|].
      rewrite E. cbn [fst loss_after].
      destruct (KL.kl_basis (eigh L) (smooth L) ((fst sh + 6)%nat, (snd sh + 6)%nat) st l) as [b0|]; [|discriminate].
      cbn [bind] in Q. destruct (KF NI FT IM L sh st p l) as [f|]; [reflexivity|discriminate]. }
    intros s q (G & B & F) Hl Q. rewrite PE in Q. unfold KP in Q.
    destruct (kl_basis_good NI FT IM L sh Hlen Heig cat st p k Hs He s G B Hl) as (s' & E & G' & K & B' & L'). rewrite E.
    destruct (KL.kl_basis (eigh L) (smooth L) ((fst sh + 6)%nat, (snd sh + 6)%nat) st (inf_loss s)) as [b0|]; [|discriminate].
    cbn [bind] in Q. destruct (KF NI FT IM L sh st p (inf_loss s)) as [f|] eqn:KFe; [|discriminate].
    cbn [bind] in Q. injection Q as <-. cbn [fst snd]. split; [reflexivity|].
    assert (F' : fields_ok NI FT IM L sh st p s') by (unfold fields_ok; rewrite (k2_fields _ _ _ _ _ K), L'; exact F).
    destruct (afields_good NI FT IM L sh Hlen Heig cat st p k Hs He s' G' B' F') as (s2 & E2 & _); [now rewrite L'|].
    rewrite E2. cbn [fst]. now rewrite L'.
Qed.

Lemma reached_fresh L sh s : lib_ok L -> new_image L sh s -> reached L sh s (remember (2 / 10) 1 None None None).
Proof.
  intros (Hlen & Heig) Hn.
  assert (Hb : exists b, s = fresh _ _ _ sh b /\ (b = None \/ exists cat, select L = Ok cat /\ b = Some cat)).
  { destruct Hn as [->|(cat & Hs & ->)]; eauto 6. }
  destruct Hb as (b & -> & Hb). clear Hn.
  assert (X : (exists cat st p k, select L = Ok cat /\ extract L sh cat = (st, Ok (p, k))) \/
    (exists e, select L = Raise e \/ exists cat st, select L = Ok cat /\ extract L sh cat = (st, Raise e))).
  { destruct (select L) as [cat|e] eqn:Hs; [|eauto].
    destruct (extract L sh cat) as [st [[p k]|e]] eqn:He; [left; eauto 8|right; eauto 8]. }
  destruct X as [(cat & st & p & k & Hs & He)|(e & Hbad)].
  - (* extraction works *)
    destruct (engine L sh cat st p k (conj Hlen Heig) Hs He) as (mode & H). exists (Jgood L sh cat st p), mode.
    split; [|exact H].
    apply fresh_holds. split; [left; constructor; try reflexivity; cbn|split; now left].
      destruct Hb as [->|(cat' & Hs' & ->)]; [now left|right; left; congruence].
  - (* extraction fails *)
    assert (PE : forall l, psf_for L sh l = Raise e).
    { intros l. unfold psf_for, stamps_of. destruct Hbad as [Hs|(cat & st & Hs & He)]; rewrite Hs; [reflexivity|].
      rewrite He. reflexivity. }
    exists (badS NI FT IM L sh), (inr e).
    split.
    { apply fresh_holds. constructor; try reflexivity. cbn. destruct Hb as [->|(cat' & Hs' & ->)]; eauto. }
    split; [intros; apply PE|]. split.
    { intros l s B _ _. rewrite PE. apply bad_psf; assumption. }
    split; [intros z s []; now constructor|].
    split; [intros z s []; now constructor|].
    split; [intros z s []; now constructor|].
    split; [intros z s []; now constructor|].
    split.
    { intros c s Lc B _.
      assert (Kp : forall s', badS NI FT IM L sh s' -> keep NI FT IM s s' ->
         badS NI FT IM L sh s' /\ keep3 NI FT IM s s' /\ inf_loss s' = inf_loss s).
      { intros s' B' K. split; [exact B'|]. split; [now apply keep_keep3|apply (k_loss _ _ _ _ _ K)]. }
      destruct c; try contradiction; unfold exec, void.
      - destruct (bad_best NI FT IM L sh e Hbad s B) as (s' & E & B' & K). rewrite E. now apply Kp.
      - destruct (bad_stamps NI FT IM L sh e Hbad s B) as (s' & E & B' & K). rewrite E. now apply Kp.
      - destruct (bad_n NI FT IM L sh e Hbad s B) as (s' & E & B' & K). rewrite E. now apply Kp.
      - destruct (bad_cov NI FT IM L sh e Hbad s B) as (s' & E & B' & K). rewrite E. now apply Kp.
      - destruct (bad_eig NI FT IM L sh e Hbad s B) as (s' & E & B' & K). rewrite E. now apply Kp.
      - destruct (bad_basis NI FT IM L sh e Hbad s B) as (s' & E & B' & K). rewrite E. auto.
      - destruct (bad_afields NI FT IM L sh e Hbad s B) as (s' & E & B' & K). rewrite E. auto.
      - cbn in Lc. subst new. destruct (bad_update NI FT IM L sh e Hbad s B) as (r & s' & E & B' & K). rewrite E. now apply Kp. }
    split.
    { intros l s _ B _. destruct (bad_fields NI FT IM L sh e Hbad (Some l) false s B) as (s' & E & B' & K & Hl).
      rewrite E. auto. }
    split.
    { intros cat' st' p' k' s Hs' He' _. exfalso. destruct Hbad as [Hb'|(cat & st & Hs & He)]; [congruence|].
      rewrite Hs in Hs'. injection Hs' as <-. rewrite He in He'. discriminate. }
    split.
    { intros b1 s1 [] NP. now elim NP. }
    split; [intros s q _ _ Q|intros l s q _ _ _ Q]; rewrite PE in Q; discriminate.
Qed.

Lemma reached_history L sh s0 cs : lib_ok L -> new_image L sh s0 -> Forall plain cs ->
  reached L sh (exec_all _ _ _ L cs s0) (history cs).
Proof. intros H1 H2 F. apply reached_all; [now apply reached_fresh|exact F]. Qed.
End Main.

Lemma recall_loss c m : m_loss (recall c m) = loss_of c (m_loss m).
Proof.
  destruct (need_norm_same m) as (A & _). destruct (need_filt_same m) as (B & _). destruct (need_comp_same m) as (C & _).
  destruct c; cbn; congruence.
Qed.

Lemma recall_zp c m : m_zp (recall c m) = zp_of c (m_zp m).
Proof.
  destruct (need_norm_same m) as (_ & A & _). destruct (need_filt_same m) as (_ & B & _). destruct (need_comp_same m) as (_ & C).
  destruct c; cbn; congruence.
Qed.

Lemma history_loss cs : m_loss (history cs) = last_loss cs /\ m_zp (history cs) = last_zp cs.
Proof.
  unfold history, last_loss, last_zp.
  assert (G : forall cs m l z, m_loss m = l -> m_zp m = z ->
    m_loss (fold_left (fun m c => recall c m) cs m) = fold_left (fun l c => loss_of c l) cs l /\
    m_zp (fold_left (fun m c => recall c m) cs m) = fold_left (fun z c => zp_of c z) cs z).
  { clear cs. induction cs as [|c cs IH]; intros m l z <- <-; [split; reflexivity|]. cbn [fold_left].
    apply IH; [apply recall_loss|apply recall_zp]. }
  apply G; reflexivity.
Qed.
