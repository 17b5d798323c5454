(** The statements about histories. *)
From Coq Require Import ZArith List Bool Arith Reals Lia Lra.
From Verif.Model Require Import Py Plane Sources KL Session.
From Verif.Spec Require Import Session.
From Verif.Proof Require Import KLMain Session SessionBad SessionHist SessionMain SessionFrame.
Import ListNotations.
Local Open Scope R_scope.
Set Bullet Behavior "Strict Subproofs".
Arguments exec_all {NI FT IM} L cs s.
Arguments exec {NI FT IM} L c s.
Arguments get_variable_psf {NI FT IM} L l sh s.
Arguments normal_image {NI FT IM} L s.
Arguments s_hat_comp {NI FT IM} L s.
Arguments s_component {NI FT IM} L s.
Arguments best_sources {NI FT IM} L s.
Arguments stamps_pos {NI FT IM} L s.
Arguments n_sources {NI FT IM} L s.
Arguments update_sources {NI FT IM} L new s.
Arguments set_inf_loss {NI FT IM} l s.

Section A.
Variables NI FT IM : Type.
Variables (L : lib NI FT IM) (sh : nat * nat).

Lemma reached_psf s m l : reached NI FT IM L sh s m -> 0 <= match l with Some l => l | None => m_loss m end ->
  fst (get_variable_psf L l None s) = psf_for L sh (match l with Some l => l | None => m_loss m end).
Proof.
  intros (J & mode & I & H1 & H2 & H3 & H4 & H5 & H6 & H7 & H8 & H9) H0.
  edestruct (psf_step NI FT IM L (psf_for L sh) J mode H1 H2 l s m I H0) as (s' & E & _).
  now rewrite E.
Qed.

Lemma reached_norm s m : reached NI FT IM L sh s m -> fst (normal_image L s) = norm_for L sh (norm_loss m).
Proof.
  intros (J & mode & I & H1 & H2 & H3 & H4 & H5 & H6 & H7 & H8 & H9).
  edestruct (norm_step NI FT IM L (psf_for L sh) J mode H1 H2 H4 s m I) as (s' & E & _).
  now rewrite E.
Qed.

Lemma reached_filt s m : reached NI FT IM L sh s m ->
  fst (s_hat_comp L s) =
  filt_for L sh (fst (made_of (need_filt m))) (snd (made_of (need_filt m))) (norm_loss (need_filt m)).
Proof.
  intros (J & mode & I & H1 & H2 & H3 & H4 & H5 & H6 & H7 & H8 & H9).
  edestruct (filt_step NI FT IM L (psf_for L sh) J mode H1 H2 H4 H5 s m I) as (s' & E & _).
  rewrite E. unfold filt_answer, filt_for, norm_for. cbn [fst]. cbn zeta.
  destruct (psf_for L sh (fst _)); [|reflexivity]. cbn [bind]. destruct (psf_for L sh (norm_loss _)); reflexivity.
Qed.

Definition comp_of (m : memory) : R * R := match m_comp m with Some (_, x) => x | None => made_of m end.

Lemma reached_comp s m : reached NI FT IM L sh s m ->
  fst (s_component L s) =
  comp_for L sh (fst (comp_of (need_comp m))) (snd (comp_of (need_comp m))) (norm_loss (need_comp m)).
Proof.
  intros (J & mode & I & H1 & H2 & H3 & H4 & H5 & H6 & H7 & H8 & H9).
  edestruct (comp_step NI FT IM L (psf_for L sh) J mode H1 H2 H4 H5 H6 s m I) as (s' & E & _).
  rewrite E. unfold comp_answer, comp_of, comp_for, filt_for, norm_for. cbn [fst]. cbn zeta.
  destruct (psf_for L sh (fst _)); [|reflexivity]. cbn [bind]. destruct (psf_for L sh (norm_loss _)); reflexivity.
Qed.

Lemma reached_loss s m : reached NI FT IM L sh s m -> inf_loss s = m_loss m /\ 0 <= m_loss m /\ zp s = Some (m_zp m).
Proof. intros (J & mode & (_ & A & B & M & _) & _). destruct M. auto. Qed.
End A.

Lemma made_of_loss m : fst (made_of (need_filt m)) = m_loss m.
Proof.
  destruct (need_norm_same m) as (A & B & _).
  destruct (need_filt_cases m) as [(-> & z & Q)|(-> & _)]; unfold made_of; [now rewrite Q|].
  unfold refilt. cbn. exact A.
Qed.

(** The answer is the one for the loss asked for. *)
Lemma C39_history_lm : forall NI FT IM (L : lib NI FT IM) sh s0 cs,
  lib_ok L -> new_image L sh s0 -> Forall plain cs ->
  (forall l, 0 <= l -> fst (get_variable_psf L (Some l) None (exec_all L cs s0)) = psf_for L sh l) /\
  fst (get_variable_psf L None None (exec_all L cs s0)) = psf_for L sh (last_loss cs) /\
  inf_loss (exec_all L cs s0) = last_loss cs.
Proof.
  intros NI FT IM L sh s0 cs H1 H2 F. pose proof (reached_history NI FT IM L sh s0 cs H1 H2 F) as Rd.
  destruct (reached_loss _ _ _ _ _ _ _ Rd) as (A & B & C). destruct (history_loss cs) as (D & E).
  split; [|split].
  - intros l Hl. exact (reached_psf _ _ _ L sh _ _ (Some l) Rd Hl).
  - rewrite <- D. exact (reached_psf _ _ _ L sh _ _ None Rd B).
  - congruence.
Qed.

(** One field for each element. *)
Lemma C39_fields_lm : forall NI FT IM (L : lib NI FT IM) sh l psf,
  lib_ok L -> psf_for L sh l = Ok psf -> fields_fit psf.
Proof.
  intros NI FT IM L sh l psf (Hlen & Heig) H. unfold psf_for, stamps_of in H.
  destruct (select L) as [cat|]; [|discriminate].
  destruct (extract L sh cat) as [st [[p k]|]] eqn:He; [|discriminate]. cbn [bind] in H.
  destruct (KL.kl_basis _ _ _ _ _) as [b|] eqn:B; [|discriminate]. cbn [bind] in H.
  destruct (Nat.eqb_spec (length b) 1) as [One|N].
  - injection H as <-. exact One.
  - destruct (Nat.eqb_spec (length p) 0) as [|P0]; [discriminate|].
    destruct (KL.eigenv _ _ _) as [e|]; [|discriminate]. injection H as <-. unfold fields_fit. cbn.
    rewrite map_length, seq_length. split; [reflexivity|].
    pose proof (kb_length NI FT IM L sh Heig st l b B) as Ne. pose proof (Hlen _ _ _ _ _ He).
    destruct b as [|x [|y b]]; cbn in *; try lia. exfalso. apply Ne; [lia|reflexivity].
Qed.

Lemma mbind_ok {NI FT IM A B} (m : M NI FT IM A) (k : A -> M NI FT IM B) s b s' :
  mbind _ _ _ m k s = (Ok b, s') -> exists a s1, m s = (Ok a, s1) /\ k a s1 = (Ok b, s').
Proof. unfold mbind. destruct (m s) as [[a|e] s1]; [eauto|discriminate]. Qed.

(** After an answer both halves of it are in the attributes. *)
Lemma psf_stored NI FT IM (L : lib NI FT IM) l sh s psf s1 :
  get_variable_psf L l sh s = (Ok psf, s1) ->
  basis s1 = Some (snd psf) /\ fields s1 = Some (fst psf) /\
  match psf with
  | (NoField, b) => exists q t, b = unit_total q :: t
  | (Fields fs, _) => fs <> []
  end.
Proof.
  intros H. unfold get_variable_psf in H.
  apply mbind_ok in H. destruct H as (u0 & s0 & _ & H).
  apply mbind_ok in H. destruct H as (s0' & s0'' & _ & H). cbn zeta in H.
  apply mbind_ok in H. destruct H as (u1 & s2 & _ & H).
  apply mbind_ok in H. destruct H as (u2 & s3 & _ & H).
  apply mbind_ok in H. destruct H as (f & s4 & Ef & H).
  apply mbind_ok in H. destruct H as (b & s5 & Eb & H).
  assert (F4 : fields s4 = Some f).
  { unfold kl_afields in Ef. apply mbind_ok in Ef. destruct Ef as (u6 & s6 & _ & Ef).
    unfold mbind, get, ret, raise in Ef. destruct (fields s6) eqn:Q; [|discriminate]. congruence. }
  assert (B5 : basis s5 = Some b).
  { unfold Session.kl_basis in Eb. apply mbind_ok in Eb. destruct Eb as (u6 & s6 & _ & Eb).
    unfold mbind, get, ret, raise in Eb. destruct (basis s6) eqn:Q; [|discriminate]. congruence. }
  assert (F5 : fields s5 = Some f).
  { pose proof (basis_pres NI FT IM L (fun s => fields s = Some f)) as Pr. unfold pres in Pr.
    specialize (Pr ltac:(auto) ltac:(auto) ltac:(auto) ltac:(auto) ltac:(auto) ltac:(auto) ltac:(auto) ltac:(auto) s4 F4).
    rewrite Eb in Pr. exact Pr. }
  destruct f as [|[|f ft]]; [|discriminate|].
  - destruct b as [|q t]; [discriminate|]. unfold mbind, upd, ret in H. injection H as <- <-. cbn. eauto 6.
  - injection H as <- <-. cbn. split; [exact B5|]. split; [exact F5|discriminate].
Qed.

(** With both halves stored and no new loss the answer is read off. *)
Lemma psf_cached NI FT IM (L : lib NI FT IM) l s f b :
  basis s = Some b -> fields s = Some f -> (l = None \/ l = Some (inf_loss s)) ->
  match f with NoField => exists q t, b = unit_total q :: t | Fields fs => fs <> [] end ->
  get_variable_psf L l None s = (Ok (f, b), s).
Proof.
  intros B F Hl Sh.
  assert (D : differs _ _ _ l s = false).
  { destruct Hl as [->| ->]; cbn; [reflexivity|]. destruct (Req_EM_T _ _); [reflexivity|congruence]. }
  assert (E1 : setup_kl_basis _ _ _ L l s = (Ok tt, s)) by (unfold setup_kl_basis; now rewrite B, D).
  assert (E2 : setup_kl_a_fields _ _ _ L l false s = (Ok tt, s)) by (unfold setup_kl_a_fields; now rewrite F, D).
  assert (E3 : kl_afields _ _ _ L s = (Ok f, s)) by (unfold kl_afields, mbind, get, ret; now rewrite !F).
  assert (E4 : Session.kl_basis _ _ _ L s = (Ok b, s)) by (unfold Session.kl_basis, mbind, get, ret; now rewrite !B).
  unfold get_variable_psf, mbind, ret, get, upd. rewrite D, E1, E2, E3, E4.
  destruct f as [|[|f fs]].
  - destruct Sh as (q & t & ->). rewrite unit_total_idem. f_equal. rewrite <- B. destruct s; reflexivity.
  - congruence.
  - reflexivity.
Qed.

(** Writing the attribute instead of passing the argument has no effect on a PSF already
    computed, even when the same value is then passed. *)
Lemma C39_assignment_lm : forall NI FT IM (L : lib NI FT IM) s psf s1 l,
  get_variable_psf L None None s = (Ok psf, s1) ->
  fst (get_variable_psf L (Some l) None (exec L (CSetInfLoss l) s1)) = Ok psf /\
  fst (get_variable_psf L None None (exec L (CSetInfLoss l) s1)) = Ok psf.
Proof.
  intros NI FT IM L s [f b] s1 l H. destruct (psf_stored _ _ _ _ _ _ _ _ _ H) as (B & F & Sh). cbn [fst snd] in B, F.
  split; (erewrite psf_cached; [reflexivity|exact B|exact F| |]); cbn; auto; destruct f; exact Sh.
Qed.

(** Asking twice gives the same, in any state. *)
Lemma C39_stable_lm : forall NI FT IM (L : lib NI FT IM) s l sh psf s1,
  get_variable_psf L l sh s = (Ok psf, s1) -> get_variable_psf L None None s1 = (Ok psf, s1).
Proof.
  intros NI FT IM L s l sh [f b] s1 H. destruct (psf_stored _ _ _ _ _ _ _ _ _ H) as (B & F & Sh). cbn [fst snd] in B, F.
  apply psf_cached; [exact B|exact F|now left|]. destruct f; exact Sh.
Qed.

(** The normalisation image is the one of its first use. *)
Lemma C42_history_lm : forall NI FT IM (L : lib NI FT IM) sh s0 cs,
  lib_ok L -> new_image L sh s0 -> Forall plain cs ->
  fst (normal_image L (exec_all L cs s0)) = norm_for L sh (norm_loss (history cs)).
Proof.
  intros NI FT IM L sh s0 cs H1 H2 F. apply reached_norm. now apply reached_history.
Qed.

Lemma C42_once_lm : forall NI FT IM (L : lib NI FT IM) s n s1 cs,
  normal_image L s = (Ok n, s1) -> fst (normal_image L (exec_all L cs s1)) = Ok n.
Proof.
  intros NI FT IM L s n s1 cs H.
  assert (N : normal s1 = Some n).
  { unfold normal_image in H. destruct (normal s) as [x|] eqn:N; [congruence|].
    unfold mbind at 1 in H. destruct (get_variable_psf L None None s) as [[psf|] s2]; [|discriminate].
    unfold mbind, upd, ret in H. injection H as <- <-. reflexivity. }
  unfold normal_image. now rewrite (normal_stays _ _ _ L n cs s1 N).
Qed.

(** The filtered image: the loss in force, the zero point of its last making, the
    normalisation of its first use. *)
Lemma C40_history_lm : forall NI FT IM (L : lib NI FT IM) sh s0 cs,
  lib_ok L -> new_image L sh s0 -> Forall plain cs ->
  let m := need_filt (history cs) in
  fst (s_hat_comp L (exec_all L cs s0)) = filt_for L sh (last_loss cs) (snd (made_of m)) (norm_loss m).
Proof.
  intros NI FT IM L sh s0 cs H1 H2 F. cbn zeta. rewrite (reached_filt _ _ _ L sh _ (history cs)) by now apply reached_history.
  now rewrite made_of_loss, (proj1 (history_loss cs)).
Qed.

Lemma last_loss_app cs cs' : last_loss (cs ++ cs') = fold_left (fun l c => loss_of c l) cs' (last_loss cs).
Proof. unfold last_loss. now rewrite fold_left_app. Qed.

Lemma history_app cs cs' : history (cs ++ cs') = fold_left (fun m c => recall c m) cs' (history cs).
Proof. unfold history. now rewrite fold_left_app. Qed.

(** Until the loss changes nothing touches the filtered image. *)
Lemma filt_kept cs : forall m l z, m_filt m = Some (l, z) -> m_loss m = l -> m_norm m <> None ->
  Forall (fun c => loss_of c l = l) cs ->
  let m' := fold_left (fun m c => recall c m) cs m in
  m_filt m' = Some (l, z) /\ m_loss m' = l /\ m_norm m' = m_norm m.
Proof.
  induction cs as [|c cs IH]; intros m l z Hf Hl Hn F; [auto|]. inversion F as [|? ? Hc F']; subst. cbn [fold_left].
  assert (Nf : need_filt m = m).
  { destruct (need_filt_cases m) as [(Q & _)|(_ & [Q|(l1 & z1 & Q & Q')])]; [exact Q|congruence|congruence]. }
  assert (Nn : need_norm m = m).
  { unfold need_norm. destruct (m_norm m); [reflexivity|congruence]. }
  assert (Nc : m_filt (need_comp m) = m_filt m /\ m_norm (need_comp m) = m_norm m /\ m_loss (need_comp m) = m_loss m).
  { destruct (need_comp_cases m) as [(-> & _)|(f & -> & _)]; [auto|]. unfold recomp. rewrite Nf. auto. }
  destruct Nc as (Nc1 & Nc2 & Nc3).
  assert (X : m_filt (recall c m) = m_filt m /\ m_norm (recall c m) = m_norm m).
  { destruct c; cbn; rewrite ?Nf, ?Nn, ?Nc1, ?Nc2; auto. }
  destruct X as (X1 & X2).
  destruct (IH (recall c m) (m_loss m) z) as (A & B & C); [congruence|rewrite recall_loss; exact Hc|congruence|exact F'|].
  rewrite X2 in C. auto.
Qed.

Lemma mem_ok_history cs : Forall plain cs -> mem_ok (history cs).
Proof.
  unfold history. assert (G : forall cs m, Forall plain cs -> mem_ok m -> mem_ok (fold_left (fun m c => recall c m) cs m)).
  { clear cs. induction cs as [|c cs IH]; intros m F M; [exact M|]. inversion F as [|? ? Hc F']; subst. cbn [fold_left].
    apply IH; [exact F'|].
    assert (W : forall m', mem_ok m' -> m_loss m' = m_loss m ->
      mem_ok (remember (loss_of c (m_loss m')) (zp_of c (m_zp m')) (m_norm m') (m_filt m') (m_comp m'))).
    { intros m' M' E. apply (with_loss_ok (loss_of c (m_loss m')) _ m'); [|exact M'].
      destruct M'. destruct c; cbn in *; try assumption; try contradiction. destruct l as [l|]; tauto. }
    destruct c; unfold recall; apply W; try exact M; try reflexivity.
    - now apply need_norm_ok.
    - apply need_norm_same.
    - now apply need_filt_ok.
    - apply need_filt_same.
    - now apply need_comp_ok.
    - apply need_comp_same. }
  intros F. apply G; [exact F|]. constructor; cbn; try congruence. lra.
Qed.

(** Zero points set later, by hand or by another coadd, do not reach it. *)
Lemma C40_stale_lm : forall NI FT IM (L : lib NI FT IM) sh s0 cs cs',
  lib_ok L -> new_image L sh s0 -> Forall plain (cs ++ CSHat :: cs') ->
  Forall (fun c => loss_of c (last_loss cs) = last_loss cs) cs' ->
  fst (s_hat_comp L (exec_all L (cs ++ CSHat :: cs') s0)) = fst (s_hat_comp L (exec_all L cs s0)).
Proof.
  intros NI FT IM L sh s0 cs cs' H1 H2 F Fc.
  assert (F1 : Forall plain cs) by (apply Forall_app in F; tauto).
  rewrite (reached_filt _ _ _ L sh _ (history (cs ++ CSHat :: cs'))) by now apply reached_history.
  rewrite (reached_filt _ _ _ L sh _ (history cs)) by now apply reached_history.
  rewrite history_app. cbn [fold_left]. set (m := history cs) in *.
  assert (Em : recall CSHat m = need_filt m) by (unfold recall; cbn; destruct (need_filt m); reflexivity).
  rewrite Em. pose proof (need_filt_ok m (mem_ok_history cs F1)) as Mo.
  destruct (need_filt_some m) as ([l z] & Q & Q'). pose proof (made_of_loss m) as Ml. rewrite Q' in Ml. cbn in Ml.
  destruct (need_filt_same m) as (A & _). destruct (history_loss cs) as (D & _). fold m in D.
  destruct (filt_kept cs' (need_filt m) l z Q) as (X & Y & Z); [congruence|apply (mo_fn _ Mo); congruence|rewrite Ml, D; exact Fc|].
  cbn zeta in *. set (m' := fold_left _ _ _) in *.
  assert (Nf : need_filt m' = m').
  { destruct (need_filt_cases m') as [(R & _)|(_ & [R|(l1 & z1 & R & R')])]; [exact R|congruence|congruence]. }
  rewrite Nf. unfold made_of. rewrite X, Q.
  assert (Nl : norm_loss m' = norm_loss (need_filt m)).
  { unfold norm_loss. rewrite Z. assert (N0 := mo_fn _ Mo). destruct (m_norm (need_filt m)); [reflexivity|].
    exfalso. apply N0; congruence. }
  now rewrite Nl.
Qed.

(** Made anew, it has the zero point in force. *)
Lemma C40_new_lm : forall NI FT IM (L : lib NI FT IM) sh s0 cs,
  lib_ok L -> new_image L sh s0 -> Forall plain cs ->
  (forall l z, m_filt (history cs) = Some (l, z) -> l <> last_loss cs) ->
  fst (s_hat_comp L (exec_all L cs s0)) = filt_for L sh (last_loss cs) (last_zp cs) (norm_loss (history cs)).
Proof.
  intros NI FT IM L sh s0 cs H1 H2 F Hn. rewrite (C40_history_lm NI FT IM L sh s0 cs H1 H2 F). cbn zeta.
  destruct (history_loss cs) as (D & E). set (m := history cs) in *.
  destruct (need_norm_same m) as (A1 & A2 & A3 & A4 & A5 & A6).
  destruct (need_filt_cases m) as [(_ & z & Q)|(-> & _)]; [exfalso; apply (Hn _ _ Q); exact D|].
  unfold made_of, refilt. cbn. rewrite A2, E. f_equal. unfold norm_loss at 1. cbn. now rewrite A5.
Qed.

(** No filtered image was made in a history without reading s_hat_comp or s_component. *)
Lemma C40_untouched_lm : forall cs,
  Forall (fun c => c <> CSHat /\ c <> CSComponent) cs -> m_filt (history cs) = None.
Proof.
  intros cs F. unfold history.
  assert (G : forall m, m_filt m = None -> m_filt (fold_left (fun m c => recall c m) cs m) = None).
  { induction F as [|c cs [N1 N2] F IH]; intros m H; [exact H|]. cbn [fold_left]. apply IH.
    destruct (need_norm_same m) as (_ & _ & A3 & _).
    destruct c; try contradiction; cbn; congruence. }
  apply G. reflexivity.
Qed.

(** s_component *)
Lemma comp_first cs : forall m, m_comp m = None ->
  match m_comp (fold_left (fun m c => recall c m) cs m) with
  | Some (first, _) => first_component (m_loss m) cs = Some first
  | None => first_component (m_loss m) cs = None
  end.
Proof.
  assert (Stay : forall cs m f x, m_comp m = Some (f, x) -> exists y, m_comp (fold_left (fun m c => recall c m) cs m) = Some (f, y)).
  { clear. induction cs as [|c cs IH]; intros m f x H; [eauto|]. cbn [fold_left].
    assert (X : exists y, m_comp (recall c m) = Some (f, y)).
    { destruct (need_norm_same m) as (_ & _ & _ & A4 & _). destruct (need_filt_same m) as (_ & _ & B).
      destruct c; cbn; rewrite ?A4, ?B; eauto.
      destruct (need_comp_cases m) as [(-> & _)|(f' & -> & [(Q & _)|(y & Q & _)])]; [eauto|congruence|].
      unfold recomp. cbn. rewrite H in Q. injection Q as -> ->. eauto. }
    destruct X as (y & X). exact (IH _ _ _ X). }
  induction cs as [|c cs IH]; intros m H; [cbn [fold_left]; rewrite H; reflexivity|]. cbn [fold_left].
  destruct (need_norm_same m) as (A1 & _ & _ & A4 & _). destruct (need_filt_same m) as (B1 & _ & B).
  assert (Oth : c <> CSComponent -> m_comp (recall c m) = None).
  { intros N. destruct c; try contradiction; cbn; congruence. }
  assert (Cs : c = CSComponent \/ c <> CSComponent) by (destruct c; ((left; reflexivity) || (right; discriminate))).
  destruct Cs as [->|N].
  - assert (X : exists x, m_comp (recall CSComponent m) = Some (m_loss m, x)).
    { cbn. destruct (need_comp_cases m) as [(_ & y & Q)|(f' & -> & [(_ & ->)|(y & Q & _)])]; [congruence| |congruence].
      unfold recomp. cbn. eauto. }
    destruct X as (x & X). destruct (Stay cs _ _ _ X) as (y & Y). rewrite Y. reflexivity.
  - specialize (IH (recall c m) (Oth N)). rewrite recall_loss in IH.
    destruct c; try contradiction; exact IH.
Qed.

(** The image of the loss in force, unless that is the loss of the first access. *)
Lemma C41_current_lm : forall NI FT IM (L : lib NI FT IM) sh s0 cs,
  lib_ok L -> new_image L sh s0 -> Forall plain cs ->
  first_component (2 / 10) cs <> Some (last_loss cs) ->
  fst (s_component L (exec_all L cs s0)) =
  bind (fst (s_hat_comp L (exec_all L cs s0))) (fun h => Ok (ifft_real L h)).
Proof.
  intros NI FT IM L sh s0 cs H1 H2 F Hf.
  rewrite (reached_comp _ _ _ L sh _ (history cs)) by now apply reached_history.
  rewrite (reached_filt _ _ _ L sh _ (history cs)) by now apply reached_history.
  assert (Cf : match m_comp (history cs) with
    | Some (first, _) => first_component (2 / 10) cs = Some first
    | None => first_component (2 / 10) cs = None end) by exact (comp_first cs (remember (2 / 10) 1 None None None) eq_refl).
  destruct (history_loss cs) as (D & _). set (m := history cs) in *.
  destruct (need_comp_cases m) as [(_ & x & Q)|(f & -> & _)].
  - rewrite Q in Cf. congruence.
  - unfold recomp, comp_of. cbn. unfold comp_for. reflexivity.
Qed.

(** The loss of the filtered image in the component is that of one of the accesses. *)
Lemma comp_loss cs f l z : m_comp (history cs) = Some (f, (l, z)) ->
  exists c1 c2, cs = c1 ++ CSComponent :: c2 /\ l = last_loss c1.
Proof.
  revert f l z. induction cs as [|c cs IH] using rev_ind; intros f l z H; [discriminate|].
  rewrite history_app in H. cbn [fold_left] in H. set (m := history cs) in *.
  assert (Old : m_comp m = Some (f, (l, z)) -> exists c1 c2, cs ++ [c] = c1 ++ CSComponent :: c2 /\ l = last_loss c1).
  { intros Q. destruct (IH _ _ _ Q) as (c1 & c2 & -> & ->). exists c1, (c2 ++ [c]). now rewrite <- app_assoc. }
  destruct (need_norm_same m) as (_ & _ & _ & Nn & _). destruct (need_filt_same m) as (Nl & _ & Nf).
  destruct c; cbn in H; try (apply Old; congruence).
  destruct (need_comp_cases m) as [(E & _)|(g & E & _)]; rewrite E in H; [apply Old; exact H|].
  unfold recomp in H. cbn in H. injection H as -> H.
  exists cs, []. split; [reflexivity|]. rewrite <- (proj1 (history_loss cs)). fold m. rewrite <- (made_of_loss m). now rewrite H.
Qed.

(** When s_component was only accessed while the loss in force was the present one, it is the
    image of a matched filter made for that loss. *)
Lemma C41_unchanged_lm : forall NI FT IM (L : lib NI FT IM) sh s0 cs,
  lib_ok L -> new_image L sh s0 -> Forall plain cs ->
  (forall c1 c2, cs = c1 ++ CSComponent :: c2 -> last_loss c1 = last_loss cs) ->
  exists z ln, fst (s_component L (exec_all L cs s0)) =
    bind (filt_for L sh (last_loss cs) z ln) (fun h => Ok (ifft_real L h)).
Proof.
  intros NI FT IM L sh s0 cs H1 H2 F Hl.
  rewrite (reached_comp _ _ _ L sh _ (history cs)) by now apply reached_history.
  exists (snd (comp_of (need_comp (history cs)))), (norm_loss (need_comp (history cs))).
  enough (fst (comp_of (need_comp (history cs))) = last_loss cs) as -> by reflexivity.
  rewrite <- (proj1 (history_loss cs)). pose proof (comp_loss cs) as Cl. set (m := history cs) in *.
  destruct (need_comp_cases m) as [(-> & [l z] & Q)|(f & -> & _)].
  - unfold comp_of. rewrite Q. cbn. destruct (Cl _ _ _ Q) as (c1 & c2 & Ec & ->).
    rewrite (Hl _ _ Ec). symmetry. apply history_loss.
  - unfold comp_of, recomp. cbn. apply made_of_loss.
Qed.

(** Otherwise the image of the last access, of whatever loss. *)
Lemma C41_returned_lm : forall NI FT IM (L : lib NI FT IM) sh s0 cs cs',
  lib_ok L -> new_image L sh s0 -> Forall plain (cs ++ CSComponent :: cs') ->
  ~ In CSComponent cs' ->
  first_component (2 / 10) (cs ++ CSComponent :: cs') = Some (last_loss (cs ++ CSComponent :: cs')) ->
  fst (s_component L (exec_all L (cs ++ CSComponent :: cs') s0)) = fst (s_component L (exec_all L cs s0)).
Proof.
  intros NI FT IM L sh s0 cs cs' H1 H2 F Hn Hf.
  assert (F1 : Forall plain cs) by (apply Forall_app in F; tauto).
  rewrite (reached_comp _ _ _ L sh _ (history (cs ++ CSComponent :: cs'))) by now apply reached_history.
  rewrite (reached_comp _ _ _ L sh _ (history cs)) by now apply reached_history.
  assert (Cf : match m_comp (history (cs ++ CSComponent :: cs')) with
    | Some (first, _) => first_component (2 / 10) (cs ++ CSComponent :: cs') = Some first
    | None => first_component (2 / 10) (cs ++ CSComponent :: cs') = None end) by exact (comp_first (cs ++ CSComponent :: cs') (remember (2 / 10) 1 None None None) eq_refl). rewrite Hf in Cf.
  destruct (history_loss (cs ++ CSComponent :: cs')) as (D & _).
  rewrite history_app in *. cbn [fold_left] in *. set (m := history cs) in *.
  assert (Em : recall CSComponent m = need_comp m) by (unfold recall; cbn; destruct (need_comp m); reflexivity).
  rewrite Em in *. pose proof (need_comp_ok m (mem_ok_history cs F1)) as Mo.
  assert (Cm : exists f x, m_comp (need_comp m) = Some (f, x)).
  { destruct (need_comp_cases m) as [(-> & x & Q)|(f & -> & _)]; [eauto|unfold recomp; cbn; eauto]. }
  destruct Cm as (f & x & Cm).
  assert (Keep : forall cs m, ~ In CSComponent cs -> m_comp m <> None -> m_norm m <> None ->
     m_comp (fold_left (fun m c => recall c m) cs m) = m_comp m /\
     m_norm (fold_left (fun m c => recall c m) cs m) = m_norm m).
  { clear. induction cs as [|c cs IH]; intros m Hn Hc Hm; [auto|]. cbn [fold_left].
    assert (X : m_comp (recall c m) = m_comp m /\ m_norm (recall c m) = m_norm m).
    { assert (Nn : need_norm m = m) by (unfold need_norm; destruct (m_norm m); [reflexivity|congruence]).
      destruct (need_filt_same m) as (_ & _ & B).
      assert (Nf : m_norm (need_filt m) = m_norm m).
      { destruct (need_filt_cases m) as [(-> & _)|(-> & _)]; [reflexivity|]. unfold refilt. rewrite Nn. reflexivity. }
      destruct c; cbn; rewrite ?Nn, ?B, ?Nf; auto. exfalso. apply Hn. now left. }
    destruct X as (X1 & X2). destruct (IH (recall c m)) as (Y1 & Y2).
    - intros Q. apply Hn. now right.
    - congruence.
    - congruence.
    - split; congruence. }
  destruct (Keep cs' (need_comp m) Hn) as (K1 & K2); [congruence|apply (mo_cn _ Mo); congruence|].
  set (m' := fold_left (fun m c => recall c m) cs' (need_comp m)) in *.
  rewrite K1, Cm in Cf. injection Cf as Cf.
  assert (Nc : need_comp m' = m').
  { unfold need_comp. rewrite K1, Cm. destruct (Req_EM_T f (m_loss m')); [reflexivity|]. congruence. }
  rewrite Nc. unfold comp_of. rewrite K1, Cm.
  assert (Nl : norm_loss m' = norm_loss (need_comp m)).
  { unfold norm_loss. rewrite K2. assert (N0 := mo_cn _ Mo). destruct (m_norm (need_comp m)); [reflexivity|].
    exfalso. apply N0; congruence. }
  now rewrite Nl.
Qed.
