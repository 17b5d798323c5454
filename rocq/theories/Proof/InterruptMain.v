(** Properties of interrupted computations. *)
From Coq Require Import ZArith List Bool Arith Reals Lia Lra.
From Verif.Model Require Import Py Plane Sources KL Session Interrupt.
From Verif.Spec Require Import Session Interrupt Uses.
From Verif.Proof Require Import Session SessionBad SessionHist SessionMain SessionLm Interrupt InterruptTrace Uses.
Import ListNotations.
Local Open Scope R_scope.
Set Bullet Behavior "Strict Subproofs".

Section Step.
Variables NI FT IM : Type.
Variable L : lib NI FT IM.
Variable sh : nat * nat.
Notation state := (si NI FT IM).
Hypothesis Hok : lib_ok L.
Hypothesis Hst : stable L sh.
Variables (cat : list src) (st : list (plane R)) (p : list (R * R)) (k : list src).
Hypothesis Hs : select L = Ok cat.
Hypothesis He : extract L sh cat = (st, Ok (p, k)).
Variable mode : (R -> fieldset * list (plane (option R))) + exn.
Hypothesis Hcl : closed NI FT IM L sh (Jgood NI FT IM L sh cat st p) mode.
Notation J := (Jgood NI FT IM L sh cat st p).
Notation Inv := (Inv NI FT IM L J mode).

Let Hlen := proj1 Hok.
Let Heig := proj2 Hok.

Lemma stab c k' : extract L sh c = (st, Ok (p, k')) -> extract L sh k' = (st, Ok (p, k')).
Proof. apply Hst. Qed.

Lemma win_unsettled s : win NI FT IM L sh st p s -> settled_stamps sh s -> False.
Proof.
  intros [] [Q|Q]; [|now elim Q]. rewrite Q in w_sh. destruct sh as [a b]. cbn in w_sh. injection w_sh as A _. lia.
Qed.

Lemma trace_inv c s m : plain c -> Inv s m -> quiet c s ->
  Forall (okM NI FT IM L sh cat st p mode (map (fun ds => fold_left (fun m c => recall c m) ds m) (begun c)))
    (passed _ _ _ L c s).
Proof.
  intros Pc I Q. destruct (inv_J NI FT IM L sh cat st p mode s m I) as (G & B & F & H0).
  assert (M0 : forall c, recall c m = with_loss (loss_of c (m_loss m)) (zp_of c (m_zp m)) m \/ c = CNormal \/ c = CSHat \/ c = CSComponent).
  { intros []; auto; left; reflexivity. }
  assert (Low : forall tr ds, Forall (okM NI FT IM L sh cat st p mode [m]) tr ->
    Forall (okM NI FT IM L sh cat st p mode (m :: ds)) tr).
  { intros tr ds. apply okM_incl. intros x [<-|[]]. now left. }
  destruct c; cbn [plain] in Pc; try contradiction; cbn [begun map fold_left passed].
  - apply Low, (ok1_same NI FT IM L sh cat st p mode Hcl s m); [exact I|]. now apply tr_best.
  - apply Low, (ok1_same NI FT IM L sh cat st p mode Hcl s m); [exact I|]. now apply (tr_stamps NI FT IM L sh Hlen cat st p k Hs He stab).
  - apply Low, (ok1_same NI FT IM L sh cat st p mode Hcl s m); [exact I|]. now apply (tr_n NI FT IM L sh Hlen cat st p k Hs He stab).
  - apply Low, (ok1_same NI FT IM L sh cat st p mode Hcl s m); [exact I|]. now apply (tr_cov NI FT IM L sh Hlen cat st p k Hs He stab).
  - apply Low, (ok1_same NI FT IM L sh cat st p mode Hcl s m); [exact I|]. now apply (tr_eig NI FT IM L sh Hlen cat st p k Hs He stab).
  - apply Low, (ok3_same NI FT IM L sh cat st p mode Hcl s m); [exact I|]. now apply (tr_basis NI FT IM L sh Hlen Heig cat st p k Hs He stab).
  - apply Low, (ok3_same NI FT IM L sh cat st p mode Hcl s m); [exact I|]. now apply (tr_afields NI FT IM L sh Hlen Heig cat st p k Hs He stab).
  - destruct l as [l|].
    + destruct Pc as (Hl & ->).
      eapply okM_incl; [|apply (mt_psf NI FT IM L sh Hlen Heig cat st p k Hs He stab mode Hcl l s m I Hl)].
      * intros x [<-|[<-|[]]]; cbn; [now left|right; left; reflexivity].
      * destruct Q as [Q|Q]; [right; exact Q|left; exact Q].
    + subst sh0. apply Low. now apply (mt_psf_none NI FT IM L sh Hlen Heig cat st p k Hs He stab mode Hcl s m).
  - rewrite recall_norm. now apply (mt_norm NI FT IM L sh Hlen Heig cat st p k Hs He stab mode Hcl s m).
  - rewrite recall_norm, recall_filt. now apply (mt_shat NI FT IM L sh Hlen Heig cat st p k Hs He stab mode Hcl s m).
  - rewrite recall_norm, recall_filt, recall_comp. now apply (mt_scomp NI FT IM L sh Hlen Heig cat st p k Hs He stab mode Hcl s m).
  - pose proof (zp_inv NI FT IM L sh cat st p mode Hcl z s m I) as I1. cbn zeta.
    constructor; [right; eexists; split; [right; left; reflexivity|exact I1]|].
    destruct (inv_J NI FT IM L sh cat st p mode _ _ I1) as (G1 & B1 & F1 & H1).
    eapply okM_incl; [|apply (ok3_okM_all NI FT IM L sh cat st p mode Hcl (set_zp _ _ _ (Some z) s) (recall (CSetZp z) m) l _ I1 Pc)].
    + intros x [<-|[<-|[]]]; cbn; auto.
    + apply (tr_fields NI FT IM L sh Hlen Heig cat st p k Hs He stab (Some l) false); auto.
      destruct Q as [Q|Q]; [right; exact Q|left; exact Q].
  - constructor; [|constructor]. right. eexists. split; [right; left; reflexivity|].
    now apply (zp_inv NI FT IM L sh cat st p mode Hcl z s m).
  - subst new. apply Low. apply (ok1_same NI FT IM L sh cat st p mode Hcl s m); [exact I|].
    unfold t_update_sources. destruct (best s) as [c|] eqn:Bs; [|constructor].
    assert (G1 : good NI FT IM L sh cat st p (set_best _ _ _ None s)).
    { destruct G as [[]|[]]; [left|right]; constructor; cbn; auto. }
    assert (K1 : keep NI FT IM s (set_best _ _ _ None s)) by now constructor.
    apply tr_bind.
    { cbn. constructor; [|constructor]. right. now split. }
    intros [] s1 E1. cbn in E1. injection E1 as <-.
    apply tr_bind; [apply (ok1_all _ _ _ _ _ _ _ _ _ _ _ K1); now apply tr_best|].
    intros c' s1 E1. rewrite er_best in E1.
    destruct (best_good NI FT IM L sh cat st p Hs _ G1) as (y & s2 & E2 & G2 & K2 & _). rewrite E2 in E1. injection E1 as _ ->.
    apply tr_bind; [|intros; constructor].
    eapply ok1_all; [eapply keep_trans; [exact K1|exact K2]|].
    now apply (tr_n NI FT IM L sh Hlen cat st p k Hs He stab).
Qed.

Lemma begun_nil c : In [] (begun c).
Proof. destruct c; cbn; auto. Qed.

Lemma cut_step c i s m : plain c -> Inv s m -> quiet c s -> settled_stamps sh (after _ _ _ L (Cut c i) s) ->
  exists ds, In ds (begun c) /\ Inv (after _ _ _ L (Cut c i) s) (fold_left (fun m c => recall c m) ds m).
Proof.
  intros Pc I Q St. cbn [after] in *.
  destruct (nth_in_or_default i (s :: passed _ _ _ L c s) s) as [[E|E]|E].
  - exists []. split; [apply begun_nil|]. now rewrite <- E.
  - pose proof (trace_inv c s m Pc I Q) as T. rewrite Forall_forall in T.
    destruct (T _ E) as [W|(m' & Hm & I')]; [now destruct (win_unsettled _ W)|].
    apply in_map_iff in Hm. destruct Hm as (ds & <- & Hd). eauto.
  - rewrite E. exists []. split; [apply begun_nil|exact I].
Qed.

Lemma begun_plain c ds : plain c -> In ds (begun c) -> Forall plain ds.
Proof.
  intros Pc H. destruct c; cbn [begun In] in H;
    repeat (destruct H as [H|H];
      [subst ds; first [apply Forall_nil|apply Forall_cons; [first [exact Pc|exact I]|apply Forall_nil]]|]);
    destruct H.
Qed.

Lemma call_inv c s m : plain c -> Inv s m -> Inv (exec L c s) (recall c m).
Proof.
  intros Pc I. destruct Hcl as (H1 & H2 & H3 & H4 & H5 & H6 & H7 & H8 & _).
  exact (call_step NI FT IM L (psf_for L sh) J mode H1 H2 H3 H4 H5 H6 H7 H8 c s m Pc I).
Qed.

Lemma calls_inv cs : forall s m, Forall plain cs -> Inv s m -> Inv (exec_all L cs s) (fold_left (fun m c => recall c m) cs m).
Proof.
  induction cs as [|c cs IH]; intros s m F I; [exact I|]. inversion F; subst. cbn. apply IH; [assumption|]. now apply call_inv.
Qed.

Lemma events_inv es : forall s m, harmless L sh es s -> Inv s m ->
  exists cs, outcome es cs /\ Forall plain cs /\ Inv (after_all _ _ _ L es s) (fold_left (fun m c => recall c m) cs m).
Proof.
  induction es as [|e es IH]; intros s m H I.
  - exists []. split; [constructor|]. split; [constructor|exact I].
  - destruct e as [c|c i]; cbn [harmless] in H; destruct H as (He' & H).
    + destruct (IH _ (recall c m) H) as (cs & O & Pl & I'); [now apply call_inv|].
      exists (c :: cs). split; [now constructor|]. split; [now constructor|exact I'].
    + destruct He' as (Pc & Q & St). destruct (cut_step c i s m Pc I Q St) as (ds & Hd & I1).
      destruct (IH _ _ H I1) as (cs & O & Pl & I'). exists (ds ++ cs). split; [now constructor|].
      split; [apply Forall_app; split; [now apply (begun_plain c)|exact Pl]|]. rewrite fold_left_app. exact I'.
Qed.

Lemma alike s s' m : Inv s m -> Inv s' m -> same_answers L s s'.
Proof.
  intros I I'. destruct (inv_J NI FT IM L sh cat st p mode s m I) as (G & B & F & H0).
  destruct (inv_J NI FT IM L sh cat st p mode s' m I') as (G' & B' & F' & H0').
  assert (El : inf_loss s = inf_loss s') by (destruct I as (_ & A & _), I' as (_ & A' & _); congruence).
  destruct Hcl as (H1 & H2 & H3 & H4 & H5 & H6 & _).
  unfold same_answers.
  destruct (n_good NI FT IM L sh Hlen cat st p k Hs He s G) as (x & -> & _).
  destruct (n_good NI FT IM L sh Hlen cat st p k Hs He s' G') as (x' & -> & _). split; [reflexivity|].
  destruct (stamps_good NI FT IM L sh Hlen cat st p k Hs He s G) as (y & -> & _).
  destruct (stamps_good NI FT IM L sh Hlen cat st p k Hs He s' G') as (y' & -> & _). split; [reflexivity|].
  destruct (cov_good NI FT IM L sh Hlen cat st p k Hs He s G) as (y1 & -> & _).
  destruct (cov_good NI FT IM L sh Hlen cat st p k Hs He s' G') as (y1' & -> & _). split; [reflexivity|].
  destruct (eig_good NI FT IM L sh Hlen cat st p k Hs He s G) as (y2 & -> & _).
  destruct (eig_good NI FT IM L sh Hlen cat st p k Hs He s' G') as (y2' & -> & _). split; [reflexivity|].
  destruct (kl_basis_good NI FT IM L sh Hlen Heig cat st p k Hs He s G B H0) as (y3 & -> & _).
  destruct (kl_basis_good NI FT IM L sh Hlen Heig cat st p k Hs He s' G' B' H0') as (y3' & -> & _).
  split; [cbn [fst]; now rewrite El|].
  destruct (afields_good NI FT IM L sh Hlen Heig cat st p k Hs He s G B F H0) as (y4 & -> & _).
  destruct (afields_good NI FT IM L sh Hlen Heig cat st p k Hs He s' G' B' F' H0') as (y4' & -> & _).
  split; [cbn [fst]; now rewrite El|].
  destruct (psf_good NI FT IM L sh Hlen Heig cat st p k Hs He None s G B F H0 H0) as (y5 & -> & _).
  destruct (psf_good NI FT IM L sh Hlen Heig cat st p k Hs He None s' G' B' F' H0' H0') as (y5' & -> & _).
  split; [cbn [fst loss_after]; now rewrite El|].
  split.
  { intros l Hl. destruct (psf_good NI FT IM L sh Hlen Heig cat st p k Hs He (Some l) s G B F H0 Hl) as (y6 & -> & _).
    destruct (psf_good NI FT IM L sh Hlen Heig cat st p k Hs He (Some l) s' G' B' F' H0' Hl) as (y6' & -> & _). reflexivity. }
  destruct (norm_step NI FT IM L _ J mode H1 H2 H4 s m I) as (y7 & -> & _).
  destruct (norm_step NI FT IM L _ J mode H1 H2 H4 s' m I') as (y7' & -> & _). split; [reflexivity|].
  destruct (filt_step NI FT IM L _ J mode H1 H2 H4 H5 s m I) as (y8 & -> & _).
  destruct (filt_step NI FT IM L _ J mode H1 H2 H4 H5 s' m I') as (y8' & -> & _). split; [reflexivity|].
  destruct (comp_step NI FT IM L _ J mode H1 H2 H4 H5 H6 s m I) as (y9 & -> & _).
  destruct (comp_step NI FT IM L _ J mode H1 H2 H4 H5 H6 s' m I') as (y9' & -> & _). reflexivity.
Qed.

Lemma new_inv s0 : new_image L sh s0 -> Inv s0 (remember (2 / 10) 1 None None None).
Proof.
  intros Hn. assert (Hb : exists b, s0 = fresh _ _ _ sh b /\ (b = None \/ b = Some cat)).
  { destruct Hn as [->|(c & Hc & ->)]; [eauto|]. exists (Some c). split; [reflexivity|right; congruence]. }
  destruct Hb as (b & -> & Hb). apply fresh_holds. split; [left; constructor; try reflexivity; cbn|split; now left].
  destruct Hb as [->| ->]; auto.
Qed.
End Step.

Lemma works {NI FT IM} (L : lib NI FT IM) sh sp : stamps_of _ _ _ L sh = Ok sp ->
  exists cat st p k, select L = Ok cat /\ extract L sh cat = (st, Ok (p, k)).
Proof.
  unfold stamps_of. destruct (select L) as [cat|]; [|discriminate].
  destruct (extract L sh cat) as [st [[p k]|]] eqn:E; [|discriminate]. eauto 8.
Qed.

(** An image that was interrupted, any number of times, answers like one that was not. *)
Lemma C127_interrupted_lm : forall NI FT IM (L : lib NI FT IM) sh s0 es sp,
  lib_ok L -> stable L sh -> new_image L sh s0 -> stamps_of _ _ _ L sh = Ok sp ->
  harmless L sh es s0 ->
  exists cs, outcome es cs /\ Forall plain cs /\
    forall more, Forall plain more ->
      same_answers L (exec_all L more (after_all _ _ _ L es s0)) (exec_all L (cs ++ more) s0).
Proof.
  intros NI FT IM L sh s0 es sp Hok Hst Hn Hsp H. destruct (works L sh sp Hsp) as (cat & st & p & k & Hs & He).
  destruct (engine NI FT IM L sh cat st p k Hok Hs He) as (mode & Hcl).
  pose proof (new_inv NI FT IM L sh cat st p Hs mode s0 Hn) as I0.
  destruct (events_inv NI FT IM L sh Hok Hst cat st p k Hs He mode Hcl es s0 _ H I0) as (cs & O & Pl & I).
  exists cs. split; [exact O|]. split; [exact Pl|]. intros more Pm.
  eapply (alike NI FT IM L sh Hok cat st p k Hs He mode Hcl).
  - apply (calls_inv NI FT IM L sh cat st p mode Hcl more _ _ Pm I).
  - rewrite <- fold_left_app. apply (calls_inv NI FT IM L sh cat st p mode Hcl (cs ++ more)); [|exact I0].
    apply Forall_app. now split.
Qed.

Lemma need_filt_norm m : mem_ok m -> need_filt (need_norm m) = need_filt m.
Proof.
  intros Mo. destruct (need_norm_same m) as (A & B & C & D & E & F).
  assert (N : need_norm (need_norm m) = need_norm m) by (unfold need_norm at 1; now rewrite E).
  unfold need_filt. rewrite C, N, A.
  destruct (m_filt m) as [[l z]|] eqn:Fm; [|reflexivity].
  destruct (Req_EM_T l (m_loss m)); [|reflexivity].
  unfold need_norm. destruct (m_norm m) eqn:Q; [reflexivity|]. exfalso. apply (mo_fn _ Mo); congruence.
Qed.

Lemma need_filt_twice m : need_filt (need_filt m) = need_filt m.
Proof.
  destruct (need_filt_cases m) as [(-> & z & Q)|(-> & _)].
  - unfold need_filt. rewrite Q. destruct (Req_EM_T _ _); [reflexivity|congruence].
  - unfold refilt. unfold need_filt. cbn. destruct (Req_EM_T _ _); [reflexivity|congruence].
Qed.

Lemma need_comp_norm m : mem_ok m -> need_comp (need_norm m) = need_comp m.
Proof.
  intros Mo. destruct (need_norm_same m) as (A & B & C & D & E & F).
  unfold need_comp. rewrite D, A, (need_filt_norm m Mo).
  destruct (m_comp m) as [[f x]|] eqn:Cm; [|reflexivity].
  destruct (Req_EM_T f (m_loss m)); [|reflexivity].
  unfold need_norm. destruct (m_norm m) eqn:Q; [reflexivity|]. exfalso. apply (mo_cn _ Mo); congruence.
Qed.

Lemma comp_filt_answer NI FT IM (L : lib NI FT IM) PF m : mem_ok m ->
  comp_answer NI FT IM L PF (need_filt m) = comp_answer NI FT IM L PF m.
Proof.
  intros Mo. destruct (need_filt_same m) as (A & B & C).
  destruct (need_comp_cases m) as [(Q & x & Q')|(f & Q & Qc)].
  - (* nothing to do for the component *)
    assert (Q2 : need_comp (need_filt m) = need_filt m).
    { unfold need_comp. rewrite C, Q', A. destruct (Req_EM_T _ _); [reflexivity|congruence]. }
    unfold comp_answer. rewrite Q, Q2, C, Q'.
    assert (Nn : norm_loss (need_filt m) = norm_loss m).
    { destruct (need_norm_same m) as (_ & _ & _ & _ & E5 & E6).
      destruct (need_filt_cases m) as [(-> & _)|(-> & _)]; [reflexivity|].
      unfold refilt, norm_loss at 1. cbn. now rewrite E5. }
    now rewrite Nn.
  - assert (Q2 : need_comp (need_filt m) = recomp f m).
    { destruct Qc as [(Qc & ->)|(x & Qc & Ne)].
      - unfold need_comp. rewrite C, Qc, need_filt_twice. unfold recomp. cbn zeta. rewrite A. reflexivity.
      - unfold need_comp. rewrite C, Qc, need_filt_twice, A. destruct (Req_EM_T f (m_loss m)); [congruence|]. unfold recomp. cbn zeta. now rewrite A. }
    unfold comp_answer. now rewrite Q, Q2.
Qed.

(** Asking again gives what the interrupted question would have given. *)
Lemma C127_retry_lm : forall NI FT IM (L : lib NI FT IM) sh s0 es c i sp,
  lib_ok L -> stable L sh -> new_image L sh s0 -> stamps_of _ _ _ L sh = Ok sp ->
  harmless L sh (es ++ [Cut c i]) s0 ->
  let s := after_all _ _ _ L es s0 in let s' := after _ _ _ L (Cut c i) s in
  match c with
  | CGetPSF (Some l) None => fst (get_variable_psf L (Some l) None s') = psf_for L sh l
  | CGetPSF None None => fst (get_variable_psf L None None s') = fst (get_variable_psf L None None s)
  | CNormal => fst (normal_image L s') = fst (normal_image L s)
  | CSHat => fst (s_hat_comp L s') = fst (s_hat_comp L s)
  | CSComponent => fst (s_component L s') = fst (s_component L s)
  | _ => True
  end.
Proof.
  intros NI FT IM L sh s0 es c i sp Hok Hst Hn Hsp H. cbn zeta.
  destruct (works L sh sp Hsp) as (cat & st & p & k & Hs & He).
  destruct (engine NI FT IM L sh cat st p k Hok Hs He) as (mode & Hcl).
  pose proof (new_inv NI FT IM L sh cat st p Hs mode s0 Hn) as I0.
  assert (X : forall es s, harmless L sh (es ++ [Cut c i]) s ->
     harmless L sh es s /\ plain c /\ quiet c (after_all _ _ _ L es s) /\
     settled_stamps sh (after _ _ _ L (Cut c i) (after_all _ _ _ L es s))).
  { clear. induction es as [|e es IH]; intros s H; cbn [app harmless] in H.
    - destruct H as (H & _). split; [exact I|]. exact H.
    - destruct H as (H1 & H2). destruct (IH _ H2) as (H3 & H4). split; [cbn [harmless]; now split|exact H4]. }
  destruct (X es s0 H) as (H1 & Pc & Q & St).
  destruct (events_inv NI FT IM L sh Hok Hst cat st p k Hs He mode Hcl es s0 _ H1 I0) as (cs & _ & _ & I1).
  set (s := after_all _ _ _ L es s0) in *. set (m := fold_left _ cs _) in I1. clearbody s m.
  destruct (cut_step NI FT IM L sh Hok Hst cat st p k Hs He mode Hcl c i s m Pc I1 Q St) as (ds & Hd & I2).
  set (s' := after _ _ _ L (Cut c i) s) in *. clearbody s'.
  pose proof Hcl as (C1 & C2 & C3 & C4 & C5 & C6 & _). pose proof I1 as (_ & _ & _ & Mo & _).
  destruct c; try exact I; cbn [begun] in Hd.
  - destruct l as [l|]; match goal with x : option (nat * nat) |- _ => destruct x end; try exact I.
    + cbn in Pc. destruct Pc as (Hl & _).
      destruct (psf_step NI FT IM L _ _ mode C1 C2 (Some l) s' _ I2 Hl) as (x & -> & _). reflexivity.
    + assert (El : fold_left (fun m c => recall c m) ds m = m).
      { destruct Hd as [<-|[<-|[]]]; [reflexivity|]. apply with_loss_same. }
      rewrite El in I2.
      destruct (psf_step NI FT IM L _ _ mode C1 C2 None s' _ I2 (mo_loss _ Mo)) as (x & -> & _).
      destruct (psf_step NI FT IM L _ _ mode C1 C2 None s _ I1 (mo_loss _ Mo)) as (x' & -> & _). reflexivity.
  - destruct (norm_step NI FT IM L _ _ mode C1 C2 C4 s' _ I2) as (x & -> & _).
    destruct (norm_step NI FT IM L _ _ mode C1 C2 C4 s _ I1) as (x' & -> & _). cbn [fst].
    destruct (need_norm_same m) as (_ & _ & _ & _ & _ & E6).
    destruct Hd as [<-|[<-|[]]]; cbn [fold_left]; rewrite ?recall_norm, ?E6; reflexivity.
  - destruct (filt_step NI FT IM L _ _ mode C1 C2 C4 C5 s' _ I2) as (x & -> & _).
    destruct (filt_step NI FT IM L _ _ mode C1 C2 C4 C5 s _ I1) as (x' & -> & _). cbn [fst]. unfold filt_answer.
    destruct Hd as [<-|[<-|[<-|[]]]]; cbn [fold_left]; rewrite ?recall_norm, ?recall_filt, ?need_filt_norm, ?need_filt_twice by exact Mo;
      reflexivity.
  - destruct (comp_step NI FT IM L _ _ mode C1 C2 C4 C5 C6 s' _ I2) as (x & -> & _).
    destruct (comp_step NI FT IM L _ _ mode C1 C2 C4 C5 C6 s _ I1) as (x' & -> & _). cbn [fst].
    destruct Hd as [<-|[<-|[<-|[<-|[]]]]]; cbn [fold_left]; rewrite ?recall_norm, ?recall_filt, ?recall_comp.
    + reflexivity.
    + unfold comp_answer. now rewrite need_comp_norm.
    + now apply comp_filt_answer.
    + assert (T : need_comp (need_comp m) = need_comp m).
      { destruct (need_comp_cases m) as [(-> & x0 & Q0)|(f & Qf & Qc)].
        - unfold need_comp. rewrite Q0. destruct (Req_EM_T _ _); [reflexivity|congruence].
        - rewrite Qf. destruct (need_filt_same m) as (A & _).
          destruct (need_comp_cases (recomp f m)) as [(-> & _)|(f' & Qf' & _)]; [reflexivity|].
          unfold need_comp, recomp. cbn [m_comp m_loss]. cbn zeta. rewrite A.
          destruct (Req_EM_T f (m_loss m)) as [->|Ne]; [reflexivity|].
          destruct (need_filt_some m) as (y & Qy & Qy').
          assert (Fy : fst y = m_loss m).
          { rewrite <- Qy'. destruct (need_filt_cases m) as [(-> & z & Qz)|(-> & _)].
            - unfold made_of. now rewrite Qz.
            - destruct (need_norm_same m) as (A' & _). unfold refilt, made_of. cbn. exact A'. }
          destruct y as [y1 y2]. cbn [fst] in Fy. subst y1. rewrite Qy, Qy'.
          assert (N : forall a b c, need_filt (remember (m_loss m) a b (Some (m_loss m, y2)) c) =
            remember (m_loss m) a b (Some (m_loss m, y2)) c).
          { intros a b c. unfold need_filt. cbn [m_filt m_loss]. now destruct (Req_EM_T (m_loss m) (m_loss m)). }
          rewrite N. reflexivity. }
      unfold comp_answer. now rewrite T.
Qed.

(** A call that is not interrupted ends in the last of the states it passes. *)
Lemma C127_path_lm : forall NI FT IM (L : lib NI FT IM) c s,
  last (passed _ _ _ L c s) s = exec L c s.
Proof. intros. apply passed_ends. Qed.

Section Window.
Variables NI FT IM : Type.
Variable L : lib NI FT IM.
Variable sh : nat * nat.
Hypothesis Hok : lib_ok L.
Hypothesis Hst : stable L sh.
Variable s0 : si NI FT IM.
Hypothesis Hn : new_image L sh s0.
Variable sp : list (plane R) * list (R * R).
Hypothesis Hsp : stamps_of _ _ _ L sh = Ok sp.

Lemma unsettled_win es c i : harmless L sh es s0 -> plain c -> quiet c (after_all _ _ _ L es s0) ->
  let s' := after _ _ _ L (Cut c i) (after_all _ _ _ L es s0) in
  ~ settled_stamps sh s' ->
  win NI FT IM L sh (fst sp) (snd sp) s'.
Proof.
  intros H Pc Q. cbn zeta. intros NS.
  destruct (works L sh sp Hsp) as (cat & st & p & k & Hs & He).
  assert (E : sp = (st, p)). { unfold stamps_of in Hsp. rewrite Hs, He in Hsp. congruence. }
  rewrite E. cbn [fst snd].
  destruct (engine NI FT IM L sh cat st p k Hok Hs He) as (mode & Hcl).
  pose proof (new_inv NI FT IM L sh cat st p Hs mode s0 Hn) as I0.
  destruct (events_inv NI FT IM L sh Hok Hst cat st p k Hs He mode Hcl es s0 _ H I0) as (cs & _ & _ & I1).
  set (s := after_all _ _ _ L es s0) in *. set (m := fold_left _ cs _) in I1. clearbody s m.
  pose proof (trace_inv NI FT IM L sh Hok Hst cat st p k Hs He mode Hcl c s m Pc I1 Q) as T.
  assert (St : forall s m, SessionHist.Inv NI FT IM L (Jgood NI FT IM L sh cat st p) mode s m -> settled_stamps sh s).
  { intros s1 m1 I. destruct (inv_J NI FT IM L sh cat st p mode s1 m1 I) as ([[]|[]] & _); [now left|right; congruence]. }
  cbn [after] in *.
  destruct (nth_in_or_default i (s :: passed _ _ _ L c s) s) as [[E'|E']|E'].
  - rewrite <- E' in NS. destruct NS. now apply (St s m).
  - rewrite Forall_forall in T. destruct (T _ E') as [W|(m' & _ & I')]; [exact W|]. destruct NS. now apply (St _ m').
  - rewrite E' in NS. destruct NS. now apply (St s m).
Qed.

Lemma window es c i : harmless L sh es s0 -> plain c -> quiet c (after_all _ _ _ L es s0) ->
  let s' := after _ _ _ L (Cut c i) (after_all _ _ _ L es s0) in
  ~ settled_stamps sh s' -> pos s' = None ->
  exists kept, best s' = Some kept /\ extract L sh kept = (fst sp, Ok (snd sp, kept)) /\
    forall l, 0 <= l ->
      fst (get_variable_psf L (Some l) None s') = psf_for (given L kept) (fst sh + 6, snd sh + 6)%nat l.
Proof.
  intros H Pc Q s' NS Ps. pose proof (unsettled_win es c i H Pc Q NS) as W. fold s' in W. clearbody s'.
  destruct W as [W1 W2 W3 W4 (kept & Wb & We) W5 W6 W7 W8 W9].
  exists kept. split; [exact Wb|]. split; [exact We|]. intros l Hl.
  assert (B : best s' <> None) by congruence.
  destruct (same_psf NI FT IM L kept (Some l) None s' B) as [E _]. rewrite E.
  set (G := given L kept). set (sh6 := (fst sh + 6, snd sh + 6)%nat).
  destruct (extract L sh6 kept) as [st' [[p' k']|e]] eqn:X.
  - assert (F : freshS NI FT IM G sh6 kept st' p' s').
    { constructor; auto. }
    destruct (psf_good_gen NI FT IM G sh6 (proj1 Hok) (proj2 Hok) kept st' p' k' eq_refl X (Some l) s'
      (or_introl F) (or_introl W8) (or_introl W9) (or_introl W9) Hl) as (s1 & E1 & _).
    rewrite E1. cbn [fst loss_after]. unfold psf_for, stamps_of.
    change (select G) with (@Ok (list src) kept). cbn iota. change (extract G) with (extract L). rewrite X. unfold KP, KF. cbn [bind].
    destruct (KL.kl_basis _ _ _ _ _) as [b|]; [|reflexivity]. cbn [bind].
    destruct (Nat.eqb _ 1); [reflexivity|]. destruct (Nat.eqb _ 0); [reflexivity|].
    destruct (KL.eigenv _ _ _) as [e|]; reflexivity.
  - assert (B' : badS NI FT IM G sh6 s').
    { constructor; auto. right. exists kept. now split. }
    assert (Bad : select G = Raise e \/ exists cat st, select G = Ok cat /\ extract G sh6 cat = (st, Raise e)).
    { right. exists kept, st'. now split. }
    destruct (bad_psf NI FT IM G sh6 e Bad (Some l) s' B') as (s1 & E1 & _). rewrite E1.
    unfold psf_for, stamps_of. change (select G) with (@Ok (list src) kept). cbn iota. change (extract G) with (extract L). now rewrite X.
Qed.
End Window.

(** Interrupted between the two assignments to stamp_shape and _stamps_pos: the next stamps are
    six pixels larger in each direction. *)
Lemma C127_window_lm : forall NI FT IM (L : lib NI FT IM) sh s0 es c i sp,
  lib_ok L -> stable L sh -> new_image L sh s0 -> stamps_of _ _ _ L sh = Ok sp ->
  harmless L sh es s0 -> plain c -> quiet c (after_all _ _ _ L es s0) ->
  let s' := after _ _ _ L (Cut c i) (after_all _ _ _ L es s0) in
  ~ settled_stamps sh s' -> pos s' = None ->
  exists kept, best s' = Some kept /\ extract L sh kept = (fst sp, Ok (snd sp, kept)) /\
    forall l, 0 <= l ->
      fst (get_variable_psf L (Some l) None s') = psf_for (given L kept) (fst sh + 6, snd sh + 6)%nat l.
Proof. intros NI FT IM L sh s0 es c i sp H1 H2 H3 H4. exact (window NI FT IM L sh H1 H2 s0 H3 sp H4 es c i). Qed.

(** Interrupted between the assignments to _stamps_pos and _n_sources. *)
Record stuck {NI FT IM} (s : si NI FT IM) : Prop := {
  k_pos : pos s <> None;
  k_n : nsrc s = None;
  k_req : req_shape s = None;
  k_cov : cov s = None;
  k_eig : eig s = None;
  k_basis : basis s = None;
  k_fields : fields s = None }.

Section Stuck.
Variables NI FT IM : Type.
Variable L : lib NI FT IM.
Notation state := (si NI FT IM).

Lemma st_stamps (s : state) : stuck s -> exists p, stamps_pos L s = (Ok p, s).
Proof.
  intros []. unfold stamps_pos, reshaped. rewrite k_req0. destruct (pos s) as [p|]; [|now elim k_pos0]. eexists. reflexivity.
Qed.
Lemma st_n (s : state) : stuck s -> n_sources L s = (Raise AttributeError, s).
Proof.
  intros K. destruct (st_stamps s K) as (p & E). unfold n_sources. rewrite (k_n _ K). unfold mbind, get. rewrite E.
  now rewrite (k_n _ K).
Qed.
Lemma st_cov (s : state) : stuck s -> cov_matrix _ _ _ L s = (Raise AttributeError, s).
Proof. intros K. unfold cov_matrix. rewrite (k_cov _ K). unfold mbind at 1. now rewrite (st_n s K). Qed.
Lemma st_eig (s : state) : stuck s -> eigenv _ _ _ L s = (Raise AttributeError, s).
Proof. intros K. unfold eigenv. rewrite (k_eig _ K). unfold mbind at 1. now rewrite (st_cov s K). Qed.
Lemma stuck_loss l (s : state) : stuck s -> stuck (set_inf_loss l s).
Proof. intros []. now constructor. Qed.
Lemma st_setup l (s : state) : stuck s -> exists s', setup_kl_basis _ _ _ L l s = (Raise AttributeError, s') /\ stuck s'.
Proof.
  intros K. unfold setup_kl_basis. rewrite (k_basis _ K). cbn [orb].
  destruct l as [l|]; unfold mbind at 1.
  - unfold upd at 1. unfold mbind at 1. rewrite (st_eig _ (stuck_loss l s K)). eexists. split; [reflexivity|now apply stuck_loss].
  - unfold ret at 1. unfold mbind at 1. rewrite (st_eig s K). eauto.
Qed.
Lemma st_basis (s : state) : stuck s -> exists s', Session.kl_basis _ _ _ L s = (Raise AttributeError, s') /\ stuck s'.
Proof.
  intros K. unfold Session.kl_basis. rewrite (k_basis _ K). unfold mbind at 1.
  destruct (st_setup None s K) as (s' & E & K'). rewrite E. eauto.
Qed.
Lemma st_fields l u (s : state) : stuck s -> exists s', setup_kl_a_fields _ _ _ L l u s = (Raise AttributeError, s') /\ stuck s'.
Proof.
  intros K. unfold setup_kl_a_fields. rewrite (k_fields _ K). cbn [orb]. unfold mbind at 1.
  destruct l as [l|].
  - unfold mbind at 1. destruct (st_setup (Some l) s K) as (s' & E & K'). rewrite E. eauto.
  - unfold ret at 1. unfold mbind at 1. destruct (st_basis s K) as (s' & E & K'). rewrite E. eauto.
Qed.
Lemma st_afields (s : state) : stuck s -> exists s', kl_afields _ _ _ L s = (Raise AttributeError, s') /\ stuck s'.
Proof.
  intros K. unfold kl_afields. rewrite (k_fields _ K). unfold mbind at 1.
  destruct (st_fields None false s K) as (s' & E & K'). rewrite E. eauto.
Qed.
Lemma st_psf l (s : state) : stuck s -> exists s', get_variable_psf L l None s = (Raise AttributeError, s') /\ stuck s'.
Proof.
  intros K. unfold get_variable_psf. unfold mbind at 1. unfold ret at 1. unfold mbind at 1. unfold get at 1. cbn zeta.
  unfold mbind at 1. destruct (st_setup l s K) as (s' & E & K'). rewrite E. eauto.
Qed.
Lemma stuck_more f (s : state) : stuck s ->
  (forall s, pos (f s) = pos s /\ nsrc (f s) = nsrc s /\ req_shape (f s) = req_shape s /\ cov (f s) = cov s /\
     eig (f s) = eig s /\ basis (f s) = basis s /\ fields (f s) = fields s) -> stuck (f s : state).
Proof. intros [] H. destruct (H s) as (A & B & C & D & E & F & G). constructor; congruence. Qed.
Lemma st_normal (s : state) : stuck s -> stuck (snd (normal_image L s)).
Proof.
  intros K. unfold normal_image. destruct (normal s); [exact K|]. unfold mbind at 1.
  destruct (st_psf None s K) as (s' & E & K'). rewrite E. exact K'.
Qed.
Lemma st_shat (s : state) : stuck s -> stuck (snd (s_hat_comp L s)).
Proof.
  intros K. unfold s_hat_comp. cbn zeta.
  match goal with |- stuck (snd (if ?x then _ else _)) => destruct x end.
  - unfold mbind at 1. destruct (st_psf None s K) as (s' & E & K'). rewrite E. exact K'.
  - destruct (shat s) as [[]|]; exact K.
Qed.
Lemma st_scomp (s : state) : stuck s -> stuck (snd (s_component L s)).
Proof.
  intros K. unfold s_component.
  set (m := match scomp s with None => _ | Some _ => _ end).
  assert (X : forall s1, stuck s1 -> stuck (snd (m s1))).
  { intros s1 K1. unfold m. destruct (scomp s); [exact K1|]. unfold mbind at 1. pose proof (st_shat s1 K1) as Y.
    destruct (s_hat_comp L s1) as [[h|] s2]; cbn [snd] in Y |- *; [|exact Y]. unfold mbind, get, upd. cbn [snd].
    apply stuck_more; [exact Y|]. intros s3. repeat split. }
  unfold mbind at 1. pose proof (X s K) as Y. destruct (m s) as [[u|] s1]; cbn [snd] in Y |- *; [|exact Y].
  unfold mbind at 1. unfold get at 1. destruct (scomp s1) as [[c l]|]; [|exact Y].
  destruct (Req_EM_T _ _); [exact Y|]. unfold mbind at 1. pose proof (st_shat s1 Y) as Z.
  destruct (s_hat_comp L s1) as [[h|] s2]; cbn [snd] in Z |- *; [|exact Z]. unfold mbind, upd, ret. cbn [snd].
  apply stuck_more; [exact Z|]. intros s3. repeat split.
Qed.

Lemma st_exec c s : plain c -> stuck s -> stuck (exec L c s).
Proof.
  intros Pc K. destruct c; cbn [plain] in Pc; try contradiction; cbn [exec]; unfold void.
  - unfold best_sources. destruct (best s); [exact K|]. unfold mbind. destruct (select L); cbn; [|exact K].
    apply stuck_more; [exact K|]. intros s3. repeat split.
  - destruct (st_stamps s K) as (p & ->). exact K.
  - now rewrite (st_n s K).
  - now rewrite (st_cov s K).
  - now rewrite (st_eig s K).
  - destruct (st_basis s K) as (s' & -> & K'). exact K'.
  - destruct (st_afields s K) as (s' & -> & K'). exact K'.
  - assert (sh = None) as -> by (destruct l; tauto). destruct (st_psf l s K) as (s' & -> & K'). exact K'.
  - now apply st_normal.
  - now apply st_shat.
  - now apply st_scomp.
  - assert (K1 : stuck (set_zp _ _ _ (Some z) s)) by (apply stuck_more; [exact K|]; intros s3; repeat split).
    destruct (st_fields (Some l) false _ K1) as (s' & E & K'). unfold mbind, upd. rewrite E. exact K'.
  - apply stuck_more; [exact K|]; intros s3; repeat split.
  - subst new. unfold update_sources. destruct (best s); [|exact K].
    assert (K1 : stuck (set_best _ _ _ None s)) by (apply stuck_more; [exact K|]; intros s3; repeat split).
    unfold mbind at 1. unfold upd at 1. unfold mbind at 1. unfold best_sources.
    change (best (set_best _ _ _ None s)) with (@None (list src)). cbn iota.
    unfold mbind at 1. destruct (select L) as [c|e]; unfold ret, raise; cbn [snd]; [|exact K1].
    assert (K2 : stuck (set_best _ _ _ (Some c) (set_best _ _ _ None s))) by (apply stuck_more; [exact K1|]; intros s3; repeat split).
    unfold mbind, upd. rewrite (st_n _ K2). exact K2.
Qed.

Lemma st_exec_all cs : forall s, Forall plain cs -> stuck s -> stuck (exec_all L cs s).
Proof. induction cs as [|c cs IH]; intros s F K; [exact K|]. inversion F; subst. cbn. apply IH; [assumption|]. now apply st_exec. Qed.
End Stuck.

Lemma C127_stuck_lm : forall NI FT IM (L : lib NI FT IM) sh s0 es c i sp,
  lib_ok L -> stable L sh -> new_image L sh s0 -> stamps_of _ _ _ L sh = Ok sp ->
  harmless L sh es s0 -> plain c -> quiet c (after_all _ _ _ L es s0) ->
  let s' := after _ _ _ L (Cut c i) (after_all _ _ _ L es s0) in
  ~ settled_stamps sh s' -> pos s' <> None ->
  forall cs l, Forall plain cs ->
    fst (get_variable_psf L l None (exec_all L cs s')) = Raise AttributeError.
Proof.
  intros NI FT IM L sh s0 es c i sp H1 H2 H3 H4 H5 H6 H7 s' NS Ps cs l F.
  pose proof (unsettled_win NI FT IM L sh H1 H2 s0 H3 sp H4 es c i H5 H6 H7 NS) as W. fold s' in W.
  assert (K : stuck s') by (destruct W; constructor; assumption).
  destruct (st_psf NI FT IM L l _ (st_exec_all NI FT IM L cs _ F K)) as (s1 & E & _). now rewrite E.
Qed.

(** The basis is set up before anything else. *)
Lemma psf_trace NI FT IM (L : lib NI FT IM) l s :
  exists rest, fst (t_get_variable_psf _ _ _ L l None s) = fst (t_setup_kl_basis _ _ _ L l s) ++ rest.
Proof.
  unfold t_get_variable_psf. unfold tbind at 1, tret at 1. cbn [fst snd app]. unfold tbind at 1, tget at 1. cbn [fst snd app]. cbn zeta.
  unfold tbind at 1. destruct (t_setup_kl_basis _ _ _ L l s) as [tr [[u|e] s']]; cbn [fst]; [eauto|].
  exists []. now rewrite app_nil_r.
Qed.

(** The loss is assigned before anything else. *)
Lemma setup_trace NI FT IM (L : lib NI FT IM) l s : l <> inf_loss s ->
  exists rest, fst (t_setup_kl_basis _ _ _ L (Some l) s) = set_inf_loss l s :: rest.
Proof.
  intros Ne. unfold t_setup_kl_basis, differs. cbn zeta. destruct (Req_EM_T (inf_loss s) l) as [Q|_]; [congruence|].
  replace (match basis s with None => true | Some _ => false end || true) with true by (destruct (basis s); reflexivity).
  unfold tbind at 1, tupd at 1. cbn [fst snd app]. eauto.
Qed.

(** Another loss, interrupted: the new loss with the PSF of the old one. *)
Lemma C127_old_psf_lm : forall NI FT IM (L : lib NI FT IM) s psf s1 l,
  get_variable_psf L None None s = (Ok psf, s1) -> l <> inf_loss s1 ->
  let s' := after _ _ _ L (Cut (CGetPSF (Some l) None) 1) s1 in
  inf_loss s' = l /\ fst (get_variable_psf L (Some l) None s') = Ok psf /\ fst (get_variable_psf L None None s') = Ok psf.
Proof.
  intros NI FT IM L s psf s1 l H Ne s'.
  assert (E : s' = exec L (CSetInfLoss l) s1).
  { unfold s', after, passed. destruct (psf_trace NI FT IM L (Some l) s1) as (r & ->).
    destruct (setup_trace NI FT IM L l s1 Ne) as (r' & ->). reflexivity. }
  rewrite E. split; [reflexivity|]. now apply C39_assignment_lm with (s := s).
Qed.

(** A little later: the fields of the old PSF with the basis of the new one. *)
Lemma C127_mixed_lm : forall NI FT IM (L : lib NI FT IM) sh s0 cs fs b l f' b',
  lib_ok L -> new_image L sh s0 -> Forall plain cs ->
  psf_for L sh (last_loss cs) = Ok (Fields fs, b) ->
  0 <= l -> l <> last_loss cs -> psf_for L sh l = Ok (f', b') ->
  let s1 := exec L (CGetPSF None None) (exec_all L cs s0) in
  exists k, let s' := after _ _ _ L (Cut (CGetPSF (Some l) None) k) s1 in
    inf_loss s' = l /\ fst (get_variable_psf L (Some l) None s') = Ok (Fields fs, b').
Proof.
  intros NI FT IM L sh s0 cs fs b l f' b' Hok Hn Pl P0 Hl Ne P1 s1.
  assert (W : exists sp, stamps_of _ _ _ L sh = Ok sp).
  { unfold psf_for in P1. destruct (stamps_of _ _ _ L sh); [eauto|discriminate]. }
  destruct W as (sp & Hsp). destruct (works L sh sp Hsp) as (cat & st & p & k & Hs & He).
  destruct (engine NI FT IM L sh cat st p k Hok Hs He) as (mode & Hcl).
  pose proof (new_inv NI FT IM L sh cat st p Hs mode s0 Hn) as I0.
  pose proof (calls_inv NI FT IM L sh cat st p mode Hcl cs s0 _ Pl I0) as I1. fold (history cs) in I1.
  assert (Hll : m_loss (history cs) = last_loss cs).
  { clear. unfold history, last_loss.
    assert (X : forall m, m_loss (fold_left (fun m c => recall c m) cs m) = fold_left (fun l c => loss_of c l) cs (m_loss m)).
    { induction cs as [|c cs IH]; intros m; [reflexivity|]. cbn [fold_left]. rewrite IH. f_equal.
      destruct (need_norm_same m) as (A & _), (need_filt_same m) as (B & _), (need_comp_same m) as (C & _).
      destruct c; try reflexivity; cbn; congruence. }
    apply X. }
  pose proof Hcl as (C1 & C2 & _). pose proof I1 as (_ & _ & _ & Mo & _).
  destruct (psf_step NI FT IM L _ _ mode C1 C2 None _ _ I1 (mo_loss _ Mo)) as (s2 & E2 & I2 & _).
  assert (Es : s1 = s2) by (unfold s1; cbn [exec]; unfold void; now rewrite E2).
  rewrite Hll in E2. rewrite P0 in E2. rewrite Es. clear s1 Es.
  destruct (psf_stored _ _ _ _ _ _ _ _ _ E2) as (B2 & F2 & Sh2). cbn [fst snd] in B2, F2.
  destruct (inv_J NI FT IM L sh cat st p mode s2 _ I2) as (G & B & F & H0).
  assert (L2 : inf_loss s2 = last_loss cs).
  { destruct I2 as (_ & A & _). rewrite A. cbn [with_loss m_loss]. exact Hll. }
  destruct (setup_basis_good NI FT IM L sh (proj1 Hok) (proj2 Hok) cat st p k Hs He (Some l) s2 G B Hl)
    as (s3 & E3 & G3 & K3 & B3 & L3 & Q3). cbn [loss_after] in *.
  assert (Kb : KL.kl_basis (eigh L) (smooth L) (fst sh + 6, snd sh + 6)%nat st l = Ok b').
  { unfold psf_for, stamps_of in P1. rewrite Hs, He in P1. cbn [bind] in P1.
    destruct (KL.kl_basis _ _ _ _ _) as [b0|]; [|discriminate]. cbn [bind] in P1.
    destruct (Nat.eqb _ 1); [congruence|]. destruct (Nat.eqb _ 0); [discriminate|].
    destruct (KL.eigenv _ _ _); [|discriminate]. cbn [bind] in P1. congruence. }
  specialize (Q3 b' Kb).
  exists (length (fst (t_setup_kl_basis _ _ _ L (Some l) s2))). cbn zeta.
  assert (A : after _ _ _ L (Cut (CGetPSF (Some l) None) (length (fst (t_setup_kl_basis _ _ _ L (Some l) s2)))) s2 = s3).
  { cbn [after passed]. destruct (psf_trace NI FT IM L (Some l) s2) as (r & ->).
    pose proof (en_setup NI FT IM L (Some l) s2) as En. unfold ends in En. rewrite er_setup, E3 in En. cbn [snd] in En.
    rewrite <- En. generalize (fst (t_setup_kl_basis _ _ _ L (Some l) s2)). intros tr.
    clear. destruct tr as [|x tr]; [reflexivity|]. cbn [length nth app].
    revert x. induction tr as [|y tr IH]; intros x; [reflexivity|]. cbn [length nth app]. rewrite IH. reflexivity. }
  rewrite A. split; [exact L3|].
  rewrite (psf_cached NI FT IM L (Some l) s3 (Fields fs) b'); [reflexivity|exact Q3| | |exact Sh2].
  - now rewrite (k2_fields _ _ _ _ _ K3).
  - right. now rewrite L3.
Qed.
