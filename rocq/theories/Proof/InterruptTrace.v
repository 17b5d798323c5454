(** What is known of the states passed. *)
From Coq Require Import ZArith List Bool Arith Reals Lia Lra.
From Verif.Model Require Import Py Plane Sources KL Session Interrupt.
From Verif.Spec Require Import Session.
From Verif.Proof Require Import Session SessionBad SessionHist SessionMain Interrupt.
Import ListNotations.
Local Open Scope R_scope.
Set Bullet Behavior "Strict Subproofs".

Section Trace.
Variables NI FT IM : Type.
Variable L : lib NI FT IM.
Variable sh0 : nat * nat.
Notation state := (si NI FT IM).
Notation keep := (keep NI FT IM).
Notation keep2 := (keep2 NI FT IM).
Notation keep3 := (keep3 NI FT IM).
Notation loss_after := (loss_after NI FT IM).

Hypothesis Hlen : forall sh c st p k, extract L sh c = (st, Ok (p, k)) -> length st = length p.
Hypothesis Heig : forall n c, length (fst (eigh L n c)) = n.
Variables (cat0 : list src) (st : list (plane R)) (p : list (R * R)) (kept : list src).
Hypothesis Hsel : select L = Ok cat0.
Hypothesis Hext : extract L sh0 cat0 = (st, Ok (p, kept)).
Hypothesis Hstab : forall c k, extract L sh0 c = (st, Ok (p, k)) -> extract L sh0 k = (st, Ok (p, k)).

Notation freshS := (freshS NI FT IM L sh0 cat0 st p).
Notation ready := (ready NI FT IM L sh0 st p).
Notation good := (good NI FT IM L sh0 cat0 st p).
Notation basis_ok := (basis_ok NI FT IM L sh0 st).
Notation fields_ok := (fields_ok NI FT IM L sh0 st p).
Let n := length st.
Let sh6 := (fst sh0 + 6, snd sh0 + 6)%nat.
Notation KB := (KL.kl_basis (eigh L) (smooth L) sh6 st).
Notation KF := (KF NI FT IM L sh0 st p).

(** Between the change of stamp_shape and the assignment of the number of sources. *)
Record win (s : state) : Prop := {
  w_sh : stamp_shape s = sh6;
  w_n : nsrc s = None;
  w_req : req_shape s = None;
  w_pos : pos s = None \/ pos s = Some p;
  w_best : exists c, best s = Some c /\ extract L sh0 c = (st, Ok (p, c));
  w_cov : cov s = None;
  w_m : mcols s = None;
  w_eig : eig s = None;
  w_basis : basis s = None;
  w_fields : fields s = None }.

Lemma tr_bind {A B} (P : state -> Prop) (m : T NI FT IM A) (k : A -> T NI FT IM B) s :
  Forall P (fst (m s)) -> (forall a s', snd (m s) = (Ok a, s') -> Forall P (fst (k a s'))) ->
  Forall P (fst (tbind _ _ _ m k s)).
Proof.
  unfold tbind. intros H1 H2. destruct (m s) as [tr [[a|e] s']]; cbn [fst snd] in *; [|exact H1].
  apply Forall_app. split; [exact H1|]. now apply H2.
Qed.

Definition ok1 (r s : state) : Prop := win s \/ good s /\ keep r s.

Lemma ok1_up r s s' : keep r s -> ok1 s s' -> ok1 r s'.
Proof. intros K [W|[G K']]; [now left|right]. split; [exact G|]. eapply keep_trans; eassumption. Qed.

Lemma ok1_all r s l : keep r s -> Forall (ok1 s) l -> Forall (ok1 r) l.
Proof. intros K. apply Forall_impl. intros x. now apply ok1_up. Qed.

Lemma tr_best s : good s -> Forall (ok1 s) (fst (t_best_sources _ _ _ L s)).
Proof.
  intros G. unfold t_best_sources. destruct (best s) as [c|] eqn:B; [constructor|].
  unfold tbind. rewrite Hsel. cbn. constructor; [|constructor]. right.
  destruct (best_good NI FT IM L sh0 cat0 st p Hsel s G) as (c & s' & E & G' & K & _).
  unfold best_sources in E. rewrite B, Hsel in E. injection E as _ <-. now split.
Qed.

Lemma tr_dump s (Hs : freshS s) r : keep r s -> forall todo done s1,
  (exists d, s1 = set_db _ _ _ d s) -> Forall (ok1 r) (fst (t_dump NI FT IM done todo s1)).
Proof.
  intros K. induction todo as [|x todo IH]; intros done s1 (d & ->); cbn [t_dump]; [constructor|].
  apply tr_bind.
  - cbn. constructor; [|constructor]. right. split; [left; destruct Hs; now constructor|]. destruct K. now constructor.
  - intros a s' E. cbn in E. injection E as _ <-. apply IH. eexists. reflexivity.
Qed.

Lemma fresh_stamps s : freshS s -> Forall (ok1 s) (fst (t_stamps_pos _ _ _ L s)).
Proof.
  intros F. unfold t_stamps_pos. rewrite (f_pos _ _ _ _ _ _ _ _ _ F). unfold reshaped.
  rewrite (f_req _ _ _ _ _ _ _ _ _ F). apply tr_bind; [constructor|]. intros [] s' E. cbn in E. injection E as <-.
  set (s1 := set_db _ _ _ (Some []) s).
  assert (F1 : freshS s1) by (destruct F; now constructor). assert (K1 : keep s s1) by now constructor.
  apply tr_bind.
  { cbn. constructor; [|constructor]. right. split; [now left|exact K1]. }
  intros [] s' E. cbn in E. injection E as <-. fold s1.
  apply tr_bind; [apply (ok1_all _ _ _ K1), tr_best; now left|].
  intros c s2 E. rewrite er_best in E.
  assert (X : freshS s2 /\ keep s1 s2 /\ exists k, extract L sh0 c = (st, Ok (p, k))).
  { unfold best_sources in E. destruct (best s1) as [c'|] eqn:B.
    - injection E as -> <-. split; [exact F1|]. split; [apply keep_refl|].
      destruct (f_best _ _ _ _ _ _ _ _ _ F1) as [Q|[Q|(c' & k & Q & Q')]]; [congruence| |].
      + exists kept. replace c with cat0 by congruence. exact Hext.
      + exists k. replace c with c' by congruence. exact Q'.
    - rewrite Hsel in E. injection E as <- <-. split; [destruct F1; constructor; cbn; auto|].
      split; [now constructor|]. exists kept. exact Hext. }
  destruct X as (F2 & K2 & k & Hc). pose proof (keep_trans _ _ _ _ _ _ K1 K2) as K12.
  apply tr_bind; [constructor|]. intros s' s3 E3. cbn in E3. injection E3 as <- <-. cbn zeta.
  rewrite (f_sh _ _ _ _ _ _ _ _ _ F2), Hc.
  assert (D2 : db s2 = Some []).
  { unfold best_sources in E. destruct (best s1); [injection E as _ <-; reflexivity|]. rewrite Hsel in E.
    injection E as _ <-. reflexivity. }
  apply tr_bind; [apply (tr_dump s2 F2 s K12); exists (db s2); destruct s2; reflexivity|].
  intros [] s3 E3. rewrite (er_dump NI FT IM st [] s2 D2) in E3. injection E3 as <-. cbn [app].
  pose proof (Hstab c k Hc) as Hk.
  apply tr_bind; [cbn; constructor; [|constructor]|].
  { right. split; [left; destruct F2; constructor; cbn; auto; right; right; exists k, k; now split|].
    destruct K12. now constructor. }
  intros [] s3 E3. cbn in E3. injection E3 as <-.
  apply tr_bind; [cbn; constructor; [|constructor]|].
  { left. destruct F2. constructor; cbn; eauto. }
  intros [] s3 E3. cbn in E3. injection E3 as <-.
  apply tr_bind; [cbn; constructor; [|constructor]|].
  { left. destruct F2. constructor; cbn; eauto. }
  intros [] s3 E3. cbn in E3. injection E3 as <-.
  apply tr_bind; [cbn; constructor; [|constructor]|].
  { right. split; [right|destruct K12; now constructor]. destruct F2. constructor; cbn; try assumption; try reflexivity.
    - now rewrite (Hlen _ _ _ _ _ Hext).
    - left. auto.
    - now left. }
  intros [] s3 E3. constructor.
Qed.

Lemma tr_stamps s : good s -> Forall (ok1 s) (fst (t_stamps_pos _ _ _ L s)).
Proof.
  intros [F|Rs]; [now apply fresh_stamps|]. unfold t_stamps_pos, reshaped.
  rewrite (r_pos _ _ _ _ _ _ _ _ Rs), (r_req _ _ _ _ _ _ _ _ Rs). constructor.
Qed.

Lemma tr_n s : good s -> Forall (ok1 s) (fst (t_n_sources _ _ _ L s)).
Proof.
  intros G. unfold t_n_sources. destruct (nsrc s); [constructor|].
  apply tr_bind; [now apply tr_stamps|]. intros p' s' E. apply tr_bind; [constructor|].
  intros s2 s3 E2. destruct (nsrc s2); constructor.
Qed.

Lemma tr_cov s : good s -> Forall (ok1 s) (fst (t_cov_matrix _ _ _ L s)).
Proof.
  intros G. unfold t_cov_matrix. destruct (cov s) as [c|] eqn:C; [constructor|].
  apply tr_bind; [now apply tr_n|]. intros n' s1 E. rewrite er_n in E.
  destruct (n_good NI FT IM L sh0 Hlen cat0 st p kept Hsel Hext s G) as (s1' & E' & Rs & K & C1 & M1 & E1).
  rewrite E' in E. injection E as <- ->.
  apply tr_bind; [constructor|]. intros s2 s3 E2. cbn in E2. injection E2 as <- <-.
  destruct (no_file _ _ _ (length st) s1); [constructor|]. destruct (Nat.ltb _ _) eqn:Lt; [constructor|]. cbn zeta.
  unfold stored. rewrite (r_db _ _ _ _ _ _ _ _ Rs), firstn_all, (r_sh _ _ _ _ _ _ _ _ Rs).
  destruct (KL.cov_matrix _ st) as [c|e] eqn:Kc; [|constructor].
  assert (Rn : eig s1 = None).
  { destruct (r_eig _ _ _ _ _ _ _ _ Rs) as [Q|(c' & _ & Q & _)]; [exact Q|congruence]. }
  assert (Mc : Nat.leb (length st) 250 = false -> mcols s1 = None).
  { intros N. destruct (r_cov _ _ _ _ _ _ _ _ Rs) as [[_ [Q|[Q _]]]|(c' & _ & Q & _)]; [exact Q|congruence|congruence]. }
  apply tr_bind.
  { destruct (Nat.leb (length st) 250) eqn:N; [|constructor]. cbn. constructor; [|constructor]. right.
    split; [right|destruct K; now constructor]. destruct Rs. constructor; cbn; try assumption.
    left. split; [congruence|]. right. rewrite r_sh. auto. }
  intros [] s2 E2. apply tr_bind; [|intros [] s3 E3; constructor].
  cbn. constructor; [|constructor]. right.
  assert (E2' : s2 = (if Nat.leb (length st) 250
     then set_cov _ _ _ (cov s1) (Some (fst (stamp_shape s1) * snd (stamp_shape s1), st)%nat) s1 else s1)).
  { destruct (Nat.leb (length st) 250); cbn in E2; injection E2 as <-; reflexivity. }
  subst s2. split; [right|destruct K; destruct (Nat.leb (length st) 250); now constructor].
  destruct Rs. destruct (Nat.leb (length st) 250) eqn:N; constructor; cbn; try assumption; try (left; exact Rn);
    right; exists c; rewrite ?r_sh, ?N; auto.
Qed.

Lemma tr_eig s : good s -> Forall (ok1 s) (fst (t_eigenv _ _ _ L s)).
Proof.
  intros G. unfold t_eigenv. destruct (eig s) as [e|] eqn:E0; [constructor|].
  apply tr_bind; [now apply tr_cov|]. intros c s1 E. destruct (Nat.eqb (fst c) 1) eqn:One; [constructor|]. cbn zeta.
  apply tr_bind; [|intros; constructor]. cbn. constructor; [|constructor]. right.
  destruct (eig_good NI FT IM L sh0 Hlen cat0 st p kept Hsel Hext s G) as (s2 & E2 & R2 & K2 & _).
  unfold eigenv in E2. rewrite E0 in E2. rewrite er_cov in E. unfold mbind in E2. rewrite E in E2. rewrite One in E2. cbn in E2.
  injection E2 as _ <-. split; [now right|exact K2].
Qed.

Lemma tr_build e s : ready s -> Forall (ok1 s) (fst (t_build_basis _ _ _ L e s)).
Proof.
  intros Rs. unfold t_build_basis. cbn [fst]. destruct (mcols s); [constructor|].
  unfold t_n_sources. rewrite (r_n _ _ _ _ _ _ _ _ Rs). constructor.
Qed.

(** From the basis on: the loss in force is the old one or the one asked for. *)
Definition ok3 (r : state) (l : R) (s : state) : Prop :=
  win s \/ (good s /\ basis_ok s /\ fields_ok s) /\ keep3 r s /\ (inf_loss s = inf_loss r \/ inf_loss s = l).

(** No PSF so far, or the loss in force is asked for. *)
Definition calm (l : R) (s : state) : Prop := basis s = None /\ fields s = None \/ l = inf_loss s.

Lemma basis_ok_loss l s : good s -> basis_ok s -> fields_ok s -> calm l s ->
  basis_ok (set_inf_loss _ _ _ l s) /\ fields_ok (set_inf_loss _ _ _ l s).
Proof.
  intros _ B F [[Q1 Q2]|El].
  - split; left; assumption.
  - rewrite El. split; [destruct B as [B|(b & ? & ?)]; [left|right; exists b]|destruct F as [F|(f & ? & ?)]; [left|right; exists f]]; auto.
Qed.

Lemma ok1_ok3 r s s' l : keep3 r s -> basis_ok s -> fields_ok s -> (inf_loss s = inf_loss r \/ inf_loss s = l) ->
  ok1 s s' -> ok3 r l s'.
Proof.
  intros K B F Hl [W|[G K']]; [now left|right]. split; [split; [exact G|split]|split].
  - eapply basis_ok_keep; eassumption.
  - destruct K'. destruct F as [F|(f & ? & ?)]; [left|right; exists f]; rewrite ?k_loss, ?k_fields; auto.
  - eapply keep3_trans; [exact K|]. now apply keep_keep3.
  - rewrite (k_loss _ _ _ _ _ K'). exact Hl.
Qed.

Lemma ok1_ok3_all r s l tr : keep3 r s -> basis_ok s -> fields_ok s -> (inf_loss s = inf_loss r \/ inf_loss s = l) ->
  Forall (ok1 s) tr -> Forall (ok3 r l) tr.
Proof. intros K B F Hl. apply Forall_impl. intros x. now apply ok1_ok3. Qed.

Lemma keep_fields s s' : keep s s' -> fields_ok s -> fields_ok s'.
Proof. intros [] [F|(f & ? & ?)]; [left|right; exists f]; rewrite ?k_loss, ?k_fields; auto. Qed.

Lemma tr_setup l s : good s -> basis_ok s -> fields_ok s -> 0 <= loss_after l s -> calm (loss_after l s) s ->
  Forall (ok3 s (loss_after l s)) (fst (t_setup_kl_basis _ _ _ L l s)).
Proof.
  intros G B F Hl Ca. unfold t_setup_kl_basis. cbn zeta. destruct (_ || _) eqn:T; [|constructor].
  set (s1 := match l with Some l => set_inf_loss _ _ _ l s | None => s end).
  assert (L1 : inf_loss s1 = loss_after l s) by (unfold s1, Session.loss_after; destruct l; reflexivity).
  assert (K1 : keep3 s s1) by (unfold s1; destruct l; constructor; reflexivity).
  assert (G1 : good s1) by (unfold s1; destruct l; [apply set_loss_good|]; exact G).
  assert (BF : basis_ok s1 /\ fields_ok s1).
  { unfold s1. destruct l as [l|]; [|now split]. now apply basis_ok_loss. }
  destruct BF as [B1 F1].
  assert (Ca1 : basis s1 = None /\ fields s1 = None \/ loss_after l s = inf_loss s).
  { destruct Ca as [[Q1 Q2]|Q]; [left|right; exact Q]. unfold s1. destruct l; auto. }
  apply tr_bind.
  { destruct l as [l|]; [|constructor]. cbn. constructor; [|constructor]. right. split; [now split|]. split; [exact K1|now right]. }
  intros [] s' E. assert (s' = s1) by (unfold s1; destruct l; cbn in E; injection E as <-; reflexivity). subst s'. clear E.
  apply tr_bind; [apply (ok1_ok3_all _ s1); auto; now apply tr_eig|].
  intros e s2 E. rewrite er_eig in E.
  destruct (eig_good NI FT IM L sh0 Hlen cat0 st p kept Hsel Hext s1 G1) as (s2' & E2 & R2 & K2 & Q2).
  rewrite E2 in E. injection E as Ke <-. specialize (Q2 e Ke).
  pose proof (basis_ok_keep _ _ _ _ _ _ _ _ K2 B1) as B2. pose proof (keep_fields _ _ K2 F1) as F2.
  assert (L2 : inf_loss s2' = loss_after l s) by (rewrite (k_loss _ _ _ _ _ K2); exact L1).
  assert (K3 : keep3 s s2') by (eapply keep3_trans; [exact K1|now apply keep_keep3]).
  apply tr_bind; [apply (ok1_ok3_all _ s2'); auto; now apply tr_build|].
  intros b s3 E. unfold t_build_basis in E. cbn [snd] in E.
  rewrite (build_ok NI FT IM L sh0 Heig st p s2' e R2 Ke Q2) in E. injection E as Kb <-.
  cbn. constructor; [|constructor]. right. split; [split; [right; destruct R2; now constructor|split]|split].
  - right. exists b. split; [exact Kb|reflexivity].
  - destruct F2 as [F2|(f & ? & ?)]; [left|right; exists f]; auto.
  - destruct K3. now constructor.
  - right. exact L2.
Qed.

(** A later step from [s1] on. *)
Lemma ok3_up r l s1 l1 s' : keep3 r s1 -> (inf_loss s1 = inf_loss r \/ inf_loss s1 = l) -> (l1 = inf_loss s1 \/ l1 = l) ->
  ok3 s1 l1 s' -> ok3 r l s'.
Proof.
  intros K Hl H1 [W|(J & K' & Hl')]; [now left|right]. split; [exact J|]. split; [eapply keep3_trans; eassumption|].
  destruct Hl' as [->| ->]; [exact Hl|]. destruct H1 as [->| ->]; [exact Hl|now right].
Qed.

Lemma ok3_all r l s1 l1 tr : keep3 r s1 -> (inf_loss s1 = inf_loss r \/ inf_loss s1 = l) -> (l1 = inf_loss s1 \/ l1 = l) ->
  Forall (ok3 s1 l1) tr -> Forall (ok3 r l) tr.
Proof. intros K Hl H1. apply Forall_impl. intros x. now apply ok3_up. Qed.

Lemma tr_basis s : good s -> basis_ok s -> fields_ok s -> 0 <= inf_loss s ->
  Forall (ok3 s (inf_loss s)) (fst (t_kl_basis _ _ _ L s)).
Proof.
  intros G B F Hl. unfold t_kl_basis. apply tr_bind.
  - destruct (basis s); [constructor|]. apply (tr_setup None s G B F Hl). now right.
  - intros [] s1 E. apply tr_bind; [constructor|]. intros s2 s3 E2. destruct (basis s2); constructor.
Qed.

Lemma keep2_fields_ok s s' : keep2 s s' -> inf_loss s' = inf_loss s -> fields_ok s -> fields_ok s'.
Proof. intros [] El [F|(f & ? & ?)]; [left|right; exists f]; rewrite ?El, ?k2_fields; auto. Qed.

(** After the basis was set up the loss is the one asked for, and the fields are still right. *)
Lemma setup_after l s : good s -> basis_ok s -> fields_ok s -> 0 <= loss_after l s -> calm (loss_after l s) s ->
  forall a s1, setup_kl_basis _ _ _ L l s = (Ok a, s1) ->
  good s1 /\ keep3 s s1 /\ basis_ok s1 /\ fields_ok s1 /\ inf_loss s1 = loss_after l s /\ fields s1 = fields s.
Proof.
  intros G B F Hl Ca a s1 E.
  destruct (setup_basis_good NI FT IM L sh0 Hlen Heig cat0 st p kept Hsel Hext l s G B Hl) as (s1' & E1 & G1 & K1 & Bo1 & L1 & _).
  rewrite E1 in E. injection E as _ ->. split; [exact G1|]. split; [now apply keep2_keep3|]. split; [exact Bo1|].
  split; [|split; [exact L1|apply (k2_fields _ _ _ _ _ K1)]].
  destruct Ca as [[_ Q]|Q].
  - left. rewrite (k2_fields _ _ _ _ _ K1). exact Q.
  - apply (keep2_fields_ok s); [exact K1|congruence|exact F].
Qed.

Lemma tr_fields l u s : good s -> basis_ok s -> fields_ok s -> 0 <= inf_loss s -> 0 <= loss_after l s -> calm (loss_after l s) s ->
  Forall (ok3 s (loss_after l s)) (fst (t_setup_kl_a_fields _ _ _ L l u s)).
Proof.
  intros G B F H0 Hl Ca. unfold t_setup_kl_a_fields. cbn zeta. destruct (_ || _ || _) eqn:T; [|constructor].
  (* the fields as they will be *)
  destruct (fields_good NI FT IM L sh0 Hlen Heig cat0 st p kept Hsel Hext l true s G B) as (sf & Ef & Gf & Kf & Bf & Ff & Lf & Qf);
    [now apply (fields_ok_old NI FT IM L sh0 st p)|exact Hl|now left|].
  unfold setup_kl_a_fields in Ef. cbn zeta in Ef. rewrite orb_true_r in Ef.
  apply tr_bind.
  { destruct l as [l|]; [|constructor]. apply tr_bind; [now apply (tr_setup (Some l) s)|].
    intros [] s1 E. rewrite er_setup in E. destruct (setup_after (Some l) s G B F Hl Ca _ _ E) as (G1 & K1 & B1 & F1 & L1 & _).
    cbn. constructor; [|constructor]. cbn [loss_after] in L1.
    replace (set_inf_loss _ _ _ l s1) with s1 by (rewrite <- L1; destruct s1; reflexivity).
    right. split; [now split|]. split; [exact K1|]. now right. }
  intros [] s1 E1.
  assert (X : good s1 /\ keep3 s s1 /\ basis_ok s1 /\ fields_ok s1 /\ inf_loss s1 = loss_after l s).
  { destruct l as [l|].
    - unfold tbind in E1. destruct (t_setup_kl_basis _ _ _ L (Some l) s) as [tr [[a|e] s1']] eqn:Ts; [|discriminate].
      cbn in E1. injection E1 as <-.
      pose proof (er_setup NI FT IM L (Some l) s) as Es. rewrite Ts in Es. cbn [snd] in Es. symmetry in Es.
      destruct (setup_after (Some l) s G B F Hl Ca _ _ Es) as (G1 & K1 & B1 & F1 & L1 & _). cbn [loss_after] in L1.
      replace (set_inf_loss _ _ _ l s1') with s1' by (rewrite <- L1; destruct s1'; reflexivity). auto.
    - cbn in E1. injection E1 as <-. split; [exact G|]. split; [apply keep3_refl|]. auto. }
  destruct X as (G1 & K1 & B1 & F1 & L1).
  assert (P1 : mbind NI FT IM (match l with
             | Some l => mbind _ _ _ (setup_kl_basis _ _ _ L (Some l)) (fun _ => upd _ _ _ (set_inf_loss _ _ _ l))
             | None => ret _ _ _ tt end) (fun _ => ret _ _ _ tt) s = (Ok tt, s1)).
  { destruct l as [l|]; [|cbn in E1; injection E1 as <-; reflexivity].
    rewrite (erase_bind NI FT IM _ (setup_kl_basis _ _ _ L (Some l)) _ (fun _ => upd _ _ _ (set_inf_loss _ _ _ l)) s (er_setup NI FT IM L (Some l) s)) in E1
      by reflexivity.
    unfold mbind at 1. rewrite E1. reflexivity. }
  apply tr_bind.
  { apply (ok3_all s (loss_after l s) s1 (inf_loss s1)); auto.
    apply tr_basis; auto. rewrite L1. exact Hl. }
  intros b s2 E2. rewrite er_basis in E2.
  destruct (kl_basis_good NI FT IM L sh0 Hlen Heig cat0 st p kept Hsel Hext s1 G1 B1) as (s2' & E2' & G2 & K2 & B2 & L2); [rewrite L1; exact Hl|].
  rewrite E2' in E2. injection E2 as Kb ->.
  pose proof (keep2_fields_ok _ _ K2 L2 F1) as F2.
  assert (K12 : keep3 s s2) by (eapply keep3_trans; [exact K1|now apply keep2_keep3]).
  assert (L2' : inf_loss s2 = loss_after l s) by congruence.
  assert (Run : setup_kl_a_fields NI FT IM L l true s = (
     if Nat.eqb (length b) 1 then upd _ _ _ (set_fields _ _ _ (Some NoField)) s2
     else (mbind _ _ _ (best_sources _ _ _ L) (fun _ =>
       mbind _ _ _ (stamps_pos _ _ _ L) (fun positions =>
       if Nat.eqb (length positions) 0 then raise _ _ _ IndexError
       else mbind _ _ _ (eigenv _ _ _ L) (fun e =>
         let n := length (fst e) in
         if negb (Nat.eqb (length b) 0) && negb (Nat.eqb (length positions) n) then raise _ _ _ ValueError
         else upd _ _ _ (set_fields _ _ _ (Some (Fields
                (map (fun k => fit L positions (measures n (snd e) k)) (seq 0 (length b))))))))) s2))).
  { unfold setup_kl_a_fields. rewrite orb_true_r. cbn zeta. unfold mbind at 1.
    unfold mbind at 1 in P1. unfold ret in P1 at 2.
    match type of P1 with match ?x with _ => _ end = _ => destruct x as [[a|e] sx] eqn:Ex; [|discriminate] end.
    injection P1 as ->. unfold mbind at 1. rewrite E2', Kb. cbn zeta. destruct (Nat.eqb (length b) 1); reflexivity. }
  unfold setup_kl_a_fields in Run at 1. rewrite orb_true_r in Run. cbn zeta in Run. rewrite Ef in Run. clear Ef.
  destruct (Nat.eqb (length b) 1) eqn:One.
  { cbn. constructor; [|constructor]. right. unfold upd in Run. injection Run as _ Run. rewrite <- Run.
    split; [now split|]. split; [exact Kf|now right]. }
  apply tr_bind; [apply (ok1_ok3_all _ s2); auto; now apply tr_best|].
  intros c s3 E3. rewrite er_best in E3.
  destruct (best_good NI FT IM L sh0 cat0 st p Hsel s2 G2) as (c' & s3' & E3' & G3 & K3 & _). rewrite E3' in E3. injection E3 as -> ->.
  pose proof (basis_ok_keep _ _ _ _ _ _ _ _ K3 B2) as B3. pose proof (keep_fields _ _ K3 F2) as F3.
  assert (K13 : keep3 s s3) by (eapply keep3_trans; [exact K12|now apply keep_keep3]).
  assert (L3 : inf_loss s3 = loss_after l s) by (rewrite (k_loss _ _ _ _ _ K3); exact L2').
  apply tr_bind; [apply (ok1_ok3_all _ s3); auto; now apply tr_stamps|].
  intros p' s4 E4. rewrite er_stamps in E4.
  destruct (stamps_good NI FT IM L sh0 Hlen cat0 st p kept Hsel Hext s3 G3) as (s4' & E4' & R4 & K4). rewrite E4' in E4. injection E4 as <- ->.
  pose proof (basis_ok_keep _ _ _ _ _ _ _ _ K4 B3) as B4. pose proof (keep_fields _ _ K4 F3) as F4.
  assert (K14 : keep3 s s4) by (eapply keep3_trans; [exact K13|now apply keep_keep3]).
  assert (L4 : inf_loss s4 = loss_after l s) by (rewrite (k_loss _ _ _ _ _ K4); exact L3).
  destruct (Nat.eqb (length p) 0) eqn:P0; [constructor|].
  apply tr_bind; [apply (ok1_ok3_all _ s4); auto; apply tr_eig; now right|].
  intros e s5 E5. rewrite er_eig in E5. cbn zeta.
  destruct (_ && _) eqn:Bd; [constructor|].
  cbn. constructor; [|constructor]. right. unfold mbind at 1 in Run. rewrite E3' in Run. unfold mbind at 1 in Run.
  rewrite E4', P0 in Run. unfold mbind at 1 in Run. rewrite E5, Bd in Run. unfold upd in Run.
  injection Run as _ Run. rewrite <- Run. split; [now split|]. split; [exact Kf|now right].
Qed.

Lemma tr_afields s : good s -> basis_ok s -> fields_ok s -> 0 <= inf_loss s ->
  Forall (ok3 s (inf_loss s)) (fst (t_kl_afields _ _ _ L s)).
Proof.
  intros G B F Hl. unfold t_kl_afields. apply tr_bind.
  - destruct (fields s); [constructor|]. apply (tr_fields None false s G B F Hl Hl). now right.
  - intros [] s1 E. apply tr_bind; [constructor|]. intros s2 s3 E2. destruct (fields s2); constructor.
Qed.

Lemma tr_psf l s : good s -> basis_ok s -> fields_ok s -> 0 <= inf_loss s -> 0 <= loss_after l s -> calm (loss_after l s) s ->
  Forall (ok3 s (loss_after l s)) (fst (t_get_variable_psf _ _ _ L l None s)).
Proof.
  intros G B F H0 Hl Ca. unfold t_get_variable_psf.
  apply tr_bind; [constructor|]. intros [] s0 E0. cbn in E0. injection E0 as <-.
  apply tr_bind; [constructor|]. intros sx s0 E0. cbn in E0. injection E0 as <- <-. cbn zeta.
  apply tr_bind; [now apply tr_setup|]. intros [] s1 E1. rewrite er_setup in E1.
  destruct (setup_after l s G B F Hl Ca _ _ E1) as (G1 & K1 & B1 & F1 & L1 & _).
  assert (Hl1 : loss_after l s1 = loss_after l s) by (destruct l; [reflexivity|exact L1]).
  assert (H1 : 0 <= inf_loss s1) by (rewrite L1; exact Hl).
  apply tr_bind.
  { apply (ok3_all s (loss_after l s) s1 (loss_after l s1)); auto.
    apply tr_fields; auto; [now rewrite Hl1|right; congruence]. }
  intros [] s2 E2. rewrite er_fields in E2.
  destruct (fields_good NI FT IM L sh0 Hlen Heig cat0 st p kept Hsel Hext l (differs _ _ _ l s) s1 G1 B1) as (s2' & E2' & G2 & K2 & B2 & F2 & L2 & Q2);
    [now apply (fields_ok_old NI FT IM L sh0 st p)|rewrite Hl1; exact Hl|now right|].
  rewrite E2' in E2. injection E2 as Kf ->. rewrite Hl1 in L2, Q2, Kf.
  assert (K12 : keep3 s s2) by (eapply keep3_trans; eassumption).
  assert (H2 : 0 <= inf_loss s2) by (rewrite L2; exact Hl).
  apply tr_bind.
  { apply (ok3_all s (loss_after l s) s2 (inf_loss s2)); auto. now apply tr_afields. }
  intros a s3 E3. rewrite er_afields in E3.
  destruct (afields_good NI FT IM L sh0 Hlen Heig cat0 st p kept Hsel Hext s2 G2 B2 F2 H2) as (s3' & E3' & G3 & K3 & B3 & F3 & L3).
  rewrite E3' in E3. injection E3 as Ka ->.
  assert (K13 : keep3 s s3) by (eapply keep3_trans; eassumption).
  assert (L3' : inf_loss s3 = loss_after l s) by congruence.
  assert (H3 : 0 <= inf_loss s3) by (rewrite L3'; exact Hl).
  apply tr_bind.
  { apply (ok3_all s (loss_after l s) s3 (inf_loss s3)); auto. now apply tr_basis. }
  intros b s4 E4. rewrite er_basis in E4.
  destruct (kl_basis_good NI FT IM L sh0 Hlen Heig cat0 st p kept Hsel Hext s3 G3 B3 H3) as (s4' & E4' & G4 & K4 & B4 & L4).
  rewrite E4' in E4. injection E4 as Kb ->.
  assert (L4' : inf_loss s4 = loss_after l s) by congruence.
  pose proof (keep2_fields_ok _ _ K4 L4 F3) as F4.
  assert (K14 : keep3 s s4) by (eapply keep3_trans; [exact K13|now apply keep2_keep3]).
  rewrite L3' in Kb. rewrite L2 in Ka.
  pose proof (kf_shape NI FT IM L sh0 Hlen Heig cat0 st p kept Hext _ _ _ Kb Ka) as Sh.
  destruct a as [|[|f fs]]; [|constructor|constructor].
  destruct Sh as (q & ->). cbn zeta. rewrite (kb_single NI FT IM L sh0 st _ _ q Kb eq_refl).
  apply tr_bind; [|intros; constructor]. cbn. constructor; [|constructor]. right. split; [split; [|split]|split].
  - right. rewrite L3', Kb in E4'. apply kl_basis_some in E4'.
    assert (R4 : ready s4) by (apply (good_ready _ _ _ _ _ cat0); [exact G4|congruence]).
    destruct R4. now constructor.
  - right. exists [q]. split; [cbn; rewrite L4'; exact Kb|reflexivity].
  - destruct F4 as [F4|(f & ? & ?)]; [left|right; exists f]; auto.
  - destruct K14. now constructor.
  - right. exact L4'.
Qed.

(** * The images built on the PSF *)
Variable mode : (R -> fieldset * list (plane (option R))) + exn.
Hypothesis Hcl : closed NI FT IM L sh0 (Jgood NI FT IM L sh0 cat0 st p) mode.
Notation J := (Jgood NI FT IM L sh0 cat0 st p).
Notation PF := (psf_for L sh0).
Notation Inv := (Inv NI FT IM L J mode).

(** In the window, or as remembered. *)
Definition okM (ms : list memory) (s : state) : Prop := win s \/ exists m, In m ms /\ Inv s m.

Lemma okM_incl ms ms' tr : incl ms ms' -> Forall (okM ms) tr -> Forall (okM ms') tr.
Proof.
  intros H. apply Forall_impl. intros s [W|(m & I & Q)]; [now left|right]. exists m. split; [now apply H|exact Q].
Qed.

Lemma ok3_okM s m l s' : Inv s m -> 0 <= l -> ok3 s l s' -> okM [m; with_loss l (m_zp m) m] s'.
Proof.
  intros (Js & Hl & Hz & Mo & Ho) H0 [W|(J' & K & Hl')]; [now left|right].
  assert (X : forall l', 0 <= l' -> inf_loss s' = l' -> Inv s' (with_loss l' (m_zp m) m)).
  { intros l' P E. split; [exact J'|]. split; [exact E|]. split; [rewrite (k3_zp _ _ _ _ _ K); exact Hz|].
    split; [now apply with_loss_ok|]. destruct K. apply (holds_ext NI FT IM L PF mode (proj1 Hcl) s); assumption. }
  destruct Hl' as [E|E].
  - exists m. split; [now left|]. rewrite <- (with_loss_same m). apply X; [apply (mo_loss _ Mo)|congruence].
  - eexists. split; [right; left; reflexivity|]. now apply X.
Qed.

Lemma ok3_okM_all s m l tr : Inv s m -> 0 <= l -> Forall (ok3 s l) tr -> Forall (okM [m; with_loss l (m_zp m) m]) tr.
Proof. intros I H. apply Forall_impl. intros x. now apply ok3_okM. Qed.

Lemma ok3_same s m tr : Inv s m -> Forall (ok3 s (inf_loss s)) tr -> Forall (okM [m]) tr.
Proof.
  intros I H. pose proof I as (_ & Hl & _ & Mo & _). rewrite Hl in H.
  apply (ok3_okM_all s m (m_loss m)) in H; [|exact I|apply (mo_loss _ Mo)].
  rewrite with_loss_same in H. eapply okM_incl; [|exact H]. intros x [<-|[<-|[]]]; now left.
Qed.

Lemma ok1_same s m tr : Inv s m -> Forall (ok1 s) tr -> Forall (okM [m]) tr.
Proof.
  intros I H. pose proof I as ((G & B & F) & _). apply (ok3_same s m); [exact I|].
  eapply ok1_ok3_all; [apply keep3_refl|exact B|exact F|now left|exact H].
Qed.

Lemma inv_J s m : Inv s m -> good s /\ basis_ok s /\ fields_ok s /\ 0 <= inf_loss s.
Proof. intros ((G & B & F) & Hl & _ & Mo & _). rewrite Hl. repeat split; auto. apply (mo_loss _ Mo). Qed.

Lemma mt_psf_none s m : Inv s m -> Forall (okM [m]) (fst (t_get_variable_psf _ _ _ L None None s)).
Proof.
  intros I. destruct (inv_J s m I) as (G & B & F & H0). apply (ok3_same s m); [exact I|].
  apply (tr_psf None s); auto. now right.
Qed.

Lemma mt_psf l s m : Inv s m -> 0 <= l -> calm l s ->
  Forall (okM [m; with_loss l (m_zp m) m]) (fst (t_get_variable_psf _ _ _ L (Some l) None s)).
Proof.
  intros I Hl Ca. destruct (inv_J s m I) as (G & B & F & H0). apply (ok3_okM_all s); auto.
  now apply (tr_psf (Some l) s).
Qed.

Lemma psf_none_inv s m q s1 : Inv s m -> get_variable_psf _ _ _ L None None s = (Ok q, s1) -> Inv s1 m.
Proof.
  intros I E. destruct Hcl as (H1 & H2 & H3 & H4 & H5 & H6 & _). pose proof I as (_ & _ & _ & Mo & _).
  destruct (psf_step NI FT IM L PF J mode H1 H2 None s m I (mo_loss _ Mo)) as (s' & E' & I' & _).
  cbn zeta in E', I'. rewrite with_loss_same in I'. rewrite E' in E. injection E as _ ->. exact I'.
Qed.

Lemma mt_norm s m : Inv s m -> Forall (okM [m; need_norm m]) (fst (t_normal_image _ _ _ L s)).
Proof.
  intros I. destruct Hcl as (H1 & H2 & H3 & H4 & H5 & H6 & _).
  destruct (norm_step NI FT IM L PF J mode H1 H2 H4 s m I) as (s' & E & I').
  unfold t_normal_image. unfold normal_image in E. destruct (normal s) as [x|]; [constructor|].
  apply tr_bind; [eapply okM_incl; [|apply (mt_psf_none s m I)]; intros x [<-|[]]; now left|].
  intros q s1 E1. rewrite er_psf in E1. unfold mbind in E. rewrite E1 in E. cbn in E. injection E as _ E. cbn zeta.
  apply tr_bind; [|intros; constructor]. cbn. constructor; [|constructor]. right. exists (need_norm m).
  split; [right; now left|]. now rewrite E.
Qed.

Lemma mt_shat s m : Inv s m -> Forall (okM [m; need_norm m; need_filt m]) (fst (t_s_hat_comp _ _ _ L s)).
Proof.
  intros I. destruct Hcl as (H1 & H2 & H3 & H4 & H5 & H6 & _).
  destruct (filt_step NI FT IM L PF J mode H1 H2 H4 H5 s m I) as (s' & E & I').
  unfold t_s_hat_comp. unfold s_hat_comp in E. cbn zeta in *.
  destruct (match shat s with None => true | Some (_, l) => if Req_EM_T l (inf_loss s) then false else true end) eqn:St;
    [|destruct (shat s) as [[h l]|]; constructor].
  apply tr_bind; [eapply okM_incl; [|apply (mt_psf_none s m I)]; intros x [<-|[]]; now left|].
  intros q s1 E1. rewrite er_psf in E1. pose proof (psf_none_inv s m q s1 I E1) as I1.
  unfold mbind at 1 in E. rewrite E1 in E.
  apply tr_bind; [eapply okM_incl; [|apply (mt_norm s1 m I1)]; intros x [<-|[<-|[]]]; cbn; auto|].
  intros n1 s2 E2. rewrite er_normal in E2. unfold mbind at 1 in E. rewrite E2 in E.
  apply tr_bind; [constructor|]. intros s3 s4 E3. cbn in E3. injection E3 as <- <-. cbn zeta.
  cbn in E. injection E as _ E.
  apply tr_bind; [|intros; constructor]. cbn. constructor; [|constructor]. right. exists (need_filt m).
  split; [cbn; auto|]. now rewrite E.
Qed.

Lemma mt_scomp s m : Inv s m -> Forall (okM [m; need_norm m; need_filt m; need_comp m]) (fst (t_s_component _ _ _ L s)).
Proof.
  intros I. destruct Hcl as (H1 & H2 & H3 & H4 & H5 & H6 & _).
  destruct (comp_step NI FT IM L PF J mode H1 H2 H4 H5 H6 s m I) as (s' & E & I').
  assert (Sh : Forall (okM [m; need_norm m; need_filt m; need_comp m]) (fst (t_s_hat_comp _ _ _ L s))).
  { eapply okM_incl; [|apply (mt_shat s m I)]. intros x [<-|[<-|[<-|[]]]]; cbn; auto. }
  unfold t_s_component. unfold s_component in E. destruct (scomp s) as [[c l]|] eqn:Sc.
  - unfold mbind at 1 in E. unfold ret at 1 in E. unfold mbind at 1 in E. unfold get at 1 in E. rewrite Sc in E.
    apply tr_bind; [constructor|]. intros [] s1 E1. cbn in E1. injection E1 as <-.
    apply tr_bind; [constructor|]. intros s1 s2 E1. cbn in E1. injection E1 as <- <-. rewrite Sc.
    destruct (Req_EM_T l (inf_loss s)); [constructor|].
    apply tr_bind; [exact Sh|]. intros h s1 E1. rewrite er_shat in E1. unfold mbind at 1 in E. rewrite E1 in E. cbn in E.
    injection E as _ E. cbn zeta. apply tr_bind; [|intros; constructor]. cbn. constructor; [|constructor].
    right. exists (need_comp m). split; [cbn; auto|]. now rewrite E.
  - unfold mbind at 1 in E. unfold mbind at 1 in E.
    apply tr_bind.
    + apply tr_bind; [exact Sh|]. intros h s1 E1. rewrite er_shat in E1. rewrite E1 in E.
      unfold mbind at 1 in E. unfold get at 1 in E. unfold upd at 1 in E.
      apply tr_bind; [constructor|]. intros s2 s3 E2. cbn in E2. injection E2 as <- <-.
      unfold mbind in E. unfold get in E.
      change (scomp (set_scomp NI FT IM (Some (ifft_real L h, inf_loss s1)) s1)) with (Some (ifft_real L h, inf_loss s1)) in E.
      change (inf_loss (set_scomp NI FT IM (Some (ifft_real L h, inf_loss s1)) s1)) with (inf_loss s1) in E. cbn iota beta in E.
      destruct (Req_EM_T (inf_loss s1) (inf_loss s1)) as [_|Ne]; [|congruence].
      cbn in E. injection E as _ E. cbn. constructor; [|constructor]. right. exists (need_comp m). split; [cbn; auto|]. now rewrite E.
    + intros [] s1 E1. apply tr_bind; [constructor|]. intros s2 s3 E2. cbn in E2. injection E2 as <- <-.
      unfold tbind at 1 in E1. destruct (t_s_hat_comp _ _ _ L s) as [tr [[h|e] s2]] eqn:Th; [|discriminate].
      cbn in E1. injection E1 as <-. cbn [scomp set_scomp inf_loss].
      change (scomp (set_scomp NI FT IM (Some (ifft_real L h, inf_loss s2)) s2)) with (Some (ifft_real L h, inf_loss s2)).
      change (inf_loss (set_scomp NI FT IM (Some (ifft_real L h, inf_loss s2)) s2)) with (inf_loss s2). cbn iota beta.
      destruct (Req_EM_T (inf_loss s2) (inf_loss s2)) as [_|Ne]; [constructor|congruence].
Qed.

Lemma zp_inv z s m : Inv s m -> Inv (set_zp _ _ _ (Some z) s) (recall (CSetZp z) m).
Proof.
  intros (Js & Hl & Hz & Mo & Ho). destruct Hcl as (H1 & H2 & H3 & _). unfold recall. cbn [loss_of zp_of].
  split; [now apply H3|]. split; [exact Hl|]. split; [reflexivity|].
  split; [apply (with_loss_ok (m_loss m) z m); [apply (mo_loss _ Mo)|exact Mo]|].
  apply (holds_ext NI FT IM L PF mode H1 s _ (m_loss m) z m); auto.
Qed.

Lemma recall_norm m : recall CNormal m = need_norm m.
Proof. unfold recall. cbn [loss_of zp_of]. now destruct (need_norm m). Qed.
Lemma recall_filt m : recall CSHat m = need_filt m.
Proof. unfold recall. cbn [loss_of zp_of]. now destruct (need_filt m). Qed.
Lemma recall_comp m : recall CSComponent m = need_comp m.
Proof. unfold recall. cbn [loss_of zp_of]. now destruct (need_comp m). Qed.
End Trace.
