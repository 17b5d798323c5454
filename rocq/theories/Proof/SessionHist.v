(** The answers after any history of plain calls. *)
From Coq Require Import ZArith List Bool Arith Reals Lia Lra.
From Verif.Model Require Import Py Plane Sources KL Session.
From Verif.Spec Require Import Session.
From Verif.Proof Require Import Session SessionBad.
Import ListNotations.
Local Open Scope R_scope.

(** * The images built on the PSF, for any way of getting the PSF *)
Section Upper.
Variables NI FT IM : Type.
Variable L : lib NI FT IM.
Notation state := (si NI FT IM).
Notation psf := (fieldset * list (plane (option R)))%type.
Notation loss_after := (loss_after NI FT IM).
Notation keep3 := (keep3 NI FT IM).

Variable PF : R -> res psf.
(** The state below the PSF. *)
Variable J : state -> Prop.
(** It works for all losses or fails for all. *)
Variable mode : (R -> psf) + exn.
Hypothesis Hmode : forall l, 0 <= l -> PF l = match mode with inl pf => Ok (pf l) | inr e => Raise e end.
Hypothesis Jpsf : forall l s, J s -> 0 <= inf_loss s -> 0 <= loss_after l s ->
  exists s', get_variable_psf _ _ _ L l None s = (PF (loss_after l s), s') /\ J s' /\ keep3 s s' /\
    inf_loss s' = loss_after l s.
Hypothesis Jzp : forall z s, J s -> J (set_zp _ _ _ z s).
Hypothesis Jnormal : forall x s, J s -> J (set_normal _ _ _ x s).
Hypothesis Jshat : forall x s, J s -> J (set_shat _ _ _ x s).
Hypothesis Jscomp : forall x s, J s -> J (set_scomp _ _ _ x s).
(** The other plain calls. *)
Definition lower_call (c : call) : Prop :=
  match c with
  | CBestSources | CStampsPos | CNSources | CCov | CEigenv | CBasis | CAfields => True
  | CUpdateSources new => new = None
  | _ => False
  end.
Hypothesis Jlower : forall c s, lower_call c -> J s -> 0 <= inf_loss s ->
  J (exec _ _ _ L c s) /\ keep3 s (exec _ _ _ L c s) /\ inf_loss (exec _ _ _ L c s) = inf_loss s.
Hypothesis Jfields : forall l s, 0 <= l -> J s -> 0 <= inf_loss s ->
  J (snd (setup_kl_a_fields _ _ _ L (Some l) false s)) /\
  keep3 s (snd (setup_kl_a_fields _ _ _ L (Some l) false s)) /\
  inf_loss (snd (setup_kl_a_fields _ _ _ L (Some l) false s)) = l.

Definition norm_at (p : psf) : NI := normal_of L (fst p) (snd p).

(** What is in the attributes, given what the user remembers. *)
Definition holds (s : state) (m : memory) : Prop :=
  match mode with
  | inl pf =>
      normal s = option_map (fun l => norm_at (pf l)) (m_norm m) /\
      shat s = option_map (fun x => (shat_of L (snd x) (fst (pf (fst x))) (snd (pf (fst x)))
                                       (norm_at (pf (norm_loss m))), fst x)) (m_filt m) /\
      scomp s = option_map (fun x =>
                (ifft_real L (shat_of L (snd (snd x)) (fst (pf (fst (snd x)))) (snd (pf (fst (snd x))))
                                 (norm_at (pf (norm_loss m)))), fst x)) (m_comp m)
  | inr _ => normal s = None /\ shat s = None /\ scomp s = None
  end.

Record mem_ok (m : memory) : Prop := {
  mo_loss : 0 <= m_loss m;
  mo_fn : m_filt m <> None -> m_norm m <> None;
  mo_cn : m_comp m <> None -> m_norm m <> None;
  mo_n : forall l, m_norm m = Some l -> 0 <= l;
  mo_f : forall x, m_filt m = Some x -> 0 <= fst x;
  mo_c : forall x, m_comp m = Some x -> 0 <= fst (snd x) }.

Definition Inv (s : state) (m : memory) : Prop :=
  J s /\ inf_loss s = m_loss m /\ zp s = Some (m_zp m) /\ mem_ok m /\ holds s m.

Lemma norm_loss_nonneg m : mem_ok m -> 0 <= norm_loss m.
Proof. intros []. unfold norm_loss. destruct (m_norm m); auto. Qed.

Definition with_loss (l z : R) (m : memory) : memory := remember l z (m_norm m) (m_filt m) (m_comp m).

Lemma with_loss_ok l z m : 0 <= l -> mem_ok m -> mem_ok (with_loss l z m).
Proof. intros H []. now constructor. Qed.

Lemma holds_ext s s' l z m : mem_ok m ->
  normal s' = normal s -> shat s' = shat s -> scomp s' = scomp s -> holds s m -> holds s' (with_loss l z m).
Proof.
  intros [_ D E _ _ _] N S C. unfold holds, with_loss. destruct mode as [pf|]; [|rewrite N, S, C; tauto].
  cbn [m_norm m_filt m_comp]. rewrite N, S, C. intros (H1 & H2 & H3).
  assert (X : m_norm m <> None -> norm_loss (with_loss l z m) = norm_loss m).
  { unfold norm_loss, with_loss. cbn [m_norm]. destruct (m_norm m); congruence. }
  unfold with_loss in X. split; [exact H1|]. split.
  - rewrite H2. destruct (m_filt m); [|reflexivity]. cbn [option_map]. rewrite X; [reflexivity|apply D; discriminate].
  - rewrite H3. destruct (m_comp m); [|reflexivity]. cbn [option_map]. rewrite X; [reflexivity|apply E; discriminate].
Qed.

(** The PSF answer. *)
Lemma psf_step l s m : Inv s m -> 0 <= match l with Some l => l | None => m_loss m end ->
  let l' := match l with Some l => l | None => m_loss m end in
  exists s', get_variable_psf _ _ _ L l None s = (PF l', s') /\ Inv s' (with_loss l' (m_zp m) m) /\ keep3 s s'.
Proof.
  intros (Js & Hl & Hz & Mo & Ho) Hl'. cbn zeta.
  assert (E0 : loss_after l s = match l with Some l => l | None => m_loss m end) by (destruct l; [reflexivity|exact Hl]).
  destruct (Jpsf l s Js) as (s' & E & Js' & K & L'); [rewrite Hl; apply mo_loss; exact Mo|rewrite E0; exact Hl'|].
  rewrite E0 in E, L'. exists s'. split; [exact E|]. split; [|exact K]. split; [exact Js'|]. split; [exact L'|].
  split; [rewrite (k3_zp _ _ _ _ _ K); exact Hz|]. split; [now apply with_loss_ok|].
  destruct K. eapply holds_ext; eauto.
Qed.

Lemma with_loss_same m : with_loss (m_loss m) (m_zp m) m = m.
Proof. destruct m; reflexivity. Qed.

Lemma need_norm_same m : m_loss (need_norm m) = m_loss m /\ m_zp (need_norm m) = m_zp m /\
  m_filt (need_norm m) = m_filt m /\ m_comp (need_norm m) = m_comp m /\
  m_norm (need_norm m) = Some (norm_loss m) /\ norm_loss (need_norm m) = norm_loss m.
Proof. unfold need_norm, norm_loss. destruct (m_norm m) eqn:E; cbn; rewrite ?E; auto 7. Qed.

Lemma need_norm_ok m : mem_ok m -> mem_ok (need_norm m).
Proof.
  intros M. destruct (need_norm_same m) as (A & B & C & D & E & F). pose proof (norm_loss_nonneg m M). destruct M.
  constructor; rewrite ?A, ?C, ?D, ?E; auto; try congruence.
Qed.

Lemma norm_step s m : Inv s m ->
  exists s', normal_image _ _ _ L s = (bind (PF (norm_loss m)) (fun p => Ok (norm_at p)), s') /\
    Inv s' (need_norm m).
Proof.
  intros I. pose proof I as (Js & Hl & Hz & Mo & Ho). unfold normal_image.
  pose proof (norm_loss_nonneg m Mo) as Nn.
  destruct (need_norm_same m) as (Q1 & Q2 & Q3 & Q4 & Q5 & Q6).
  destruct (normal s) as [x|] eqn:N.
  - exists s. rewrite (Hmode _ Nn). unfold holds in Ho. unfold norm_loss, need_norm in *.
    destruct mode as [pf|]; [|destruct Ho; congruence]. destruct Ho as (A & _).
    rewrite N in A. destruct (m_norm m) as [l|]; [|discriminate]. cbn in *. split; [congruence|exact I].
  - destruct (psf_step None s m I (mo_loss _ Mo)) as (s1 & E & I1 & K). unfold mbind at 1. rewrite E.
    rewrite with_loss_same in I1. destruct I1 as (Js1 & Hl1 & Hz1 & _ & Ho1).
    assert (X : (exists pf, mode = inl pf) \/ (exists e, mode = inr e)) by (clear; destruct mode; eauto).
    destruct X as [(pf & X)|(e & X)].
    + rewrite (Hmode _ (mo_loss _ Mo)), (Hmode _ Nn), X. cbn [bind]. unfold mbind, upd, ret.
      unfold holds in Ho, Ho1. rewrite X in Ho, Ho1. destruct Ho as (A & B & C). rewrite N in A.
      assert (M : m_norm m = None) by (destruct (m_norm m); [discriminate|reflexivity]).
      assert (Ln : norm_loss m = m_loss m) by (unfold norm_loss; now rewrite M). rewrite Ln in *.
      eexists. split; [reflexivity|]. split; [now apply Jnormal|]. split; [cbn; congruence|].
      split; [cbn; congruence|]. split; [now apply need_norm_ok|].
      unfold holds. rewrite X, Q3, Q4, Q5, Q6. destruct Ho1 as (_ & B1 & C1).
      split; [reflexivity|]. split; [exact B1|exact C1].
    + rewrite (Hmode _ (mo_loss _ Mo)), (Hmode _ Nn), X. cbn [bind]. exists s1. split; [reflexivity|].
      split; [exact Js1|]. split; [congruence|]. split; [congruence|]. split; [now apply need_norm_ok|].
      unfold holds in *. rewrite X in *. exact Ho1.
Qed.

Definition filt_answer (m : memory) : res FT :=
  let m := need_filt m in
  bind (PF (fst (made_of m))) (fun p => bind (PF (norm_loss m)) (fun q =>
  Ok (shat_of L (snd (made_of m)) (fst p) (snd p) (norm_at q)))).

Definition refilt (m : memory) : memory :=
  let m := need_norm m in
  remember (m_loss m) (m_zp m) (m_norm m) (Some (m_loss m, m_zp m)) (m_comp m).

Lemma refilt_ok m : mem_ok m -> mem_ok (refilt m).
Proof.
  intros M. pose proof (need_norm_ok m M) as [? ? ? ? ? ?]. destruct (need_norm_same m) as (A & B & C & D & E & F).
  unfold refilt. constructor; cbn; auto; try congruence. intros x Q. injection Q as <-. exact mo_loss0.
Qed.

Lemma need_filt_cases m : (need_filt m = m /\ exists z, m_filt m = Some (m_loss m, z)) \/
  (need_filt m = refilt m /\ (m_filt m = None \/ exists l z, m_filt m = Some (l, z) /\ l <> m_loss m)).
Proof.
  unfold need_filt. destruct (m_filt m) as [[l z]|].
  - destruct (Req_EM_T l (m_loss m)) as [->|N]; [left; eauto|right; eauto 6].
  - right. auto.
Qed.

Lemma need_filt_ok m : mem_ok m -> mem_ok (need_filt m).
Proof. intros M. destruct (need_filt_cases m) as [(-> & _)|(-> & _)]; [exact M|now apply refilt_ok]. Qed.

Lemma need_filt_same m : m_loss (need_filt m) = m_loss m /\ m_zp (need_filt m) = m_zp m /\ m_comp (need_filt m) = m_comp m.
Proof.
  destruct (need_norm_same m) as (A & B & C & D & E & F).
  destruct (need_filt_cases m) as [(-> & _)|(-> & _)]; [auto|]. unfold refilt. cbn. auto.
Qed.

Lemma filt_step s m : Inv s m ->
  exists s', s_hat_comp _ _ _ L s = (filt_answer m, s') /\ Inv s' (need_filt m).
Proof.
  intros I. pose proof I as (Js & Hl & Hz & Mo & Ho). unfold s_hat_comp, filt_answer. cbn zeta.
  assert (X : (exists pf, mode = inl pf) \/ (exists e, mode = inr e)) by (clear; destruct mode; eauto).
  pose proof (need_filt_ok m Mo) as Mo'. pose proof (norm_loss_nonneg _ Mo') as Nn.
  assert (Mn : 0 <= fst (made_of (need_filt m))).
  { unfold made_of. destruct (m_filt (need_filt m)) as [x|] eqn:Fx; [apply (mo_f _ Mo' _ Fx)|apply (mo_loss _ Mo')]. }
  destruct (match shat s with None => true | Some (_, l) => if Req_EM_T l (inf_loss s) then false else true end) eqn:T.
  - (* computed *)
    destruct (psf_step None s m I (mo_loss _ Mo)) as (s1 & E1 & I1 & K1). unfold mbind at 1. rewrite E1.
    rewrite with_loss_same in I1.
    destruct X as [(pf & X)|(e & X)].
    + assert (NF : need_filt m = refilt m).
      { destruct (need_filt_cases m) as [(_ & z & Q)|(Q & _)]; [exfalso|exact Q].
        unfold holds in Ho. rewrite X in Ho. destruct Ho as (_ & B & _). rewrite Q in B. cbn [option_map fst snd] in B.
        rewrite B in T. rewrite Hl in T. destruct (Req_EM_T (m_loss m) (m_loss m)); [discriminate|congruence]. }
      rewrite NF in *. destruct (need_norm_same m) as (A & B & C & D & E & F).
      rewrite (Hmode _ (mo_loss _ Mo)), X. destruct (norm_step s1 m I1) as (s2 & E2 & I2).
      unfold mbind at 1. rewrite E2. rewrite (Hmode _ (norm_loss_nonneg _ Mo)), X. cbn [bind].
      pose proof I2 as (Js2 & Hl2 & Hz2 & _ & Ho2). unfold mbind, get, upd, ret, get_zp. rewrite Hz2, B.
      assert (Nr : norm_loss (refilt m) = norm_loss m) by (unfold refilt, norm_loss at 1; cbn; now rewrite E).
      assert (Md : made_of (refilt m) = (m_loss m, m_zp m)) by (unfold refilt, made_of; cbn; now rewrite A, B).
      rewrite Nr, Md. cbn [fst snd]. rewrite (Hmode _ (mo_loss _ Mo)), (Hmode _ (norm_loss_nonneg _ Mo)), X. cbn [bind].
      eexists. split; [reflexivity|]. split; [now apply Jshat|]. split; [cbn; congruence|].
      split; [cbn; congruence|]. split; [exact Mo'|].
      unfold holds in *. rewrite X in *. rewrite Nr. destruct Ho2 as (N2 & S2 & C2). rewrite E, F, D in *.
      unfold refilt. cbn. rewrite Hl2, A, B, D, E. split; [exact N2|]. split; [reflexivity|exact C2].
    + rewrite (Hmode _ (mo_loss _ Mo)), X. rewrite (Hmode _ Mn), X. cbn [bind]. exists s1. split; [reflexivity|].
      destruct I1 as (Js1 & Hl1 & Hz1 & _ & Ho1). destruct (need_filt_same m) as (A & B & _).
      split; [exact Js1|]. split; [congruence|]. split; [congruence|]. split; [exact Mo'|].
      unfold holds in *. rewrite X in *. exact Ho1.
  - destruct (shat s) as [[h l]|] eqn:S; [|discriminate].
    destruct (Req_EM_T l (inf_loss s)) as [El|]; [|discriminate]. exists s.
    destruct X as [(pf & X)|(e & X)]; unfold holds in Ho; rewrite X in Ho; [|destruct Ho as (_ & ? & _); congruence].
    destruct Ho as (A & B & C). rewrite S in B. destruct (m_filt m) as [[l0 z0]|] eqn:Fm; [|discriminate].
    cbn [option_map fst snd] in B. injection B as -> ->.
    assert (NF : need_filt m = m).
    { destruct (need_filt_cases m) as [(Q & _)|(_ & [Q|(l1 & z1 & Q & Q')])]; [exact Q|congruence|].
      rewrite Fm in Q. injection Q as -> ->. congruence. }
    rewrite NF in *. unfold made_of in *. rewrite Fm in *. cbn [fst snd] in *. rewrite (Hmode _ Mn), (Hmode _ Nn), X. cbn [bind].
    split; [reflexivity|exact I].
Qed.

Definition comp_answer (m : memory) : res IM :=
  let m := need_comp m in
  let lz := match m_comp m with Some (_, x) => x | None => made_of m end in
  bind (PF (fst lz)) (fun p => bind (PF (norm_loss m)) (fun q =>
  Ok (ifft_real L (shat_of L (snd lz) (fst p) (snd p) (norm_at q))))).

Definition recomp (first : R) (m : memory) : memory :=
  let m := need_filt m in
  remember (m_loss m) (m_zp m) (m_norm m) (m_filt m) (Some (first, made_of m)).

Lemma need_filt_some m : exists x, m_filt (need_filt m) = Some x /\ made_of (need_filt m) = x.
Proof.
  unfold made_of. destruct (need_filt_cases m) as [(-> & z & Q)|(-> & _)].
  - rewrite Q. eauto.
  - unfold refilt. cbn. eauto.
Qed.

Lemma recomp_ok first m : mem_ok m -> mem_ok (recomp first m).
Proof.
  intros M. pose proof (need_filt_ok m M) as [? ? ? ? ? ?]. unfold recomp.
  destruct (need_filt_some m) as (x & Q & Q'). rewrite Q'.
  constructor; cbn; auto; try congruence.
  - intros _. apply mo_fn0. congruence.
  - intros y Y. injection Y as <-. cbn. auto.
Qed.

Lemma need_comp_cases m :
  (need_comp m = m /\ exists x, m_comp m = Some (m_loss m, x)) \/
  (exists first, need_comp m = recomp first m /\
     (m_comp m = None /\ first = m_loss m \/ exists x, m_comp m = Some (first, x) /\ first <> m_loss m)).
Proof.
  destruct (need_filt_same m) as (A & _).
  unfold need_comp. destruct (m_comp m) as [[first x]|].
  - destruct (Req_EM_T first (m_loss m)) as [->|N]; [left; eauto|right; exists first; eauto 6].
  - right. exists (m_loss m). split; [|auto]. unfold recomp. cbn zeta. rewrite A. reflexivity.
Qed.

Lemma need_comp_ok m : mem_ok m -> mem_ok (need_comp m).
Proof. intros M. destruct (need_comp_cases m) as [(-> & _)|(f & -> & _)]; [exact M|now apply recomp_ok]. Qed.

Lemma need_comp_same m : m_loss (need_comp m) = m_loss m /\ m_zp (need_comp m) = m_zp m.
Proof.
  destruct (need_filt_same m) as (A & B & C).
  destruct (need_comp_cases m) as [(-> & _)|(f & -> & _)]; [auto|]. unfold recomp. cbn. auto.
Qed.

Lemma recomp_answer first m : need_comp m = recomp first m ->
  comp_answer m = bind (filt_answer m) (fun h => Ok (ifft_real L h)).
Proof.
  intros E. unfold comp_answer, filt_answer. rewrite E. unfold recomp. cbn [m_comp]. cbn zeta.
  assert (Q : norm_loss (remember (m_loss (need_filt m)) (m_zp (need_filt m)) (m_norm (need_filt m))
                (m_filt (need_filt m)) (Some (first, made_of (need_filt m)))) = norm_loss (need_filt m)) by reflexivity.
  rewrite Q. destruct (PF (fst _)) as [a|]; [|reflexivity]. cbn [bind]. destruct (PF (norm_loss _)); reflexivity.
Qed.

(** Storing the new image. *)
Lemma comp_store first s m h : Inv s (need_filt m) -> filt_answer m = Ok h -> mem_ok m ->
  Inv (set_scomp _ _ _ (Some (ifft_real L h, first)) s) (recomp first m).
Proof.
  intros (Js & Hl & Hz & Mo' & Ho) E Mo. split; [now apply Jscomp|]. split; [exact Hl|]. split; [exact Hz|].
  split; [now apply recomp_ok|]. unfold filt_answer in E. cbn zeta in E.
  pose proof (norm_loss_nonneg _ Mo') as Nn.
  assert (Mn : 0 <= fst (made_of (need_filt m))).
  { unfold made_of. destruct (m_filt (need_filt m)) as [x|] eqn:Fx; [apply (mo_f _ Mo' _ Fx)|apply (mo_loss _ Mo')]. }
  rewrite (Hmode _ Nn), (Hmode _ Mn) in E.
  unfold holds in *. destruct mode as [pf|e]; [|discriminate]. cbn [bind] in E. injection E as <-.
  destruct Ho as (A & B & C). unfold recomp.
  change (norm_loss (remember (m_loss (need_filt m)) (m_zp (need_filt m)) (m_norm (need_filt m))
                (m_filt (need_filt m)) (Some (first, made_of (need_filt m))))) with (norm_loss (need_filt m)).
  cbn [m_norm m_filt m_comp]. split; [exact A|]. split; [exact B|]. reflexivity.
Qed.

Lemma filt_fail m e : mem_ok m -> filt_answer m = Raise e -> mode = inr e.
Proof.
  intros Mo E. pose proof (need_filt_ok m Mo) as Mo'. pose proof (norm_loss_nonneg _ Mo') as Nn.
  assert (Mn : 0 <= fst (made_of (need_filt m))).
  { unfold made_of. destruct (m_filt (need_filt m)) as [x|] eqn:Fx; [apply (mo_f _ Mo' _ Fx)|apply (mo_loss _ Mo')]. }
  unfold filt_answer in E. cbn zeta in E. rewrite (Hmode _ Nn), (Hmode _ Mn) in E.
  destruct mode; cbn in E; congruence.
Qed.

Lemma Inv_fail s m m' e : mode = inr e -> Inv s m -> mem_ok m' -> m_loss m' = m_loss m -> m_zp m' = m_zp m -> Inv s m'.
Proof.
  intros X (Js & Hl & Hz & _ & Ho) Mo A B. split; [exact Js|]. split; [congruence|]. split; [congruence|].
  split; [exact Mo|]. unfold holds in *. rewrite X in *. exact Ho.
Qed.

Lemma comp_step s m : Inv s m ->
  exists s', s_component _ _ _ L s = (comp_answer m, s') /\ Inv s' (need_comp m).
Proof.
  intros I. pose proof I as (Js & Hl & Hz & Mo & Ho).
  destruct (need_filt_same m) as (A1 & B1 & C1). destruct (need_comp_same m) as (A2 & B2).
  unfold s_component. destruct (scomp s) as [[c f0]|] eqn:S.
  - (* already there *)
    unfold mbind at 1. unfold ret at 1. unfold mbind at 1. unfold get at 1. rewrite S.
    assert (X : exists pf, mode = inl pf).
    { unfold holds in Ho. destruct mode; [eauto|destruct Ho as (_ & _ & ?); congruence]. }
    destruct X as (pf & X). pose proof Ho as Ho'. unfold holds in Ho'. rewrite X in Ho'. destruct Ho' as (_ & _ & C).
    rewrite S in C. destruct (m_comp m) as [[f1 x1]|] eqn:Cm; [|discriminate]. cbn [option_map fst snd] in C.
    injection C as Ec ->. rewrite Hl. destruct (Req_EM_T f1 (m_loss m)) as [Ef|Nf].
    + destruct (need_comp_cases m) as [(Q & _)|(f & _ & [(Q & _)|(x & Q & Q')])]; [|congruence|].
      2:{ rewrite Cm in Q. injection Q as -> ->. contradiction. }
      exists s. unfold comp_answer. rewrite Q, Cm. cbn [fst snd].
      rewrite (Hmode (fst x1)), (Hmode (norm_loss m)), X; [|now apply norm_loss_nonneg|apply (mo_c _ Mo _ Cm)].
      cbn [bind]. unfold ret. rewrite Ec. split; [reflexivity|exact I].
    + destruct (need_comp_cases m) as [(_ & x & Q)|(f & Q & [(Q' & _)|(x & Q' & _)])]; [congruence|congruence|].
      assert (f = f1) by congruence. subst f.
      destruct (filt_step s m I) as (s2 & E2 & I2). unfold mbind at 1. rewrite E2.
      rewrite (recomp_answer _ _ Q). destruct (filt_answer m) as [h|e] eqn:Fh; cbn [bind].
      * unfold mbind, upd, ret. eexists. split; [reflexivity|]. rewrite Q. now apply comp_store.
      * rewrite (filt_fail _ _ Mo Fh) in X. discriminate.
  - unfold mbind at 1. unfold mbind at 1. destruct (filt_step s m I) as (s2 & E2 & I2). rewrite E2.
    destruct (filt_answer m) as [h|e] eqn:Fh.
    + unfold mbind at 1. unfold get at 1. unfold upd at 1.
      assert (Q : need_comp m = recomp (m_loss m) m).
      { destruct (need_comp_cases m) as [(_ & x & Q)|(f & Q & [(_ & ->)|(x & Q' & _)])]; [exfalso| exact Q|exfalso];
          unfold holds in Ho; (destruct mode as [pf|e] eqn:X;
            [destruct Ho as (_ & _ & C); rewrite S in C; rewrite ?Q, ?Q' in C; discriminate
            |unfold filt_answer in Fh; cbn zeta in Fh;
             rewrite (Hmode (fst (made_of (need_filt m)))) in Fh;
              [discriminate|pose proof (need_filt_ok m Mo) as Mo'; unfold made_of;
                destruct (m_filt (need_filt m)) as [y|] eqn:Fx; [apply (mo_f _ Mo' _ Fx)|apply (mo_loss _ Mo')]]]). }
      pose proof I2 as (_ & Hl2 & _). rewrite Hl2, A1.
      unfold mbind, get. cbn [scomp set_scomp]. cbn [inf_loss]. 
      change (inf_loss (set_scomp NI FT IM (Some (ifft_real L h, m_loss m)) s2)) with (inf_loss s2). rewrite Hl2, A1.
      destruct (Req_EM_T (m_loss m) (m_loss m)) as [_|]; [|congruence]. unfold ret.
      rewrite (recomp_answer _ _ Q), Fh. cbn [bind]. eexists. split; [reflexivity|]. rewrite Q.
      now apply comp_store.
    + exists s2. pose proof (filt_fail _ _ Mo Fh) as X.
      split.
      * f_equal. unfold comp_answer. cbn zeta.
        pose proof (need_comp_ok m Mo) as Mc.
        rewrite (Hmode (fst _)).
        2:{ destruct (m_comp (need_comp m)) as [[f x]|] eqn:Cx; [apply (mo_c _ Mc _ Cx)|].
            unfold made_of. destruct (m_filt (need_comp m)) as [y|] eqn:Fx; [apply (mo_f _ Mc _ Fx)|apply (mo_loss _ Mc)]. }
        rewrite X. reflexivity.
      * eapply Inv_fail; [exact X|exact I2|now apply need_comp_ok|congruence|congruence].
Qed.

(** One plain call. *)
Lemma call_step c s m : plain c -> Inv s m -> Inv (exec _ _ _ L c s) (recall c m).
Proof.
  intros Pc I. pose proof I as (Js & Hl & Hz & Mo & Ho).
  assert (Low : lower_call c -> loss_of c (m_loss m) = m_loss m -> zp_of c (m_zp m) = m_zp m ->
    Inv (exec _ _ _ L c s) m).
  { intros Lc _ _. destruct (Jlower c s Lc Js) as (J' & K & L'); [rewrite Hl; apply (mo_loss _ Mo)|].
    split; [exact J'|]. split; [congruence|]. split; [rewrite (k3_zp _ _ _ _ _ K); exact Hz|].
    split; [exact Mo|]. rewrite <- (with_loss_same m). destruct K. eapply holds_ext; eauto. }
  destruct c; cbn [plain] in Pc; try contradiction; unfold recall; cbn [loss_of zp_of].
  1-7: fold (with_loss (m_loss m) (m_zp m) m); rewrite with_loss_same; apply Low; [exact Logic.I|reflexivity|reflexivity].
  - destruct l as [l|].
    + destruct Pc as (P0 & ->). destruct (psf_step (Some l) s m I P0) as (s' & E & I' & _).
      unfold exec, void. rewrite E. exact I'.
    + subst sh. destruct (psf_step None s m I (mo_loss _ Mo)) as (s' & E & I' & _).
      unfold exec, void. rewrite E. exact I'.
  - destruct (norm_step s m I) as (s' & E & I'). unfold exec, void. rewrite E. cbn [snd].
    fold (with_loss (m_loss (need_norm m)) (m_zp (need_norm m)) (need_norm m)). now rewrite with_loss_same.
  - destruct (filt_step s m I) as (s' & E & I'). unfold exec, void. rewrite E. cbn [snd].
    fold (with_loss (m_loss (need_filt m)) (m_zp (need_filt m)) (need_filt m)). now rewrite with_loss_same.
  - destruct (comp_step s m I) as (s' & E & I'). unfold exec, void. rewrite E. cbn [snd].
    fold (with_loss (m_loss (need_comp m)) (m_zp (need_comp m)) (need_comp m)). now rewrite with_loss_same.
  - unfold exec, void. destruct (Jfields l (set_zp _ _ _ (Some z) s) Pc) as (J' & K & L');
      [now apply Jzp|cbn; rewrite Hl; apply (mo_loss _ Mo)|].
    split; [exact J'|]. split; [exact L'|]. split; [now rewrite (k3_zp _ _ _ _ _ K)|].
    split; [now apply with_loss_ok|]. destruct K. cbn in *. eapply (holds_ext s); eauto.
  - unfold exec. split; [now apply Jzp|]. split; [exact Hl|]. split; [reflexivity|].
    split; [apply with_loss_ok; [apply (mo_loss _ Mo)|exact Mo]|]. eapply (holds_ext s); eauto.
  - fold (with_loss (m_loss m) (m_zp m) m); rewrite with_loss_same. apply Low; [exact Pc|reflexivity|reflexivity].
Qed.

Lemma all_step cs : forall s m, Forall plain cs -> Inv s m ->
  Inv (exec_all _ _ _ L cs s) (fold_left (fun m c => recall c m) cs m).
Proof.
  induction cs as [|c cs IH]; intros s m F I; [exact I|]. inversion F; subst. cbn [fold_left exec_all].
  apply IH; [assumption|]. now apply call_step.
Qed.
End Upper.
