(** Images with a Gaussian PSF, after any history. *)
From Coq Require Import ZArith List Bool Arith Reals Lia Lra.
From Coquelicot Require Import Complex.
From Verif.Model Require Import Py Plane Ma Coadd.
From Verif.Spec Require Import Coadd.
From Verif.Model Require Import Filter.
From Verif.Spec Require Import Filter.
From Verif.Proof Require Import Filter FilterMain.
From Verif.Model Require Import Interp Subtract Sources Stamps Transparency KL Session Chain ChainCoadd Gauss GaussImage.
From Verif.Spec Require Import Session Uses UsesCoadd GaussImage.
From Verif.Proof Require Import Interp Session SessionBad SessionHist SessionMain SessionLm GaussMain Chain ChainUnits Uses UsesCoadd.
Import ListNotations.
Local Open Scope R_scope.
Set Bullet Behavior "Strict Subproofs".
Arguments g_normal_image {NI FT IM} L fitter stats render s.
Arguments g_s_hat_comp {NI FT IM} L fitter stats render s.
Arguments g_s_component {NI FT IM} L fitter stats render s.
Arguments g_exec {NI FT IM} L fitter stats render c s.
Arguments g_exec_all {NI FT IM} L fitter stats render cs s.

Section Hist.
Variables NI FT IM : Type.
Variable L : lib NI FT IM.
Variable fitter : start -> plane R -> gaussian.
Variable stats : list R -> R * R * R.
Variable render : R -> R -> R -> R -> plane (option R).
Variable sh : nat * nat.
Notation state := (si NI FT IM).
Variable G : plane (option R).
Variable J : state -> Prop.
Hypothesis Jpsf : forall l sh' s, J s -> 0 <= inf_loss s ->
  exists s', gauss_psf L fitter stats render l sh' s = (Ok (NoField, [G]), s') /\ J s' /\ keep3 NI FT IM s s' /\
    inf_loss s' = inf_loss s.
Hypothesis Jzp : forall z s, J s -> J (set_zp _ _ _ z s).
Hypothesis Jnormal : forall x s, J s -> J (set_normal _ _ _ x s).
Hypothesis Jshat : forall x s, J s -> J (set_shat _ _ _ x s).
Hypothesis Jscomp : forall x s, J s -> J (set_scomp _ _ _ x s).
Hypothesis Jlower : forall c s, lower_call c -> J s -> 0 <= inf_loss s ->
  J (exec L c s) /\ keep3 NI FT IM s (exec L c s) /\ inf_loss (exec L c s) = inf_loss s.
Hypothesis Jfields : forall l s, 0 <= l -> J s -> 0 <= inf_loss s ->
  J (snd (setup_kl_a_fields _ _ _ L (Some l) false s)) /\
  keep3 NI FT IM s (snd (setup_kl_a_fields _ _ _ L (Some l) false s)) /\
  inf_loss (snd (setup_kl_a_fields _ _ _ L (Some l) false s)) = l.

Let N := normal_of L NoField [G].
Let H (z : R) := shat_of L z NoField [G] N.

Definition gholds (s : state) (m : memory) : Prop :=
  normal s = option_map (fun _ => N) (m_norm m) /\
  shat s = option_map (fun x => (H (snd x), fst x)) (m_filt m) /\
  scomp s = option_map (fun x => (ifft_real L (H (snd (snd x))), fst x)) (m_comp m).

Definition GInv (s : state) (m : memory) : Prop :=
  J s /\ inf_loss s = m_loss m /\ zp s = Some (m_zp m) /\ mem_ok m /\ gholds s m.

Lemma gholds_keep s s' m : keep3 NI FT IM s s' -> gholds s m -> gholds s' m.
Proof. intros [] (A & B & C). unfold gholds. rewrite k3_normal, k3_shat, k3_scomp. auto. Qed.

Lemma gpsf_step l sh' s m : GInv s m ->
  exists s', gauss_psf L fitter stats render l sh' s = (Ok (NoField, [G]), s') /\ GInv s' m /\ keep3 NI FT IM s s'.
Proof.
  intros (Js & Hl & Hz & Mo & Ho). destruct (Jpsf l sh' s Js) as (s' & E & Js' & K & Ls); [rewrite Hl; apply (mo_loss _ Mo)|].
  exists s'. split; [exact E|]. split; [|exact K]. split; [exact Js'|]. split; [congruence|].
  split; [now rewrite (k3_zp _ _ _ _ _ K)|]. split; [exact Mo|]. eapply gholds_keep; eauto.
Qed.

Lemma gnorm_step s m : GInv s m -> exists s', g_normal_image L fitter stats render s = (Ok N, s') /\ GInv s' (need_norm m).
Proof.
  intros I. pose proof I as (Js & Hl & Hz & Mo & Ho). unfold g_normal_image.
  destruct (need_norm_same m) as (Q1 & Q2 & Q3 & Q4 & Q5 & Q6).
  destruct (normal s) as [x|] eqn:Nn.
  - exists s. destruct Ho as (A & _). rewrite Nn in A. unfold need_norm. destruct (m_norm m); [|discriminate].
    split; [now injection A as ->|exact I].
  - destruct (gpsf_step None None s m I) as (s1 & E & (Js1 & Hl1 & Hz1 & _ & Ho1) & K).
    unfold mbind at 1. rewrite E. unfold mbind, upd, ret. cbn [fst snd].
    eexists. split; [reflexivity|]. split; [now apply Jnormal|]. split; [cbn; congruence|]. split; [cbn; congruence|].
    split; [now apply need_norm_ok|]. destruct Ho1 as (_ & B & C). unfold gholds. rewrite Q3, Q4, Q5. cbn. auto.
Qed.

Lemma gfilt_step s m : GInv s m ->
  exists s', g_s_hat_comp L fitter stats render s = (Ok (H (snd (made_of (need_filt m)))), s') /\ GInv s' (need_filt m).
Proof.
  intros I. pose proof I as (Js & Hl & Hz & Mo & Ho). unfold g_s_hat_comp.
  destruct Ho as (A & B & C).
  destruct (need_filt_cases m) as [(E & z & F)|(E & F)].
  - rewrite E, B, F. cbn [option_map fst snd]. rewrite Hl. destruct (Req_EM_T (m_loss m) (m_loss m)) as [_|X]; [|congruence].
    exists s. unfold made_of. rewrite F. cbn [snd]. auto.
  - assert (S : match shat s with None => true | Some (_, l) => if Req_EM_T l (inf_loss s) then false else true end = true).
    { rewrite B, Hl. destruct (m_filt m) as [[l z]|]; cbn [option_map fst]; [|reflexivity].
      destruct F as [F|(l' & z' & F & Ne)]; [discriminate|]. injection F as -> ->.
      destruct (Req_EM_T l' (m_loss m)); [contradiction|reflexivity]. }
    rewrite S. destruct (gpsf_step None None s m I) as (s1 & E1 & I1 & K1). unfold mbind at 1. rewrite E1.
    destruct (gnorm_step s1 m I1) as (s2 & E2 & (J2 & L2 & Z2 & M2 & H2)). unfold mbind at 1. rewrite E2.
    unfold mbind, get, upd, ret. cbn [fst snd]. destruct (need_norm_same m) as (Q1 & Q2 & Q3 & Q4 & Q5 & Q6).
    unfold get_zp. rewrite Z2. rewrite E. cbn [made_of m_filt refilt snd]. eexists. split; [reflexivity|].
    split; [now apply Jshat|]. split; [cbn; congruence|]. split; [cbn; congruence|].
    split; [now apply refilt_ok|]. destruct H2 as (A2 & B2 & C2). unfold gholds. cbn.
    rewrite L2. split; [exact A2|split; [reflexivity|exact C2]].
Qed.

Definition g_comp (m : memory) : R := snd (match m_comp (need_comp m) with Some (_, x) => x | None => made_of (need_comp m) end).

Lemma g_store first s m : GInv s (need_filt m) -> mem_ok m ->
  GInv (set_scomp _ _ _ (Some (ifft_real L (H (snd (made_of (need_filt m)))), first)) s) (recomp first m).
Proof.
  intros (Js & Hl & Hz & Mo' & (A & B & C)) Mo. split; [now apply Jscomp|]. split; [exact Hl|]. split; [exact Hz|].
  split; [now apply recomp_ok|]. unfold gholds, recomp. cbn [m_norm m_filt m_comp]. auto.
Qed.

Lemma gcomp_step s m : GInv s m ->
  exists s', g_s_component L fitter stats render s = (Ok (ifft_real L (H (g_comp m))), s') /\ GInv s' (need_comp m).
Proof.
  intros I. pose proof I as (Js & Hl & Hz & Mo & (A & B & C)).
  destruct (need_filt_same m) as (A1 & B1 & C1).
  destruct (gfilt_step s m I) as (s2 & E2 & I2). pose proof I2 as (_ & Hl2 & _).
  unfold g_s_component, g_comp. destruct (need_comp_cases m) as [(Q & x & Cm)|(f & Q & [(Cm & ->)|(x & Cm & Ne)])].
  - rewrite Q, C, Cm. cbn [option_map fst snd]. unfold mbind, ret, get. rewrite C, Cm. cbn [option_map fst snd].
    rewrite Hl. destruct (Req_EM_T (m_loss m) (m_loss m)) as [_|X]; [|congruence]. exists s. auto.
  - rewrite Q, C, Cm. cbn [option_map]. unfold mbind at 1. unfold mbind at 1. rewrite E2.
    unfold mbind at 1. unfold get at 1. unfold upd at 1. rewrite Hl2, A1. unfold mbind, get. cbn [scomp set_scomp].
    change (inf_loss (set_scomp NI FT IM ?y s2)) with (inf_loss s2). rewrite Hl2, A1.
    destruct (Req_EM_T (m_loss m) (m_loss m)) as [_|X]; [|congruence]. unfold ret, recomp. cbn [m_comp snd].
    eexists. split; [reflexivity|]. now apply g_store.
  - rewrite Q, C, Cm. cbn [option_map fst snd]. unfold mbind at 1. unfold ret at 1. unfold mbind at 1. unfold get at 1.
    rewrite C, Cm. cbn [option_map fst snd]. rewrite Hl. destruct (Req_EM_T f (m_loss m)) as [X|_]; [congruence|].
    unfold mbind at 1. rewrite E2. unfold mbind, upd, ret. unfold recomp at 1. cbn [m_comp snd].
    eexists. split; [reflexivity|]. now apply g_store.
Qed.

Lemma gcall_step c s m : g_plain c -> GInv s m -> GInv (g_exec L fitter stats render c s) (recall (forget c) m).
Proof.
  intros Pc I. pose proof I as (Js & Hl & Hz & Mo & Ho).
  assert (Low : forall c, lower_call c -> GInv (exec L c s) m).
  { intros c' Lc. destruct (Jlower c' s Lc Js) as (J' & K & L'); [rewrite Hl; apply (mo_loss _ Mo)|].
    split; [exact J'|]. split; [congruence|]. split; [rewrite (k3_zp _ _ _ _ _ K); exact Hz|].
    split; [exact Mo|]. eapply gholds_keep; eauto. }
  destruct c; cbn [g_plain plain] in Pc; try contradiction; unfold recall; cbn [forget loss_of zp_of].
  1-7: fold (with_loss (m_loss m) (m_zp m) m); rewrite with_loss_same; apply Low; exact Logic.I.
  - fold (with_loss (m_loss m) (m_zp m) m); rewrite with_loss_same.
    destruct (gpsf_step l sh0 s m I) as (s' & E & I' & _). unfold g_exec, void. rewrite E. exact I'.
  - destruct (gnorm_step s m I) as (s' & E & I'). unfold g_exec, void. rewrite E. cbn [snd].
    fold (with_loss (m_loss (need_norm m)) (m_zp (need_norm m)) (need_norm m)). now rewrite with_loss_same.
  - destruct (gfilt_step s m I) as (s' & E & I'). unfold g_exec, void. rewrite E. cbn [snd].
    fold (with_loss (m_loss (need_filt m)) (m_zp (need_filt m)) (need_filt m)). now rewrite with_loss_same.
  - destruct (gcomp_step s m I) as (s' & E & I'). unfold g_exec, void. rewrite E. cbn [snd].
    fold (with_loss (m_loss (need_comp m)) (m_zp (need_comp m)) (need_comp m)). now rewrite with_loss_same.
  - unfold g_exec, exec, void. destruct (Jfields l (set_zp _ _ _ (Some z) s) Pc) as (J' & K & L');
      [now apply Jzp|cbn; rewrite Hl; apply (mo_loss _ Mo)|].
    split; [exact J'|]. split; [exact L'|]. split; [now rewrite (k3_zp _ _ _ _ _ K)|].
    split; [now apply with_loss_ok|]. refine (gholds_keep (set_zp _ _ _ (Some z) s) _ m K _). exact Ho.
  - unfold g_exec, exec. split; [now apply Jzp|]. split; [exact Hl|]. split; [reflexivity|].
    split; [apply with_loss_ok; [apply (mo_loss _ Mo)|exact Mo]|]. exact Ho.
  - fold (with_loss (m_loss m) (m_zp m) m); rewrite with_loss_same. apply Low. exact Pc.
Qed.

Lemma gall_step cs : forall s m, Forall g_plain cs -> GInv s m ->
  GInv (g_exec_all L fitter stats render cs s) (fold_left (fun m c => recall c m) (map forget cs) m).
Proof.
  induction cs as [|c cs IH]; intros s m F I; [exact I|]. inversion F; subst. cbn [fold_left g_exec_all map].
  apply IH; [assumption|]. now apply gcall_step.
Qed.
End Hist.

(** What the invariant of Proof/SessionMain.v says of an image with stamps. *)
Lemma g_reached_all NI FT IM (L : lib NI FT IM) fitter stats render sh s0 cs stamps p G :
  lib_ok L -> new_image L sh s0 -> stamps_of _ _ _ L sh = Ok (stamps, p) ->
  gaussian_of fitter stats render stamps G -> Forall g_plain cs ->
  exists J : si NI FT IM -> Prop,
    (forall l sh' s, J s -> 0 <= inf_loss s ->
       exists s', gauss_psf L fitter stats render l sh' s = (Ok (NoField, [G]), s') /\ J s' /\ keep3 NI FT IM s s' /\
         inf_loss s' = inf_loss s) /\
    (forall x s, J s -> J (set_normal _ _ _ x s)) /\ (forall x s, J s -> J (set_shat _ _ _ x s)) /\
    (forall x s, J s -> J (set_scomp _ _ _ x s)) /\
    (forall s q, J s -> 0 <= inf_loss s -> psf_for L sh (inf_loss s) = Ok q ->
       fst (Session.kl_basis _ _ _ L s) = Ok (snd q) /\
       fst (kl_afields _ _ _ L (snd (Session.kl_basis _ _ _ L s))) = Ok (fst q)) /\
    (forall cat st p k s, select L = Ok cat -> extract L sh cat = (st, Ok (p, k)) -> J s ->
       good NI FT IM L sh cat st p s) /\
    (forall b s, J s -> pos s <> None -> J (set_best _ _ _ b s)) /\
    GInv NI FT IM L G J (g_exec_all L fitter stats render cs s0) (g_history cs).
Proof.
  intros O Nw St (gs & Fi & EG) F.
  destruct (SessionMain.reached_fresh _ _ _ L sh s0 O Nw) as (J & mode & I0 & H1 & H2 & H3 & H4 & H5 & H6 & H7 & H8 & H9 & H10 & H11 & H12).
  pose proof I0 as (J0 & Hl0 & Hz0 & Mo0 & _).
  assert (X : exists cat k, select L = Ok cat /\ extract L sh cat = (stamps, Ok (p, k))).
  { unfold stamps_of in St. destruct (select L) as [cat|]; [|discriminate]. exists cat.
    destruct (extract L sh cat) as [st [[p' k]|]]; [|discriminate]. injection St as -> ->. eauto. }
  destruct X as (cat & k & Hs & He).
  assert (Jp : forall l sh' s, J s -> 0 <= inf_loss s ->
       exists s', gauss_psf L fitter stats render l sh' s = (Ok (NoField, [G]), s') /\ J s' /\ keep3 NI FT IM s s' /\
         inf_loss s' = inf_loss s).
  { intros l sh' s Js Hl. pose proof (H9 _ _ _ _ s Hs He Js) as Gd. destruct O as [Hlen Heig].
    destruct (n_good NI FT IM L sh Hlen cat stamps p k Hs He s Gd) as (s' & E & Rs & K & _).
    destruct (H7 CNSources s Logic.I Js Hl) as (Js' & K' & Ls'). unfold exec, void in Js', K', Ls'. rewrite E in Js', K', Ls'.
    exists s'. split; [|auto]. rewrite EG. destruct Rs.
    apply (C61_answer_lm _ _ _ L fitter stats render l sh' s (length stamps) s' stamps gs E r_db).
    - clear -Fi. induction Fi; cbn; congruence.
    - lia.
    - now rewrite firstn_all. }
  exists J. split; [exact Jp|]. split; [exact H4|]. split; [exact H5|]. split; [exact H6|]. split; [exact H11|].
  split; [exact H9|]. split; [exact H10|].
  apply (gall_step NI FT IM L fitter stats render G J Jp H3 H4 H5 H6 H7 H8); [exact F|].
  split; [exact J0|]. split; [exact Hl0|]. split; [exact Hz0|]. split; [exact Mo0|].
  destruct I0 as (_ & _ & _ & _ & Ho). unfold gholds. cbn [option_map m_norm m_filt m_comp].
  assert (E : normal s0 = None /\ shat s0 = None /\ scomp s0 = None) by (destruct Nw as [->|(c & _ & ->)]; cbn; auto).
  exact E.
Qed.

Lemma g_reached NI FT IM (L : lib NI FT IM) fitter stats render sh s0 cs stamps p G :
  lib_ok L -> new_image L sh s0 -> stamps_of _ _ _ L sh = Ok (stamps, p) ->
  gaussian_of fitter stats render stamps G -> Forall g_plain cs ->
  exists J : si NI FT IM -> Prop,
    (forall l sh' s, J s -> 0 <= inf_loss s ->
       exists s', gauss_psf L fitter stats render l sh' s = (Ok (NoField, [G]), s') /\ J s' /\ keep3 NI FT IM s s' /\
         inf_loss s' = inf_loss s) /\
    (forall x s, J s -> J (set_normal _ _ _ x s)) /\ (forall x s, J s -> J (set_shat _ _ _ x s)) /\
    (forall x s, J s -> J (set_scomp _ _ _ x s)) /\
    (forall s q, J s -> 0 <= inf_loss s -> psf_for L sh (inf_loss s) = Ok q ->
       fst (Session.kl_basis _ _ _ L s) = Ok (snd q) /\
       fst (kl_afields _ _ _ L (snd (Session.kl_basis _ _ _ L s))) = Ok (fst q)) /\
    GInv NI FT IM L G J (g_exec_all L fitter stats render cs s0) (g_history cs).
Proof.
  intros O Nw St EG F.
  destruct (g_reached_all NI FT IM L fitter stats render sh s0 cs stamps p G O Nw St EG F)
    as (J & H1 & H2 & H3 & H4 & H5 & _ & _ & H6). exists J. auto 8.
Qed.
