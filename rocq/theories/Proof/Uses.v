(** The stars a PSF is made of. *)
From Coq Require Import ZArith List Bool Arith Reals Lia Lra Permutation.
From Coquelicot Require Import Complex.
From Verif.Model Require Import Py Plane Ma Interp Subtract Sources Stamps Filter Transparency KL Session Chain.
From Verif.Spec Require Import Session Transparency Uses.
From Verif.Proof Require Import Session SessionBad SessionHist SessionMain SessionFrame SessionLm ChainUnits.
Import ListNotations.
Local Open Scope R_scope.
Set Bullet Behavior "Strict Subproofs".

Section Given.
Variables NI FT IM : Type.
Notation state := (si NI FT IM).
Variable L : lib NI FT IM.
Variable stars : list src.
Let G := given L stars.

(** With sources in the image the detection is not consulted, and the sources stay. *)
Definition same {A} (m m' : M NI FT IM A) : Prop :=
  forall s, best s <> None -> m s = m' s /\ best (snd (m s)) <> None.

Lemma same_ret {A} (a : A) : same (ret _ _ _ a) (ret _ _ _ a).
Proof. intros s H. now split. Qed.
Lemma same_raise {A} e : same (@raise _ _ _ A e) (raise _ _ _ e).
Proof. intros s H. now split. Qed.
Lemma same_get : same (get _ _ _) (get _ _ _).
Proof. intros s H. now split. Qed.
Lemma same_upd f : (forall s, best s <> None -> best (f s) <> None) -> same (upd _ _ _ f) (upd _ _ _ f).
Proof. intros Hf s H. split; [reflexivity|]. exact (Hf s H). Qed.
Lemma same_bind {A B} (m m' : M NI FT IM A) (k k' : A -> M NI FT IM B) :
  same m m' -> (forall a, same (k a) (k' a)) -> same (mbind _ _ _ m k) (mbind _ _ _ m' k').
Proof.
  intros Hm Hk s H. unfold mbind. destruct (Hm s H) as [E N]. rewrite <- E.
  destruct (m s) as [[a|e] s']; [|now split]. exact (Hk a s' N).
Qed.

Ltac sm := repeat first
  [ apply same_ret | apply same_raise | apply same_get
  | (apply same_upd; intros ? ?; first [assumption | discriminate])
  | (apply same_bind; [|intros ?]) ].

Lemma same_best : same (best_sources L) (best_sources G).
Proof. intros s H. unfold best_sources. destruct (best s) eqn:B; [|now elim H]. split; [reflexivity|]. cbn. now rewrite B. Qed.

Lemma same_stamps : same (stamps_pos L) (stamps_pos G).
Proof.
  intros s H. unfold stamps_pos.
  assert (X : forall s1, best s1 <> None ->
    let run L := (mbind _ _ _ (best_sources L) (fun cat =>
       mbind _ _ _ (get _ _ _) (fun s =>
       let sh := stamp_shape s in
       let '(stamps, r) := extract L sh cat in
       mbind _ _ _ (upd _ _ _ (set_db _ _ _ (Some stamps))) (fun _ =>
       match r with
       | Raise e => raise _ _ _ e
       | Ok (p, kept) =>
           mbind _ _ _ (upd _ _ _ (set_best _ _ _ (Some kept))) (fun _ =>
           mbind _ _ _ (upd _ _ _ (set_stamp_shape _ _ _ (fst sh + 6, snd sh + 6)%nat)) (fun _ =>
           mbind _ _ _ (upd _ _ _ (set_pos _ _ _ (Some p) (Some (length p)))) (fun _ => ret _ _ _ p)))
       end)))) in run L s1 = run G s1 /\ best (snd (run L s1)) <> None).
  { intros s1 H1 run. revert s1 H1. change (same (run L) (run G)). unfold run. apply same_bind; [exact same_best|].
    intros cat. apply same_bind; [apply same_get|]. intros s2. cbn zeta. change (extract G) with (extract L).
    destruct (extract L (stamp_shape s2) cat) as [st r]. apply same_bind; [sm|]. intros _. destruct r as [[p k]|e]; sm. }
  destruct (pos s); destruct (reshaped _ _ _ s); try (split; [reflexivity|exact H]); apply X; exact H.
Qed.

Lemma same_n : same (n_sources L) (n_sources G).
Proof.
  intros s H. unfold n_sources. destruct (nsrc s); [now split|]. revert s H.
  apply same_bind; [exact same_stamps|]. intros _. apply same_bind; [apply same_get|]. intros s1. destruct (nsrc s1); sm.
Qed.

Lemma same_cov : same (Session.cov_matrix _ _ _ L) (Session.cov_matrix _ _ _ G).
Proof.
  intros s H. unfold Session.cov_matrix. destruct (cov s); [now split|]. revert s H.
  apply same_bind; [exact same_n|]. intros n. apply same_bind; [apply same_get|]. intros s1.
  destruct (no_file _ _ _ _ _); [sm|]. destruct (Nat.ltb _ _); [sm|]. cbn zeta. destruct (KL.cov_matrix _ _); sm.
Qed.

Lemma same_eig : same (Session.eigenv _ _ _ L) (Session.eigenv _ _ _ G).
Proof.
  intros s H. unfold Session.eigenv. destruct (eig s); [now split|]. revert s H.
  apply same_bind; [exact same_cov|]. intros c. destruct (Nat.eqb _ _); [sm|]. cbn zeta. sm.
Qed.

Lemma same_build e : same (build_basis _ _ _ L e) (build_basis _ _ _ G e).
Proof.
  intros s H. unfold build_basis. destruct e as [valh vech]. destruct (mcols s) as [[rows st]|].
  - change (smooth G) with (smooth L). destruct (_ || _); now split.
  - apply same_bind; [exact same_n| |exact H]. intros n. apply same_bind; [apply same_get|]. intros s1. cbn zeta.
    destruct (no_file _ _ _ _ _); [sm|]. destruct (Nat.ltb _ _); [sm|].
    change (smooth G) with (smooth L). destruct (_ || _); sm.
Qed.

Lemma same_setup l : same (setup_kl_basis _ _ _ L l) (setup_kl_basis _ _ _ G l).
Proof.
  intros s H. unfold setup_kl_basis. destruct (_ || _); [|now split].
  apply same_bind; [destruct l; sm| |exact H]. intros _.
  apply same_bind; [exact same_eig|]. intros e. apply same_bind; [apply same_build|]. intros b. sm.
Qed.

Lemma same_basis : same (Session.kl_basis _ _ _ L) (Session.kl_basis _ _ _ G).
Proof.
  intros s H. unfold Session.kl_basis. apply same_bind; [destruct (basis s); [sm|apply same_setup]| |exact H].
  intros _. apply same_bind; [sm|]. intros s1. destruct (basis s1); sm.
Qed.

Lemma same_fields l u : same (setup_kl_a_fields _ _ _ L l u) (setup_kl_a_fields _ _ _ G l u).
Proof.
  intros s H. unfold setup_kl_a_fields. destruct (_ || _ || _); [|now split].
  apply same_bind; [| |exact H].
  - destruct l; [|sm]. apply same_bind; [apply same_setup|]. intros _. sm.
  - intros _. apply same_bind; [exact same_basis|]. intros b. cbn zeta. destruct (Nat.eqb _ _); [sm|].
    apply same_bind; [exact same_best|]. intros _. apply same_bind; [exact same_stamps|]. intros p.
    destruct (Nat.eqb _ _); [sm|]. apply same_bind; [exact same_eig|]. intros e. cbn zeta.
    destruct (_ && _); sm.
Qed.

Lemma same_afields : same (kl_afields _ _ _ L) (kl_afields _ _ _ G).
Proof.
  intros s H. unfold kl_afields. apply same_bind; [destruct (fields s); [sm|apply same_fields]| |exact H].
  intros _. apply same_bind; [sm|]. intros s1. destruct (fields s1); sm.
Qed.

Lemma same_psf l sh : same (get_variable_psf L l sh) (get_variable_psf G l sh).
Proof.
  intros s H. unfold get_variable_psf. apply same_bind; [destruct sh; sm| |exact H].
  intros _. apply same_bind; [sm|]. intros s1. cbn zeta. apply same_bind; [apply same_setup|]. intros _.
  apply same_bind; [apply same_fields|]. intros _. apply same_bind; [exact same_afields|]. intros a.
  apply same_bind; [exact same_basis|]. intros b. destruct a as [|[|f fs]]; [destruct b|..]; sm.
Qed.

Lemma same_normal : same (normal_image L) (normal_image G).
Proof.
  intros s H. unfold normal_image. destruct (normal s); [now split|].
  apply same_bind; [apply same_psf| |exact H]. intros q. cbn zeta. sm.
Qed.

Lemma same_shat : same (s_hat_comp L) (s_hat_comp G).
Proof.
  intros s H. unfold s_hat_comp. destruct (match shat s with None => true | Some (_, l) => _ end).
  - apply same_bind; [apply same_psf| |exact H]. intros q. apply same_bind; [exact same_normal|]. intros nrm.
    apply same_bind; [sm|]. intros s1. cbn zeta. sm.
  - destruct (shat s) as [[h l]|]; now split.
Qed.

Lemma same_scomp : same (s_component L) (s_component G).
Proof.
  intros s H. unfold s_component. apply same_bind; [| |exact H].
  - destruct (scomp s); [sm|]. apply same_bind; [exact same_shat|]. intros h. sm.
  - intros _. apply same_bind; [sm|]. intros s1. destruct (scomp s1) as [[c l]|]; [|sm].
    destruct (Req_EM_T _ _); [sm|]. apply same_bind; [exact same_shat|]. intros h. cbn zeta. sm.
Qed.

Lemma same_exec c s : no_new_sources c -> best s <> None -> exec L c s = exec G c s /\ best (exec L c s) <> None.
Proof.
  intros N H. destruct c; try contradiction; cbn [exec]; unfold void; try (split; [reflexivity|exact H]).
  - destruct (same_best s H) as [<- ?]. now split.
  - destruct (same_stamps s H) as [<- ?]. now split.
  - destruct (same_n s H) as [<- ?]. now split.
  - destruct (same_cov s H) as [<- ?]. now split.
  - destruct (same_eig s H) as [<- ?]. now split.
  - destruct (same_basis s H) as [<- ?]. now split.
  - destruct (same_afields s H) as [<- ?]. now split.
  - destruct (same_psf l sh s H) as [<- ?]. now split.
  - destruct (same_normal s H) as [<- ?]. now split.
  - destruct (same_shat s H) as [<- ?]. now split.
  - destruct (same_scomp s H) as [<- ?]. now split.
  - destruct (same_fields (Some l) false (set_zp _ _ _ (Some z) s) H) as [<- ?]. now split.
Qed.

Lemma same_exec_all cs : forall s, Forall no_new_sources cs -> best s <> None ->
  exec_all L cs s = exec_all G cs s /\ best (exec_all L cs s) <> None.
Proof.
  induction cs as [|c cs IH]; intros s F H; [now split|]. inversion F as [|? ? Nc Fc]; subst. cbn.
  destruct (same_exec c s Nc H) as [<- B]. now apply IH.
Qed.
End Given.

Section Read.
Variables NI FT IM : Type.
Notation state := (si NI FT IM).
Variable L : lib NI FT IM.
Variable sh0 : nat * nat.
Variables (cat0 : list src) (st : list (plane R)) (p0 : list (R * R)) (kept : list src).
Hypothesis Hsel : select L = Ok cat0.
Hypothesis Hext : extract L sh0 cat0 = (st, Ok (p0, kept)).

(** Before any stamp was asked for. *)
Definition virgin (looked : bool) (s : state) : Prop :=
  exists z, s = set_zp _ _ _ (Some z) (fresh _ _ _ sh0 (if looked then Some cat0 else None)).

Notation has_pos := (fun s : state => pos s <> None).

(** The method extracts the stamps of an image without stamps. *)
Definition takes {A} (m : M NI FT IM A) : Prop :=
  forall z l lk, pos (snd (m (set_inf_loss l (set_zp _ _ _ z (fresh _ _ _ sh0 (if lk : bool then Some cat0 else None)))))) <> None.

Lemma takes_bind {A B} (m : M NI FT IM A) (k : A -> M NI FT IM B) :
  takes m -> (forall a, pres NI FT IM has_pos (k a)) -> takes (mbind _ _ _ m k).
Proof.
  intros Hm Hk z l lk. specialize (Hm z l lk). unfold mbind.
  destruct (m _) as [[a|e] s']; [|exact Hm]. exact (Hk a s' Hm).
Qed.

Lemma hp_upd f : (forall s, pos s <> None -> pos (f s) <> None) -> pres NI FT IM has_pos (upd _ _ _ f).
Proof. exact (pres_upd _ _ _ _ f). Qed.

Ltac hp := repeat first
  [ apply pres_ret | apply pres_raise | apply pres_get
  | (apply hp_upd; intros ? ?; first [assumption | discriminate])
  | (apply pres_bind; [|intros ?]) ].

Ltac frame lm := apply lm; intros; first [assumption | discriminate].

Lemma takes_stamps : takes (stamps_pos L).
Proof.
  intros z l lk. unfold stamps_pos, mbind, best_sources. cbn. destruct lk; cbn; [|rewrite Hsel; cbn]; rewrite Hext; cbn; discriminate.
Qed.

Lemma takes_n : takes (n_sources L).
Proof.
  intros z l lk. cbn [n_sources]. unfold n_sources. cbn [nsrc set_inf_loss set_zp fresh].
  apply (takes_bind (stamps_pos L)); [exact takes_stamps|]. intros _. hp. destruct (nsrc _); hp.
Qed.

Lemma takes_cov : takes (Session.cov_matrix _ _ _ L).
Proof.
  intros z l lk. unfold Session.cov_matrix. cbn [cov set_inf_loss set_zp fresh].
  apply (takes_bind (n_sources L)); [exact takes_n|]. intros n. hp. destruct (no_file _ _ _ _ _); [hp|].
  destruct (Nat.ltb _ _); [hp|]. cbn zeta. destruct (KL.cov_matrix _ _); hp.
Qed.

Lemma takes_eig : takes (Session.eigenv _ _ _ L).
Proof.
  intros z l lk. unfold Session.eigenv. cbn [eig set_inf_loss set_zp fresh].
  apply (takes_bind (Session.cov_matrix _ _ _ L)); [exact takes_cov|]. intros c. destruct (Nat.eqb _ _); [hp|]. cbn zeta. hp.
Qed.

Lemma takes_setup l' : takes (setup_kl_basis _ _ _ L l').
Proof.
  intros z l lk. unfold setup_kl_basis. cbn [basis set_inf_loss set_zp fresh orb].
  assert (X : forall z l lk, pos (snd (mbind _ _ _ (Session.eigenv _ _ _ L) (fun e => mbind _ _ _ (build_basis _ _ _ L e)
     (fun b => upd _ _ _ (set_basis _ _ _ (Some b))))
     (set_inf_loss l (set_zp _ _ _ z (fresh _ _ _ sh0 (if lk : bool then Some cat0 else None)))))) <> None).
  { apply (takes_bind (Session.eigenv _ _ _ L)); [exact takes_eig|]. intros e. hp. frame build_pres. }
  destruct l' as [l'|]; [exact (X z l' lk)|exact (X z l lk)].
Qed.

Lemma takes_basis : takes (Session.kl_basis _ _ _ L).
Proof.
  intros z l lk. unfold Session.kl_basis. cbn [basis set_inf_loss set_zp fresh].
  apply (takes_bind (setup_kl_basis _ _ _ L None)); [apply takes_setup|]. intros _. hp. destruct (basis _); hp.
Qed.

Lemma takes_fields l' u : takes (setup_kl_a_fields _ _ _ L l' u).
Proof.
  intros z l lk. unfold setup_kl_a_fields. cbn [fields set_inf_loss set_zp fresh orb].
  assert (K : forall b : list (plane (option R)), pres NI FT IM has_pos (
     if Nat.eqb (length b) 1 then upd _ _ _ (set_fields _ _ _ (Some NoField))
     else mbind _ _ _ (best_sources L) (fun _ => mbind _ _ _ (stamps_pos L) (fun positions =>
       if Nat.eqb (length positions) 0 then raise _ _ _ IndexError
       else mbind _ _ _ (Session.eigenv _ _ _ L) (fun e =>
         if negb (Nat.eqb (length b) 0) && negb (Nat.eqb (length positions) (length (fst e))) then raise _ _ _ ValueError
         else upd _ _ _ (set_fields _ _ _ (Some (Fields
                (map (fun k => fit L positions (measures (length (fst e)) (snd e) k)) (seq 0 (length b)))))))))) ).
  { intros b. destruct (Nat.eqb _ _); [hp|]. hp; [frame best_pres|frame stamps_pres|]. destruct (Nat.eqb _ _); [hp|].
    hp; [frame eig_pres|]. destruct (_ && _); hp. }
  destruct l' as [l'|].
  - apply (takes_bind (mbind _ _ _ (setup_kl_basis _ _ _ L (Some l')) (fun _ => upd _ _ _ (set_inf_loss l')))).
    + apply takes_bind; [apply takes_setup|]. intros _. hp.
    + intros _. apply pres_bind; [frame basis_pres|]. exact K.
  - unfold mbind at 1, ret at 1. apply (takes_bind (Session.kl_basis _ _ _ L)); [exact takes_basis|exact K].
Qed.

Lemma takes_afields : takes (kl_afields _ _ _ L).
Proof.
  intros z l lk. unfold kl_afields. cbn [fields set_inf_loss set_zp fresh].
  apply (takes_bind (setup_kl_a_fields _ _ _ L None false)); [apply takes_fields|]. intros _. hp. destruct (fields _); hp.
Qed.

Lemma takes_psf l' : takes (get_variable_psf L l' None).
Proof.
  intros z l lk. unfold get_variable_psf, mbind at 1, ret at 1, mbind at 1, get at 1. cbn zeta.
  apply (takes_bind (setup_kl_basis _ _ _ L l')); [apply takes_setup|]. intros _.
  apply pres_bind; [frame fields_pres|]. intros _. apply pres_bind; [frame afields_pres|]. intros a.
  apply pres_bind; [frame basis_pres|]. intros b. destruct a as [|[|f fs]]; [destruct b|..]; hp.
Qed.

Lemma takes_normal : takes (normal_image L).
Proof.
  intros z l lk. unfold normal_image. cbn [normal set_inf_loss set_zp fresh].
  apply (takes_bind (get_variable_psf L None None)); [apply takes_psf|]. intros q. cbn zeta. hp.
Qed.

Lemma hp_normal : pres NI FT IM has_pos (normal_image L).
Proof.
  intros s H. unfold normal_image. destruct (normal s); [exact H|].
  apply pres_bind; [frame psf_pres| |exact H]. intros q. cbn zeta. hp.
Qed.

Lemma hp_shat : pres NI FT IM has_pos (s_hat_comp L).
Proof. apply shat_pres; try exact hp_normal; intros; first [assumption|discriminate]. Qed.

Lemma takes_shat : takes (s_hat_comp L).
Proof.
  intros z l lk. unfold s_hat_comp. cbn [shat set_inf_loss set_zp fresh].
  apply (takes_bind (get_variable_psf L None None)); [apply takes_psf|]. intros q.
  apply pres_bind; [exact hp_normal|]. intros n. hp.
Qed.

Lemma takes_scomp : takes (s_component L).
Proof.
  intros z l lk. unfold s_component. cbn [scomp set_inf_loss set_zp fresh].
  apply (takes_bind (mbind _ _ _ (s_hat_comp L) (fun h => mbind _ _ _ (get _ _ _) (fun s =>
     upd _ _ _ (set_scomp _ _ _ (Some (ifft_real L h, inf_loss s))))))).
  - apply takes_bind; [exact takes_shat|]. intros h. hp.
  - intros _. apply pres_bind; [apply pres_get|]. intros s1. destruct (scomp s1) as [[c l1]|]; [|hp].
    destruct (Req_EM_T _ _); [hp|]. apply pres_bind; [exact hp_shat|]. intros h. hp.
Qed.

Lemma hp_exec_all cs s : pos s <> None -> pos (exec_all L cs s) <> None.
Proof.
  apply (exec_all_pres NI FT IM L has_pos); try exact hp_normal; intros; first [assumption|discriminate].
Qed.

Lemma virgin_all cs : forall lk s, Forall plain cs -> virgin lk s ->
  if stamps_read lk cs then pos (exec_all L cs s) <> None
  else exists lk', virgin lk' (exec_all L cs s) /\ (lk = true -> lk' = true).
Proof.
  induction cs as [|c cs IH]; intros lk s F V; [exists lk; now split|].
  inversion F as [|? ? Pc Fc]; subst. destruct V as (z & ->).
  pose proof (fun A (m : M NI FT IM A) (T : takes m) => T (Some z) (2 / 10) lk) as T.
  destruct c; cbn [stamps_read]; try (cbn [exec_all fold_left]; apply hp_exec_all; cbn [exec]; unfold void).
  - change (exec_all L (CBestSources :: cs) ?s) with (exec_all L cs (exec L CBestSources s)).
    specialize (IH true (set_zp _ _ _ (Some z) (fresh _ _ _ sh0 (Some cat0))) Fc).
    replace (exec L CBestSources (set_zp _ _ _ (Some z) (fresh _ _ _ sh0 (if lk then Some cat0 else None))))
      with (set_zp NI FT IM (Some z) (fresh _ _ _ sh0 (Some cat0))).
    + specialize (IH (ex_intro _ z eq_refl)). destruct (stamps_read true cs); [exact IH|].
      destruct IH as (lk' & V & I). exists lk'. split; [exact V|]. intros _. now apply I.
    + cbn [exec]. unfold void, best_sources. cbn. destruct lk; [reflexivity|]. rewrite Hsel. reflexivity.
  - exact (T _ _ takes_stamps).
  - exact (T _ _ takes_n).
  - exact (T _ _ takes_cov).
  - exact (T _ _ takes_eig).
  - exact (T _ _ takes_basis).
  - exact (T _ _ takes_afields).
  - assert (sh = None) as -> by (destruct l; cbn in Pc; tauto). exact (T _ _ (takes_psf l)).
  - exact (T _ _ takes_normal).
  - exact (T _ _ takes_shat).
  - exact (T _ _ takes_scomp).
  - exact (takes_fields (Some l) false (Some z0) (2 / 10) lk).
  - change (exec_all L (CSetZp z0 :: cs) ?s) with (exec_all L cs (exec L (CSetZp z0) s)). cbn [exec].
    apply IH; [exact Fc|]. now exists z0.
  - cbn in Pc. subst new. change (exec_all L (CUpdateSources None :: cs) ?s) with (exec_all L cs (exec L (CUpdateSources None) s)).
    cbn [exec]. unfold void, update_sources. destruct lk; cbn [best set_zp fresh].
    + apply hp_exec_all. unfold mbind at 1, upd at 1. unfold mbind at 1, best_sources at 1. cbn [best set_best]. rewrite Hsel.
      change (pos (snd (mbind NI FT IM (n_sources L) (fun _ => ret NI FT IM tt)
        (set_inf_loss (2 / 10) (set_zp _ _ _ (Some z) (fresh _ _ _ sh0 (if true then Some cat0 else None)))))) <> None).
      apply (takes_bind (n_sources L)); [exact takes_n|]. intros _. hp.
    + cbn [snd]. apply IH; [exact Fc|]. now exists z.
  - contradiction.
  - contradiction.
  - contradiction.
Qed.
End Read.

(** A list of stars given to an image decides its PSF, for every loss and whatever is asked
    afterwards, as long as no stamps were asked for before; then it decides nothing. *)
Lemma C111_given_lm : forall NI FT IM (L : lib NI FT IM) sh s0 cs stars cs' l sp,
  lib_ok L -> new_image L sh s0 -> stamps_of _ _ _ L sh = Ok sp ->
  Forall plain cs -> Forall plain cs' -> Forall no_new_sources cs' -> 0 <= l ->
  fst (update_sources L (Some stars) (exec_all L cs s0)) = Ok tt ->
  fst (get_variable_psf L (Some l) None (exec_all L (cs ++ CUpdateSources (Some stars) :: cs') s0)) =
  if stamps_read (looked_at s0) cs then psf_for L sh l else psf_for (given L stars) sh l.
Proof.
  intros NI FT IM L sh s0 cs stars cs' l sp Hok Hn Hsp F F' N Hl U.
  assert (Hs : exists cat st p k, select L = Ok cat /\ extract L sh cat = (st, Ok (p, k))).
  { unfold stamps_of in Hsp. destruct (select L) as [cat|]; [|discriminate].
    destruct (extract L sh cat) as [st [[p k]|]] eqn:E; [|discriminate]. eauto 8. }
  destruct Hs as (cat & st & p & k & Hs & He).
  set (s := exec_all L cs s0) in *.
  assert (B : best s <> None) by (intros B; unfold update_sources in U; rewrite B in U; discriminate).
  assert (E : exec_all L (cs ++ CUpdateSources (Some stars) :: cs') s0 = exec_all L cs' (set_best _ _ _ (Some stars) s)).
  { unfold exec_all at 1. rewrite fold_left_app. fold (exec_all L cs s0). fold s. cbn [fold_left exec]. unfold void, update_sources.
    destruct (best s); [|now elim B]. reflexivity. }
  rewrite E. clear E.
  assert (V : virgin _ _ _ sh cat (looked_at s0) s0).
  { exists 1. destruct Hn as [->|(c & Hc & ->)]; cbn; [reflexivity|]. rewrite Hs in Hc. now injection Hc as ->. }
  pose proof (virgin_all _ _ _ L sh cat st p k Hs He cs (looked_at s0) s0 F V) as X. fold s in X.
  destruct (stamps_read (looked_at s0) cs).
  - pose proof (reached_history NI FT IM L sh s0 cs Hok Hn F) as Rd. fold s in Rd.
    assert (Rd' : reached NI FT IM L sh (set_best _ _ _ (Some stars) s) (history cs)).
    { destruct Rd as (J & mode & (Js & I) & H1 & H2 & H3 & H4 & H5 & H6 & H7 & H8 & H9 & H10). exists J, mode.
      split; [split; [now apply H10|exact I]|]. auto 12. }
    apply (reached_all NI FT IM L sh cs') in Rd'; [|exact F'].
    exact (reached_psf _ _ _ L sh _ _ (Some l) Rd' Hl).
  - destruct X as (lk & (z & ->) & _).
    change (set_best NI FT IM (Some stars) (set_zp _ _ _ (Some z) (fresh _ _ _ sh (if lk then Some cat else None))))
      with (exec_all (given L stars) [CSetZp z] (fresh NI FT IM sh (Some stars))).
    set (s1 := exec_all (given L stars) [CSetZp z] (fresh NI FT IM sh (Some stars))).
    assert (B1 : best s1 <> None) by discriminate.
    destruct (same_exec_all NI FT IM L stars cs' s1 N B1) as [E1 B2].
    destruct (same_psf NI FT IM L stars (Some l) None _ B2) as [E2 _]. rewrite E2, E1. unfold s1.
    assert (E3 : exec_all (given L stars) cs' (exec_all (given L stars) [CSetZp z] (fresh NI FT IM sh (Some stars))) =
                 exec_all (given L stars) (CSetZp z :: cs') (fresh NI FT IM sh (Some stars))) by reflexivity.
    rewrite E3.
    apply (C39_history_lm _ _ _ (given L stars) sh (fresh NI FT IM sh (Some stars)) (CSetZp z :: cs')).
    + exact Hok.
    + right. exists stars. now split.
    + constructor; [exact I|exact F'].
    + exact Hl.
Qed.

Definition rspot (r : row) : R * R * R := (r_x r, r_y r, r_flux r).

Lemma set_ids_spots ids l : length ids = length l -> map rspot (set_ids ids l) = map rspot l.
Proof.
  revert ids. induction l as [|r l IH]; intros [|z ids] H; try discriminate; [reflexivity|].
  unfold set_ids. cbn [combine map]. f_equal. apply IH. now injection H.
Qed.

Lemma set_dets_spots bs l : length bs = length l -> map rspot (set_dets bs l) = map rspot l.
Proof.
  revert bs. induction l as [|r l IH]; intros [|z ids] H; try discriminate; [reflexivity|].
  unfold set_dets. cbn [combine map]. f_equal. apply IH. now injection H.
Qed.

Lemma set_ids_length ids l : length ids = length l -> length (set_ids ids l) = length l.
Proof. intros H. unfold set_ids. rewrite map_length, combine_length, H. apply Nat.min_id. Qed.

(** The catalogues that the matching of two lists leaves. *)
Lemma matched_spots query sort_cat lsqr a b t : (forall l, Permutation (sort_cat l) l) ->
  transparency query sort_cat lsqr [mkcat false false a; mkcat false false b] None = Ok t ->
  map rspot (rows (mcat t)) = map rspot a /\
  exists c, cats t = [c] /\ Permutation (map rspot (rows c)) (map rspot b).
Proof.
  intros SP. unfold transparency, transparency_of. cbn [map length].
  set (mc := with_source_ids (mkcat false false a)).
  set (c := snd (process_image query sort_cat mc (mkcat false false b))).
  assert (Pm : process_image query sort_cat mc (mkcat false false b) = (fst (process_image query sort_cat mc (mkcat false false b)), c)) by reflexivity.
  assert (Hc : Permutation (map rspot (rows c)) (map rspot b)).
  { unfold c, process_image. cbn [snd rows append_ids has_id]. eapply Permutation_trans; [apply Permutation_map, SP|].
    rewrite set_ids_spots; [apply Permutation_refl|]. unfold matching. cbn [fst rows].
    now rewrite map_length, seq_length, map_length. }
  assert (Hm : map rspot (rows mc) = map rspot a).
  { unfold mc, with_source_ids. cbn [append_ids has_id rows]. apply set_ids_spots. now rewrite map_length, seq_length. }
  assert (Hd : has_det mc = false) by reflexivity.
  set (det := map _ (rows mc)).
  assert (Hl : length det = length (rows mc)) by apply map_length.
  unfold append_dets. rewrite Hd. cbn [rows has_id has_det andb].
  destruct (Nat.eqb _ 0).
  - intros [= <-]. cbn [mcat cats rows]. split; [reflexivity|]. exists c. now split.
  - destruct (mapM _ _) as [mm|]; [|discriminate]. cbn [bind]. intros [= <-]. cbn [mcat cats rows].
    split; [|exists c; now split]. rewrite set_dets_spots by exact Hl. exact Hm.
Qed.

Lemma stamps_read_look lk cs : stamps_read lk (cs ++ [CBestSources]) = stamps_read lk cs.
Proof.
  revert lk. induction cs as [|c cs IH]; intros lk; [reflexivity|].
  destruct c; cbn [app stamps_read]; try reflexivity; try apply IH. destruct lk; [reflexivity|apply IH].
Qed.

Lemma first_answer W fuel o d x cs stars l sp : (forall n c, length (fst (l_eigh W n c)) = n) ->
  build W fuel o d = Some (Ok x) -> Forall plain cs ->
  stamps_of _ _ _ (bu_lib x) (stamp_shape (bu_attr x)) = Ok sp -> 0 <= l ->
  fst (get_variable_psf (bu_lib x) (Some l) None (bu_attr (with_best stars (after cs x)))) =
  if stamps_read (looked_at (bu_attr x)) cs then psf_for (bu_lib x) (stamp_shape (bu_attr x)) l
  else psf_for (given (bu_lib x) stars) (stamp_shape (bu_attr x)) l.
Proof.
  intros EL Bx F Hsp Hl. destruct (build_lib _ _ _ _ _ Bx) as (Dx & Lx & sh & N & Sh).
  assert (O : lib_ok (bu_lib x)) by (rewrite Lx; now apply lib_of_ok).
  assert (Sel : exists cat, select (bu_lib x) = Ok cat).
  { unfold stamps_of in Hsp. destruct (select (bu_lib x)) as [cat|]; [eauto|discriminate]. }
  destruct Sel as (cat & Sel).
  assert (F1 : Forall plain (cs ++ [CBestSources])) by (apply Forall_app; split; [exact F|now repeat constructor]).
  assert (B1 : exists c, best (exec_all (bu_lib x) (cs ++ [CBestSources]) (bu_attr x)) = Some c).
  { unfold exec_all. rewrite fold_left_app. cbn [fold_left exec]. unfold void, best_sources.
    destruct (best (fold_left _ cs (bu_attr x))) as [c|] eqn:B; [exists c; exact B|]. rewrite Sel. exists cat. reflexivity. }
  rewrite <- Sh in *.
  pose proof (C111_given_lm _ _ _ (bu_lib x) sh (bu_attr x) (cs ++ [CBestSources]) stars [] l sp O N Hsp F1
    (Forall_nil _) (Forall_nil _) Hl) as G.
  assert (U : fst (update_sources (bu_lib x) (Some stars) (exec_all (bu_lib x) (cs ++ [CBestSources]) (bu_attr x))) = Ok tt).
  { unfold update_sources. destruct B1 as (c & ->). reflexivity. }
  specialize (G U). rewrite stamps_read_look in G. rewrite <- G. clear G.
  assert (Q : exec_all (bu_lib x) ((cs ++ [CBestSources]) ++ [CUpdateSources (Some stars)]) (bu_attr x) =
              bu_attr (with_best stars (after cs x))).
  { unfold exec_all. rewrite !fold_left_app. cbn [fold_left exec with_best after bu_attr]. unfold void. unfold exec_all.
    set (s := fold_left _ cs (bu_attr x)). unfold update_sources, best_sources.
    destruct (best s) as [c|] eqn:B; cbn [snd]; [rewrite B; reflexivity|]. rewrite Sel. reflexivity. }
  now rewrite Q.
Qed.

Lemma first_used W fuel o d x cs stars l sp p : (forall n c, length (fst (l_eigh W n c)) = n) ->
  build W fuel o d = Some (Ok x) -> Forall plain cs ->
  stamps_of _ _ _ (bu_lib x) (stamp_shape (bu_attr x)) = Ok sp -> 0 <= l ->
  first_element l (with_best stars (after cs x)) = Ok p ->
  reads l x cs stars (seen (with_best stars (after cs x)) p).
Proof.
  intros EL Bx F Hsp Hl E. unfold reads. cbn zeta. split.
  - rewrite <- (first_answer W fuel o d x cs stars l sp EL Bx F Hsp Hl).
    unfold first_element in E. change (bu_lib (with_best stars (after cs x))) with (bu_lib x) in E.
    destruct (fst (get_variable_psf (bu_lib x) (Some l) None (bu_attr (with_best stars (after cs x))))) as [[f [|q t]]|e]; cbn in E; try discriminate.
    injection E as <-. exists f, q, t. split; [reflexivity|]. split; [reflexivity|].
    intros i j v Hv. cbn. now rewrite Hv.
  - cbn. repeat split; intros i j.
    + intros M. now rewrite M.
    + intros v M V. now rewrite M, V.
Qed.

(** What a subtraction uses. *)
Lemma C111_subtract_lm : forall W fuel o o' d d' x y cs cs' l beta shift iterative sp sp' D P S m,
  (forall n c, length (fst (l_eigh W n c)) = n) -> (forall r, Permutation (l_sort W r) r) ->
  build W fuel o d = Some (Ok x) -> build W fuel o' d' = Some (Ok y) -> 0 <= l ->
  stamps_of _ _ _ (bu_lib x) (stamp_shape (bu_attr x)) = Ok sp ->
  stamps_of _ _ _ (bu_lib y) (stamp_shape (bu_attr y)) = Ok sp' ->
  Forall plain cs -> Forall plain cs' ->
  subtract_built W l beta shift iterative (after cs x) (after cs' y) = Ok (D, P, S, m) ->
  exists cr cn left left' t e u v,
    fst (best_sources (bu_lib x) (bu_attr (after cs x))) = Ok cr /\
    fst (best_sources (bu_lib y) (bu_attr (after cs' y))) = Ok cn /\
    transparency (l_query W) (l_sort W) (l_lsqr W)
      [mkcat false false (map row_of cr); mkcat false false (map row_of cn)] None = Ok t /\
    map spot left = map spot cr /\ Permutation (map spot left') (map spot cn) /\
    reads l x cs left u /\ reads l y cs' left' v /\
    e_transp e u v = Ok (nth 0 (zps t) 0, nth 1 (zps t) 0) /\ e_back e = l_back W /\ e_solve e = l_solve W /\
    subtract e (Is u) (Is v) false beta shift iterative false = Ok (D, P, S, m).
Proof.
  intros W fuel o o' d d' x y cs cs' l beta shift it sp sp' D P S m EL SP Bx By Hl Hx Hy F F'.
  unfold subtract_built. destruct (negb _); [discriminate|].
  change (bu_lib (after cs x)) with (bu_lib x). change (bu_lib (after cs' y)) with (bu_lib y).
  destruct (fst (best_sources (bu_lib x) (bu_attr (after cs x)))) as [cr|] eqn:Er; [|discriminate]. cbn [bind].
  destruct (fst (best_sources (bu_lib y) (bu_attr (after cs' y)))) as [cn|] eqn:En; [|discriminate]. cbn [bind].
  destruct (transparency _ _ _ _ _) as [t|] eqn:Et; [|discriminate]. cbn [bind].
  destruct (matched_spots _ _ _ _ _ _ SP Et) as (Sr & c & Ec & Sn). rewrite Ec.
  destruct (first_element l (with_best _ (after cs x))) as [pr|] eqn:Pr; [|discriminate]. cbn [bind].
  destruct (first_element l (with_best _ (after cs' y))) as [pn|] eqn:Pn; [|discriminate]. cbn [bind].
  intros E.
  exists cr, cn, (map src_of (rows (mcat t))), (map src_of (rows c)), t.
  eexists. exists (seen (with_best (map src_of (rows (mcat t))) (after cs x)) pr),
    (seen (with_best (map src_of (rows c)) (after cs' y)) pn).
  split; [reflexivity|]. split; [reflexivity|]. split; [exact Et|].
  assert (Q : forall r, map spot (map src_of r) = map rspot r) by (intros r; rewrite map_map; reflexivity).
  assert (Q' : forall s, map rspot (map row_of s) = map spot s) by (intros s; rewrite map_map; reflexivity).
  split; [now rewrite Q, Sr, Q'|]. split; [now rewrite Q, <- Q'|].
  split; [exact (first_used W fuel o d x cs _ l sp pr EL Bx F Hx Hl Pr)|].
  split; [exact (first_used W fuel o' d' y cs' _ l sp' pn EL By F' Hy Hl Pn)|].
  split; [|split; [|split; [|exact E]]]; reflexivity.
Qed.
