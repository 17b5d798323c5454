(** A history on an image whose stamps are cut in place, seen from Model/Session.v. *)
From Coq Require Import ZArith List Bool Arith Reals Lia.
From Verif.Model Require Import Py Plane Sources KL Session Live.
From Verif.Spec Require Import Live.
From Verif.Proof Require Import Session SessionLm.
Import ListNotations.
Local Open Scope R_scope.
Set Bullet Behavior "Strict Subproofs".

Arguments mkllib {PIC NI FT IM}.
Arguments base {PIC NI FT IM}.
Arguments cutting {PIC NI FT IM}.
Arguments filtering {PIC NI FT IM}.
Arguments l_exec {PIC NI FT IM}.
Arguments l_exec_all {PIC NI FT IM}.

Section Sim.
Variables PIC NI FT IM : Type.
Variable L : llib PIC NI FT IM.
Variables (p0 p1 : PIC) (sh0 : nat * nat) (cat : list src).
Variables (st : list (plane R)) (ps : list (R * R)) (kept : list src).
Variable good : PIC -> Prop.
Hypothesis Hsel : select (base L) = Ok cat.
Hypothesis Hcut : cutting L p0 sh0 cat = (p1, (st, Ok (ps, kept))).
Hypothesis G1 : good p1.
Hypothesis GS : forall p z a b n, good p -> good (fst (filtering L p z a b n)).
Hypothesis GR : forall p z a b n, good p -> snd (filtering L p z a b n) = snd (filtering L p1 z a b n).

(** The library of Model/Session.v: stamps from the image as it was, the filtered image from
    what the extraction leaves. *)
Definition still : lib NI FT IM :=
  mklib NI FT IM (select (base L)) (fun sh c => snd (cutting L p0 sh c)) (eigh (base L)) (smooth (base L))
    (Session.fit (base L)) (normal_of (base L)) (fun z a b n => snd (filtering L p1 z a b n)) (ifft_real (base L)).

Notation state := (si NI FT IM).
Notation LMt := (LM PIC NI FT IM).
Notation Mt := (M NI FT IM).

Definition before (s : state) : Prop :=
  req_shape s = None /\ stamp_shape s = sh0 /\ (best s = None \/ best s = Some cat) /\ pos s = None /\
  nsrc s = None /\ cov s = None /\ eig s = None /\ basis s = None /\ fields s = None /\ normal s = None /\
  shat s = None /\ scomp s = None.
Definition since (p : PIC) (s : state) : Prop :=
  req_shape s = None /\ pos s = Some ps /\ nsrc s = Some (length ps) /\ good p.

Definition simB {X} (m : LMt X) (m' : Mt X) : Prop := forall p s, since p s ->
  exists r p' s', m (p, s) = (r, (p', s')) /\ m' s = (r, s') /\ since p' s'.
Definition simA {X} (m : LMt X) (m' : Mt X) : Prop := forall s, before s ->
  exists r p' s', m (p0, s) = (r, (p', s')) /\ m' s = (r, s') /\ since p' s'.

Lemma simB_ret X (a : X) : simB (lret _ _ _ _ a) (ret _ _ _ a).
Proof. intros p s H. do 3 eexists. now repeat split; try apply H. Qed.
Lemma simB_raise X e : simB (X := X) (lraise _ _ _ _ e) (raise _ _ _ e).
Proof. intros p s H. do 3 eexists. now repeat split; try apply H. Qed.
Lemma simB_bind X Y (m : LMt X) m' (k : X -> LMt Y) k' : simB m m' -> (forall a, simB (k a) (k' a)) ->
  simB (lbind _ _ _ _ m k) (mbind _ _ _ m' k').
Proof.
  intros H K p s Hs. destruct (H p s Hs) as (r & p' & s' & E & E' & Hs'). unfold lbind, mbind. rewrite E, E'.
  destruct r as [a|e]; [exact (K a p' s' Hs')|]. now exists (Raise e), p', s'.
Qed.
Lemma simA_bind X Y (m : LMt X) m' (k : X -> LMt Y) k' : simA m m' -> (forall a, simB (k a) (k' a)) ->
  simA (lbind _ _ _ _ m k) (mbind _ _ _ m' k').
Proof.
  intros H K s Hs. destruct (H s Hs) as (r & p' & s' & E & E' & Hs'). unfold lbind, mbind. rewrite E, E'.
  destruct r as [a|e]; [exact (K a p' s' Hs')|]. now exists (Raise e), p', s'.
Qed.
Lemma simB_get X (k : state -> LMt X) k' : (forall s, simB (k s) (k' s)) ->
  simB (lbind _ _ _ _ (lget _ _ _ _) k) (mbind _ _ _ (get _ _ _) k').
Proof. intros H p s Hs. exact (H s p s Hs). Qed.
Lemma simB_upd f : (forall s, req_shape (f s) = req_shape s /\ pos (f s) = pos s /\ nsrc (f s) = nsrc s) ->
  simB (lupd _ _ _ _ f) (upd _ _ _ f).
Proof.
  intros H p s (A & B & C & D). exists (Ok tt), p, (f s). split; [reflexivity|]. split; [reflexivity|].
  destruct (H s) as (X & Y & Z). repeat split; congruence || assumption.
Qed.

Ltac upds := apply simB_upd; intros; cbn; repeat split; auto.
Ltac stepB := first
  [ apply simB_ret | apply simB_raise | upds
  | apply simB_get; intros ?
  | apply simB_bind; [|intros ?]
  | match goal with |- context [match ?x with _ => _ end] => destruct x end ].

Lemma best_B : simB (l_best_sources _ _ _ _ L) (best_sources still).
Proof.
  intros p s (A & B & C & D). unfold l_best_sources, best_sources. cbn [fst snd still select].
  destruct (best s); [|rewrite Hsel]; do 3 eexists; (split; [reflexivity|]); (split; [reflexivity|]); now repeat split.
Qed.

Lemma stamps_B : simB (l_stamps_pos _ _ _ _ L) (stamps_pos still).
Proof.
  intros p s (A & B & C & D). unfold l_stamps_pos, stamps_pos, reshaped. cbn [fst snd]. rewrite A.
  rewrite B. do 3 eexists. (split; [reflexivity|]); (split; [reflexivity|]). repeat split; auto.
Qed.

Lemma stamps_A : simA (l_stamps_pos _ _ _ _ L) (stamps_pos still).
Proof.
  intros s (A & B & C & D & _). unfold l_stamps_pos, stamps_pos, reshaped. cbn [fst snd]. rewrite A, D.
  unfold lbind, mbind, l_best_sources, best_sources, lget, get, lupd, upd, lret, ret. cbn [fst snd set_db best].
  assert (S : forall b, stamp_shape (set_best _ _ _ b (set_db _ _ _ (Some []) s)) = sh0) by (intros; exact B).
  destruct C as [C|C]; rewrite C.
  - cbn [still select]. rewrite Hsel. cbn [fst snd]. rewrite S. cbn [still extract]. rewrite Hcut. cbn [fst snd].
    do 3 eexists. split; [reflexivity|]. split; [reflexivity|]. cbn. repeat split; auto.
  - cbn [fst snd]. change (stamp_shape (set_db _ _ _ (Some []) s)) with (stamp_shape s). rewrite B.
    cbn [still extract]. rewrite Hcut. cbn [fst snd].
    do 3 eexists. split; [reflexivity|]. split; [reflexivity|]. cbn. repeat split; auto.
Qed.

Lemma n_B : simB (l_n_sources _ _ _ _ L) (n_sources still).
Proof.
  intros p s H. unfold l_n_sources, n_sources. cbn [snd]. destruct (nsrc s) eqn:N; [|destruct H as (_ & _ & Q & _); congruence].
  now apply simB_ret.
Qed.
Lemma n_A : simA (l_n_sources _ _ _ _ L) (n_sources still).
Proof.
  intros s H. unfold l_n_sources, n_sources. cbn [snd]. assert (N : nsrc s = None) by apply H. rewrite N.
  refine (simA_bind _ _ _ _ _ _ stamps_A _ s H). intros a. repeat stepB.
Qed.


Lemma cov_B : simB (l_cov_matrix _ _ _ _ L) (Session.cov_matrix _ _ _ still).
Proof.
  intros p s H. unfold l_cov_matrix, Session.cov_matrix. cbn [snd]. destruct (cov s); [now apply simB_ret|].
  refine (simB_bind _ _ _ _ _ _ n_B _ p s H). intros a. repeat stepB.
Qed.
Lemma cov_A : simA (l_cov_matrix _ _ _ _ L) (Session.cov_matrix _ _ _ still).
Proof.
  intros s H. unfold l_cov_matrix, Session.cov_matrix. cbn [snd]. assert (N : cov s = None) by apply H. rewrite N.
  refine (simA_bind _ _ _ _ _ _ n_A _ s H). intros a. repeat stepB.
Qed.

Lemma eig_B : simB (l_eigenv _ _ _ _ L) (Session.eigenv _ _ _ still).
Proof.
  intros p s H. unfold l_eigenv, Session.eigenv. cbn [snd]. destruct (eig s); [now apply simB_ret|].
  refine (simB_bind _ _ _ _ _ _ cov_B _ p s H). intros a. repeat stepB.
Qed.
Lemma eig_A : simA (l_eigenv _ _ _ _ L) (Session.eigenv _ _ _ still).
Proof.
  intros s H. unfold l_eigenv, Session.eigenv. cbn [snd]. assert (N : eig s = None) by apply H. rewrite N.
  refine (simA_bind _ _ _ _ _ _ cov_A _ s H). intros a. repeat stepB.
Qed.

Lemma build_B e : simB (l_build_basis _ _ _ _ L e) (build_basis _ _ _ still e).
Proof.
  intros p s H. unfold l_build_basis, build_basis. cbn [snd still smooth]. destruct e as [v w].
  destruct (mcols s) as [[rows t]|].
  - destruct (_ || _); [now apply simB_ret|now apply simB_raise].
  - refine (simB_bind _ _ _ _ _ _ n_B _ p s H). intros a. repeat stepB.
Qed.

Lemma setup_B l : simB (l_setup_kl_basis _ _ _ _ L l) (setup_kl_basis _ _ _ still l).
Proof.
  intros p s H. unfold l_setup_kl_basis, setup_kl_basis. cbn [snd]. destruct (_ || _); [|now apply simB_ret].
  refine (simB_bind _ _ _ _ _ _ _ _ p s H).
  - destruct l; repeat stepB.
  - intros _. apply simB_bind; [exact eig_B|intros e]. apply simB_bind; [apply build_B|intros b]. upds.
Qed.
Lemma setup_A l : simA (l_setup_kl_basis _ _ _ _ L l) (setup_kl_basis _ _ _ still l).
Proof.
  intros s H. unfold l_setup_kl_basis, setup_kl_basis. cbn [snd]. assert (N : basis s = None) by apply H. rewrite N. cbn [orb].
  assert (K : forall s, before s -> exists r p' s',
    lbind _ _ _ _ (l_eigenv _ _ _ _ L) (fun e => lbind _ _ _ _ (l_build_basis _ _ _ _ L e) (fun b => lupd _ _ _ _ (set_basis _ _ _ (Some b)))) (p0, s) = (r, (p', s')) /\
    mbind _ _ _ (Session.eigenv _ _ _ still) (fun e => mbind _ _ _ (build_basis _ _ _ still e) (fun b => upd _ _ _ (set_basis _ _ _ (Some b)))) s = (r, s') /\ since p' s').
  { refine (simA_bind _ _ _ _ _ _ eig_A _). intros e. apply simB_bind; [apply build_B|intros b]. upds. }
  destruct l as [l|].
  - apply (K (set_inf_loss l s)). exact H.
  - exact (K s H).
Qed.

Lemma basis_B : simB (l_kl_basis _ _ _ _ L) (Session.kl_basis _ _ _ still).
Proof.
  intros p s H. unfold l_kl_basis, Session.kl_basis. cbn [snd].
  refine (simB_bind _ _ _ _ _ _ _ _ p s H).
  - destruct (basis s); [apply simB_ret|apply setup_B].
  - intros _. repeat stepB.
Qed.
Lemma basis_A : simA (l_kl_basis _ _ _ _ L) (Session.kl_basis _ _ _ still).
Proof.
  intros s H. unfold l_kl_basis, Session.kl_basis. cbn [snd]. assert (N : basis s = None) by apply H. rewrite N.
  refine (simA_bind _ _ _ _ _ _ (setup_A None) _ s H). intros _. repeat stepB.
Qed.

Lemma rest_B : forall b : list (plane (option R)), simB
  (let n_fields := length b in
     if Nat.eqb n_fields 1 then lupd PIC NI FT IM (set_fields _ _ _ (Some NoField))
     else lbind _ _ _ _ (l_best_sources _ _ _ _ L) (fun _ => lbind _ _ _ _ (l_stamps_pos _ _ _ _ L) (fun positions =>
       if Nat.eqb (length positions) 0 then lraise _ _ _ _ IndexError
       else lbind _ _ _ _ (l_eigenv _ _ _ _ L) (fun e =>
         let n := length (fst e) in
         if negb (Nat.eqb n_fields 0) && negb (Nat.eqb (length positions) n) then lraise _ _ _ _ ValueError
         else lupd _ _ _ _ (set_fields _ _ _ (Some (Fields
                (map (fun k => Session.fit (base L) positions (measures n (snd e) k))
                     (seq 0 n_fields)))))))))
  (let n_fields := length b in
     if Nat.eqb n_fields 1 then upd NI FT IM (set_fields _ _ _ (Some NoField))
     else mbind _ _ _ (best_sources still) (fun _ => mbind _ _ _ (stamps_pos still) (fun positions =>
       if Nat.eqb (length positions) 0 then raise _ _ _ IndexError
       else mbind _ _ _ (Session.eigenv _ _ _ still) (fun e =>
         let n := length (fst e) in
         if negb (Nat.eqb n_fields 0) && negb (Nat.eqb (length positions) n) then raise _ _ _ ValueError
         else upd _ _ _ (set_fields _ _ _ (Some (Fields
                (map (fun k => Session.fit still positions (measures n (snd e) k))
                     (seq 0 n_fields))))))))).
Proof.
  intros b. cbv zeta. destruct (Nat.eqb (length b) 1); [upds|]. apply simB_bind; [exact best_B|intros _].
  apply simB_bind; [exact stamps_B|intros q]. destruct (Nat.eqb (length q) 0); [apply simB_raise|].
  apply simB_bind; [exact eig_B|intros e]. destruct (_ && _); [apply simB_raise|]. upds.
Qed.

Lemma fields_B l u : simB (l_setup_kl_a_fields _ _ _ _ L l u) (setup_kl_a_fields _ _ _ still l u).
Proof.
  intros p s H. unfold l_setup_kl_a_fields, setup_kl_a_fields. cbn [snd]. destruct (_ || _); [|now apply simB_ret].
  refine (simB_bind _ _ _ _ _ _ _ _ p s H).
  - destruct l; [|apply simB_ret]. apply simB_bind; [apply setup_B|intros _]. upds.
  - intros _. apply simB_bind; [exact basis_B|exact rest_B].
Qed.
Lemma fields_A l u : simA (l_setup_kl_a_fields _ _ _ _ L l u) (setup_kl_a_fields _ _ _ still l u).
Proof.
  intros s H. unfold l_setup_kl_a_fields, setup_kl_a_fields. cbn [snd]. assert (N : fields s = None) by apply H. rewrite N. cbn [orb].
  destruct l as [l|].
  - refine (simA_bind _ _ _ _ _ _ _ _ s H).
    + apply simA_bind; [apply setup_A|intros _]. upds.
    + intros _. apply simB_bind; [exact basis_B|exact rest_B].
  - refine (simA_bind _ _ _ _ _ _ basis_A rest_B s H).
Qed.

Lemma afields_B : simB (l_kl_afields _ _ _ _ L) (kl_afields _ _ _ still).
Proof.
  intros p s H. unfold l_kl_afields, kl_afields. cbn [snd]. refine (simB_bind _ _ _ _ _ _ _ _ p s H).
  - destruct (fields s); [apply simB_ret|apply fields_B].
  - intros _. repeat stepB.
Qed.
Lemma afields_A : simA (l_kl_afields _ _ _ _ L) (kl_afields _ _ _ still).
Proof.
  intros s H. unfold l_kl_afields, kl_afields. cbn [snd]. assert (N : fields s = None) by apply H. rewrite N.
  refine (simA_bind _ _ _ _ _ _ (fields_A None false) _ s H). intros _. repeat stepB.
Qed.

Lemma psf_B l : simB (l_get_variable_psf _ _ _ _ L l None) (get_variable_psf still l None).
Proof.
  intros p s H. unfold l_get_variable_psf, get_variable_psf.
  refine (simB_bind _ _ _ _ _ _ (simB_ret _ tt) _ p s H). intros _. apply simB_get. intros s1.
  apply simB_bind; [apply setup_B|intros _]. apply simB_bind; [apply fields_B|intros _].
  apply simB_bind; [exact afields_B|intros a]. apply simB_bind; [exact basis_B|intros b]. repeat stepB.
Qed.
Lemma psf_A l : simA (l_get_variable_psf _ _ _ _ L l None) (get_variable_psf still l None).
Proof.
  intros s H. unfold l_get_variable_psf, get_variable_psf.
  unfold lbind at 1, mbind at 1, lret at 1, ret at 1. unfold lbind at 1, mbind at 1, lget at 1, get at 1. cbn [snd].
  refine (simA_bind _ _ _ _ _ _ (setup_A l) _ s H). intros _. apply simB_bind; [apply fields_B|intros _].
  apply simB_bind; [exact afields_B|intros a]. apply simB_bind; [exact basis_B|intros b]. repeat stepB.
Qed.

Lemma normal_B : simB (l_normal_image _ _ _ _ L) (normal_image still).
Proof.
  intros p s H. unfold l_normal_image, normal_image. cbn [snd]. destruct (normal s); [now apply simB_ret|].
  refine (simB_bind _ _ _ _ _ _ (psf_B None) _ p s H). intros a. repeat stepB.
Qed.
Lemma normal_A : simA (l_normal_image _ _ _ _ L) (normal_image still).
Proof.
  intros s H. unfold l_normal_image, normal_image. cbn [snd]. assert (N : normal s = None) by apply H. rewrite N.
  refine (simA_bind _ _ _ _ _ _ (psf_A None) _ s H). intros a. repeat stepB.
Qed.

Lemma filter_B psf : simB
  (lbind _ _ _ _ (l_normal_image _ _ _ _ L) (fun nrm => lbind _ _ _ _ (lget _ _ _ _) (fun s =>
     lbind _ _ _ _ (fun x => let '(p, h) := filtering L (fst x) (get_zp _ _ _ s) (fst psf) (snd psf) nrm in
                       (Ok h, (p, snd x))) (fun h =>
     lbind _ _ _ _ (lupd _ _ _ _ (set_shat _ _ _ (Some (h, inf_loss s)))) (fun _ => lret _ _ _ _ h)))))
  (mbind _ _ _ (normal_image still) (fun nrm => mbind _ _ _ (get _ _ _) (fun s =>
     let h := shat_of still (get_zp _ _ _ s) (fst psf) (snd psf) nrm in
     mbind _ _ _ (upd _ _ _ (set_shat _ _ _ (Some (h, inf_loss s)))) (fun _ => ret _ _ _ h)))).
Proof.
  apply simB_bind; [exact normal_B|intros nrm]. apply simB_get. intros s1 p s H. cbn [still shat_of].
  unfold lbind, mbind, lupd, upd, lret, ret. cbn [fst snd].
  destruct H as (A & B & C & D).
  rewrite <- (GR p (get_zp _ _ _ s1) (fst psf) (snd psf) nrm D).
  pose proof (GS p (get_zp _ _ _ s1) (fst psf) (snd psf) nrm D) as D'.
  destruct (filtering L p _ _ _ _) as [p' h]. cbn [fst snd] in *.
  do 3 eexists. split; [reflexivity|]. split; [reflexivity|]. now repeat split.
Qed.

Lemma shat_B : simB (l_s_hat_comp _ _ _ _ L) (s_hat_comp still).
Proof.
  intros p s H. unfold l_s_hat_comp, s_hat_comp. cbn [snd].
  assert (K := simB_bind _ _ _ _ _ _ (psf_B None) filter_B p s H).
  destruct (shat s) as [[h l]|]; [|exact K]. destruct (Req_EM_T l (inf_loss s)); [now apply simB_ret|exact K].
Qed.
Lemma shat_A : simA (l_s_hat_comp _ _ _ _ L) (s_hat_comp still).
Proof.
  intros s H. unfold l_s_hat_comp, s_hat_comp. cbn [snd]. assert (N : shat s = None) by apply H. rewrite N.
  exact (simA_bind _ _ _ _ _ _ (psf_A None) filter_B s H).
Qed.

Lemma scomp_rest : simB
  (lbind _ _ _ _ (lget _ _ _ _) (fun s =>
   match scomp s with
   | None => lraise _ _ _ _ AttributeError
   | Some (c, l) =>
       if Req_EM_T l (inf_loss s) then lret _ _ _ _ c
       else
         lbind _ _ _ _ (l_s_hat_comp _ _ _ _ L) (fun h =>
         let c := ifft_real (base L) h in
         lbind _ _ _ _ (lupd _ _ _ _ (set_scomp _ _ _ (Some (c, l)))) (fun _ =>
         lret _ _ _ _ c))
   end))
  (mbind _ _ _ (get _ _ _) (fun s =>
   match scomp s with
   | None => raise _ _ _ AttributeError
   | Some (c, l) =>
       if Req_EM_T l (inf_loss s) then ret _ _ _ c
       else
         mbind _ _ _ (s_hat_comp still) (fun h =>
         let c := ifft_real still h in
         mbind _ _ _ (upd _ _ _ (set_scomp _ _ _ (Some (c, l)))) (fun _ =>
         ret _ _ _ c))
   end)).
Proof.
  apply simB_get. intros s. destruct (scomp s) as [[c l]|]; [|apply simB_raise].
  destruct (Req_EM_T l (inf_loss s)); [apply simB_ret|]. apply simB_bind; [exact shat_B|intros h]. cbv zeta.
  apply simB_bind; [upds|intros _; apply simB_ret].
Qed.
Lemma scomp_B : simB (l_s_component _ _ _ _ L) (s_component still).
Proof.
  intros p s H. unfold l_s_component, s_component. cbn [snd]. refine (simB_bind _ _ _ _ _ _ _ (fun _ => scomp_rest) p s H).
  destruct (scomp s); [apply simB_ret|]. apply simB_bind; [exact shat_B|intros h]. apply simB_get. intros s1. upds.
Qed.
Lemma scomp_A : simA (l_s_component _ _ _ _ L) (s_component still).
Proof.
  intros s H. unfold l_s_component, s_component. cbn [snd]. assert (N : scomp s = None) by apply H. rewrite N.
  refine (simA_bind _ _ _ _ _ _ _ (fun _ => scomp_rest) s H).
  apply simA_bind; [exact shat_A|intros h]. apply simB_get. intros s1. upds.
Qed.

Lemma update_B : simB (l_update_sources _ _ _ _ L None) (update_sources still None).
Proof.
  intros p s H. unfold l_update_sources, update_sources. cbn [snd]. destruct (best s); [|now apply simB_raise].
  refine (simB_bind _ _ _ _ _ _ _ _ p s H); [upds|intros _].
  apply simB_bind; [exact best_B|intros _]. apply simB_bind; [exact n_B|intros _]. apply simB_ret.
Qed.

(** The state of the image and of the attributes agree. *)
Definition agree (x : live PIC NI FT IM) : Prop := since (fst x) (snd x) \/ (fst x = p0 /\ before (snd x)).

Lemma void_sim X (m : LMt X) m' : simA m m' -> simB m m' -> forall x, agree x ->
  fst (m x) = fst (m' (snd x)) /\ snd (snd (m x)) = snd (m' (snd x)) /\ agree (snd (m x)).
Proof.
  intros HA HB [p s] [H|[E H]]; cbn [fst snd] in *.
  - destruct (HB p s H) as (r & p' & s' & E1 & E2 & K). rewrite E1, E2. cbn. now repeat split; try left.
  - subst p. destruct (HA s H) as (r & p' & s' & E1 & E2 & K). rewrite E1, E2. cbn. now repeat split; try left.
Qed.

Lemma best_void x : agree x ->
  fst (l_best_sources _ _ _ _ L x) = fst (best_sources still (snd x)) /\
  snd (snd (l_best_sources _ _ _ _ L x)) = snd (best_sources still (snd x)) /\ agree (snd (l_best_sources _ _ _ _ L x)).
Proof.
  destruct x as [p s]. intros [H|[E H]]; cbn [fst snd] in *.
  - destruct (best_B p s H) as (r & p' & s' & E1 & E2 & K). rewrite E1, E2. cbn. now repeat split; try left.
  - subst p. unfold l_best_sources, best_sources. cbn [fst snd still select]. 
    destruct H as (A & B & C & D). destruct C as [C|C]; rewrite C; [rewrite Hsel|]; cbn [fst snd];
      (split; [reflexivity|]); (split; [reflexivity|]); right; (split; [reflexivity|]).
    + split; [exact A|]. split; [exact B|]. split; [now right|]. exact D.
    + split; [exact A|]. split; [exact B|]. split; [now right|]. exact D.
Qed.

Lemma update_void x : agree x ->
  snd (snd (l_update_sources _ _ _ _ L None x)) = snd (update_sources still None (snd x)) /\
  agree (snd (l_update_sources _ _ _ _ L None x)).
Proof.
  destruct x as [p s]. intros [H|[E H]]; cbn [fst snd] in *.
  - destruct (update_B p s H) as (r & p' & s' & E1 & E2 & K). rewrite E1, E2. cbn. now repeat split; try left.
  - subst p. unfold l_update_sources, update_sources. cbn [fst snd]. destruct (best s) eqn:Eb.
    + set (s1 := set_best _ _ _ None s).
      assert (H1 : agree (p0, s1)).
      { right. split; [reflexivity|]. destruct H as (A & B & C & D). split; [exact A|]. split; [exact B|]. split; [now left|]. exact D. }
      unfold lbind, mbind, lupd, upd. cbn [fst snd]. fold s1.
      destruct (best_void _ H1) as (B1 & B2 & B3). cbn [fst snd] in B1, B2.
      destruct (l_best_sources _ _ _ _ L (p0, s1)) as [r [p2 s2]]. destruct (best_sources still s1) as [r' s2'].
      cbn [fst snd] in *. subst r' s2'. destruct r as [c|e]; [|now split].
      destruct (void_sim _ _ _ n_A n_B _ B3) as (C1 & C2 & C3). cbn [fst snd] in C1, C2.
      destruct (l_n_sources _ _ _ _ L (p2, s2)) as [r [p3 s3]]. destruct (n_sources still s2) as [r' s3'].
      cbn [fst snd] in *. subst r' s3'. destruct r as [n|e]; now split.
    + split; [reflexivity|]. right. now split.
Qed.

Lemma exec_sim c x : same_stamps c -> agree x ->
  snd (l_exec L c x) = exec still c (snd x) /\ agree (l_exec L c x).
Proof.
  intros O H. assert (V : forall X (m : LMt X) m', simA m m' -> simB m m' ->
    snd (lvoid _ _ _ _ m x) = void _ _ _ m' (snd x) /\ agree (lvoid _ _ _ _ m x)).
  { intros X m m' HA HB. unfold lvoid, void. destruct (void_sim _ _ _ HA HB x H) as (_ & A & B). now split. }
  destruct c; cbn [l_exec exec same_stamps] in *; try subst.
  - unfold lvoid, void. now destruct (best_void x H) as (_ & A & B).
  - apply V; [exact stamps_A|exact stamps_B].
  - apply V; [exact n_A|exact n_B].
  - apply V; [exact cov_A|exact cov_B].
  - apply V; [exact eig_A|exact eig_B].
  - apply V; [exact basis_A|exact basis_B].
  - apply V; [exact afields_A|exact afields_B].
  - apply V; [apply psf_A|apply psf_B].
  - apply V; [apply normal_A|apply normal_B].
  - apply V; [apply shat_A|apply shat_B].
  - apply V; [apply scomp_A|apply scomp_B].
  - unfold lvoid, void.
    destruct (void_sim _ _ _ (fields_A (Some l) false) (fields_B (Some l) false) (fst x, set_zp _ _ _ (Some z) (snd x))) as (_ & A & B);
      [exact H|now split].
  - split; [reflexivity|exact H].
  - unfold lvoid, void. exact (update_void x H).
  - split; [reflexivity|exact H].
  - contradiction.
  - split; [reflexivity|exact H].
Qed.

Lemma exec_all_sim cs : Forall same_stamps cs -> forall x, agree x ->
  snd (l_exec_all L cs x) = exec_all still cs (snd x) /\ agree (l_exec_all L cs x).
Proof.
  induction 1 as [|c cs O _ IH]; intros x H; [now split|]. unfold l_exec_all, exec_all. cbn [fold_left].
  destruct (exec_sim c x O H) as [A B]. destruct (IH _ B) as [C D]. split; [|exact D].
  unfold l_exec_all, exec_all in C. rewrite C, A. reflexivity.
Qed.
End Sim.
