(** The cached attributes: an invariant of all histories. *)
From Coq Require Import ZArith List Bool Arith Reals Lia Lra FunctionalExtensionality.
From Verif.Model Require Import Py Plane Sources KL Session.
From Verif.Spec Require Import KL.
From Verif.Proof Require Import KL KLMain.
Import ListNotations.
Local Open Scope R_scope.

Arguments req_shape {NI FT IM} s.
Arguments stamp_shape {NI FT IM} s.
Arguments inf_loss {NI FT IM} s.
Arguments zp {NI FT IM} s.
Arguments best {NI FT IM} s.
Arguments pos {NI FT IM} s.
Arguments nsrc {NI FT IM} s.
Arguments db {NI FT IM} s.
Arguments cov {NI FT IM} s.
Arguments mcols {NI FT IM} s.
Arguments eig {NI FT IM} s.
Arguments basis {NI FT IM} s.
Arguments fields {NI FT IM} s.
Arguments normal {NI FT IM} s.
Arguments shat {NI FT IM} s.
Arguments scomp {NI FT IM} s.
Arguments select {NI FT IM} l.
Arguments extract {NI FT IM} l.
Arguments eigh {NI FT IM} l.
Arguments smooth {NI FT IM} l.
Arguments fit {NI FT IM} l.
Arguments normal_of {NI FT IM} l.
Arguments shat_of {NI FT IM} l.
Arguments ifft_real {NI FT IM} l.

(** Dividing by the sum twice changes nothing. *)
Lemma unit_total_idem p : unit_total (unit_total p) = unit_total p.
Proof.
  destruct (unit_total_spec p) as [S|N].
  - apply total_opt_some in S. unfold unit_total at 1. rewrite S.
    destruct (Req_EM_T 1 0) as [Z|_]; [lra|]. unfold pmap. cbn [nr nc px].
    destruct (unit_total p) as [a b f]. cbn [nr nc px]. f_equal.
    extensionality i. extensionality j. destruct (f i j); cbn; [|reflexivity]. f_equal. field.
  - assert (E : exists a b, unit_total p = mkplane a b (fun _ _ => None) \/ total_opt (unit_total p) = Some 1).
    { unfold unit_total. destruct (total_opt p) as [t|] eqn:T.
      - destruct (Req_EM_T t 0); [exists (nr p), (nc p); left; reflexivity|].
        exists 0%nat, 0%nat. right. destruct (unit_total_spec p) as [S|M].
        + apply total_opt_some in S. unfold unit_total in S. rewrite T in S.
          destruct (Req_EM_T t 0); [contradiction|exact S].
        + apply total_opt_some in T. destruct T as (q & [Sq Eq] & Q).
          exfalso. destruct (nr q) as [|a] eqn:Er.
          { unfold sum2, shape in Q. rewrite Er in Q. cbn in Q. lra. }
          destruct (nc q) as [|b] eqn:Ec.
          { unfold sum2, shape in Q. rewrite Ec in Q. cbn in Q. rewrite sumn_zero in Q. lra. }
          unfold shape in Sq. cbn [pmap nr nc] in Sq. injection Sq as Sr Sc.
          specialize (M 0%nat 0%nat). unfold unit_total in M.
          assert (T' : total_opt p = Some t).
          { apply total_opt_some. exists q. split; [split; [unfold shape; cbn [pmap nr nc]; congruence|exact Eq]|exact Q]. }
          rewrite T' in M. destruct (Req_EM_T t 0); [contradiction|]. cbn [nr nc pmap px] in M.
          rewrite Eq in M by lia. cbn in M. discriminate M; lia.
      - exists (nr p), (nc p). left. reflexivity. }
    destruct E as (a & b & [E|E]).
    + rewrite E. unfold unit_total. destruct (total_opt _) as [t|]; [destruct (Req_EM_T t 0)|]; try reflexivity.
    + unfold unit_total at 1. rewrite E. destruct (Req_EM_T 1 0) as [Z|_]; [lra|]. unfold pmap. cbn [nr nc px].
      destruct (unit_total p) as [a' b' f]. cbn [nr nc px]. f_equal.
      extensionality i. extensionality j. destruct (f i j); cbn; [|reflexivity]. f_equal. field.
Qed.

Section Inv.
Variables NI FT IM : Type.
Variable L : lib NI FT IM.
Variable sh0 : nat * nat.

Notation state := (si NI FT IM).

(** What the library functions promise. *)
Hypothesis Hlen : forall sh c st p k, extract L sh c = (st, Ok (p, k)) -> length st = length p.
Hypothesis Heig : forall n c, length (fst (eigh L n c)) = n.

(** * When the extraction works *)
Section Good.
Variables (cat0 : list src) (st : list (plane R)) (p : list (R * R)) (kept : list src).
Hypothesis Hsel : select L = Ok cat0.
Hypothesis Hext : extract L sh0 cat0 = (st, Ok (p, kept)).

Let n := length st.
Let sh6 := (fst sh0 + 6, snd sh0 + 6)%nat.
Let P := (fst sh6 * snd sh6)%nat.
Let KC := KL.cov_matrix sh6 st.
Let KE := KL.eigenv (eigh L) sh6 st.
Let KB := KL.kl_basis (eigh L) (smooth L) sh6 st.
Definition KF (l : R) : res fieldset :=
  bind (KB l) (fun b =>
  if Nat.eqb (length b) 1 then Ok NoField
  else if Nat.eqb (length p) 0 then Raise IndexError
  else bind KE (fun e => Ok (Fields (map (fun k => fit L p (measures n (snd e) k)) (seq 0 (length b)))))).
Definition KP (l : R) : res (fieldset * list (plane (option R))) :=
  bind (KB l) (fun b => bind (KF l) (fun f => Ok (f, b))).

Lemma np : n = length p.
Proof. exact (Hlen _ _ _ _ _ Hext). Qed.


(** The lower attributes, before and after the extraction. *)
Record freshS (s : state) : Prop := {
  f_req : req_shape s = None;
  f_sh : stamp_shape s = sh0;
  f_best : best s = None \/ best s = Some cat0 \/
    exists c k, best s = Some c /\ extract L sh0 c = (st, Ok (p, k));
  f_pos : pos s = None;
  f_n : nsrc s = None;
  f_cov : cov s = None;
  f_m : mcols s = None;
  f_eig : eig s = None;
  f_basis : basis s = None;
  f_fields : fields s = None }.

Record ready (s : state) : Prop := {
  r_req : req_shape s = None;
  r_sh : stamp_shape s = sh6;
  r_pos : pos s = Some p;
  r_n : nsrc s = Some n;
  r_db : db s = Some st;
  r_cov : cov s = None /\ (mcols s = None \/ Nat.leb n 250 = true /\ mcols s = Some (P, st)) \/
    exists c, KC = Ok c /\ cov s = Some (n, c) /\ mcols s = (if Nat.leb n 250 then Some (P, st) else None);
  r_eig : eig s = None \/
    exists c, KC = Ok c /\ cov s = Some (n, c) /\ n <> 1%nat /\ eig s = Some (eigh L n c) }.

Definition good s := freshS s \/ ready s.

Lemma good_ready s : good s -> basis s <> None -> ready s.
Proof. intros [[]|Rs] B; [now elim B|exact Rs]. Qed.

(** The upper attributes. *)
Record keep (s s' : state) : Prop := {
  k_loss : inf_loss s' = inf_loss s;
  k_zp : zp s' = zp s;
  k_basis : basis s' = basis s;
  k_fields : fields s' = fields s;
  k_normal : normal s' = normal s;
  k_shat : shat s' = shat s;
  k_scomp : scomp s' = scomp s }.

Lemma keep_refl s : keep s s.
Proof. now constructor. Qed.

Lemma keep_trans a b c : keep a b -> keep b c -> keep a c.
Proof. intros [? ? ? ? ? ? ?] [? ? ? ? ? ? ?]. constructor; congruence. Qed.

Lemma best_good s : good s -> exists c s', best_sources _ _ _ L s = (Ok c, s') /\ good s' /\ keep s s' /\ (ready s -> ready s').
Proof.
  intros G. unfold best_sources. destruct (best s) as [c|] eqn:B.
  - exists c, s. split; [reflexivity|]. split; [exact G|]. split; [apply keep_refl|tauto].
  - rewrite Hsel. do 2 eexists. split; [reflexivity|]. split; [|split; [now constructor|]].
    + destruct G as [[]|[]]; [left|right]; constructor; cbn; try assumption. right; now left.
    + intros []. now constructor.
Qed.

Lemma stamps_fresh s : freshS s -> exists s', stamps_pos _ _ _ L s = (Ok p, s') /\ ready s' /\ keep s s' /\
  cov s' = None /\ mcols s' = None /\ eig s' = None.
Proof.
  intros [Q1 Q2 Q3 Q4 Q5 Q6 Q7 Q8 Q9 Q10].
  unfold stamps_pos. rewrite Q4. unfold reshaped. rewrite Q1.
  assert (B : exists c k s1, best_sources _ _ _ L (set_db _ _ _ (Some []) s) = (Ok c, s1) /\
    s1 = set_best _ _ _ (Some c) (set_db _ _ _ (Some []) s) /\ extract L sh0 c = (st, Ok (p, k))).
  { unfold best_sources. change (best (set_db _ _ _ (Some []) s)) with (best s).
    destruct Q3 as [Q3|[Q3|(c & k & Q3 & X)]]; rewrite Q3.
    - rewrite Hsel. exists cat0, kept. eexists. split; [reflexivity|]. split; [reflexivity|exact Hext].
    - exists cat0, kept. eexists. split; [reflexivity|]. split; [|exact Hext]. rewrite <- Q3. destruct s; reflexivity.
    - exists c, k. eexists. split; [reflexivity|]. split; [|exact X]. rewrite <- Q3. destruct s; reflexivity. }
  destruct B as (c & k & s1 & B & -> & X). unfold mbind at 1. rewrite B. unfold mbind, get, upd, ret.
  change (stamp_shape (set_best _ _ _ (Some c) (set_db _ _ _ (Some []) s))) with (stamp_shape s).
  rewrite Q2, X. eexists. split; [reflexivity|]. split; [|split; [now constructor|cbn; auto]].
  constructor; cbn; try assumption; try reflexivity.
  - now rewrite np.
  - left. split; [exact Q6|now left].
  - now left.
Qed.

Lemma stamps_ready s : ready s -> stamps_pos _ _ _ L s = (Ok p, s).
Proof. intros []. unfold stamps_pos, reshaped. now rewrite r_pos0, r_req0. Qed.

Lemma n_ready s : ready s -> n_sources _ _ _ L s = (Ok n, s).
Proof. intros []. unfold n_sources. now rewrite r_n0. Qed.

Lemma n_fresh s : freshS s -> exists s', n_sources _ _ _ L s = (Ok n, s') /\ ready s' /\ keep s s' /\
  cov s' = None /\ mcols s' = None /\ eig s' = None.
Proof.
  intros F. destruct (stamps_fresh s F) as (s' & E & Rs & K). exists s'.
  split; [|split; assumption]. unfold n_sources. rewrite (f_n s F). unfold mbind, get, ret.
  rewrite E. now rewrite (r_n s' Rs).
Qed.

Lemma n_good s : good s -> exists s', n_sources _ _ _ L s = (Ok n, s') /\ ready s' /\ keep s s' /\
  cov s' = cov s /\ mcols s' = mcols s /\ eig s' = eig s.
Proof.
  intros [F|Rs].
  - destruct (n_fresh s F) as (s' & E & Rs & K & Q). exists s'. destruct F.
    split; [exact E|]. split; [exact Rs|]. split; [exact K|]. intuition congruence.
  - exists s. split; [now apply n_ready|]. split; [exact Rs|]. split; [apply keep_refl|auto].
Qed.

Lemma stamps_good s : good s -> exists s', stamps_pos _ _ _ L s = (Ok p, s') /\ ready s' /\ keep s s'.
Proof.
  intros [F|Rs].
  - destruct (stamps_fresh s F) as (s' & E & Rs & K & _). exists s'. auto.
  - exists s. split; [now apply stamps_ready|]. split; [exact Rs|apply keep_refl].
Qed.

Lemma firstn_st : firstn n st = st.
Proof. apply firstn_all. Qed.

Lemma cov_good s : good s -> exists s', cov_matrix _ _ _ L s = (bind KC (fun c => Ok (n, c)), s') /\
  ready s' /\ keep s s' /\ (forall c, KC = Ok c -> cov s' = Some (n, c)).
Proof.
  intros G. unfold cov_matrix. destruct (cov s) as [c|] eqn:C.
  - destruct G as [F|Rs]; [rewrite (f_cov s F) in C; discriminate|]. exists s.
    destruct (r_cov s Rs) as [[Q _]|(c' & Kc & Q & _)]; [congruence|]. rewrite Kc. cbn [bind].
    rewrite Q in C. injection C as <-. split; [reflexivity|]. split; [exact Rs|]. split; [apply keep_refl|].
    intros c'' H; congruence.
  - destruct (n_good s G) as (s1 & E & Rs & K & C1 & M1 & E1). unfold mbind. rewrite E. unfold get, ret, raise, upd.
    unfold no_file, stored. rewrite (r_db s1 Rs), (r_sh s1 Rs). fold n. rewrite (proj2 (Nat.ltb_ge n n)) by lia.
    rewrite firstn_st. fold KC. rewrite C in C1.
    assert (M2 : Nat.leb n 250 = false -> mcols s1 = None).
    { intros N. destruct (r_cov s1 Rs) as [[_ [Q|[Q _]]]|(c & _ & Q & _)]; [exact Q|congruence|congruence]. }
    destruct KC as [c|e] eqn:Kc; cbn [bind].
    + eexists. split; [reflexivity|]. destruct Rs. split.
      * constructor; cbn; try assumption.
        -- right. exists c. split; [exact Kc|]. split; [reflexivity|].
           destruct (Nat.leb n 250); [reflexivity|now apply M2].
        -- destruct r_eig0 as [Q|(c' & ? & ? & ? & ?)]; [now left|congruence].
      * split; [destruct K; now constructor|]. intros c' H. injection H as <-. reflexivity.
    + exists s1. split; [reflexivity|]. split; [exact Rs|]. split; [exact K|discriminate].
Qed.

Lemma eig_good s : good s -> exists s', eigenv _ _ _ L s = (KE, s') /\ ready s' /\ keep s s' /\
  (forall e, KE = Ok e -> eig s' = Some e).
Proof.
  intros G. unfold eigenv. destruct (eig s) as [e|] eqn:E0.
  - destruct G as [F|Rs]; [rewrite (f_eig s F) in E0; discriminate|]. exists s.
    destruct (r_eig s Rs) as [Q|(c & Kc & Q & N1 & Q2)]; [congruence|].
    assert (X : KE = Ok e).
    { unfold KE, KL.eigenv. fold KC. rewrite Kc. cbn [bind]. fold n. rewrite (proj2 (Nat.eqb_neq n 1) N1).
      congruence. }
    rewrite X. split; [reflexivity|]. split; [exact Rs|]. split; [apply keep_refl|]. congruence.
  - destruct (cov_good s G) as (s1 & E & Rs & K & C1). unfold mbind. rewrite E.
    unfold KE, KL.eigenv. fold KC. destruct KC as [c|e] eqn:Kc; cbn [bind].
    + cbn [fst snd]. fold n. destruct (Nat.eqb_spec n 1) as [N1|N1].
      * unfold raise. exists s1. split; [reflexivity|]. split; [exact Rs|]. split; [exact K|discriminate].
      * unfold upd, ret. eexists. split; [reflexivity|]. destruct Rs. split.
        -- constructor; cbn; try assumption. right. exists c. specialize (C1 c eq_refl). auto.
        -- split; [destruct K; now constructor|]. intros e H. injection H as <-. reflexivity.
    + exists s1. split; [reflexivity|]. split; [exact Rs|]. split; [exact K|discriminate].
Qed.

Lemma eig_len e : KE = Ok e -> length (fst e) = n /\ exists c, KC = Ok c /\ n <> 1%nat /\ e = eigh L n c.
Proof.
  unfold KE, KL.eigenv. fold KC. destruct KC as [c|]; [|discriminate]. cbn [bind]. fold n.
  destruct (Nat.eqb_spec n 1); [discriminate|]. intros H. injection H as <-. split; [apply Heig|].
  exists c. auto.
Qed.

Lemma build_ok s e : ready s -> KE = Ok e -> eig s = Some e ->
  build_basis _ _ _ L e s = (KB (inf_loss s), s).
Proof.
  intros Rs Ke Es. destruct (eig_len e Ke) as (Le & c & Kc & N1 & Ee).
  destruct (r_eig s Rs) as [Q|(c' & Kc' & Qc & _ & _)]; [congruence|].
  destruct (r_cov s Rs) as [[Q _]|(c'' & _ & _ & Qm)]; [congruence|].
  assert (F : forallb (fun q => shape_eqb (shape q) sh6) st = true).
  { unfold KC, KL.cov_matrix in Kc. destruct (forallb _ st) eqn:F in Kc; [exact F|discriminate]. }
  unfold build_basis. destruct e as [valh vech]. cbn [fst] in Le. rewrite (r_sh s Rs), Qm.
  unfold KB, KL.kl_basis. fold KE. rewrite Ke. cbn [bind]. fold n.
  destruct (Nat.leb_spec n 250) as [H|H].
  - fold n P. rewrite Nat.eqb_refl, orb_true_r. reflexivity.
  - unfold mbind. rewrite (n_ready s Rs). unfold get, ret, raise. unfold no_file, stored.
    rewrite (r_db s Rs), firstn_st, Le. fold n.
    destruct (Nat.ltb_spec n (kl_cut (inf_loss s) valh)) as [Lt|Ge]; [reflexivity|].
    rewrite Nat.eqb_refl. cbn [negb orb]. rewrite (proj2 (Nat.ltb_ge n n)) by lia. cbn [orb].
    rewrite F. reflexivity.
Qed.

Definition loss_after (l : option R) (s : state) : R := match l with Some l => l | None => inf_loss s end.

Lemma differs_false l s : differs _ _ _ l s = false -> loss_after l s = inf_loss s.
Proof.
  unfold differs, loss_after. destruct l as [l|]; [|tauto].
  destruct (Req_EM_T (inf_loss s) l) as [->|N]; [reflexivity|discriminate].
Qed.

(** Whether there is a basis does not depend on the loss asked for, if it is not negative. *)
Lemma kb_total e l : KE = Ok e -> 0 <= l -> exists b, KB l = Ok b.
Proof.
  intros Ke Hl. unfold KB, KL.kl_basis. fold KE. rewrite Ke. destruct e as [valh vech]. cbn [bind].
  destruct (eig_len _ Ke) as (Le & _). cbn [fst] in Le. fold n.
  destruct (Nat.leb_spec n 250); [cbn [bind]; eexists; reflexivity|].
  destruct (Nat.ltb_spec n (kl_cut l valh)) as [Lt|]; [|cbn [bind]; eexists; reflexivity].
  exfalso. destruct (Req_EM_T (sum_abs valh) 0) as [Z|Z].
  - unfold kl_cut in Lt. destruct (Req_EM_T (sum_abs valh) 0); [lia|contradiction].
  - destruct (kl_cut_spec l valh Hl Z) as (R1 & _). lia.
Qed.

Lemma kb_length l b : KB l = Ok b -> (n <> 0)%nat -> b <> [].
Proof.
  intros H N0 ->. unfold KB in H.
  assert (X := H). unfold KL.kl_basis in X. fold KE in X.
  destruct KE as [e|] eqn:Ke; [|discriminate].
  destruct (eig_len e Ke) as (Le & c & Kc & N1 & ->).
  assert (Y := kl_basis_length (eigh L) (smooth L) sh6 st l c [] Kc H). fold n in Y. cbn [length] in Y.
  assert (1 <= kl_cut l (fst (eigh L n c)))%nat.
  { unfold kl_cut. destruct (Req_EM_T _ 0); [lia|].
    assert (Z : forall el pw k, (k <= cut_loop l pw k el)%nat).
    { clear. induction el as [|x el IH]; intros pw k; cbn [cut_loop]; [lia|].
      destruct (Rlt_dec _ _); [|lia]. specialize (IH (pw - x) (S k)). lia. }
    apply Z. }
  lia.
Qed.

Lemma kb_single l b q : KB l = Ok b -> b = [q] -> unit_total q = q.
Proof.
  intros H ->. unfold KB, KL.kl_basis in H. fold KE in H. destruct KE as [[valh vech]|]; [|discriminate].
  cbn [bind] in H. cbn zeta in H.
  match type of H with bind ?x _ = _ => destruct x as [b0|]; [|discriminate] end. cbn [bind] in H.
  set (b1 := match smooth L with Some g => _ | None => rev b0 end) in H. clearbody b1.
  destruct b1 as [|q1 [|q2 t]]; try discriminate. injection H as <-. apply unit_total_idem.
Qed.

(** The basis attribute is the one for the current loss. *)
Definition basis_ok (s : state) : Prop := basis s = None \/ exists b, KB (inf_loss s) = Ok b /\ basis s = Some b.

(** A field attribute, if any, was once right. *)
Definition fields_were (s : state) : Prop :=
  fields s = None \/ exists l f, KF l = Ok f.

Definition fields_ok (s : state) : Prop := fields s = None \/ exists f, KF (inf_loss s) = Ok f /\ fields s = Some f.

Record keep2 (s s' : state) : Prop := {
  k2_zp : zp s' = zp s;
  k2_fields : fields s' = fields s;
  k2_normal : normal s' = normal s;
  k2_shat : shat s' = shat s;
  k2_scomp : scomp s' = scomp s }.

Lemma keep2_refl s : keep2 s s.
Proof. now constructor. Qed.
Lemma keep2_trans a b c : keep2 a b -> keep2 b c -> keep2 a c.
Proof. intros [? ? ? ? ?] [? ? ? ? ?]. constructor; congruence. Qed.
Lemma keep_keep2 a b : keep a b -> keep2 a b.
Proof. intros []. now constructor. Qed.

Lemma basis_ok_keep s s' : keep s s' -> basis_ok s -> basis_ok s'.
Proof. intros [] [H|(b & H & H')]; [left|right; exists b]; rewrite ?k_loss0, ?k_basis0; auto. Qed.

Lemma set_loss_good l s : good s -> good (set_inf_loss _ _ _ l s).
Proof. intros [[]|[]]; [left|right]; constructor; cbn; assumption. Qed.

Lemma kb_ke_raise e l : KE = Raise e -> KB l = Raise e.
Proof. intros H. unfold KB, KL.kl_basis. fold KE. now rewrite H. Qed.

Lemma setup_basis_good l s : good s -> basis_ok s -> 0 <= loss_after l s ->
  exists s', setup_kl_basis _ _ _ L l s = (bind (KB (loss_after l s)) (fun _ => Ok tt), s') /\
    good s' /\ keep2 s s' /\ basis_ok s' /\ inf_loss s' = loss_after l s /\
    (forall b, KB (loss_after l s) = Ok b -> basis s' = Some b).
Proof.
  intros G Bo Hl. unfold setup_kl_basis.
  destruct (match basis s with None => true | Some _ => false end || differs _ _ _ l s) eqn:T.
  - set (s1 := match l with Some l => set_inf_loss _ _ _ l s | None => s end).
    assert (L1 : inf_loss s1 = loss_after l s) by (unfold s1, loss_after; destruct l; reflexivity).
    assert (K1 : keep2 s s1) by (unfold s1; destruct l; constructor; reflexivity).
    assert (G1 : good s1) by (unfold s1; destruct l; [apply set_loss_good|]; exact G).
    assert (B1 : basis s1 = basis s) by (unfold s1; destruct l; reflexivity).
    destruct (eig_good s1 G1) as (s2 & E & Rs & K & Q).
    destruct KE as [e|ex] eqn:Ke.
    + specialize (Q e eq_refl). pose proof (build_ok s2 e Rs Ke Q) as B.
      rewrite (k_loss _ _ K), L1 in B.
      destruct (kb_total e _ Ke Hl) as (b & Eb). rewrite Eb in B |- *. cbn [bind].
      assert (Run : (mbind _ _ _ (match l with Some l => upd _ _ _ (set_inf_loss _ _ _ l) | None => ret _ _ _ tt end)
        (fun _ => mbind _ _ _ (eigenv _ _ _ L) (fun e => mbind _ _ _ (build_basis _ _ _ L e)
           (fun b => upd _ _ _ (set_basis _ _ _ (Some b)))))) s = (Ok tt, set_basis _ _ _ (Some b) s2)).
      { transitivity ((mbind _ _ _ (eigenv _ _ _ L) (fun e => mbind _ _ _ (build_basis _ _ _ L e)
           (fun b => upd _ _ _ (set_basis _ _ _ (Some b))))) s1); [destruct l; reflexivity|].
        unfold mbind. rewrite E, B. reflexivity. }
      rewrite Run. eexists. split; [reflexivity|].
      split; [right; destruct Rs; now constructor|].
      split; [destruct K1, K; constructor; cbn; congruence|].
      split; [right; exists b; split; [cbn; rewrite (k_loss _ _ K), L1; exact Eb|reflexivity]|].
      split; [cbn; rewrite (k_loss _ _ K); exact L1|]. intros b' H. injection H as <-. reflexivity.
    + rewrite (kb_ke_raise ex _ Ke). cbn [bind].
      assert (Run : (mbind _ _ _ (match l with Some l => upd _ _ _ (set_inf_loss _ _ _ l) | None => ret _ _ _ tt end)
        (fun _ => mbind _ _ _ (eigenv _ _ _ L) (fun e => mbind _ _ _ (build_basis _ _ _ L e)
           (fun b => upd _ _ _ (set_basis _ _ _ (Some b)))))) s = (Raise ex, s2)).
      { transitivity ((mbind _ _ _ (eigenv _ _ _ L) (fun e => mbind _ _ _ (build_basis _ _ _ L e)
           (fun b => upd _ _ _ (set_basis _ _ _ (Some b))))) s1); [destruct l; reflexivity|].
        unfold mbind. rewrite E. reflexivity. }
      rewrite Run. eexists. split; [reflexivity|]. split; [now right|].
      split; [eapply keep2_trans; [exact K1|now apply keep_keep2]|].
      split; [|split; [rewrite (k_loss _ _ K); exact L1|discriminate]].
      left. rewrite (k_basis _ _ K), B1. destruct Bo as [Bo|(b & H & _)]; [exact Bo|].
      rewrite (kb_ke_raise ex _ Ke) in H. discriminate.
  - apply orb_false_elim in T. destruct T as [T1 T2]. rewrite (differs_false _ _ T2) in *.
    exists s. destruct Bo as [Bo|(b & H & H')]; [rewrite Bo in T1; discriminate|].
    rewrite H. cbn [bind]. split; [reflexivity|]. split; [exact G|]. split; [apply keep2_refl|].
    split; [right; eauto|]. split; [reflexivity|]. congruence.
Qed.

Lemma kl_basis_good s : good s -> basis_ok s -> 0 <= inf_loss s ->
  exists s', Session.kl_basis _ _ _ L s = (KB (inf_loss s), s') /\
    good s' /\ keep2 s s' /\ basis_ok s' /\ inf_loss s' = inf_loss s.
Proof.
  intros G Bo Hl. unfold Session.kl_basis. destruct (basis s) as [b|] eqn:B.
  - unfold mbind, ret, get. rewrite B. exists s. destruct Bo as [Bo|(b' & H & H')]; [congruence|].
    rewrite H. split; [congruence|]. split; [exact G|]. split; [apply keep2_refl|]. split; [right; eauto|reflexivity].
  - destruct (setup_basis_good None s G Bo Hl) as (s' & E & G' & K & Bo' & L' & Q).
    exists s'. unfold mbind at 1. rewrite E. cbn [loss_after] in *.
    destruct (KB (inf_loss s)) as [b|e]; cbn [bind].
    + unfold mbind, get. rewrite (Q b eq_refl). auto.
    + auto.
Qed.

Lemma kl_basis_some s b s' : Session.kl_basis _ _ _ L s = (Ok b, s') -> basis s' = Some b.
Proof.
  unfold Session.kl_basis, mbind, get, ret, raise.
  match goal with |- match ?x with _ => _ end = _ -> _ => destruct x as [[u|e] s1]; [|discriminate] end.
  destruct (basis s1) as [b'|] eqn:B; [|discriminate]. intros H. injection H as <- <-. exact B.
Qed.

(** The coefficient fields. *)
Lemma kf_raise_all l e : 0 <= l -> KF l = Raise e -> forall l', 0 <= l' -> exists e', KF l' = Raise e'.
Proof.
  intros Hl H l' Hl'. destruct (KF l') as [f|e'] eqn:H'; [exfalso|eauto].
  unfold KF in H, H'. destruct (KB l') as [b'|] eqn:B'; [|discriminate].
  assert (Ke : exists e, KE = Ok e).
  { destruct KE as [e0|e0] eqn:Ke; [eauto|]. rewrite (kb_ke_raise _ _ Ke) in B'. discriminate. }
  destruct Ke as (e0 & Ke). destruct (kb_total e0 l Ke Hl) as (b & B). rewrite B in H. cbn [bind] in H, H'.
  rewrite Ke in H. cbn [bind] in H.
  destruct (Nat.eqb (length b) 1); [discriminate|].
  destruct (Nat.eqb_spec (length p) 0) as [Z|]; [|discriminate].
  destruct (Nat.eqb_spec (length b') 1) as [One|]; [|discriminate].
  destruct (eig_len e0 Ke) as (Le & c & Kc & N1 & ->).
  pose proof (kl_basis_length (eigh L) (smooth L) sh6 st l' c b' Kc B') as X. fold n in X.
  pose proof np. lia.
Qed.

Lemma kf_ok_kb l f : KF l = Ok f -> exists b, KB l = Ok b.
Proof. unfold KF. destruct (KB l) as [b|]; [eauto|discriminate]. Qed.

Definition loss_ok (s : state) := 0 <= inf_loss s.

(** The fields are those for a loss asked for earlier. *)
Definition fields_old (s : state) : Prop := fields s = None \/ exists l f, 0 <= l /\ KF l = Ok f.

Record keep3 (s s' : state) : Prop := {
  k3_zp : zp s' = zp s;
  k3_normal : normal s' = normal s;
  k3_shat : shat s' = shat s;
  k3_scomp : scomp s' = scomp s }.

Lemma keep3_refl s : keep3 s s.
Proof. now constructor. Qed.
Lemma keep3_trans a b c : keep3 a b -> keep3 b c -> keep3 a c.
Proof. intros [? ? ? ?] [? ? ? ?]. constructor; congruence. Qed.
Lemma keep2_keep3 a b : keep2 a b -> keep3 a b.
Proof. intros []. now constructor. Qed.

Lemma fields_good l upd0 s : good s -> basis_ok s -> fields_old s -> 0 <= loss_after l s ->
  (upd0 = true \/ fields_ok s) ->
  exists s', setup_kl_a_fields _ _ _ L l upd0 s = (bind (KF (loss_after l s)) (fun _ => Ok tt), s') /\
    good s' /\ keep3 s s' /\ basis_ok s' /\ fields_ok s' /\ inf_loss s' = loss_after l s /\
    (forall f, KF (loss_after l s) = Ok f -> fields s' = Some f).
Proof.
  intros G Bo Fo Hl Hu. unfold setup_kl_a_fields.
  destruct (match fields s with None => true | Some _ => false end || differs _ _ _ l s || upd0) eqn:T.
  - (* raising leaves no stale field *)
    assert (NoF : forall e, KF (loss_after l s) = Raise e -> fields s = None).
    { intros e H. destruct Fo as [Fo|(l0 & f0 & Hl0 & Fo)]; [exact Fo|exfalso].
      destruct (kf_raise_all _ _ Hl H l0 Hl0) as (e' & H'). congruence. }
    (* set up the basis *)
    assert (Pre : exists s1, (match l with
             | Some l => mbind _ _ _ (setup_kl_basis _ _ _ L (Some l)) (fun _ => upd _ _ _ (set_inf_loss _ _ _ l))
             | None => ret _ _ _ tt
             end) s = (match l with Some _ => bind (KB (loss_after l s)) (fun _ => Ok tt) | None => Ok tt end, s1) /\
        good s1 /\ keep2 s s1 /\ basis_ok s1 /\ inf_loss s1 = loss_after l s).
    { destruct l as [l|].
      - destruct (setup_basis_good (Some l) s G Bo Hl) as (s1 & E & G1 & K1 & Bo1 & L1 & Q1).
        cbn [loss_after] in *. unfold mbind. rewrite E. destruct (KB l) as [b|e]; cbn [bind].
        + unfold upd. eexists. split; [reflexivity|].
          assert (X : set_inf_loss _ _ _ l s1 = s1) by (rewrite <- L1; destruct s1; reflexivity).
          rewrite X. auto.
        + exists s1. auto.
      - exists s. split; [reflexivity|]. split; [exact G|]. split; [apply keep2_refl|]. auto. }
    destruct Pre as (s1 & E & G1 & K1 & Bo1 & L1). unfold mbind at 1. rewrite E.
    destruct (KB (loss_after l s)) as [b|e] eqn:B.
    + replace (match l with Some _ => bind (Ok b) (fun _ => Ok tt) | None => Ok tt end) with (Ok (A:=unit) tt)
        by (destruct l; reflexivity).
      destruct (kl_basis_good s1 G1 Bo1) as (s2 & E2 & G2 & K2 & Bo2 & L2); [lra|].
      pose proof E2 as E2'. rewrite L1, B in E2'. apply kl_basis_some in E2'.
      assert (R2 : ready s2) by (apply good_ready; [exact G2|congruence]).
      unfold mbind at 1. rewrite E2, L1, B. cbn zeta.
      assert (KF0 : KF (loss_after l s) = if Nat.eqb (length b) 1 then Ok NoField
          else if Nat.eqb (length p) 0 then Raise IndexError
          else bind KE (fun e => Ok (Fields (map (fun k => fit L p (measures n (snd e) k)) (seq 0 (length b)))))).
      { unfold KF. now rewrite B. }
      destruct (Nat.eqb (length b) 1) eqn:One.
      * rewrite KF0. cbn [bind]. unfold upd. eexists. split; [reflexivity|].
        split; [right; destruct R2; now constructor|].
        split; [destruct K1, K2; constructor; cbn; congruence|].
        split; [destruct Bo2 as [Bo2|(b2 & ? & ?)]; [left|right; exists b2]; cbn; auto|].
        split; [right; exists NoField; cbn; rewrite L2, L1, KF0; auto|].
        split; [cbn; congruence|]. intros f H. injection H as <-. reflexivity.
      * destruct (best_good s2 G2) as (c & s3 & E3 & G3 & K3 & _). unfold mbind at 1. rewrite E3.
        destruct (stamps_good s3 G3) as (s4 & E4 & R4 & K4). unfold mbind at 1. rewrite E4.
        assert (K14 : keep2 s s4).
        { eapply keep2_trans; [exact K1|]. eapply keep2_trans; [exact K2|].
          eapply keep2_trans; apply keep_keep2; eassumption. }
        assert (Bo4 : basis_ok s4) by (eapply basis_ok_keep; [exact K4|]; eapply basis_ok_keep; eassumption).
        assert (L4 : inf_loss s4 = loss_after l s) by (rewrite (k_loss _ _ K4), (k_loss _ _ K3); congruence).
        destruct (Nat.eqb (length p) 0) eqn:P0.
        -- unfold raise. exists s4. rewrite KF0. cbn [bind]. split; [reflexivity|]. split; [now right|].
           split; [now apply keep2_keep3|]. split; [exact Bo4|].
           split; [left; rewrite (k2_fields _ _ K14); apply (NoF _ KF0)|]. split; [exact L4|discriminate].
        -- destruct (eig_good s4 (or_intror R4)) as (s5 & E5 & R5 & K5 & Q5). unfold mbind at 1. rewrite E5.
           destruct KE as [e|e] eqn:Ke; [|rewrite (kb_ke_raise _ _ Ke) in B; discriminate].
           cbn zeta. destruct (eig_len e Ke) as (Le & _). rewrite Le, <- np, Nat.eqb_refl.
           cbn [negb]. rewrite andb_false_r. unfold upd.
           rewrite KF0. cbn [bind]. eexists. split; [reflexivity|].
           split; [right; destruct R5; now constructor|].
           split; [destruct K14, K5; constructor; cbn; congruence|].
           split; [apply (basis_ok_keep _ _ K5) in Bo4; destruct Bo4 as [?|(b5 & ? & ?)]; [left|right; exists b5]; cbn; auto|].
           split; [right; eexists; split; [|reflexivity]; cbn; rewrite (k_loss _ _ K5), L4, KF0; reflexivity|].
           split; [cbn; rewrite (k_loss _ _ K5); exact L4|]. intros f H. injection H as <-. reflexivity.
    + assert (KF0 : KF (loss_after l s) = Raise e) by (unfold KF; now rewrite B).
      rewrite KF0. cbn [bind].
      assert (Nof1 : fields s1 = None) by (rewrite (k2_fields _ _ K1); exact (NoF _ KF0)).
      destruct l as [l|].
      * cbn [bind]. exists s1. split; [reflexivity|]. split; [exact G1|]. split; [now apply keep2_keep3|].
        split; [exact Bo1|]. split; [now left|]. split; [exact L1|discriminate].
      * destruct (kl_basis_good s1 G1 Bo1) as (s2 & E2 & G2 & K2 & Bo2 & L2); [lra|].
        unfold mbind at 1. rewrite E2, L1, B. exists s2. split; [reflexivity|]. split; [exact G2|].
        split; [apply keep2_keep3; eapply keep2_trans; eassumption|]. split; [exact Bo2|].
        split; [left; rewrite (k2_fields _ _ K2); exact Nof1|]. split; [congruence|discriminate].
  - apply orb_false_elim in T. destruct T as [T T3]. apply orb_false_elim in T. destruct T as [T1 T2].
    rewrite (differs_false _ _ T2) in *. exists s.
    destruct Hu as [Hu|[Hu|(f & H & H')]]; [congruence|rewrite Hu in T1; discriminate|].
    rewrite H. cbn [bind]. split; [reflexivity|]. split; [exact G|]. split; [apply keep3_refl|].
    split; [exact Bo|]. split; [right; eauto|]. split; [reflexivity|congruence].
Qed.

Lemma fields_ok_old s : 0 <= inf_loss s -> fields_ok s -> fields_old s.
Proof. intros Hl [H|(f & H & _)]; [now left|right; eauto]. Qed.

Lemma afields_good s : good s -> basis_ok s -> fields_ok s -> 0 <= inf_loss s ->
  exists s', kl_afields _ _ _ L s = (KF (inf_loss s), s') /\
    good s' /\ keep3 s s' /\ basis_ok s' /\ fields_ok s' /\ inf_loss s' = inf_loss s.
Proof.
  intros G Bo Fo Hl. unfold kl_afields. destruct (fields s) as [f|] eqn:F.
  - unfold mbind, ret, get. rewrite F. exists s. destruct Fo as [Fo|(f' & H & H')]; [congruence|].
    rewrite H. split; [congruence|]. split; [exact G|]. split; [apply keep3_refl|]. split; [exact Bo|].
    split; [right; eauto|reflexivity].
  - destruct (fields_good None false s G Bo (fields_ok_old _ Hl Fo) Hl (or_intror Fo))
      as (s' & E & G' & K & Bo' & Fo' & L' & Q).
    exists s'. unfold mbind at 1. rewrite E. cbn [loss_after] in *.
    destruct (KF (inf_loss s)) as [f|e]; cbn [bind].
    + unfold mbind, get. rewrite (Q f eq_refl). auto 6.
    + auto 6.
Qed.

Lemma kf_shape l b f : KB l = Ok b -> KF l = Ok f ->
  match f with NoField => exists q, b = [q] | Fields fs => length fs = length b /\ b <> [] end.
Proof.
  intros B H. unfold KF in H. rewrite B in H. cbn [bind] in H.
  destruct (Nat.eqb_spec (length b) 1) as [One|].
  - injection H as <-. destruct b as [|q [|]]; try discriminate. eauto.
  - destruct (Nat.eqb_spec (length p) 0) as [|P0]; [discriminate|].
    destruct KE; [|discriminate]. injection H as <-. rewrite map_length, seq_length. split; [reflexivity|].
    eapply kb_length; [exact B|]. pose proof np. lia.
Qed.

(** get_variable_psf without a shape. *)
Lemma psf_good_gen l s : good s -> basis_ok s -> fields_ok s -> fields s = None \/ 0 <= inf_loss s -> 0 <= loss_after l s ->
  exists s', get_variable_psf _ _ _ L l None s = (KP (loss_after l s), s') /\
    good s' /\ keep3 s s' /\ basis_ok s' /\ fields_ok s' /\ inf_loss s' = loss_after l s.
Proof.
  intros G Bo Fo Hs Hl. unfold get_variable_psf. unfold mbind at 1. unfold ret at 1.
  unfold mbind at 1. unfold get at 1. cbn zeta.
  destruct (setup_basis_good l s G Bo Hl) as (s1 & E1 & G1 & K1 & Bo1 & L1 & Q1).
  unfold mbind at 1. rewrite E1. unfold KP.
  assert (Fo1 : fields_old s1).
  { destruct Fo as [Fo|(f & H & H')]; [left; rewrite (k2_fields _ _ K1); exact Fo|].
    right. destruct Hs as [Hs|Hs]; [congruence|]. eauto. }
  assert (Hl1 : loss_after l s1 = loss_after l s) by (destruct l; [reflexivity|exact L1]).
  destruct (KB (loss_after l s)) as [b|e] eqn:B; cbn [bind].
  2:{ exists s1. split; [reflexivity|]. split; [exact G1|]. split; [now apply keep2_keep3|]. split; [exact Bo1|].
      split; [|exact L1]. left. rewrite (k2_fields _ _ K1). destruct Fo as [Fo|(f & H & H')]; [exact Fo|exfalso].
      destruct Hs as [Hs|Hs]; [congruence|].
      destruct (kf_raise_all (loss_after l s) e Hl) with (l' := inf_loss s) as (e' & H''); [unfold KF; now rewrite B|exact Hs|].
      congruence. }
  assert (Hu : differs _ _ _ l s = true \/ fields_ok s1).
  { destruct (differs _ _ _ l s) eqn:D; [now left|right]. apply differs_false in D.
    destruct Fo as [Fo|(f & H & H')]; [left|right; exists f]; rewrite (k2_fields _ _ K1); [exact Fo|].
    split; [congruence|exact H']. }
  destruct (fields_good l (differs _ _ _ l s) s1 G1 Bo1 Fo1) as (s2 & E2 & G2 & K2 & Bo2 & Fo2 & L2 & Q2);
    [lra|exact Hu|].
  unfold mbind at 1. rewrite E2, Hl1. rewrite Hl1 in L2, Q2.
  assert (K12 : keep3 s s2) by (eapply keep3_trans; [apply keep2_keep3; exact K1|exact K2]).
  destruct (KF (loss_after l s)) as [f|e] eqn:F; cbn [bind].
  2:{ exists s2. auto 6. }
  destruct (afields_good s2 G2 Bo2 Fo2) as (s3 & E3 & G3 & K3 & Bo3 & Fo3 & L3); [lra|].
  unfold mbind at 1. rewrite E3, L2, F.
  destruct (kl_basis_good s3 G3 Bo3) as (s4 & E4 & G4 & K4 & Bo4 & L4); [lra|].
  pose proof E4 as E4'. rewrite L3, L2, B in E4'. apply kl_basis_some in E4'.
  assert (R4 : ready s4) by (apply good_ready; [exact G4|congruence]).
  unfold mbind at 1. rewrite E4, L3, L2, B.
  assert (Fo4 : fields_ok s4).
  { destruct Fo3 as [Fo3|(f3 & ? & ?)]; [left|right; exists f3]; rewrite (k2_fields _ _ K4); [exact Fo3|].
    rewrite L4. auto. }
  assert (K14 : keep3 s s4).
  { eapply keep3_trans; [exact K12|]. eapply keep3_trans; [exact K3|]. now apply keep2_keep3. }
  assert (L4' : inf_loss s4 = loss_after l s) by congruence.
  pose proof (kf_shape _ _ _ B F) as Sh. destruct f as [|fs].
  - destruct Sh as (q & ->). unfold mbind, upd, ret. rewrite (kb_single _ _ q B eq_refl).
    eexists. split; [reflexivity|]. split; [right; destruct R4; now constructor|].
    split; [destruct K14; now constructor|]. split; [right; exists [q]; cbn; rewrite L4'; auto|].
    split; [|exact L4'].
    destruct Fo4 as [Fo4|(f4 & ? & ?)]; [left; exact Fo4|right; exists f4; cbn; auto].
  - destruct Sh as (Len & Ne). destruct fs as [|f1 ft]; [destruct b; [contradiction|discriminate]|].
    unfold ret. exists s4. auto 7.
Qed.

Lemma psf_good l s : good s -> basis_ok s -> fields_ok s -> 0 <= inf_loss s -> 0 <= loss_after l s ->
  exists s', get_variable_psf _ _ _ L l None s = (KP (loss_after l s), s') /\
    good s' /\ keep3 s s' /\ basis_ok s' /\ fields_ok s' /\ inf_loss s' = loss_after l s.
Proof. intros G B F Hs. apply psf_good_gen; auto. Qed.

End Good.
End Inv.
