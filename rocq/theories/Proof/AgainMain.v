(** Coadding the same images again: the statements. *)
From Coq Require Import ZArith List Bool Arith Reals Lia Lra Permutation.
From Coquelicot Require Import Complex.
From Verif.Model Require Import Py Plane Ma Coadd.
From Verif.Spec Require Import Coadd.
From Verif.Proof Require Import Coadd CoaddThreads CoaddMain CoaddMore.
From Verif.Model Require Import Filter.
From Verif.Proof Require Import Filter FilterMain.
From Verif.Model Require Import Interp Subtract Filter Sources Stamps Transparency KL Session Chain ChainCoadd Again.
From Verif.Spec Require Import Transparency Session Uses UsesCoadd Again.
From Verif.Proof Require Import Transparency TransparencyMain TransparencyAgain.
From Verif.Proof Require Import Session SessionBad SessionHist SessionMain SessionFrame SessionLm Chain ChainUnits Uses UsesCoadd UsesCoaddMain Again.
Import ListNotations.
Local Open Scope R_scope.
Set Bullet Behavior "Strict Subproofs".

(** A first coadd extracts the stamps. *)
Lemma coadd_pos NI FT IM (L : lib NI FT IM) sh s0 cs left loss z sp q :
  new_image L sh s0 -> stamps_of _ _ _ L sh = Ok sp -> Forall plain cs ->
  psf_for (if stamps_read (looked_at s0) cs then L else given L left) sh loss = Ok q ->
  pos (exec L (CCoadd loss z) (set_best _ _ _ (Some left) (exec_all L cs s0))) <> None.
Proof.
  intros Hn Hsp Hp Q. destruct (selected _ _ _ L sh sp Hsp) as (cat1 & st1 & p1 & k1 & Hs1 & He1).
  pose proof (virgin_all _ _ _ L sh cat1 st1 p1 k1 Hs1 He1 cs (looked_at s0) s0 Hp ltac:(eapply first_virgin; eassumption)) as X.
  destruct (stamps_read (looked_at s0) cs) eqn:Sr.
  - exact (hp_exec_all NI FT IM L [CCoadd loss z] (set_best _ _ _ (Some left) (exec_all L cs s0)) X).
  - destruct X as (lk & (z0 & Ez) & _). rewrite Ez.
    assert (B1 : best (set_best NI FT IM (Some left) (set_zp NI FT IM (Some z0) (fresh NI FT IM sh (if lk then Some cat1 else None)))) <> None)
      by discriminate.
    destruct (same_exec NI FT IM L left (CCoadd loss z) _ I B1) as [-> _].
    assert (Sel : exists st p k, extract (given L left) sh left = (st, Ok (p, k))).
    { unfold psf_for, stamps_of in Q. cbn [select given] in Q.
      destruct (extract (given L left) sh left) as [st [[p k]|]] eqn:E; [|discriminate]. eauto 8. }
    destruct Sel as (st & p & k & He2).
    exact (takes_fields NI FT IM (given L left) sh left st p k eq_refl He2 (Some loss) false (Some z) (2 / 10) true).
Qed.

(** What an image is between coadds. *)
Definition held_ok (u : built * list call) (h : held) : Prop :=
  let x := fst u in let sh := stamp_shape (bu_attr x) in
  h = mkheld (after (snd u) x) None \/
  exists s c Lp m l q, h = mkheld (with_attr s x) (Some c) /\ (Lp = bu_lib x \/ exists left, Lp = given (bu_lib x) left) /\
    usable sh Lp s m /\ psf_for Lp sh l = Ok q.

Definition good_head (hs : list held) : Prop :=
  match hs with h :: _ => match h_cat h with Some c => good_ids c | None => True end | [] => True end.

(** An image in a coadd. *)
Lemma step_image W fuel shp u h l left z s v : (forall n c, length (fst (l_eigh W n c)) = n) -> in_use W fuel shp u -> held_ok u h -> 0 <= l ->
  setup_kl_a_fields _ _ _ (bu_lib (h_img h)) (Some l) false (set_zp _ _ _ (Some z) (bu_attr (with_best left (h_img h)))) = (Ok tt, s) ->
  coadd_seen (with_attr s (with_best left (h_img h))) = Ok v ->
  let x := fst u in let sh := stamp_shape (bu_attr x) in
  with_attr s (with_best left (h_img h)) = with_attr s x /\
  exists Lp m q, (Lp = bu_lib x \/ exists left, Lp = given (bu_lib x) left) /\
    usable sh Lp s m /\ m_loss m = l /\ m_zp m = z /\ psf_for Lp sh l = Ok q.
Proof.
  intros EL ((o & d & Bx) & S1 & S2 & (sp & Hsp) & Fp) Ho Hl Es E x sh.
  destruct Ho as [->|(s0 & c & Lp & m & l0 & q0 & -> & HLp & U & Q0)].
  - cbn [h_img] in *. fold x in Es, E |- *.
    change (with_attr s (with_best left (after (snd u) x))) with (with_attr s x) in *. split; [reflexivity|].
    destruct (build_lib _ _ _ _ _ Bx) as (Dx & Lx & sh' & N & Sh). fold x in Dx, Lx, N, Sh. fold sh in Sh. subst sh'.
    assert (O : lib_ok (bu_lib x)) by (rewrite Lx; now apply lib_of_ok).
    assert (Es' : s = exec (bu_lib x) (CCoadd l z) (set_best _ _ _ (Some left) (exec_all (bu_lib x) (snd u) (bu_attr x)))).
    { cbn [exec]. change (set_best _ _ _ (Some left) (exec_all (bu_lib x) (snd u) (bu_attr x))) with (bu_attr (with_best left (after (snd u) x))).
      unfold void. change (bu_lib (after (snd u) x)) with (bu_lib x) in Es. now rewrite Es. }
    destruct (coadd_reached _ _ _ (bu_lib x) sh (bu_attr x) (snd u) left l z sp O N Hsp Fp Hl) as (m & Rd & Bn & _ & Ml & Mz).
    pose proof (coadd_filter _ _ _ (bu_lib x) sh (bu_attr x) (snd u) left l z sp O N Hsp Fp Hl) as Hf.
    rewrite <- Es' in Rd, Bn, Hf.
    set (L' := if stamps_read (looked_at (bu_attr x)) (snd u) then bu_lib x else given (bu_lib x) left) in *.
    assert (exists q, psf_for L' sh l = Ok q) as [q Q].
    { unfold coadd_seen in E. change (bu_lib (with_attr s x)) with (bu_lib x) in E. change (bu_attr (with_attr s x)) with s in E.
      destruct (s_hat_comp (bu_lib x) s) as [rh s2]. cbn [fst] in Hf. subst rh. unfold filt_for in E.
      destruct (psf_for L' sh l) as [q|]; [eauto|discriminate]. }
    exists L', m, q. split; [unfold L'; destruct (stamps_read _ _); eauto|]. split; [|auto].
    split; [exact Rd|]. split; [exact Bn|]. rewrite Es'. now apply (coadd_pos _ _ _ (bu_lib x) sh (bu_attr x) (snd u) left l z sp q).
  - cbn [h_img] in *. fold x in Es, E, HLp, U, Q0 |- *. fold sh in U, Q0.
    change (with_attr s (with_best left (with_attr s0 x))) with (with_attr s x) in *. split; [reflexivity|].
    change (bu_lib (with_attr s0 x)) with (bu_lib x) in Es.
    change (bu_attr (with_best left (with_attr s0 x))) with (set_best _ _ _ (Some left) s0) in Es.
    pose proof (usable_best sh Lp s0 m left U) as U1.
    pose proof (usable_exec x sh Lp HLp (CCoadd l z) _ _ Hl I U1) as U2. cbn [exec] in U2. unfold void in U2. rewrite Es in U2. cbn [snd] in U2.
    destruct (seen_psf x sh Lp HLp s _ v U2 E) as [q Q].
    exists Lp, (recall (CCoadd l z) m), q. split; [exact HLp|]. split; [exact U2|]. split; [reflexivity|]. split; [reflexivity|exact Q].
Qed.

(** The parts of a coadd. *)
Definition seats (hs : list held) (t : outcome) : list built :=
  map (fun xc => with_best (map src_of (rows (snd xc))) (h_img (fst xc))) (combine hs (mcat t :: cats t)).

Record parts (W : libs) (l : R) (hs : list held) (cs : list cat) (t : outcome) (ws : list built) (vs : list simg) (hs1 : list held) : Prop := {
  p_cs : mapM catalogue_of hs = Ok cs;
  p_t : transparency (l_query W) (l_sort W) (l_lsqr W) cs None = Ok t;
  p_ws : set_up l (seats hs t) (zps t) = Ok ws;
  p_vs : mapM coadd_seen ws = Ok vs;
  p_hs1 : hs1 = map leave (combine ws (mcat t :: cats t)) }.

Lemma run_parts W f s l n hs r hs1 : coadd_run W f s l n hs = Some (Ok (r, hs1)) ->
  hs <> [] /\ exists cs t ws vs, parts W l hs cs t ws vs hs1 /\
    coadd_core f s (fun k => nth k vs blank) (seq 0 (length vs)) n = Some (Ok r).
Proof.
  intros E. unfold coadd_run in E. destruct hs as [|h hs]; [discriminate|]. split; [discriminate|].
  destruct (bind _ _) as [[vs hs']|] eqn:Ev; [|discriminate].
  destruct (mapM catalogue_of (h :: hs)) as [cs|] eqn:Ec; [|discriminate]. cbn [bind] in Ev.
  destruct (transparency _ _ _ _ _) as [t|] eqn:Et; [|discriminate]. cbn [bind] in Ev. cbv zeta in Ev.
  destruct (set_up _ _ _) as [ws|] eqn:Ew; [|discriminate]. cbn [bind] in Ev.
  destruct (mapM coadd_seen ws) as [vs'|] eqn:Evs; [|discriminate]. cbn [bind] in Ev. injection Ev as -> <-.
  destruct (coadd_core _ _ _ _ _) as [[r'|]|] eqn:Ek; try discriminate. injection E as -> <-.
  exists cs, t, ws, vs. split; [|exact Ek]. constructor; auto.
Qed.

Lemma parts_run W f s l n hs cs t ws vs hs1 : hs <> [] -> parts W l hs cs t ws vs hs1 ->
  answer (coadd_run W f s l n hs) = coadd_core f s (fun k => nth k vs blank) (seq 0 (length vs)) n.
Proof.
  intros Hne [Ec Et Ew Ev ->]. unfold coadd_run. destruct hs as [|h hs]; [congruence|]. rewrite Ec. cbn [bind]. rewrite Et. cbn [bind].
  cbv zeta. fold (seats (h :: hs) t). rewrite Ew. cbn [bind]. rewrite Ev. cbn [bind].
  destruct (coadd_core _ _ _ _ _) as [[r|]|]; reflexivity.
Qed.

Lemma nth_combine {A B} (l : list A) (l' : list B) k a b : nth_error l k = Some a -> nth_error l' k = Some b -> nth_error (combine l l') k = Some (a, b).
Proof.
  revert l' k. induction l as [|x l IH]; intros [|y l'] [|k]; cbn; try discriminate; [congruence|apply IH].
Qed.

Lemma nth_length {A B} (l : list A) (l' : list B) k a : length l = length l' -> nth_error l k = Some a -> exists b, nth_error l' k = Some b.
Proof.
  intros E H. destruct (nth_error l' k) eqn:X; [eauto|]. apply nth_error_None in X.
  assert (nth_error l k <> None) by congruence. apply nth_error_Some in H0. lia.
Qed.

(** The catalogues that the matching of a coadd leaves. *)
Lemma matched_again query sort_cat lsqr cs t : (forall l, Permutation (sort_cat l) l) ->
  match cs with a :: _ => good_ids a | [] => True end ->
  transparency query sort_cat lsqr cs None = Ok t ->
  length (mcat t :: cats t) = length cs /\ good_ids (mcat t) /\
  (forall k c c', nth_error cs k = Some c -> nth_error (mcat t :: cats t) k = Some c' -> same_sources c c' /\ (k = 0%nat -> map place (rows c') = map place (rows c))).
Proof.
  intros SP G E. destruct cs as [|a bs]; [discriminate|]. destruct (run_leaves query sort_cat SP lsqr a bs t G E) as (A & B & F).
  destruct (Forall2_nth _ _ _ F) as [Ln H]. split; [cbn; now rewrite Ln|]. split; [exact B|].
  intros [|k] c c' Ec Ec'; cbn in Ec, Ec'.
  - injection Ec as <-. injection Ec' as <-. split; [|now intros]. unfold same_sources. rewrite A. apply Permutation_refl.
  - destruct (H k c Ec) as (c2 & X & Y). rewrite Ec' in X. injection X as <-. split; [exact Y|discriminate].
Qed.

(** A coadd, image by image. *)
Lemma parts_at W fuel shp us l hs cs t ws vs hs1 : (forall n c, length (fst (l_eigh W n c)) = n) -> (forall r, Permutation (l_sort W r) r) ->
  Forall (in_use W fuel shp) us -> 0 <= l -> Forall2 held_ok us hs -> good_head hs -> parts W l hs cs t ws vs hs1 ->
  length cs = length us /\ length (mcat t :: cats t) = length us /\ length vs = length us /\ length hs1 = length us /\
  good_ids (mcat t) /\
  forall k u h, nth_error us k = Some u -> nth_error hs k = Some h ->
    let x := fst u in let sh := stamp_shape (bu_attr x) in
    exists c0 c1 z s v Lp m q, nth_error cs k = Some c0 /\ catalogue_of h = Ok c0 /\ nth_error (mcat t :: cats t) k = Some c1 /\
      same_sources c0 c1 /\ (k = 0%nat -> map place (rows c1) = map place (rows c0)) /\
      nth_error (zps t) k = Some z /\ nth_error vs k = Some v /\ coadd_seen (with_attr s x) = Ok v /\
      nth_error hs1 k = Some (leave (with_attr s x, c1)) /\
      setup_kl_a_fields _ _ _ (bu_lib (h_img h)) (Some l) false (set_zp _ _ _ (Some z) (bu_attr (with_best (map src_of (rows c1)) (h_img h)))) = (Ok tt, s) /\
      (Lp = bu_lib x \/ exists left, Lp = given (bu_lib x) left) /\
      usable sh Lp s m /\ m_loss m = l /\ m_zp m = z /\ psf_for Lp sh l = Ok q.
Proof.
  intros EL SP Hu Hl Hh Gh [Ec Et Ew Ev ->]. destruct (Forall2_nth _ _ _ Hh) as [Lh _].
  destruct (mapM_nth _ _ _ Ec) as [Lc Hc]. destruct (set_up_nth _ _ _ _ Ew) as [Lw Hw]. destruct (mapM_nth _ _ _ Ev) as [Lv Hv].
  assert (G : match cs with a :: _ => good_ids a | [] => True end).
  { destruct cs as [|a cs]; [exact I|]. destruct hs as [|h hs]; [discriminate|]. destruct (Hc 0%nat h eq_refl) as (c & Cc & X).
    cbn in X. injection X as <-. cbn [good_head] in Gh. unfold catalogue_of in Cc. destruct (h_cat h) as [c|]; [injection Cc as <-; exact Gh|].
    destruct (fst _) as [l1|]; [|discriminate]. cbn [bind] in Cc. injection Cc as <-. now left. }
  destruct (matched_again _ _ _ _ _ SP G Et) as (Lm & Gm & Hm).
  assert (Ly : length (seats hs t) = length us).
  { unfold seats. rewrite map_length, combine_length, Lm, Lc. lia. }
  split; [lia|]. split; [lia|]. split; [lia|]. split; [rewrite map_length, combine_length; lia|]. split; [exact Gm|].
  intros k u h Ku Kh x sh. destruct (Hc k h Kh) as (c0 & Cc & K0). destruct (nth_length _ _ k c0 (eq_sym Lm) K0) as [c1 K1].
  destruct (Hm k c0 c1 K0 K1) as [Ss Sp].
  assert (Ky : nth_error (seats hs t) k = Some (with_best (map src_of (rows c1)) (h_img h))).
  { unfold seats. apply (map_nth_error (fun xc => with_best (map src_of (rows (snd xc))) (h_img (fst xc))) k _ (d := (h, c1))). now apply nth_combine. }
  destruct (Hw k _ Ky) as (z & s & Kz & Es & Kw). destruct (Hv k _ Kw) as (v & Sv & Kv).
  pose proof (proj1 (Forall_forall _ _) Hu _ (nth_error_In _ _ Ku)) as Iu.
  assert (Ho : held_ok u h).
  { destruct (Forall2_nth _ _ _ Hh) as [_ X]. destruct (X k u Ku) as (h' & Y & Z). congruence. }
  destruct (step_image W fuel shp u h l _ z s v EL Iu Ho Hl Es Sv) as (Ew' & Lp & m & q & HLp & U & Ml & Mz & Q). fold x in Ew', HLp, U, Q. fold sh in U, Q.
  exists c0, c1, z, s, v, Lp, m, q. rewrite Ew' in Sv, Kw.
  repeat (split; [assumption|]). split; [|split; [exact Es|auto]].
  apply (map_nth_error leave k _ (d := (with_attr s x, c1))). now apply nth_combine.
Qed.

Lemma keep_in l : forall kept r, In r (keep_rows l kept) -> In r l.
Proof.
  induction l as [|a l IH]; intros [|s kept] r H; cbn in *; try contradiction. destruct (is_source a s); [destruct H as [<-|H]; eauto|eauto].
Qed.

Lemma keep_nodup l : forall kept, NoDup (map r_id l) -> NoDup (map r_id (keep_rows l kept)).
Proof.
  induction l as [|a l IH]; intros [|s kept] H; cbn; try constructor. cbn in H. inversion H as [|? ? N D]; subst.
  destruct (is_source a s); [|now apply IH]. cbn. constructor; [|now apply IH].
  intros X. apply N. apply in_map_iff in X as (r & <- & Ir). apply in_map. now apply (keep_in l kept).
Qed.

Lemma keep_length l : forall kept, (length (keep_rows l kept) <= length l)%nat.
Proof.
  induction l as [|a l IH]; intros [|s kept]; cbn; try lia. destruct (is_source a s); cbn; [specialize (IH kept)|specialize (IH (s :: kept))]; lia.
Qed.

Lemma keep_all l : forall kept, length (keep_rows l kept) = length l -> keep_rows l kept = l.
Proof.
  induction l as [|a l IH]; intros [|s kept] H; cbn in *; try reflexivity; [discriminate|].
  destruct (is_source a s); [f_equal; apply IH; cbn in H; lia|]. pose proof (keep_length l (s :: kept)). lia.
Qed.

Lemma is_source_of r : is_source r (src_of r) = true.
Proof. unfold is_source. cbn. destruct (Req_EM_T _ _); [|congruence]. destruct (Req_EM_T _ _); [|congruence]. destruct (Req_EM_T _ _); [|congruence]. reflexivity. Qed.

Lemma keep_self l : keep_rows l (map src_of l) = l.
Proof. induction l as [|r l IH]; [reflexivity|]. cbn. now rewrite is_source_of, IH. Qed.

Lemma keep_good h d l kept : good_ids (mkcat h d l) -> good_ids (mkcat h d (keep_rows l kept)).
Proof.
  intros [A|[A B]]; [now left|]. right. cbn [rows] in *. split; [now apply keep_nodup|].
  intros X. apply B. apply in_map_iff in X as (r & <- & Ir). apply in_map. now apply (keep_in l kept).
Qed.

(** The images stay usable. *)
Lemma parts_leave W fuel shp us l hs cs t ws vs hs1 : (forall n c, length (fst (l_eigh W n c)) = n) -> (forall r, Permutation (l_sort W r) r) ->
  Forall (in_use W fuel shp) us -> 0 <= l -> Forall2 held_ok us hs -> good_head hs -> parts W l hs cs t ws vs hs1 ->
  Forall2 held_ok us hs1 /\ good_head hs1 /\ Forall (fun h => h_cat h <> None) hs1.
Proof.
  intros EL SP Hu Hl Hh Gh Pa. destruct (parts_at _ _ _ _ _ _ _ _ _ _ _ EL SP Hu Hl Hh Gh Pa) as (Lc & Lm & Lv & L1 & Gm & H).
  destruct (Forall2_nth _ _ _ Hh) as [Lh _]. split; [|split].
  - apply Forall2_nth_error; [now symmetry|]. intros k u h1 Ku K1. destruct (nth_length _ hs k u Lh Ku) as [h Kh].
    destruct (H k u h Ku Kh) as (c0 & c1 & z & s & v & Lp & m & q & A1 & A2 & A3 & A4 & A5 & A6 & A7 & A8 & A9 & A10 & A11 & A12 & A13 & A14 & A15).
    rewrite A9 in K1. injection K1 as <-. right. cbn zeta.
    pose proof (usable_exec (fst u) _ Lp A11 CSHat s m I I A12) as X1. pose proof (usable_exec (fst u) _ Lp A11 CBasis _ _ I I X1) as X2.
    pose proof (usable_exec (fst u) _ Lp A11 CAfields _ _ I I X2) as X3.
    eexists _, _, Lp, _, l, q. split; [reflexivity|]. split; [exact A11|]. split; [exact X3|exact A15].
  - destruct us as [|u us]; [destruct hs1; [exact I|discriminate]|]. destruct hs as [|h hs]; [discriminate|].
    destruct (H 0%nat u h eq_refl eq_refl) as (c0 & c1 & z & s & v & Lp & m & q & A1 & A2 & A3 & A4 & A5 & A6 & A7 & A8 & A9 & A10 & _).
    destruct hs1 as [|h1 hs1]; [discriminate|]. cbn [nth_error] in A9, A3. injection A9 as ->. injection A3 as <-. unfold good_head, leave. cbn [h_cat snd fst].
    apply keep_good. destruct (mcat t). exact Gm.
  - destruct Pa as [_ _ _ _ ->]. clear. induction (combine ws (mcat t :: cats t)); constructor; [discriminate|assumption].
Qed.

Lemma held_first us : Forall2 held_ok us (map (fun u => mkheld (after (snd u) (fst u)) None) us) /\
  good_head (map (fun u => mkheld (after (snd u) (fst u)) None) us).
Proof.
  split; [induction us; constructor; [now left|assumption]|]. destruct us; exact I.
Qed.

Lemma coadds_leave W fuel shp us jobs : forall hs hs', (forall n c, length (fst (l_eigh W n c)) = n) -> (forall r, Permutation (l_sort W r) r) ->
  Forall (in_use W fuel shp) us -> Forall (fun j => 0 <= snd (fst j)) jobs -> Forall2 held_ok us hs -> good_head hs ->
  coadds W jobs hs = Some (Ok hs') -> Forall2 held_ok us hs' /\ good_head hs' /\ (jobs <> [] -> Forall (fun h => h_cat h <> None) hs').
Proof.
  induction jobs as [|[[[f s] l] n] jobs IH]; intros hs hs' EL SP Hu Hj Hh Gh E.
  - injection E as <-. repeat split; auto. congruence.
  - cbn [coadds] in E. destruct (coadd_run W f s l n hs) as [[[r hs1]|]|] eqn:Er; try discriminate.
    inversion Hj as [|? ? Hl Hj']; subst. cbn [fst snd] in Hl. destruct (run_parts _ _ _ _ _ _ _ _ Er) as (Hne & cs & t & ws & vs & Pa & _).
    destruct (parts_leave _ _ _ _ _ _ _ _ _ _ _ EL SP Hu Hl Hh Gh Pa) as (A & B & D).
    destruct (IH hs1 hs' EL SP Hu Hj' A B E) as (A' & B' & D'). split; [exact A'|]. split; [exact B'|]. intros _.
    destruct jobs as [|j jobs]; [injection E as <-; exact D|]. apply D'. discriminate.
Qed.

Lemma set_up_seen l : forall ys zs vs, length ys = length vs ->
  (forall k y, nth_error ys k = Some y -> exists z v, nth_error zs k = Some z /\ nth_error vs k = Some v /\
     let r := setup_kl_a_fields _ _ _ (bu_lib y) (Some l) false (set_zp _ _ _ (Some z) (bu_attr y)) in
     fst r = Ok tt /\ coadd_seen (with_attr (snd r) y) = Ok v) ->
  exists ws, set_up l ys zs = Ok ws /\ mapM coadd_seen ws = Ok vs.
Proof.
  induction ys as [|y ys IH]; intros zs [|v vs] Ln H; try discriminate; [exists []; split; reflexivity|].
  destruct (H 0%nat y eq_refl) as (z & v' & Kz & Kv & Er & Ev). destruct zs as [|z0 zs]; [discriminate|]. cbn in Kz, Kv.
  injection Kz as ->. injection Kv as <-. destruct (IH zs vs) as (ws & A & B); [now injection Ln|intros k y' K; exact (H (S k) y' K)|].
  cbn [set_up]. cbv zeta in Er, Ev. destruct (setup_kl_a_fields _ _ _ _ _ _ _) as [r s]. cbn [fst snd] in *. subst r. rewrite A. cbn [bind].
  eexists. split; [reflexivity|]. cbn [mapM]. rewrite Ev. cbn [bind]. now rewrite B.
Qed.

Lemma mapM_is {A B} (f : A -> res B) l r : length r = length l -> (forall k a, nth_error l k = Some a -> exists b, f a = Ok b /\ nth_error r k = Some b) -> mapM f l = Ok r.
Proof.
  revert r. induction l as [|a l IH]; intros [|b r] Ln H; try discriminate; [reflexivity|]. cbn [mapM].
  destruct (H 0%nat a eq_refl) as (b' & X & Y). cbn in Y. injection Y as <-. rewrite X. cbn [bind].
  rewrite (IH r); [reflexivity|now injection Ln|]. intros k a' K. exact (H (S k) a' K).
Qed.

(** Coadding the images again, when no star was rejected. *)
Lemma C119_coadd_lm : forall W fuel shp us jobs hs f s l n r hs1 cs cs1 f' s' n',
  (forall n c, length (fst (l_eigh W n c)) = n) -> nearest (l_query W) -> (forall r, Permutation (l_sort W r) r) ->
  Forall (in_use W fuel shp) us -> Forall (fun j => 0 <= snd (fst j)) jobs -> 0 <= l ->
  coadds W jobs (map (fun u => mkheld (after (snd u) (fst u)) None) us) = Some (Ok hs) ->
  coadd_run W f s l n hs = Some (Ok (r, hs1)) ->
  mapM catalogue_of hs = Ok cs -> mapM catalogue_of hs1 = Ok cs1 ->
  clear_first cs -> map stars cs1 = map stars cs ->
  answer (coadd_run W f' s' l n' hs1) = answer (coadd_run W f' s' l n' hs).
Proof.
  intros W fuel shp us jobs hs f s l n r hs1 cs cs1 f' s' n' EL Nq SP Hu Hj Hl Ej Er Ecs Ecs1 Cl Sl.
  destruct (held_first us) as [H0 G0]. destruct (coadds_leave _ _ _ _ _ _ _ EL SP Hu Hj H0 G0 Ej) as (Hh & Gh & _).
  destruct (run_parts _ _ _ _ _ _ _ _ Er) as (Hne & cs' & t & ws & vs & Pa & _).
  assert (cs' = cs) as -> by (destruct Pa; congruence).
  destruct (parts_at _ _ _ _ _ _ _ _ _ _ _ EL SP Hu Hl Hh Gh Pa) as (Lc & Lm & Lv & L1 & Gm & H).
  destruct (parts_leave _ _ _ _ _ _ _ _ _ _ _ EL SP Hu Hl Hh Gh Pa) as (Hh1 & Gh1 & _).
  rewrite (parts_run W f' s' l n' hs _ _ _ _ _ Hne Pa).
  destruct (Forall2_nth _ _ _ Hh) as [Lh Hk]. destruct (mapM_nth _ _ _ Ecs1) as [Lc1 Hc1]. destruct Pa as [_ Et _ _ _].
  (* the catalogues of the images afterwards *)
  assert (Hcat : forall k c0 c2, nth_error cs k = Some c0 -> nth_error cs1 k = Some c2 ->
     same_sources c0 c2 /\ (k = 0%nat -> map place (rows c2) = map place (rows c0) /\ good_ids c2)).
  { intros k c0 c2 K0 K2. destruct (nth_length cs us k c0 Lc K0) as [u Ku]. destruct (nth_length us hs k u Lh Ku) as [h Kh].
    destruct (H k u h Ku Kh) as (c0' & c1 & z & s0 & v & Lp & m & q & A1 & A2 & A3 & A4 & A5 & A6 & A7 & A8 & A9 & A10 & _).
    rewrite K0 in A1. injection A1 as <-. destruct (Hc1 k _ A9) as (c2' & X & Y). rewrite K2 in Y. injection Y as <-.
    unfold leave, catalogue_of in X. cbn [h_cat fst snd] in X.
    set (K := match best (bu_attr (touched (with_attr s0 (fst u)))) with Some l => l | None => [] end) in X. clearbody K. injection X as <-.
    assert (Ls : stars (mkcat (has_id c1) (has_det c1) (keep_rows (rows c1) K)) = stars c0).
    { pose proof (map_nth_error stars k cs1 K2) as P1. pose proof (map_nth_error stars k cs K0) as P2. rewrite Sl, P2 in P1. now injection P1. }
    unfold stars in Ls. cbn [rows] in Ls.
    assert (Lr : length (rows c1) = length (rows c0)).
    { unfold same_sources in A4. apply Permutation_length in A4. now rewrite !map_length in A4. }
    rewrite <- Lr in Ls. unfold same_sources. cbn [rows]. apply keep_all in Ls. rewrite Ls. split; [exact A4|]. intros ->.
    split; [now apply A5|]. cbn [nth_error] in A3. injection A3 as <-. destruct (mcat t). exact Gm. }
  destruct cs as [|a bs]; [discriminate|]. destruct cs1 as [|a1 bs1]; [destruct us; [discriminate|cbn in *; lia]|].
  destruct (Hcat 0%nat a a1 eq_refl eq_refl) as [_ Ha]. destruct (Ha eq_refl) as [Pa1 Ga1].
  assert (Lb : length bs = length bs1) by (cbn in *; lia).
  assert (Pb : Forall2 same_sources bs bs1).
  { apply Forall2_nth_error; [exact Lb|]. intros k b b1 K K1. exact (proj1 (Hcat (S k) b b1 K K1)). }
  assert (Ga : good_ids a).
  { destruct hs as [|h hs]; [congruence|]. destruct (mapM_nth _ _ _ Ecs) as [_ Hc]. destruct (Hc 0%nat h eq_refl) as (c & Cc & X).
    cbn in X. injection X as <-. cbn [good_head] in Gh. unfold catalogue_of in Cc. destruct (h_cat h) as [c|]; [injection Cc as <-; exact Gh|].
    destruct (fst _) as [l1|]; [|discriminate]. cbn [bind] in Cc. injection Cc as <-. now left. }
  destruct (C48_total_lm (l_query W) (l_sort W) (l_lsqr W) (a1 :: bs1) None SP) as [(t1 & Et1)|(X & _)]; [|discriminate].
  destruct (zps_same _ _ _ _ _ Nq Nq SP SP a a1 bs bs1 t t1 Ga Ga1 Pa1 Pb Cl Et Et1) as [Ez _].
  assert (Lm1 : length (mcat t1 :: cats t1) = length us).
  { destruct (matched_again _ _ _ (a1 :: bs1) _ SP Ga1 Et1) as (X & _). rewrite X. cbn in *. lia. }
  (* the second coadd *)
  destruct (set_up_seen l (seats hs1 t1) (zps t1) vs) as (ws1 & Ew1 & Ev1).
  { unfold seats. rewrite map_length, combine_length, Lm1, L1. lia. }
  { intros k y Ky. unfold seats in Ky. assert (Kn : (k < length us)%nat).
    { assert (nth_error (map (fun xc : held * cat => with_best (map src_of (rows (snd xc))) (h_img (fst xc))) (combine hs1 (mcat t1 :: cats t1))) k <> None) by congruence.
      apply nth_error_Some in H1. rewrite map_length, combine_length in H1. lia. }
    destruct (nth_error us k) as [u|] eqn:Ku; [|apply nth_error_None in Ku; lia]. destruct (nth_length us hs k u Lh Ku) as [h Kh].
    destruct (nth_length us (mcat t1 :: cats t1) k u (eq_sym Lm1) Ku) as [c3 K3].
    destruct (H k u h Ku Kh) as (c0' & c1 & z & s0 & v & Lp & m & q & A1 & A2 & A3 & A4 & A5 & A6 & A7 & A8 & A9 & A10 & A11 & A12 & A13 & A14 & A15).
    rewrite (map_nth_error _ k _ (nth_combine _ _ k _ _ A9 K3)) in Ky. injection Ky as <-.
    exists z, v. rewrite Ez. split; [exact A6|]. split; [exact A7|]. cbn [fst snd].
    destruct (seen_again (fst u) _ Lp A11 s0 m v (map src_of (rows c3)) A12 A8) as [B1 B2]. rewrite A13, A14 in B1, B2. split; [exact B1|exact B2]. }
  rewrite (parts_run W f' s' l n' hs1 (a1 :: bs1) t1 ws1 vs (map leave (combine ws1 (mcat t1 :: cats t1)))); [reflexivity|destruct hs1; [destruct us; [destruct hs; [congruence|discriminate]|discriminate]|discriminate]|].
  constructor; auto. 
Qed.

(** Few stars are not rejected. *)
Lemma few_loyal W fuel shp u l0 : in_use W fuel shp u -> (length l0 < 15)%nat -> loyal _ _ _ (bu_lib (fst u)) l0.
Proof.
  intros ((o & d & Bx) & _) Hl sh st p k E. destruct (build_lib _ _ _ _ _ Bx) as (_ & Lx & _). rewrite Lx in E.
  unfold lib_of in E. cbn [extract] in E. unfold extract_for in E. destruct (dump_loop _ _ _ _ _ _ _) as [stm r].
  destruct r as [[pp dl]|]; [|discriminate]. cbn [bind] in E. destruct (Nat.leb 15 (length l0 - length dl)) eqn:X.
  - apply Nat.leb_le in X. lia.
  - now injection E.
Qed.

(** Stars are rejected by the first coadd only, and not when there are less than 15. *)
Lemma C119_rejected_lm : forall W fuel shp us jobs hs f s l n r hs1 cs cs1,
  (forall n c, length (fst (l_eigh W n c)) = n) -> (forall r, Permutation (l_sort W r) r) ->
  Forall (in_use W fuel shp) us -> Forall (fun j => 0 <= snd (fst j)) jobs -> 0 <= l ->
  coadds W jobs (map (fun u => mkheld (after (snd u) (fst u)) None) us) = Some (Ok hs) ->
  coadd_run W f s l n hs = Some (Ok (r, hs1)) ->
  mapM catalogue_of hs = Ok cs -> mapM catalogue_of hs1 = Ok cs1 ->
  jobs <> [] \/ Forall (fun c => (stars c < 15)%nat) cs ->
  Forall2 same_sources cs cs1.
Proof.
  intros W fuel shp us jobs hs f s l n r hs1 cs cs1 EL SP Hu Hj Hl Ej Er Ecs Ecs1 Hjn.
  destruct (held_first us) as [H0 G0]. destruct (coadds_leave _ _ _ _ _ _ _ EL SP Hu Hj H0 G0 Ej) as (Hh & Gh & Hn).
  destruct (run_parts _ _ _ _ _ _ _ _ Er) as (Hne & cs' & t & ws & vs & Pa & _).
  assert (cs' = cs) as -> by (destruct Pa; congruence).
  destruct (parts_at _ _ _ _ _ _ _ _ _ _ _ EL SP Hu Hl Hh Gh Pa) as (Lc & Lm & Lv & L1 & Gm & H).
  destruct (Forall2_nth _ _ _ Hh) as [Lh Hk]. destruct (mapM_nth _ _ _ Ecs1) as [Lc1 Hc1].
  apply Forall2_nth_error; [lia|]. intros k c0 c2 K0 K2.
  destruct (nth_length cs us k c0 Lc K0) as [u Ku]. destruct (nth_length us hs k u Lh Ku) as [h Kh].
  destruct (H k u h Ku Kh) as (c0' & c1 & z & s0 & v & Lp & m & q & A1 & A2 & A3 & A4 & A5 & A6 & A7 & A8 & A9 & A10 & A11 & A12 & _).
  rewrite K0 in A1. injection A1 as <-. destruct (Hc1 k _ A9) as (c2' & X & Y). rewrite K2 in Y. injection Y as <-.
  unfold leave, catalogue_of in X. cbn [h_cat fst snd] in X.
  destruct (Hk k u Ku) as (h' & Kh' & Ho). rewrite Kh in Kh'. injection Kh' as <-.
  assert (St : settled _ _ _ (bu_lib (fst u)) (map src_of (rows c1)) (bu_attr (touched (with_attr s0 (fst u))))).
  { unfold touched. change (bu_attr (with_attr ?a ?b)) with a. change (bu_lib (with_attr s0 (fst u))) with (bu_lib (fst u)).
    set (sa := bu_attr (h_img h)).
    assert (Lh' : bu_lib (h_img h) = bu_lib (fst u)) by (destruct Ho as [->|(? & ? & ? & ? & ? & ? & -> & _)]; reflexivity).
    assert (E0 : s0 = exec (bu_lib (fst u)) (CCoadd l z) (set_best _ _ _ (Some (map src_of (rows c1))) sa)).
    { cbn [exec]. unfold void. rewrite <- Lh'. change (set_best _ _ _ (Some (map src_of (rows c1))) sa) with (bu_attr (with_best (map src_of (rows c1)) (h_img h))).
      now rewrite A10. }
    rewrite E0. apply settled_coadd. split; [reflexivity|].
    destruct Hjn as [Hjn|Few].
    - right. pose proof (proj1 (Forall_forall _ _) (Hn Hjn) _ (nth_error_In _ _ Kh)) as Nc.
      destruct Ho as [->|(sb & c & Lq & ma & la & qa & -> & HLq & Ua & Qa)]; [now elim Nc|].
      split; [exact (proj2 (proj2 Ua))|exact (proj2 (usable_ready _ _ sb ma la qa Ua Qa))].
    - left. apply (few_loyal W fuel shp u); [exact (proj1 (Forall_forall _ _) Hu _ (nth_error_In _ _ Ku))|].
      pose proof (proj1 (Forall_forall _ _) Few _ (nth_error_In _ _ K0)) as F0. unfold stars in F0.
      unfold same_sources in A4. apply Permutation_length in A4. rewrite !map_length in A4. rewrite map_length. lia. }
  destruct St as (Eb & _). rewrite Eb in X. injection X as <-. unfold same_sources. cbn [rows]. rewrite keep_self. exact A4.
Qed.

Lemma same_stars cs cs1 : Forall2 same_sources cs cs1 -> map stars cs1 = map stars cs.
Proof.
  induction 1 as [|c c1 l l1 E _ IH]; [reflexivity|]. cbn. rewrite IH. f_equal. unfold stars. unfold same_sources in E.
  apply Permutation_length in E. now rewrite !map_length in E.
Qed.

Lemma coadds_app W j1 : forall j2 hs hs1, coadds W j1 hs = Some (Ok hs1) -> coadds W (j1 ++ j2) hs = coadds W j2 hs1.
Proof.
  induction j1 as [|[[[f s] l] n] j1 IH]; intros j2 hs hs1 E; [now injection E as ->|]. cbn [coadds app] in *.
  destruct (coadd_run W f s l n hs) as [[[r h]|]|]; try discriminate. now apply IH.
Qed.

(** Coadding again and again. *)
Lemma C119_coadds_lm : forall W fuel shp us jobs hs cs l again hs1 f s n,
  (forall n c, length (fst (l_eigh W n c)) = n) -> nearest (l_query W) -> (forall r, Permutation (l_sort W r) r) ->
  Forall (in_use W fuel shp) us -> Forall (fun j => 0 <= snd (fst j)) jobs -> 0 <= l ->
  coadds W jobs (map (fun u => mkheld (after (snd u) (fst u)) None) us) = Some (Ok hs) ->
  mapM catalogue_of hs = Ok cs -> clear_first cs ->
  jobs <> [] \/ Forall (fun c => (stars c < 15)%nat) cs ->
  Forall (fun j => snd (fst j) = l) again ->
  coadds W again hs = Some (Ok hs1) ->
  answer (coadd_run W f s l n hs1) = answer (coadd_run W f s l n hs).
Proof.
  intros W fuel shp us jobs hs cs l again. revert jobs hs cs. induction again as [|[[[f0 s0] l0] n0] again IH];
    intros jobs hs cs hs1 f s n EL Nq SP Hu Hj Hl Ej Ecs Cl Hn Ha E; [now injection E as <-|].
  inversion Ha as [|? ? E0 Ha']; subst. cbn [fst snd] in *. cbn [coadds] in E.
  destruct (coadd_run W f0 s0 l0 n0 hs) as [[[r hs2]|]|] eqn:Er; try discriminate.
  destruct (held_first us) as [H0 G0]. destruct (coadds_leave _ _ _ _ _ _ _ EL SP Hu Hj H0 G0 Ej) as (Hh & Gh & _).
  destruct (run_parts _ _ _ _ _ _ _ _ Er) as (Hne & cs' & t & ws & vs & Pa & _).
  assert (cs' = cs) as -> by (destruct Pa; congruence).
  destruct (parts_leave _ _ _ _ _ _ _ _ _ _ _ EL SP Hu Hl Hh Gh Pa) as (_ & _ & N2).
  assert (exists cs2, mapM catalogue_of hs2 = Ok cs2) as [cs2 Ecs2].
  { apply mapM_ok. intros h Ih. pose proof (proj1 (Forall_forall _ _) N2 h Ih) as X. unfold catalogue_of. destruct (h_cat h) eqn:Eh; [eauto|now elim X]. }
  pose proof (C119_rejected_lm W fuel shp us jobs hs f0 s0 l0 n0 r hs2 cs cs2 EL SP Hu Hj Hl Ej Er Ecs Ecs2 Hn) as Sm.
  assert (P0 : forall a bs a2 bs2, cs = a :: bs -> cs2 = a2 :: bs2 -> map place (rows a2) = map place (rows a)).
  { intros a bs a2 bs2 -> ->. destruct (parts_at _ _ _ _ _ _ _ _ _ _ _ EL SP Hu Hl Hh Gh Pa) as (Lc & _ & _ & _ & _ & H).
    destruct us as [|u us]; [discriminate|]. destruct hs as [|h hs]; [congruence|].
    destruct (H 0%nat u h eq_refl eq_refl) as (c0 & c1 & z & s1 & v & Lp & m & q & A1 & A2 & A3 & A4 & A5 & A6 & A7 & A8 & A9 & _).
    destruct (mapM_nth _ _ _ Ecs2) as [_ Hc]. destruct (Hc 0%nat _ A9) as (c2 & X & Y). cbn in Y. injection Y as <-.
    cbn in A1. injection A1 as <-. specialize (A5 eq_refl). inversion Sm as [|? ? ? ? S0 _]; subst.
    unfold leave, catalogue_of in X. cbn [h_cat fst snd] in X.
    set (K := match best (bu_attr (touched (with_attr s1 (fst u)))) with Some l => l | None => [] end) in X. clearbody K. injection X as <-.
    unfold same_sources in S0. cbn [rows] in S0 |- *. apply Permutation_length in S0. rewrite !map_length in S0.
    pose proof (f_equal (@length _) A5) as L5. rewrite !map_length in L5. rewrite <- L5 in S0. symmetry in S0. apply keep_all in S0. now rewrite S0. }
  rewrite (IH (jobs ++ [(f0, s0, l0, n0)]) hs2 cs2 hs1 f s n EL Nq SP Hu); try assumption.
  - apply (C119_coadd_lm W fuel shp us jobs hs f0 s0 l0 n0 r hs2 cs cs2 f s n EL Nq SP Hu Hj Hl Ej Er Ecs Ecs2 Cl). now apply same_stars.
  - apply Forall_app. split; [exact Hj|]. constructor; [exact Hl|constructor].
  - rewrite (coadds_app W jobs [(f0, s0, l0, n0)] _ hs Ej). cbn [coadds]. now rewrite Er.
  - destruct cs as [|a bs]; [inversion Sm; subst; exact I|]. destruct cs2 as [|a2 bs2]; [exact I|]. inversion Sm as [|? ? ? ? _ Sb]; subst.
    pose proof (P0 a bs a2 bs2 eq_refl eq_refl) as Pp. cbn [clear_first] in *. clear - Pp Sb Cl.
    revert Cl. induction Sb as [|b b2 bs bs2 X _ IHs]; intros Cl; constructor; inversion Cl; subst; [|now apply IHs].
    now apply (clear_same a a2 b b2).
  - left. destruct jobs; discriminate.
Qed.

(** Images that were in no coadd yet. *)
Lemma C119_first_lm : forall W f s l n xs,
  answer (coadd_run W f s l n (map (fun x => mkheld x None) xs)) = coadd_built W f s l n xs.
Proof.
  intros W f s l n xs. unfold coadd_run, coadd_built, match_all. destruct xs as [|x xs]; [reflexivity|].
  set (l0 := x :: xs). change (map (fun x => mkheld x None) (x :: xs)) with (map (fun x => mkheld x None) l0).
  assert (E : mapM catalogue_of (map (fun x => mkheld x None) l0) =
     bind (mapM (fun x => fst (best_sources (bu_lib x) (bu_attr x))) l0) (fun cs => Ok (map (fun c => mkcat false false (map row_of c)) cs))).
  { clearbody l0. clear. induction l0 as [|x l IH]; [reflexivity|]. cbn [map mapM]. unfold catalogue_of at 1. cbn [h_cat h_img].
    destruct (fst (best_sources _ _)) as [c|]; [|reflexivity]. cbn [bind]. rewrite IH. destruct (mapM (fun x => fst (best_sources (bu_lib x) (bu_attr x))) l); reflexivity. }
  rewrite E. change (match map (fun x => mkheld x None) l0 with [] => ?a | _ :: _ => ?b end) with b.
  destruct (mapM _ l0) as [cs|]; cbn [bind]; [|reflexivity]. destruct (transparency _ _ _ _ _) as [t|]; cbn [bind]; [|reflexivity]. cbv zeta.
  assert (E2 : map (fun xc => with_best (map src_of (rows (snd xc))) (h_img (fst xc))) (combine (map (fun x => mkheld x None) l0) (mcat t :: cats t)) =
               map (fun xc => with_best (map src_of (rows (snd xc))) (fst xc)) (combine l0 (mcat t :: cats t))).
  { generalize (mcat t :: cats t). clearbody l0. clear. induction l0 as [|x l IH]; intros [|c cs]; try reflexivity. cbn [map combine].
    f_equal. apply IH. }
  rewrite E2. destruct (set_up _ _ _) as [ws|]; cbn [bind]; [|reflexivity]. destruct (mapM coadd_seen ws) as [vs|]; cbn [bind]; [|reflexivity].
  now destruct (coadd_core _ _ _ _ _) as [[r|]|].
Qed.
