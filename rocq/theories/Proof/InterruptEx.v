(** Interrupted computations: the image built from pixels, and cases. *)
From Coq Require Import ZArith List Bool Arith Reals Lia Lra.
From Coquelicot Require Import Complex.
From Verif.Model Require Import Py Plane Ma Interp Subtract Sources Stamps Filter Transparency KL Session Chain.
From Verif.Spec Require Import KL Session Transparency Uses.
From Verif.Proof Require Import Session SessionBad SessionHist SessionMain SessionFrame SessionLm ChainUnits Uses.
From Verif.Model Require Import Interrupt.
From Verif.Spec Require Import Interrupt.
From Verif.Proof Require Import SessionLm2 SessionExample Interrupt InterruptTrace InterruptMain.
Import ListNotations.
Local Open Scope R_scope.
Set Bullet Behavior "Strict Subproofs".

Section Built.
Variable W : libs.

Lemma loop_from pk im rms sh srcs : forall jj st p del,
  dump_loop W pk im rms sh srcs jj = (st, Ok (p, del)) -> Forall (fun k => (jj <= k)%nat) del.
Proof.
  induction srcs as [|s rest IH]; intros jj st p del H; cbn [dump_loop] in H.
  - injection H as _ _ <-. constructor.
  - destruct (one_stamp _ _ _ _ _ _ _) as [o|]; [|discriminate].
    destruct (dump_loop W pk im rms sh rest (S jj)) as [st1 [[p1 d1]|]] eqn:E; [|destruct o; discriminate].
    assert (X : Forall (fun k => (jj <= k)%nat) d1).
    { eapply Forall_impl; [|exact (IH _ _ _ _ E)]. cbn. intros. lia. }
    destruct o; cbn in H; injection H as _ _ <-; [exact X|now constructor].
Qed.

Lemma delete_low {A} (l : list A) j d : forall n, (j < n)%nat -> np_delete n (j :: d) l = np_delete n d l.
Proof.
  induction l as [|a l IH]; intros n H; [reflexivity|]. cbn [np_delete existsb].
  rewrite (proj2 (Nat.eqb_neq n j)) by lia. cbn [orb]. rewrite (IH (S n)) by lia. reflexivity.
Qed.

Lemma delete_none {A} (l : list A) : forall n, np_delete n [] l = l.
Proof. induction l as [|a l IH]; intros n; [reflexivity|]. cbn. now rewrite IH. Qed.

Lemma loop_kept pk im rms sh srcs : forall jj st p del,
  dump_loop W pk im rms sh srcs jj = (st, Ok (p, del)) ->
  length (np_delete jj del srcs) = (length srcs - length del)%nat /\ (length del <= length srcs)%nat /\
  forall j, dump_loop W pk im rms sh (np_delete jj del srcs) j = (st, Ok (p, [])).
Proof.
  induction srcs as [|s rest IH]; intros jj st p del H; cbn [dump_loop] in H.
  - injection H as <- <- <-. cbn. auto.
  - destruct (one_stamp _ _ _ _ _ _ _) as [o|] eqn:O; [|discriminate].
    destruct (dump_loop W pk im rms sh rest (S jj)) as [st1 [[p1 d1]|]] eqn:E; [|destruct o; discriminate].
    destruct (IH _ _ _ _ E) as (A & A' & B). pose proof (loop_from _ _ _ _ _ _ _ _ _ E) as Lo.
    destruct o as [q|]; cbn in H; injection H as <- <- <-; cbn [np_delete existsb].
    + assert (X : existsb (Nat.eqb jj) d1 = false).
      { destruct (existsb _ _) eqn:X; [|reflexivity]. apply existsb_exists in X. destruct X as (k & K1 & K2).
        apply Nat.eqb_eq in K2. subst k. rewrite Forall_forall in Lo. specialize (Lo _ K1). lia. }
      rewrite X. cbn [length]. split; [lia|]. split; [lia|]. intros j. cbn [dump_loop]. rewrite O, B. reflexivity.
    + rewrite Nat.eqb_refl. cbn [orb]. rewrite delete_low by lia. cbn [length]. split; [lia|]. split; [lia|]. exact B.
Qed.

Lemma extract_stable pk im rms sh cat st p k :
  extract_for W pk im rms sh cat = (st, Ok (p, k)) -> extract_for W pk im rms sh k = (st, Ok (p, k)).
Proof.
  unfold extract_for. destruct (dump_loop W pk im rms sh cat 0) as [st1 [[p1 d1]|]] eqn:E; [|discriminate].
  cbn [bind]. destruct (Nat.leb 15 (length cat - length d1)) eqn:N; intros H; injection H as <- <- <-.
  - destruct (loop_kept _ _ _ _ _ _ _ _ _ E) as (A & A' & B). rewrite B. cbn [bind length].
    rewrite A, Nat.sub_0_r, N, delete_none. reflexivity.
  - rewrite E. cbn [bind]. now rewrite N.
Qed.

Lemma built_stable fuel o d x sh : build W fuel o d = Some (Ok x) -> stable (bu_lib x) sh.
Proof.
  intros Bx cat st p k. destruct (build_lib _ _ _ _ _ Bx) as (_ & Lx & _). rewrite Lx. cbn [lib_of extract].
  apply extract_stable.
Qed.
End Built.

(** For an image built from pixels. *)
Lemma C127_images_lm : forall W fuel o d x es sp,
  (forall n c, length (fst (l_eigh W n c)) = n) ->
  build W fuel o d = Some (Ok x) ->
  stamps_of _ _ _ (bu_lib x) (stamp_shape (bu_attr x)) = Ok sp ->
  harmless (bu_lib x) (stamp_shape (bu_attr x)) es (bu_attr x) ->
  exists cs, outcome es cs /\ Forall plain cs /\
    forall more, Forall plain more ->
      same_answers (bu_lib x) (exec_all (bu_lib x) more (after_all _ _ _ (bu_lib x) es (bu_attr x)))
        (exec_all (bu_lib x) (cs ++ more) (bu_attr x)).
Proof.
  intros W fuel o d x es sp EL Bx Hsp H. destruct (build_lib _ _ _ _ _ Bx) as (Dx & Lx & sh & N & Sh).
  assert (O : lib_ok (bu_lib x)) by (rewrite Lx; now apply lib_of_ok).
  rewrite <- Sh in *.
  exact (C127_interrupted_lm _ _ _ (bu_lib x) sh (bu_attr x) es sp O (built_stable W fuel o d x sh Bx) N Hsp H).
Qed.

Lemma demo_stable sh : stable demo sh.
Proof. intros cat st p k H. cbn in H |- *. injection H as <- <- <-. reflexivity. Qed.

(** The first states of a request for the PSF are those of the eigenvectors. *)
Lemma eig_trace NI FT IM (L : lib NI FT IM) s : basis s = None ->
  exists rest, fst (t_setup_kl_basis _ _ _ L None s) = fst (t_eigenv _ _ _ L s) ++ rest.
Proof.
  intros B. unfold t_setup_kl_basis. cbn zeta. rewrite B. cbn [orb]. unfold tbind at 1, tret at 1. cbn [fst snd app].
  unfold tbind at 1. destruct (t_eigenv _ _ _ L s) as [tr [[e|e] s']]; cbn [fst]; [eauto|].
  exists []. now rewrite app_nil_r.
Qed.

Lemma eig_trace_loss NI FT IM (L : lib NI FT IM) l s : basis s = None ->
  exists rest, fst (t_setup_kl_basis _ _ _ L (Some l) s) = set_inf_loss l s :: fst (t_eigenv _ _ _ L (set_inf_loss l s)) ++ rest.
Proof.
  intros B. unfold t_setup_kl_basis. cbn zeta. rewrite B. cbn [orb]. unfold tbind at 1, tupd at 1. cbn [fst snd app].
  unfold tbind at 1. destruct (t_eigenv _ _ _ L (set_inf_loss l s)) as [tr [[e|e] s']]; cbn [fst]; [eauto|].
  exists []. now rewrite app_nil_r.
Qed.

Lemma cut_eig NI FT IM (L : lib NI FT IM) s k : basis s = None -> (k < S (length (fst (t_eigenv _ _ _ L s))))%nat ->
  Interrupt.after _ _ _ L (Cut (CGetPSF None None) k) s = nth k (s :: fst (t_eigenv _ _ _ L s)) s.
Proof.
  intros B K. cbn [Interrupt.after passed]. destruct (psf_trace NI FT IM L None s) as (r & ->).
  destruct (eig_trace NI FT IM L s B) as (r' & ->). rewrite <- app_assoc.
  rewrite app_comm_cons. now apply app_nth1.
Qed.

Lemma cut_eig_loss NI FT IM (L : lib NI FT IM) s l k : basis s = None ->
  (k < S (S (length (fst (t_eigenv _ _ _ L (set_inf_loss l s))))))%nat ->
  Interrupt.after _ _ _ L (Cut (CGetPSF (Some l) None) k) s = nth k (s :: set_inf_loss l s :: fst (t_eigenv _ _ _ L (set_inf_loss l s))) s.
Proof.
  intros B K. cbn [Interrupt.after passed]. destruct (psf_trace NI FT IM L (Some l) s) as (r & ->).
  destruct (eig_trace_loss NI FT IM L l s B) as (r' & ->). cbn [app]. rewrite <- app_assoc.
  rewrite !app_comm_cons. now apply app_nth1.
Qed.

(** Interrupted while the stamps are written, then after they were counted, then again. *)
Definition cuts : list event :=
  [Cut (CGetPSF None None) 3; Finished CBestSources; Cut (CGetPSF (Some (2 / 10)) None) 9; Finished (CSetZp 5); Cut CEigenv 1].

Lemma C127_interrupted_case_lm : lib_ok demo /\ stable demo dshape /\ new_image demo dshape dnew /\
  (exists sp, stamps_of _ _ _ demo dshape = Ok sp) /\ harmless demo dshape cuts dnew.
Proof.
  split; [exact demo_ok|]. split; [apply demo_stable|]. split; [exact demo_new|].
  split; [eexists; exact demo_stamps|]. unfold cuts. cbn [harmless].
  rewrite !(cut_eig _ _ _ demo dnew 3) by first [reflexivity|apply Nat.ltb_lt; reflexivity].
  split. { split; [exact eq_refl|]. split; [now left|]. left. reflexivity. }
  split; [exact I|].
  set (s1 := Interrupt.after _ _ _ demo (Finished CBestSources) _).
  assert (B1 : basis s1 = None) by reflexivity.
  rewrite !(cut_eig_loss _ _ _ demo s1 (2 / 10) 9 B1) by (apply Nat.ltb_lt; reflexivity).
  split.
  { split; [split; [lra|reflexivity]|]. split; [right; now split|]. right.
    match goal with |- nsrc ?x <> None => assert (Q : nsrc x = Some 2%nat) by reflexivity end. rewrite Q. discriminate. }
  split; [exact I|]. split; [|exact I].
  split; [exact I|]. split; [now left|]. right.
  match goal with |- nsrc ?x <> None => assert (Q : nsrc x = Some 2%nat) by reflexivity end. rewrite Q. discriminate.
Qed.

(** The answers after these interruptions: as after asking for the PSF once or twice, or not. *)
Lemma C127_retry_case_lm :
  fst (get_variable_psf demo (Some (2 / 10)) None (after_all _ _ _ demo cuts dnew)) = psf_for demo dshape (2 / 10).
Proof.
  destruct C127_interrupted_case_lm as (H1 & H2 & H3 & (sp & H4) & H5).
  destruct (C127_interrupted_lm _ _ _ demo dshape dnew cuts sp H1 H2 H3 H4 H5) as (cs & O & Pl & H).
  specialize (H [] (Forall_nil _)). generalize dependent (after_all nat (R * nat * nat) (R * nat * nat) demo cuts dnew).
  intros s H. destruct H as (_ & _ & _ & _ & _ & _ & _ & H & _). cbn [exec_all fold_left] in H.
  assert (H0 : 0 <= 2 / 10) by lra. specialize (H _ H0). rewrite app_nil_r in H. etransitivity; [exact H|].
  apply (C39_history_lm _ _ _ demo dshape dnew cs demo_ok demo_new Pl). lra.
Qed.

(** Between stamp_shape and _stamps_pos: larger stamps. *)
Definition dshape6 : nat * nat := (7, 7)%nat.

Lemma demo6_eig : KL.eigenv (eigh demo) (fst dshape6 + 6, snd dshape6 + 6)%nat (two_stamps dshape6) =
  Ok ([INR 1; INR 2], delta).
Proof. reflexivity. Qed.

Lemma demo6_len l : exists f b, psf_for (given demo [star 20; star 50]) dshape6 l = Ok (f, b) /\ length b = dlen l /\
  (dlen l <> 1%nat -> f = Fields (map (fun _ _ _ => INR 7) (seq 0 (dlen l)))).
Proof.
  assert (S6 : stamps_of _ _ _ (given demo [star 20; star 50]) dshape6 = Ok (two_stamps dshape6, two_positions dshape6)) by reflexivity.
  unfold psf_for. rewrite S6. cbn [bind]. unfold KL.kl_basis.
  change (eigh (given demo [star 20; star 50])) with (eigh demo). rewrite demo6_eig. cbn [bind].
  change (length (two_stamps dshape6)) with 2%nat. cbn [Nat.leb]. cbn zeta. cbn [bind].
  set (cut := kl_cut l [INR 1; INR 2]).
  assert (Hd : (2 - (2 - cut))%nat = dlen l) by (unfold dlen; fold cut; lia).
  assert (Hl : forall X (F : nat -> X) (G : X -> X),
    length (match rev (map F (seq 0 (2 - (2 - cut)))) with
            | [] => rev (map F (seq 0 (2 - (2 - cut))))
            | [p] => [G p]
            | _ :: _ :: _ => rev (map F (seq 0 (2 - (2 - cut))))
            end) = dlen l).
  { intros X F G. rewrite <- Hd. assert (Q : length (rev (map F (seq 0 (2 - (2 - cut))))) = (2 - (2 - cut))%nat)
      by now rewrite rev_length, map_length, seq_length.
    destruct (rev _) as [|x [|y t]]; exact Q. }
  change (smooth (given demo [star 20; star 50])) with (@None (plane (option R) -> plane (option R))). cbn iota beta.
  match goal with |- context [length ?x] => assert (Q : length x = dlen l) by apply Hl; set (b := x) in * end.
  clearbody b. destruct (Nat.eqb_spec (length b) 1) as [One|N].
  - exists NoField, b. split; [reflexivity|]. split; [exact Q|]. intros H. congruence.
  - cbn [length Nat.eqb two_positions]. eexists. exists b. split; [reflexivity|]. split; [exact Q|].
    intros _. cbn [snd]. rewrite Q. reflexivity.
Qed.

Lemma C127_window_case_lm :
  let s' := Interrupt.after _ _ _ demo (Cut (CGetPSF None None) 6) dnew in
  ~ settled_stamps dshape s' /\ pos s' = None.
Proof.
  cbn zeta. rewrite (cut_eig _ _ _ demo dnew 6) by first [reflexivity|apply Nat.ltb_lt; reflexivity].
  split; [|reflexivity]. intros [H|H].
  - match type of H with stamp_shape ?x = _ => assert (Q : stamp_shape x = (7, 7)%nat) by reflexivity end. rewrite Q in H. discriminate.
  - match type of H with nsrc ?x <> None => assert (Q : nsrc x = None) by reflexivity end. now rewrite Q in H.
Qed.

Lemma C127_stuck_case_lm :
  let s' := Interrupt.after _ _ _ demo (Cut (CGetPSF None None) 7) dnew in
  ~ settled_stamps dshape s' /\ pos s' <> None.
Proof.
  cbn zeta. rewrite (cut_eig _ _ _ demo dnew 7) by first [reflexivity|apply Nat.ltb_lt; reflexivity].
  split.
  2:{ match goal with |- pos ?x <> None => assert (Q : pos x = Some (two_positions dshape)) by reflexivity end. rewrite Q. discriminate. }
  intros [H|H].
  - match type of H with stamp_shape ?x = _ => assert (Q : stamp_shape x = (7, 7)%nat) by reflexivity end. rewrite Q in H. discriminate.
  - match type of H with nsrc ?x <> None => assert (Q : nsrc x = None) by reflexivity end. now rewrite Q in H.
Qed.

(** The answer of an image that was interrupted there is not the answer it owes. *)
Lemma C127_window_refuted_lm : exists NI FT IM (L : lib NI FT IM) sh s0 c i l,
  lib_ok L /\ stable L sh /\ new_image L sh s0 /\ plain c /\ quiet c s0 /\ 0 <= l /\
  fst (get_variable_psf L (Some l) None (Interrupt.after _ _ _ L (Cut c i) s0)) <> psf_for L sh l.
Proof.
  exists nat, (R * nat * nat)%type, (R * nat * nat)%type, demo, dshape, dnew, (CGetPSF None None), 6%nat, (2 / 10).
  split; [exact demo_ok|]. split; [apply demo_stable|]. split; [exact demo_new|]. split; [reflexivity|].
  split; [now left|]. split; [lra|].
  destruct C127_window_case_lm as (NS & Ps).
  destruct (C127_window_lm _ _ _ demo dshape dnew [] (CGetPSF None None) 6 _ demo_ok (demo_stable _) demo_new demo_stamps
    I eq_refl (or_introl eq_refl) NS Ps) as (kept & Bk & _ & H).
  cbn [after_all fold_left] in Bk, H. rewrite H by lra.
  assert (Ek : kept = [star 20; star 50]).
  { rewrite (cut_eig _ _ _ demo dnew 6) in Bk by first [reflexivity|apply Nat.ltb_lt; reflexivity]. 
    match type of Bk with best ?x = _ => assert (Q : best x = Some [star 20; star 50]) by reflexivity end. congruence. }
  subst kept. change (fst dshape + 6, snd dshape + 6)%nat with dshape6.
  destruct (demo6_len (2 / 10)) as (f & b & E & _ & Q). destruct (demo_len (2 / 10)) as (f' & b' & E' & _ & Q').
  rewrite E, E'. rewrite dlen_02 in Q, Q'. rewrite Q, Q' by discriminate. intros X. injection X as X _.
  apply (f_equal (fun g => hd (fun _ _ => 0) [g] 0 0)) in X. cbn in X. lra.
Qed.

(** An image that was asked for another loss and interrupted answers with the old PSF, or with
    the fields of one and the basis of the other. *)
Lemma C127_loss_refuted_lm : exists NI FT IM (L : lib NI FT IM) sh s0 cs l i,
  lib_ok L /\ stable L sh /\ new_image L sh s0 /\ Forall plain cs /\ 0 <= l /\
  let s' := Interrupt.after _ _ _ L (Cut (CGetPSF (Some l) None) i) (exec_all L cs s0) in
  settled_stamps sh s' /\
  fst (get_variable_psf L (Some l) None s') <> psf_for L sh l.
Proof.
  exists nat, (R * nat * nat)%type, (R * nat * nat)%type, demo, dshape, dnew, [CGetPSF None None], (5 / 10), 1%nat.
  split; [exact demo_ok|]. split; [apply demo_stable|]. split; [exact demo_new|]. split; [repeat constructor|]. split; [lra|].
  pose proof (C39_history_lm _ _ _ demo dshape dnew [] demo_ok demo_new (Forall_nil _)) as (_ & H & _).
  cbn [exec_all fold_left] in H |- *. cbn zeta.
  change (exec demo (CGetPSF None None) dnew) with (snd (get_variable_psf demo None None dnew)).
  destruct (get_variable_psf demo None None dnew) as [r s1] eqn:E. cbn [fst snd] in *. subst r.
  destruct (demo_len (last_loss [])) as (f & b & E2 & Q2 & _). rewrite E2 in E.
  assert (Sel : select demo = Ok [star 20; star 50]) by reflexivity.
  assert (Ext : extract demo dshape [star 20; star 50] = (two_stamps dshape, Ok (two_positions dshape, [star 20; star 50]))) by reflexivity.
  destruct (engine _ _ _ demo dshape _ _ _ _ demo_ok Sel Ext) as (mode & Hcl).
  pose proof (new_inv _ _ _ demo dshape _ (two_stamps dshape) (two_positions dshape) Sel mode dnew demo_new) as I0. pose proof Hcl as (C1 & C2 & _).
  assert (H0 : 0 <= 2 / 10) by lra.
  destruct (psf_step _ _ _ demo _ _ mode C1 C2 None _ _ I0 H0) as (s2 & E3 & I2 & _). rewrite E in E3. injection E3 as _ <-.
  destruct (inv_J _ _ _ demo dshape _ _ _ mode s1 _ I2) as (G & _ & _ & _).
  destruct (psf_stored _ _ _ _ _ _ _ _ _ E) as (B1 & _).
  assert (Rd := good_ready _ _ _ _ _ _ _ _ _ G ltac:(congruence)).
  assert (L1 : inf_loss s1 = 2 / 10) by (destruct I2 as (_ & A & _); exact A).
  destruct (C127_old_psf_lm _ _ _ demo dnew (f, b) s1 (5 / 10) E ltac:(lra)) as (_ & A & _). split.
  - right. cbn [Interrupt.after passed]. destruct (psf_trace _ _ _ demo (Some (5 / 10)) s1) as (r & ->).
    destruct (setup_trace _ _ _ demo (5 / 10) s1 ltac:(lra)) as (r' & ->). cbn [nth app].
    change (nsrc (set_inf_loss (5 / 10) s1)) with (nsrc s1). destruct Rd. congruence.
  - rewrite A. destruct (demo_len (5 / 10)) as (f' & b' & E4 & Q3 & _). rewrite E4. intros X. injection X as _ X.
    rewrite <- X, Q2 in Q3. change (last_loss []) with (2 / 10) in Q3. rewrite dlen_02, dlen_05 in Q3. discriminate.
Qed.

(** The case of the fields of one loss with the basis of another. *)
Lemma C127_mixed_case_lm : exists fs b f' b', psf_for demo dshape (last_loss []) = Ok (Fields fs, b) /\
  0 <= 5 / 10 /\ 5 / 10 <> last_loss [] /\ psf_for demo dshape (5 / 10) = Ok (f', b') /\ length fs <> length b'.
Proof.
  destruct (demo_len (2 / 10)) as (f & b & E & Q & F). rewrite dlen_02 in Q, F. specialize (F ltac:(discriminate)). subst f.
  destruct (demo_len (5 / 10)) as (f' & b' & E' & Q' & _). rewrite dlen_05 in Q'.
  eexists _, b, f', b'. split; [exact E|]. split; [lra|]. split; [cbn; lra|]. split; [exact E'|].
  rewrite Q', map_length, seq_length. discriminate.
Qed.
