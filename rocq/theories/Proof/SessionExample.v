(** A small image on which the statements about the cached attributes can be watched. *)
From Coq Require Import ZArith List Bool Arith Reals Lia Lra.
From Verif.Model Require Import Py Plane Sources KL Session.
From Verif.Spec Require Import KL Session.
From Verif.Proof Require Import KL KLMain Session SessionFrame SessionMain SessionLm SessionLm2.
Import ListNotations.
Local Open Scope R_scope.
Set Bullet Behavior "Strict Subproofs".

(** Two stars and two stamps, 1.0 and 2.0 everywhere; eigenvalues 1 and 2, so that a loss of
    0.2 keeps two elements and a loss of 0.5 keeps one. The positions remember the shape they
    were extracted with. The normalisation image is the number of basis elements; the filtered
    image and the component are the zero point, the number of elements and the normalisation. *)
Definition star (x : R) : src := mksrc x x 9 100 0.
Definition two_stamps (sh : nat * nat) : list (plane R) :=
  [pconst (fst sh + 6, snd sh + 6)%nat 1; pconst (fst sh + 6, snd sh + 6)%nat 2].
Definition two_positions (sh : nat * nat) : list (R * R) := [(INR (fst sh), 0); (INR (fst sh), 1)].
Definition demo : lib nat (R * nat * nat) (R * nat * nat) := {|
  select := Ok [star 20; star 50];
  extract := fun sh cat => (two_stamps sh, Ok (two_positions sh, cat));
  eigh := fun n _ => (map (fun i => INR (S i)) (seq 0 n), delta);
  smooth := None;
  fit := fun ps _ _ _ => fst (hd (0, 0) ps);
  normal_of := fun _ b => length b;
  shat_of := fun z _ b n => (z, length b, n);
  ifft_real := fun h => h |}.
Definition dshape : nat * nat := (1, 1)%nat.
Definition dnew : si nat (R * nat * nat) (R * nat * nat) := fresh _ _ _ dshape None.

Lemma demo_ok : lib_ok demo.
Proof.
  split.
  - intros sh c st p k H. cbn in H. injection H as <- <- _. reflexivity.
  - intros n c. cbn. now rewrite map_length, seq_length.
Qed.

Lemma demo_new : new_image demo dshape dnew.
Proof. now left. Qed.

Definition dlen (l : R) : nat := Nat.min 2 (kl_cut l [INR 1; INR 2]).

Lemma demo_stamps : stamps_of _ _ _ demo dshape = Ok (two_stamps dshape, two_positions dshape).
Proof. reflexivity. Qed.

Lemma demo_eig : KL.eigenv (eigh demo) (fst dshape + 6, snd dshape + 6)%nat (two_stamps dshape) =
  Ok ([INR 1; INR 2], delta).
Proof. reflexivity. Qed.

Lemma demo_len l : exists f b, psf_for demo dshape l = Ok (f, b) /\ length b = dlen l /\
  (dlen l <> 1%nat -> f = Fields (map (fun _ _ _ => INR 1) (seq 0 (dlen l)))).
Proof.
  unfold psf_for. rewrite demo_stamps. cbn [bind]. unfold KL.kl_basis. rewrite demo_eig. cbn [bind].
  change (length (two_stamps dshape)) with 2%nat. cbn [Nat.leb]. cbn zeta. cbn [bind].
  set (cut := kl_cut l [INR 1; INR 2]).
  assert (Hd : (2 - (2 - cut))%nat = dlen l) by (unfold dlen; fold cut; lia).
  assert (Hl : forall X (F : nat -> X) (G : X -> X),
    length (match rev (map F (seq 0 (2 - (2 - cut)))) with
            | [] => rev (map F (seq 0 (2 - (2 - cut))))
            | [p] => [G p]
            | _ :: _ :: _ => rev (map F (seq 0 (2 - (2 - cut))))
            end) = dlen l).
  { intros X F G. rewrite <- Hd. assert (Q : length (rev (map F (seq 0 (2 - (2 - cut))))) = (2 - (2 - cut))%nat)
      by now rewrite rev_length, map_length, seq_length.
    destruct (rev _) as [|x [|y t]]; exact Q. }
  change (smooth demo) with (@None (plane (option R) -> plane (option R))). cbn iota beta.
  match goal with |- context [length ?x] => assert (Q : length x = dlen l) by apply Hl; set (b := x) in * end.
  clearbody b. destruct (Nat.eqb_spec (length b) 1) as [One|N].
  - exists NoField, b. split; [reflexivity|]. split; [exact Q|]. intros H. congruence.
  - cbn [length Nat.eqb two_positions]. eexists. exists b. split; [reflexivity|]. split; [exact Q|].
    intros _. cbn [snd]. rewrite Q. reflexivity.
Qed.

Lemma INR1 : INR 1 = 1. Proof. reflexivity. Qed.
Lemma INR2 : INR 2 = 2. Proof. cbn. lra. Qed.

Lemma dlen_02 : dlen (2 / 10) = 2%nat.
Proof.
  unfold dlen, kl_cut, sum_abs. cbn [fold_right rev app map]. rewrite INR1, INR2.
  rewrite (Rabs_right 1), (Rabs_right 2) by lra. destruct (Req_EM_T _ 0); [lra|]. cbn [cut_loop].
  destruct (Rlt_dec _ _) as [_|N]; [|exfalso; apply N; lra].
  destruct (Rlt_dec _ _) as [H|N]; [exfalso; lra|reflexivity].
Qed.

Lemma dlen_05 : dlen (5 / 10) = 1%nat.
Proof.
  unfold dlen, kl_cut, sum_abs. cbn [fold_right rev app map]. rewrite INR1, INR2.
  rewrite (Rabs_right 1), (Rabs_right 2) by lra. destruct (Req_EM_T _ 0); [lra|]. cbn [cut_loop].
  destruct (Rlt_dec _ _) as [H|N]; [exfalso; lra|reflexivity].
Qed.

Lemma demo_norm l : norm_for demo dshape l = Ok (dlen l).
Proof. unfold norm_for. destruct (demo_len l) as (f & b & E & Q & _). rewrite E. cbn. now rewrite Q. Qed.

Lemma demo_filt l z ln : filt_for demo dshape l z ln = Ok (z, dlen l, dlen ln).
Proof.
  unfold filt_for. rewrite demo_norm. destruct (demo_len l) as (f & b & E & Q & _). rewrite E. cbn. now rewrite Q.
Qed.

Lemma Req_refl (x : R) : exists e, Req_EM_T x x = left e.
Proof. destruct (Req_EM_T x x) as [e|n]; [eauto|congruence]. Qed.

Lemma Req_neq (x y : R) : x <> y -> exists e, Req_EM_T x y = right e.
Proof. intros H. destruct (Req_EM_T x y) as [e|n]; [congruence|eauto]. Qed.

(** Assigning the attribute after the PSF was computed: the answer for 0.5 is the one for 0.2. *)
Lemma C39_assignment_refuted_lm : exists NI FT IM (L : lib NI FT IM) sh s0 cs l,
  lib_ok L /\ new_image L sh s0 /\ Forall plain cs /\ 0 <= l /\
  fst (get_variable_psf L (Some l) None (exec L (CSetInfLoss l) (exec_all L cs s0))) <> psf_for L sh l.
Proof.
  exists nat, (R * nat * nat)%type, (R * nat * nat)%type, demo, dshape, dnew, [CGetPSF None None], (5 / 10).
  split; [exact demo_ok|]. split; [exact demo_new|]. split; [repeat constructor|]. split; [lra|].
  pose proof (C39_history_lm _ _ _ demo dshape dnew [] demo_ok demo_new (Forall_nil _)) as (_ & H & _).
  cbn [exec_all fold_left] in H |- *.
  change (exec demo (CGetPSF None None) dnew) with (snd (get_variable_psf demo None None dnew)).
  destruct (get_variable_psf demo None None dnew) as [r s1] eqn:E. cbn [fst snd] in *. subst r.
  destruct (demo_len (last_loss [])) as (f & b & E2 & Q2 & _). rewrite E2 in E.
  destruct (C39_assignment_lm _ _ _ demo dnew (f, b) s1 (5 / 10) E) as (A & _). rewrite A.
  destruct (demo_len (5 / 10)) as (f' & b' & E3 & Q3 & _). rewrite E3. intros X. injection X as _ X.
  rewrite <- X, Q2 in Q3. change (last_loss []) with (2 / 10) in Q3. rewrite dlen_02, dlen_05 in Q3. discriminate.
Qed.

(** A zero point set by a coadd after the filtered image was made. *)
Lemma C40_zero_point_refuted_lm : exists NI FT IM (L : lib NI FT IM) sh s0 cs,
  lib_ok L /\ new_image L sh s0 /\ Forall plain cs /\
  fst (s_hat_comp L (exec_all L cs s0)) <> filt_for L sh (last_loss cs) (last_zp cs) (norm_loss (history cs)).
Proof.
  exists nat, (R * nat * nat)%type, (R * nat * nat)%type, demo, dshape, dnew, [CSHat; CCoadd (2 / 10) 5].
  split; [exact demo_ok|]. split; [exact demo_new|].
  assert (F : Forall plain [CSHat; CCoadd (2 / 10) 5]) by (repeat constructor; cbn; lra).
  split; [exact F|].
  rewrite (C40_history_lm _ _ _ demo dshape dnew _ demo_ok demo_new F), !demo_filt.
  intros X. apply (f_equal (fun r => match r with Ok (z, _, _) => z | _ => 0 end)) in X. cbn in X. destruct (Req_refl (2 / 10)) as (e & E). rewrite E in X. cbn in X. lra.
Qed.

(** Back to the loss of the first access: the component of the other loss. *)
Lemma C41_return_refuted_lm : exists NI FT IM (L : lib NI FT IM) sh s0 cs,
  lib_ok L /\ new_image L sh s0 /\ Forall plain cs /\
  fst (s_component L (exec_all L cs s0)) <>
  bind (fst (s_hat_comp L (exec_all L cs s0))) (fun h => Ok (ifft_real L h)).
Proof.
  pose (cs := [CSComponent; CGetPSF (Some (5 / 10)) None; CSComponent; CGetPSF (Some (2 / 10)) None]).
  exists nat, (R * nat * nat)%type, (R * nat * nat)%type, demo, dshape, dnew, cs.
  split; [exact demo_ok|]. split; [exact demo_new|].
  assert (F : Forall plain cs) by (repeat constructor; cbn; lra).
  split; [exact F|].
  assert (F1 : Forall plain [CSComponent; CGetPSF (Some (5 / 10)) None]) by (repeat constructor; cbn; lra).
  rewrite (C40_history_lm _ _ _ demo dshape dnew cs demo_ok demo_new F), demo_filt. cbn [bind].
  change cs with ([CSComponent; CGetPSF (Some (5 / 10)) None] ++ CSComponent :: [CGetPSF (Some (2 / 10)) None]).
  rewrite (C41_returned_lm _ _ _ demo dshape dnew [CSComponent; CGetPSF (Some (5 / 10)) None] [CGetPSF (Some (2 / 10)) None]
     demo_ok demo_new F); [| |reflexivity].
  2: { intros [X|[]]. discriminate. }
  rewrite (C41_current_lm _ _ _ demo dshape dnew _ demo_ok demo_new F1).
  2: { cbn. intros X. injection X as X. lra. }
  rewrite (C40_history_lm _ _ _ demo dshape dnew _ demo_ok demo_new F1), demo_filt. cbn [bind].
  intros X. apply (f_equal (fun r => match r with Ok (_, n, _) => n | _ => 0%nat end)) in X. change (dlen (5 / 10) = dlen (2 / 10)) in X.
  rewrite dlen_05, dlen_02 in X. discriminate.
Qed.

(** A normalisation made for 0.2 and used with 0.5. *)
Lemma C42_loss_refuted_lm : exists NI FT IM (L : lib NI FT IM) sh s0 cs,
  lib_ok L /\ new_image L sh s0 /\ Forall plain cs /\
  fst (normal_image L (exec_all L cs s0)) <> norm_for L sh (last_loss cs).
Proof.
  exists nat, (R * nat * nat)%type, (R * nat * nat)%type, demo, dshape, dnew, [CNormal; CGetPSF (Some (5 / 10)) None].
  split; [exact demo_ok|]. split; [exact demo_new|].
  assert (F : Forall plain [CNormal; CGetPSF (Some (5 / 10)) None]) by (repeat constructor; cbn; lra).
  split; [exact F|].
  rewrite (C42_history_lm _ _ _ demo dshape dnew _ demo_ok demo_new F), !demo_norm.
  intros X. injection X as X. change (dlen (2 / 10) = dlen (5 / 10)) in X. rewrite dlen_05, dlen_02 in X. discriminate.
Qed.

(** After a shape was asked for, the answer for a new loss fits neither the old stamps nor the
    new ones. *)
Lemma C63_mixed_refuted_lm : exists NI FT IM (L : lib NI FT IM) sh s0 cs l sh2 psf,
  lib_ok L /\ new_image L sh s0 /\ Forall plain cs /\ 0 <= l /\
  fst (get_variable_psf L (Some l) (Some sh2) (exec_all L cs s0)) = Ok psf /\
  psf_for L sh l <> Ok psf /\ psf_for L sh2 l <> Ok psf.
Proof.
  pose (cs := [CGetPSF (Some (5 / 10)) None] ++ [CEigenv]).
  assert (F0 : Forall plain [CGetPSF (Some (5 / 10)) None]) by (repeat constructor; cbn; lra).
  assert (F : Forall plain cs) by (apply Forall_app; split; [exact F0|repeat constructor]).
  destruct (demo_len (2 / 10)) as (f & b & E & Q & Hf). rewrite dlen_02 in Q, Hf. specialize (Hf ltac:(discriminate)).
  subst f.
  assert (Hb : exists c, fst (best_sources demo (exec_all demo cs dnew)) = Ok c).
  { unfold best_sources. destruct (best _); eexists; reflexivity. }
  destruct Hb as (c & Hb).
  pose proof (C63_mixed_lm _ _ _ demo dshape dnew [CGetPSF (Some (5 / 10)) None] (2 / 10) _ b
    (two_stamps dshape) (two_positions dshape) _ (2, 2)%nat c (two_stamps (2, 2)%nat) (two_positions (2, 2)%nat) c
    demo_ok demo_new F0 ltac:(lra) ltac:(cbn; lra) demo_stamps demo_eig E Hb eq_refl ltac:(discriminate) ltac:(discriminate)) as M.
  cbn [length two_positions two_stamps Nat.eqb] in M. rewrite Q in M. cbn [seq map] in M.
  do 3 eexists. exists demo, dshape, dnew, cs, (2 / 10), (2, 2)%nat. eexists.
  split; [exact demo_ok|]. split; [exact demo_new|]. split; [exact F|]. split; [lra|].
  split; [exact M|]. split.
  - rewrite E. intros X. injection X as X _. apply (f_equal (fun g => g 0 0)) in X. cbn in X. lra.
  - unfold psf_for. intros X. 
    destruct (stamps_of _ _ _ demo (2, 2)%nat) as [[st p]|] eqn:S; [|discriminate]. cbn [bind] in X.
    destruct (KL.kl_basis _ _ _ _ _) as [b'|] eqn:KB; [|discriminate]. cbn [bind] in X.
    destruct (Nat.eqb _ 1); [discriminate|]. destruct (Nat.eqb _ 0); [discriminate|].
    destruct (KL.eigenv _ _ _) as [e|]; [|discriminate]. cbn [bind] in X. 
    assert (X' : b' = b) by (now injection X). subst b'. clear X.
    (* shapes of the elements *)
    injection S as <- <-. unfold KL.kl_basis in KB.
    change (KL.eigenv (eigh demo) (fst (2, 2)%nat + 6, snd (2, 2)%nat + 6)%nat (two_stamps (2, 2)%nat)) with
      (Ok ([INR 1; INR 2], delta)) in KB. cbn [bind] in KB.
    unfold psf_for in E. rewrite demo_stamps in E. cbn [bind] in E. unfold KL.kl_basis in E. rewrite demo_eig in E. cbn [bind] in E.
    change (length (two_stamps dshape)) with 2%nat in E. change (length (two_stamps (2, 2)%nat)) with 2%nat in KB.
    cbn [Nat.leb] in E, KB. cbn zeta in E, KB. cbn [bind] in E, KB.
    change (smooth demo) with (@None (plane (option R) -> plane (option R))) in E, KB. cbn iota beta in E, KB.
    assert (C2 : (2 - (2 - kl_cut (2 / 10) [INR 1; INR 2]))%nat = 2%nat).
    { pose proof dlen_02 as D. unfold dlen in D. lia. }
    rewrite C2 in E, KB. cbn [seq map rev app] in E, KB. cbn [length Nat.eqb two_positions] in E. cbn [bind] in E.
    apply (f_equal (fun r => match r with Ok (_, q :: _) => nr q | _ => 0%nat end)) in E.
    apply (f_equal (fun r => match r with Ok (q :: _) => nr q | _ => 0%nat end)) in KB.
    cbn [reshape nr fst dshape] in E, KB. destruct b as [|q b]; [discriminate|]. rewrite <- E in KB. discriminate.
Qed.

(** Asked again after an error, the answer for 0.2 is the one for 0.5. *)
Lemma C84_retry_refuted_lm : exists NI FT IM (L : lib NI FT IM) sh s0 cs l e psf psf',
  lib_ok L /\ new_image L sh s0 /\ 0 <= l /\
  fst (get_variable_psf L (Some l) None (exec_all L cs s0)) = Raise e /\
  fst (get_variable_psf L (Some l) None (exec_all L (cs ++ [CGetPSF (Some l) None]) s0)) = Ok psf /\
  psf_for L sh l = Ok psf' /\ length (snd psf) = 1%nat /\ length (snd psf') = 2%nat.
Proof.
  pose (cs := [CGetPSF (Some (5 / 10)) None]).
  assert (F : Forall plain cs) by (repeat constructor; cbn; lra).
  destruct (demo_len (5 / 10)) as (f & b & E & Q & _). rewrite dlen_05 in Q.
  destruct (demo_len (2 / 10)) as (f' & b' & E' & Q' & _). rewrite dlen_02 in Q'.
  assert (Hb0 : forall s, exists c, fst (best_sources demo s) = Ok c).
  { intros s. unfold best_sources. destruct (best _); eexists; reflexivity. }
  destruct (Hb0 (exec_all demo (cs ++ [CGetPSF None None; CEigenv; CGetPSF None (Some (2, 2)%nat)]) dnew)) as (c & Hb).
  destruct (C84_shape_lm _ _ _ demo dshape dnew cs (f, b) (two_stamps dshape) (two_positions dshape) _ (2 / 10)
    (2, 2)%nat c (two_stamps (2, 2)%nat) (two_positions (2, 2)%nat) c demo_ok demo_new F ltac:(lra) ltac:(cbn; lra)
    demo_stamps ltac:(cbn; lia) demo_eig E Hb eq_refl ltac:(discriminate) ltac:(discriminate)) as (_ & A & B).
  do 3 eexists. exists demo, dshape, dnew,
    ((cs ++ [CGetPSF None None; CEigenv; CGetPSF None (Some (2, 2)%nat)]) ++ [CStampsPos]), (2 / 10), ValueError, (f, b), (f', b').
  split; [exact demo_ok|]. split; [exact demo_new|]. split; [lra|].
  assert (Ex : forall l c, exec_all demo (l ++ [c]) dnew = exec demo c (exec_all demo l dnew)).
  { intros l0 c0. unfold exec_all. now rewrite fold_left_app. }
  rewrite (Ex (_ ++ [CStampsPos])), (Ex (cs ++ _) CStampsPos).
  split; [exact A|]. split; [exact B|]. split; [exact E'|]. now split.
Qed.

(** An extraction that fails for one shape. *)
Definition picky : lib nat (R * nat * nat) (R * nat * nat) := {|
  select := Ok [star 20; star 50];
  extract := fun sh cat => if Nat.eqb (fst sh) 2 then ([pconst (2, 2)%nat 1], Raise ValueError)
                           else (two_stamps sh, Ok (two_positions sh, cat));
  eigh := fun n _ => (map (fun i => INR (S i)) (seq 0 n), delta);
  smooth := None;
  fit := fun ps _ _ _ => fst (hd (0, 0) ps);
  normal_of := fun _ b => length b;
  shat_of := fun z _ b n => (z, length b, n);
  ifft_real := fun h => h |}.
