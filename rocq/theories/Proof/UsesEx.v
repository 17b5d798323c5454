(** Two images of stripes with two stars that can be subtracted. *)
From Coq Require Import ZArith List Bool Arith Reals Lia Lra Permutation.
From Flocq Require Import Core.Raux.
From Coquelicot Require Import Complex.
From Verif.Model Require Import Py Plane Ma Interp Subtract FindS Sources Stamps Filter Transparency KL Session Chain.
From Verif.Spec Require Import Stamps KL Session Transparency Uses.
From Verif.Proof Require Import Stamps StampsLoop StampsExample KL Session SessionLm SessionExample Chain ChainStack ChainUnits Uses.
Import ListNotations.
Local Open Scope R_scope.
Set Bullet Behavior "Strict Subproofs".

(** * An image whose stamps show the stars they come from *)

Definition shown : lib nat (R * nat * nat) (R * nat * nat) := {|
  select := Ok [star 20; star 50];
  extract := fun sh cat => (map (fun s => pconst (fst sh + 6, snd sh + 6)%nat (s_x s)) cat,
                            Ok (map (fun s => (s_y s, s_x s)) cat, cat));
  eigh := fun n _ => (map (fun i => INR (S i)) (seq 0 n), delta);
  smooth := None;
  fit := fun ps _ _ _ => fst (hd (0, 0) ps);
  normal_of := fun _ b => length b;
  shat_of := fun z _ b n => (z, length b, n);
  ifft_real := fun h => h |}.

Lemma shown_ok : lib_ok shown.
Proof.
  split.
  - intros sh c st p k H. cbn in H. injection H as <- <- _. now rewrite !map_length.
  - intros n c. cbn. now rewrite map_length, seq_length.
Qed.

Lemma cut_02 : kl_cut (2 / 10) [INR 1; INR 2] = 2%nat.
Proof.
  unfold kl_cut, sum_abs. cbn [fold_right rev app map]. rewrite INR1, INR2.
  rewrite (Rabs_right 1), (Rabs_right 2) by lra. destruct (Req_EM_T _ 0); [lra|]. cbn [cut_loop].
  destruct (Rlt_dec _ _) as [_|N]; [|exfalso; apply N; lra].
  destruct (Rlt_dec _ _) as [H|N]; [exfalso; lra|reflexivity].
Qed.

Definition two_eigh (n : nat) (c : nat -> nat -> R) : list R * (nat -> nat -> R) :=
  (map (fun i => INR (S i)) (seq 0 n), delta).

(** The PSF of two stamps: the second, then the first. *)
Lemma two_basis (p q : plane R) : shape p = (7, 7)%nat -> shape q = (7, 7)%nat ->
  exists b c, KL.kl_basis two_eigh None (7, 7)%nat [p; q] (2 / 10) = Ok [b; c] /\ shape b = (7, 7)%nat /\
    forall i j, (i < 7)%nat -> (j < 7)%nat -> px b i j = Some (px q i j).
Proof.
  unfold shape. intros [= Pr Pc] [= Qr Qc]. unfold KL.kl_basis, KL.eigenv, KL.cov_matrix.
  cbn [forallb fst snd]. rewrite Pr, Pc, Qr, Qc. cbn [Nat.eqb andb negb length Nat.leb bind].
  unfold two_eigh at 1. cbn [map seq]. rewrite cut_02. cbn [Nat.sub seq map bind rev app].
  do 2 eexists. split; [reflexivity|]. split; [reflexivity|]. intros i j Hi Hj. unfold KL.reshape. cbn [px fst snd].
  f_equal. unfold combination, columns. cbn [KL.sumn nth Nat.add]. unfold flat.
  rewrite Pc, Qc. unfold delta. cbn [Nat.eqb].
  replace ((i * 7 + j) / 7)%nat with i by (rewrite Nat.add_comm, Nat.div_add, (Nat.div_small j) by lia; lia).
  replace ((i * 7 + j) mod 7)%nat with j by (rewrite Nat.add_comm, Nat.mod_add, Nat.mod_small by lia; lia).
  ring.
Qed.

Lemma shown_psf (a b : src) : exists f p t,
  psf_for (given shown [a; b]) dshape (2 / 10) = Ok (f, p :: t) /\ px p 0 0 = Some (s_x b).
Proof.
  destruct (two_basis (pconst (7, 7)%nat (s_x a)) (pconst (7, 7)%nat (s_x b)) eq_refl eq_refl) as (p & q & E & _ & V).
  unfold psf_for, stamps_of. cbn [given shown Session.select Session.extract map dshape fst snd Nat.add bind].
  change (eigh (given shown [a; b])) with two_eigh. change (smooth (given shown [a; b])) with (@None (plane (option R) -> plane (option R))).
  rewrite E. cbn [bind length Nat.eqb].
  set (e := KL.eigenv _ _ _). assert (He : exists v, e = Ok v) by (eexists; reflexivity). destruct He as (v & ->). cbn [bind].
  do 3 eexists. split; [reflexivity|]. rewrite V by lia. reflexivity.
Qed.

Lemma exec_cons {NI FT IM} (L : lib NI FT IM) c cs s : exec_all L (c :: cs) s = exec_all L cs (exec L c s).
Proof. reflexivity. Qed.

(** The same list given after looking at the sources, and after asking for the PSF. *)
Lemma C111_given_case_lm : exists f p t f' p' t',
  fst (get_variable_psf shown (Some (2 / 10)) None
         (exec_all shown ([CBestSources] ++ CUpdateSources (Some [star 1; star 2]) :: []) dnew)) = Ok (f, p :: t) /\
  px p 0 0 = Some 2 /\
  fst (get_variable_psf shown (Some (2 / 10)) None
         (exec_all shown ([CBestSources; CGetPSF (Some (1 / 10)) None] ++ CUpdateSources (Some [star 1; star 2]) :: []) dnew)) = Ok (f', p' :: t') /\
  px p' 0 0 = Some 50.
Proof.
  assert (Hl : 0 <= 2 / 10) by lra.
  destruct (shown_psf (star 1) (star 2)) as (f & p & t & E & V).
  destruct (shown_psf (star 20) (star 50)) as (f' & p' & t' & E' & V').
  exists f, p, t, f', p', t'.
  split; [|split; [exact V|split; [|exact V']]].
  - rewrite <- E.
    rewrite (C111_given_lm _ _ _ shown dshape dnew [CBestSources] [star 1; star 2] [] (2 / 10) _ shown_ok (or_introl eq_refl) eq_refl);
      [reflexivity|now repeat constructor|constructor|constructor|exact Hl|reflexivity].
  - rewrite <- E'.
    rewrite (C111_given_lm _ _ _ shown dshape dnew [CBestSources; CGetPSF (Some (1 / 10)) None] [star 1; star 2] [] (2 / 10) _ shown_ok (or_introl eq_refl) eq_refl);
      [reflexivity|repeat constructor; lra|constructor|constructor|exact Hl|].
    assert (B : best (exec_all shown [CBestSources; CGetPSF (Some (1 / 10)) None] dnew) <> None).
    { rewrite exec_cons. assert (B : best (exec shown CBestSources dnew) <> None) by discriminate.
      revert B. generalize (exec shown CBestSources dnew). intros s B.
      assert (F : Forall no_new_sources [CGetPSF (Some (1 / 10)) None]) by now repeat constructor.
      exact (proj2 (same_exec_all _ _ _ shown [] [CGetPSF (Some (1 / 10)) None] s F B)). }
    unfold update_sources. destruct (best _); [reflexivity|now elim B].
Qed.

(** * Stripes *)

Definition mid' : src := mksrc 12 10 9 500 0.

(** No background, noise 1, always the same two stars, nothing matched. *)
Definition striped : libs :=
  mklibs (fun p _ => Ok (mkbackobj (mkplane (nr p) (nc p) (fun _ _ => 0)) 1)) (fun _ _ _ _ _ => Ok [mid'; mid])
    (fun p => p) (fun d => m_msk d) (fun _ => []) (fun _ => (0, 0, 0))
    (fun p => (pmap (fun _ => 0%nat) p, 0%nat))
    two_eigh None (fun _ _ _ _ => 0) (fun sh _ _ => mkplane (fst sh) (snd sh) (fun _ _ => 1))
    (fun _ _ _ => []) (fun l => l) (fun _ _ _ _ => []) (fun p => p)
    (mksolvers (fun _ _ _ _ => Raise ValueError) (fun _ lo _ => (false, lo))).

Definition sdata : mimg := mkmimg (pmap Some stripes) (mkplane 20 20 (fun _ _ => false)).
Definition schosen : choices := mkchoices (Some (1, 1)%nat) 2 false None 300000.
Definition simg : plane R := tidy 0 (pmap (fun x => x - 0) stripes).

Lemma striped_clean : clean striped 1 sdata (mkbackobj (mkplane 20 20 (fun _ _ => 0)) 1) = Some simg.
Proof. reflexivity. Qed.

Definition sbuilt : built :=
  let b := mkbackobj (mkplane 20 20 (fun _ _ => 0)) 1 in
  mkbuilt sdata b simg (lib_of striped 300000 2 (mkpicks false None) sdata b simg) (fresh _ _ _ (1, 1)%nat None).

Lemma striped_build : build striped 1 schosen sdata = Some (Ok sbuilt).
Proof. reflexivity. Qed.

Lemma simg_window pos k : window simg 1 (1, 1)%nat pos k = window stripes 1 (1, 1)%nat pos k.
Proof.
  apply plane_ext; [reflexivity|]. intros i j. cbn [window px]. unfold frame.
  change (nr simg) with 20%nat. change (nc simg) with 20%nat. change (nr stripes) with 20%nat. change (nc stripes) with 20%nat.
  set (a := (_ + _)%Z). set (c := (_ + _)%Z).
  destruct (_ && _ && _)%bool eqn:B; [|reflexivity]. rewrite !andb_true_iff, !Z.leb_le, !Z.ltb_lt in B.
  unfold simg, tidy. cbn [px pmap]. change (nr (pmap (fun x => x - 0) stripes)) with 20%nat.
  change (nc (pmap (fun x => x - 0) stripes)) with 20%nat.
  destruct (Nat.ltb_spec (Z.to_nat a) 20); [|lia]. destruct (Nat.ltb_spec (Z.to_nat c) 20); [|lia]. cbn [andb]. apply Rminus_0_r.
Qed.

Lemma start_12 : start 12 1 = 12%Z.
Proof. unfold start. apply Zceil_imp. cbn. lra. Qed.

Lemma mid_stamp (s : src) : s_y s = 10 -> s_x s = 10 -> exists p,
  one_stamp (l_stats striped) (l_label striped) (mkpicks false None) simg 1 (1, 1)%nat s = Ok (Some p) /\
  shape p = (7, 7)%nat /\ forall i j, (i < 7)%nat -> (j < 7)%nat -> px p i j = Some (b2r (Nat.odd i) / 21).
Proof.
  intros Hy Hx. exists (stamp_of swin).
  rewrite one_normal; rewrite ?Hy, ?Hx, ?simg_window; try (cbn; lia).
  - cbn [private_pick]. split; [reflexivity|]. destruct (stamp_of_normalised swin) as [Sh V]. split; [exact Sh|].
    intros i j Hi Hj. unfold shape in Sh. injection Sh as Sr Sc.
    rewrite V by (rewrite ?Sr, ?Sc; assumption). now apply stripes_stamp.
  - exact stripes_overlap.
  - apply stripes_not_flat; lia.
  - apply stripes_not_flat; lia.
Qed.

Lemma side_stamp (s : src) : s_y s = 10 -> s_x s = 12 -> exists p,
  one_stamp (l_stats striped) (l_label striped) (mkpicks false None) simg 1 (1, 1)%nat s = Ok (Some p) /\
  shape p = (7, 7)%nat.
Proof.
  intros Hy Hx. exists (stamp_of (window simg 1 (1, 1)%nat (10, 12) 3)).
  assert (N : forall k, (k <= 1)%nat -> ~ flat_border (window simg 1 (1, 1)%nat (10, 12) k) (35 / 10 * 1)).
  { intros k Hk F. specialize (F 0%nat 0%nat). rewrite simg_window in F. cbn [window nr nc px fst snd] in F.
    rewrite start_mid, start_12 in F. unfold frame in F. cbn [stripes nr nc px] in F.
    match type of F with _ -> _ -> _ -> ?v = _ => assert (V : v = 0 \/ v = 1) end.
    { destruct (_ && _ && _)%bool; [|now right]. destruct (Nat.even _); [now right|now left]. }
    assert (E := F ltac:(lia) ltac:(lia) ltac:(lia)). destruct V as [V|V]; rewrite V in E; lra. }
  rewrite one_normal; rewrite ?Hy, ?Hx; try (cbn; lia).
  - cbn [private_pick]. split; [reflexivity|]. now destruct (stamp_of_normalised (window simg 1 (1, 1)%nat (10, 12) 3)) as [Sh _].
  - unfold overlaps. cbn [fst snd]. rewrite start_mid, start_12. cbn. lia.
  - apply N. lia.
  - apply N. lia.
Qed.

(** Whatever the other columns of the stars are. *)
Lemma stripes_psf (stars : list src) : map (fun s => (s_y s, s_x s)) stars = [(10, 12); (10, 10)] ->
  (exists sp, stamps_of _ _ _ (given (bu_lib sbuilt) stars) (1, 1)%nat = Ok sp) /\
  exists f p t, psf_for (given (bu_lib sbuilt) stars) (1, 1)%nat (2 / 10) = Ok (f, p :: t) /\
    shape p = (7, 7)%nat /\ forall i j, (i < 7)%nat -> (j < 7)%nat -> px p i j = Some (b2r (Nat.odd i) / 21).
Proof.
  destruct stars as [|a [|b [|]]]; try discriminate. intros [= Ay Ax By Bx].
  destruct (side_stamp a Ay Ax) as (pa & Ea & Sa). destruct (mid_stamp b By Bx) as (pb & Eb & Sb & Vb).
  assert (E : extract_for striped (mkpicks false None) simg 1 (1, 1)%nat [a; b] =
              ([numbers pa; numbers pb], Ok ([(s_y a, s_x a); (s_y b, s_x b)], [a; b]))).
  { unfold extract_for. cbn [dump_loop]. rewrite Ea, Eb. reflexivity. }
  assert (St : stamps_of _ _ _ (given (bu_lib sbuilt) [a; b]) (1, 1)%nat =
               Ok ([numbers pa; numbers pb], [(s_y a, s_x a); (s_y b, s_x b)])).
  { unfold stamps_of. cbn [given Session.select Session.extract bu_lib sbuilt lib_of b_rms]. now rewrite E. }
  split; [eauto|]. unfold psf_for. rewrite St. cbn [bind fst snd Nat.add].
  destruct (two_basis (numbers pa) (numbers pb) Sa Sb) as (q & q' & Eq & Sq & Vq).
  change (eigh (given (bu_lib sbuilt) [a; b])) with two_eigh.
  change (smooth (given (bu_lib sbuilt) [a; b])) with (@None (plane (option R) -> plane (option R))).
  rewrite Eq. cbn [bind length Nat.eqb].
  assert (He : exists v, KL.eigenv two_eigh (7, 7)%nat [numbers pa; numbers pb] = Ok v).
  { unfold KL.eigenv, KL.cov_matrix. unfold shape in Sa, Sb. injection Sa as Sa1 Sa2. injection Sb as Sb1 Sb2.
    cbn [forallb fst snd numbers pmap nr nc]. rewrite Sa1, Sa2, Sb1, Sb2. cbn [Nat.eqb andb negb bind length]. eauto. }
  destruct He as (v & ->). cbn [bind]. do 3 eexists. split; [reflexivity|]. split; [exact Sq|].
  intros i j Hi Hj. rewrite Vq by assumption. cbn [numbers px pmap]. rewrite Vb by assumption. reflexivity.
Qed.

Lemma rsum_pos n f : (forall i, (i < n)%nat -> 0 <= f i) -> 0 <= rsum n f.
Proof. induction n as [|n IH]; intros H; cbn; [lra|]. pose proof (H n). assert (0 <= rsum n f) by (apply IH; intros; apply H; lia). specialize (H0 ltac:(lia)). lra. Qed.

Lemma com_pos p : (forall i j, (i < nr p)%nat -> (j < nc p)%nat -> 0 <= px p i j) ->
  0 <= fst (center_of_mass p) /\ 0 <= snd (center_of_mass p).
Proof.
  intros H. assert (D : 0 <= / psumR p).
  { assert (Z : 0 <= psumR p) by (apply rsum_pos; intros; apply rsum_pos; auto).
    destruct Z as [Z|<-]; [now left; apply Rinv_0_lt_compat|rewrite Rinv_0; lra]. }
  unfold center_of_mass. cbn [fst snd]. split; (apply Rmult_le_pos; [|exact D]); unfold psumR; cbn [nr nc px];
    (apply rsum_pos; intros i Hi; apply rsum_pos; intros j Hj; apply Rmult_le_pos; [now apply H|apply pos_INR]).
Qed.

Lemma striped_eigh n c : length (fst (l_eigh striped n c)) = n.
Proof. cbn. now rewrite map_length, seq_length. Qed.

Lemma striped_cat : select (bu_lib sbuilt) = Ok [mid'; mid].
Proof.
  change (Ok (Sources.select (l_choice striped) [mid'; mid]) = Ok [mid'; mid]). now rewrite select_few by (cbn; lia).
Qed.

Lemma striped_given : given (bu_lib sbuilt) [mid'; mid] = bu_lib sbuilt.
Proof. unfold given. rewrite <- striped_cat. reflexivity. Qed.

Lemma striped_stamps : exists sp, stamps_of _ _ _ (bu_lib sbuilt) (1, 1)%nat = Ok sp.
Proof. rewrite <- striped_given. now apply stripes_psf. Qed.

Lemma striped_first cs stars : Forall plain cs ->
  stamps_read false cs = true \/ map (fun s => (s_y s, s_x s)) stars = [(10, 12); (10, 10)] ->
  exists p, Chain.first_element (2 / 10) (with_best stars (after cs sbuilt)) = Ok p /\ forall i j, (i < nr p)%nat -> (j < nc p)%nat -> 0 <= px p i j.
Proof.
  intros F Hs. destruct striped_stamps as (sp & Hsp).
  pose proof (first_answer striped 1 schosen sdata sbuilt cs stars (2 / 10) sp striped_eigh striped_build F Hsp ltac:(lra)) as A.
  change (stamp_shape (bu_attr sbuilt)) with (1, 1)%nat in A.
  assert (X : exists f p t, fst (get_variable_psf (bu_lib sbuilt) (Some (2 / 10)) None (bu_attr (with_best stars (after cs sbuilt)))) = Ok (f, p :: t) /\ shape p = (7, 7)%nat /\ forall i j, (i < 7)%nat -> (j < 7)%nat -> px p i j = Some (b2r (Nat.odd i) / 21)).
  { rewrite A. change (looked_at (bu_attr sbuilt)) with false.
    destruct (stamps_read false cs); [rewrite <- striped_given; now apply stripes_psf|].
    destruct Hs as [|Hs]; [discriminate|]. now apply stripes_psf. }
  destruct X as (f & p & t & E & Sh & V). unfold Chain.first_element.
  change (bu_lib (with_best stars (after cs sbuilt))) with (bu_lib sbuilt). rewrite E. cbn [bind snd].
  exists (numbers p). split; [reflexivity|]. unfold shape in Sh. injection Sh as Sr Sc. cbn [numbers pmap nr nc px].
  rewrite Sr, Sc. intros i j Hi Hj. rewrite V by assumption. unfold b2r. destruct (Nat.odd i); lra.
Qed.

Lemma striped_unmatched b : exists t,
  transparency (l_query striped) (l_sort striped) (l_lsqr striped)
    [mkcat false false (map row_of [mid'; mid]); mkcat false false b] None = Ok t /\
  map (fun s => (s_y s, s_x s)) (map src_of (rows (mcat t))) = [(10, 12); (10, 10)].
Proof.
  assert (N : forall k, (0 <= k)%Z -> forall l, existsb (Z.eqb k) (map (match_one [0; 1]%Z [] []) l) = false).
  { intros k Hk l. induction l as [|i l IH]; [reflexivity|]. cbn [map existsb]. rewrite IH, orb_false_r.
    unfold match_one. destruct i; cbn [nth]; apply Z.eqb_neq; unfold sentinel; lia. }
  unfold transparency, transparency_of. cbn [map].
  match goal with |- context [process_image ?q ?s ?m ?c] => set (pi := process_image q s m c) end.
  assert (I : fst pi = map (match_one [0; 1]%Z [] []) (seq 0 (length b))).
  { unfold pi. cbn. now rewrite map_length. }
  cbn [with_source_ids append_ids has_id rows map row_of set_ids combine seq length append_dets has_det forallb set_dets filter r_id r_det].
  rewrite I.
  rewrite (N (Z.of_nat 0)), (N (Z.of_nat 1)) by lia.
  eexists. split; reflexivity.
Qed.

(** Different histories, the same PSF: the reference was only looked at, the stamps of the new
    image were asked for. *)
Lemma C111_subtract_case_lm : exists x D P S m,
  build striped 1 schosen sdata = Some (Ok x) /\ (exists sp, stamps_of _ _ _ (bu_lib x) (stamp_shape (bu_attr x)) = Ok sp) /\ Forall plain [CBestSources] /\ Forall plain [CBestSources; CGetPSF (Some (1 / 2)) None] /\ (forall r, Permutation (l_sort striped r) r) /\ (forall n c, length (fst (l_eigh striped n c)) = n) /\ subtract_built striped (2 / 10) false false false (after [CBestSources] x)
    (after [CBestSources; CGetPSF (Some (1 / 2)) None] x) = Ok (D, P, S, m) /\ stamps_read (looked_at (bu_attr x)) [CBestSources] = false /\ stamps_read (looked_at (bu_attr x)) [CBestSources; CGetPSF (Some (1 / 2)) None] = true.
Proof.
  assert (F1 : Forall plain [CBestSources]) by now repeat constructor.
  assert (F2 : Forall plain [CBestSources; CGetPSF (Some (1 / 2)) None]) by (repeat constructor; lra).
  assert (B1 : fst (best_sources (bu_lib sbuilt) (bu_attr (after [CBestSources] sbuilt))) = Ok [mid'; mid]).
  { assert (E : exec_all (bu_lib sbuilt) [CBestSources] (bu_attr sbuilt) = set_best (Some [mid'; mid]) (bu_attr sbuilt)).
    { rewrite exec_cons. cbn [exec]. unfold void, best_sources. cbn [bu_attr sbuilt fresh best].
      rewrite striped_cat. reflexivity. }
    unfold after. cbn [bu_attr]. rewrite E. reflexivity. }
  assert (B2 : exists c, fst (best_sources (bu_lib sbuilt) (bu_attr (after [CBestSources; CGetPSF (Some (1 / 2)) None] sbuilt))) = Ok c).
  { unfold after. cbn [bu_attr]. rewrite exec_cons.
    assert (B : best (exec (bu_lib sbuilt) CBestSources (bu_attr sbuilt)) <> None).
    { cbn [exec]. unfold void, best_sources. cbn [bu_attr sbuilt fresh best]. rewrite striped_cat. discriminate. }
    revert B. generalize (exec (bu_lib sbuilt) CBestSources (bu_attr sbuilt)). intros s B.
    assert (F : Forall no_new_sources [CGetPSF (Some (1 / 2)) None]) by now repeat constructor.
    pose proof (proj2 (same_exec_all _ _ _ (bu_lib sbuilt) [] [CGetPSF (Some (1 / 2)) None] s F B)) as B3.
    revert B3. generalize (exec_all (bu_lib sbuilt) [CGetPSF (Some (1 / 2)) None] s). intros s' B3.
    unfold best_sources. destruct (best s') as [c|]; [exists c; reflexivity|now elim B3]. }
  destruct B2 as (cn & B2).
  destruct (striped_unmatched (map row_of cn)) as (t & Et & Rt).
  set (x1 := after [CBestSources] sbuilt) in *. set (x2 := after [CBestSources; CGetPSF (Some (1 / 2)) None] sbuilt) in *.
  destruct (striped_first [CBestSources] (map src_of (rows (mcat t))) F1) as (pr & Er & _); [right; now rewrite Rt|].
  destruct (striped_first [CBestSources; CGetPSF (Some (1 / 2)) None] 
              (match cats t with c :: _ => map src_of (rows c) | [] => cn end) F2) as (pn & En & Vn); [now left|].
  fold x1 in Er. fold x2 in En.
  destruct (com_pos pn Vn) as [C1 C2].
  assert (Sub : exists D P S m, subtract_built striped (2 / 10) false false false x1 x2 = Ok (D, P, S, m)).
  { unfold subtract_built. change (negb _) with false. cbv iota.
    change (bu_lib x1) with (bu_lib sbuilt). change (bu_lib x2) with (bu_lib sbuilt).
    rewrite B1. cbn [bind]. rewrite B2. cbn [bind]. rewrite Et. cbn [bind]. rewrite Er. cbn [bind]. rewrite En. cbn [bind].
    unfold subtract, setup. cbn [as_image bind]. 
    change (d_shape (seen (with_best ?a x1) pr)) with (20, 20)%nat. change (d_shape (seen (with_best ?a x2) pn)) with (20, 20)%nat.
    cbn [fst snd]. change ((20 =? 20)%nat && (20 =? 20)%nat)%bool with true. cbv iota.
    change (mask_or (d_mask (seen (with_best ?a x2) pn)) (d_mask (seen (with_best ?b x1) pr)))
      with (mask_or (Full (m_msk sdata)) (Full (m_msk sdata))).
    destruct (mask_or (Full (m_msk sdata)) (Full (m_msk sdata))) as [mix|] eqn:Mx; [|discriminate]. cbn [bind e_transp].
    unfold prepare. cbv zeta. change (d_stamp (seen (with_best ?a x2) pn)) with pn.
    destruct (center_of_mass (d_stamp _)) as [d1 d2]. destruct (center_of_mass pn) as [c1 c2]. cbn [fst snd] in C1, C2.
    destruct (Rlt_dec c1 0) as [H|_]; [lra|]. destruct (Rlt_dec c2 0) as [H|_]; [lra|]. cbn [negb andb bind fit].
    do 4 eexists. reflexivity. }
  destruct Sub as (D & P & S & m & Sub).
  exists sbuilt, D, P, S, m. split; [exact striped_build|]. split; [exact striped_stamps|]. split; [exact F1|]. split; [exact F2|].
  split; [intros r; apply Permutation_refl|]. split; [exact striped_eigh|]. split; [exact Sub|]. split; reflexivity.
Qed.
