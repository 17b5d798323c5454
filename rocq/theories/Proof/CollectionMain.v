(** What is proved about a reference and any number of other images. *)
From Coq Require Import ZArith List Bool Arith Reals Lia Lra Permutation.
From Coquelicot Require Import Complex.
From Verif.Model Require Import Py Plane Ma Coadd.
From Verif.Spec Require Import Coadd.
From Verif.Proof Require Import Coadd CoaddThreads CoaddMain CoaddMore.
From Verif.Model Require Import Filter.
From Verif.Proof Require Import Filter FilterMain.
From Verif.Model Require Import Interp Subtract Filter Sources Stamps Transparency KL Session Chain ChainCoadd Again SubAgain Stopped Collection.
From Verif.Spec Require Import Transparency Session Uses UsesCoadd Again SubAgain Stopped Collection.
From Verif.Proof Require Import Transparency TransparencyMain TransparencyAgain StoppedMatch.
From Verif.Proof Require Import Session SessionBad SessionHist SessionMain SessionFrame SessionLm Chain ChainUnits Uses UsesCoadd UsesCoaddMain Again AgainMain SubAgain SubAgainMain SubAgainPair StoppedMain Collection.
Import ListNotations.
Local Open Scope R_scope.
Set Bullet Behavior "Strict Subproofs".

(** Any subtractions and coadds out of the collection, finished or stopped, between two
    subtractions of the same image. *)
Lemma C130_subtract_lm : forall W fuel shp us N before st later st1 k l beta shift iterative,
  (forall n c, length (fst (l_eigh W n c)) = n) -> nearest (l_query W) -> (forall r, Permutation (l_sort W r) r) -> canonical (l_sort W) ->
  (forall k, (k < N)%nat -> in_use W fuel shp (us k)) -> Forall (proper N) (before ++ later) -> 0 <= l -> (0 < k < N)%nat ->
  begun_all W before (untouched us) = Ok st -> begun_all W later st = Ok st1 ->
  clear_all N st -> none_lost W N later st ->
  result (subtract_run W l beta shift iterative (st1 0%nat) (st1 k)) = result (subtract_run W l beta shift iterative (st 0%nat) (st k)).
Proof.
  intros W fuel shp us N before st later st1 k l be sh it EL Nq SP SC Hu Fp Hl Hk Eb El Cl Nl. apply Forall_app in Fp as [Fb Fl].
  assert (HN : (0 < N)%nat) by lia.
  pose proof (well_all W fuel shp us N EL SP HN Hu before _ _ Fb (well_start W fuel shp us N) Eb) as W0.
  destruct (alike_all W fuel shp us N EL Nq SP SC HN Hu False 0 (fun _ => 0) st later st1 W0 Cl Fl El Nl) as [A W1]; [intros []|].
  exact (alike_subtract W fuel shp us N EL Nq SP SC HN Hu st st1 k l be sh it W0 W1 Cl A Hk Hl).
Qed.

(** The place of an image in a list. *)
Fixpoint index (k : nat) (ks : list nat) : nat := match ks with [] => 0 | i :: ks' => if (i =? k)%nat then 0 else S (index k ks') end.

Lemma index_nth ks : NoDup ks -> forall p k, nth_error ks p = Some k -> index k ks = p.
Proof.
  induction ks as [|i ks IH]; intros Nd [|p] k K; try discriminate; cbn [nth_error] in K; cbn [index]; inversion Nd as [|? ? Ni Nd']; subst.
  - injection K as ->. now rewrite Nat.eqb_refl.
  - destruct (Nat.eqb_spec i k) as [->|X]; [exfalso; apply Ni; now apply nth_error_In in K|]. f_equal. now apply IH.
Qed.

Lemma mapM_fst {B} (f : nat -> res B) (js : list (nat * nat)) : mapM (fun j => f (fst j)) js = mapM f (map fst js).
Proof. induction js as [|j js IH]; [reflexivity|]. cbn [mapM map]. now rewrite IH. Qed.

(** Any subtractions, and coadds of the same images for the same loss, finished or stopped,
    between two coadds. *)
Lemma C130_coadd_lm : forall W fuel shp us N before st later st1 ks f s l n r f' s' n',
  (forall n c, length (fst (l_eigh W n c)) = n) -> nearest (l_query W) -> (forall r, Permutation (l_sort W r) r) -> canonical (l_sort W) ->
  (forall k, (k < N)%nat -> in_use W fuel shp (us k)) -> Forall (proper N) (before ++ later) -> 0 <= l ->
  NoDup ks -> Forall (fun k => 0 < k < N)%nat ks -> (0 < N)%nat ->
  begun_all W before (untouched us) = Ok st -> begun_all W later st = Ok st1 -> Forall (between_coadds ks l) later ->
  clear_all N st -> none_lost W N later st ->
  answer (coadd_run W f s l n (map st (0%nat :: ks))) = Some (Ok r) ->
  answer (coadd_run W f' s' l n' (map st1 (0%nat :: ks))) = answer (coadd_run W f' s' l n' (map st (0%nat :: ks))).
Proof.
  intros W fuel shp us N before st later st1 ks f s l n r f' s' n' EL Nq SP SC Hu Fp Hl Nd Fk HN Eb El Fb Cl Nl Er. apply Forall_app in Fp as [Fbe Fl].
  pose proof (well_all W fuel shp us N EL SP HN Hu before _ _ Fbe (well_start W fuel shp us N) Eb) as W0.
  assert (exists c0 bs0 t0, catalogue_of (st 0%nat) = Ok c0 /\ mapM (fun k => catalogue_of (st k)) ks = Ok bs0 /\
    transparency (l_query W) (l_sort W) (l_lsqr W) (c0 :: bs0) None = Ok t0) as (c0 & bs0 & t0 & E0 & B0 & T0).
  { destruct (coadd_run W f s l n (map st (0%nat :: ks))) as [[[r0 hs]|]|] eqn:Ec; try discriminate.
    destruct (run_parts _ _ _ _ _ _ _ _ Ec) as (_ & cs & t & ws & vs & [Pc Pt _ _ _] & _).
    cbn [map mapM] in Pc. destruct (catalogue_of (st 0%nat)) as [c0|]; [|discriminate]. cbn [bind] in Pc.
    assert (M : forall q, mapM catalogue_of (map st q) = mapM (fun k => catalogue_of (st k)) q) by (induction q as [|x q IH]; cbn; [reflexivity|now rewrite IH]).
    rewrite M in Pc. destruct (mapM _ ks) as [bs0|]; [|discriminate]. cbn [bind] in Pc. injection Pc as <-. eexists _, _, _. split; [reflexivity|]. split; [reflexivity|]. exact Pt. }
  set (zv := fun k => if (k =? 0)%nat then nth 0 (zps t0) 0 else nth (S (index k ks)) (zps t0) 0).
  assert (Zk : forall p k, nth_error ks p = Some k -> zv k = nth (S p) (zps t0) 0).
  { intros p k K. assert (Hk : (0 < k < N)%nat) by (rewrite Forall_forall in Fk; apply Fk; now apply nth_error_In in K).
    unfold zv. destruct (Nat.eqb_spec k 0); [lia|]. now rewrite (index_nth ks Nd p k K). }
  destruct (alike_all W fuel shp us N EL Nq SP SC HN Hu True l zv st later st1 W0 Cl Fl El Nl) as [A W1].
  { intros _ done a todo st2 st3 c bs t Ela Ed W2 A2 S. assert (Ba : between_coadds ks l a) by (rewrite Forall_forall in Fb; apply Fb; rewrite Ela; apply in_or_app; right; now left).
    destruct Ba as [Ba|[Ll Ks]]; [now left|right]. split; [now symmetry|].
    pose proof (s_bs _ _ _ _ _ _ _ S) as Bs. rewrite (mapM_fst (fun k => catalogue_of (st2 k))), Ks in Bs.
    destruct (matched_alike W fuel shp us N Nq SP SC HN True l zv st st2 ks c0 bs0 t0 c bs t) as (Ez & _); auto.
    { exact (s_c _ _ _ _ _ _ _ S). } { exact (s_t _ _ _ _ _ _ _ S). }
    rewrite Ez. split; [reflexivity|]. intros p k i Kp. apply Zk. rewrite <- Ks. exact (map_nth_error fst p _ Kp). }
  exact (alike_coadd W fuel shp us N EL Nq SP SC HN Hu st st1 zv ks c0 bs0 t0 f s l n r f' s' n' W0 W1 Cl A Fk Hl E0 B0 T0 eq_refl Zk Er).
Qed.

(** With fewer than fifteen stars in each image none is rejected. *)
Lemma few_step W fuel shp us N a st st1 : (forall n c, length (fst (l_eigh W n c)) = n) -> (forall r, Permutation (l_sort W r) r) ->
  (0 < N)%nat -> (forall k, (k < N)%nat -> in_use W fuel shp (us k)) -> proper N a -> well W fuel shp us N st -> begun W a st = Ok st1 ->
  forall k c, (k < N)%nat -> catalogue_of (st k) = Ok c -> (stars c < 15)%nat -> exists c1, catalogue_of (st1 k) = Ok c1 /\ stars c1 = stars c.
Proof.
  intros EL SP HN Hu Pa [Wh Wg] E k c Hk Ec Lt. destruct (begun_steps W N a st st1 Pa E) as (c0 & bs & t & S & Ln). pose proof Pa as (_ & _ & Hl & _).
  assert (Go : forall d z n, partway (at_op a) n d z (st k) = Ok (st1 k) -> stars d = stars c -> exists c1, catalogue_of (st1 k) = Ok c1 /\ stars c1 = stars c).
  { intros d z n Ep Ed. destruct (any_placed W fuel shp (us k) (st k) (map src_of (rows d)) EL (Hu _ Hk) (Wh _ Hk)) as (Lp & m & Pl).
    destruct (image_part W fuel shp _ _ _ Lp m _ _ _ _ (Hu _ Hk) (Wh _ Hk) Pl Hl Ep) as (m1 & _ & _ & _ & C1).
    destruct C1 as [[_ C1]|(kept & C1 & K)]; [exists c; split; [congruence|reflexivity]|].
    eexists. split; [unfold catalogue_of; rewrite C1; reflexivity|]. rewrite K; [rewrite self_cat; exact Ed|].
    apply (any_settled W fuel shp (us k)); [now apply Hu|]. rewrite map_length. unfold stars in Ed, Lt. lia. }
  destruct (Nat.eq_dec k 0) as [->|K0].
  - pose proof (s_c _ _ _ _ _ _ _ S) as X. assert (c0 = c) as -> by congruence.
    destruct (first_ids (l_query W) (l_sort W) SP (l_lsqr W) c bs t (good_first _ _ Wg Ec) (s_t _ _ _ _ _ _ _ S) _ (or_intror eq_refl)) as (_ & Pm & _).
    apply (Go _ _ _ (s_ref _ _ _ _ _ _ _ S)). unfold stars. rewrite <- (map_length place), Pm. apply map_length.
  - destruct (in_dec Nat.eq_dec k (map fst (at_others a))) as [I|I].
    2: { exists c. rewrite (s_rest _ _ _ _ _ _ _ S k K0 I). auto. }
    destruct (in_others a k I) as (p & n & Kp). destruct (cats_at _ _ _ _ _ _ _ _ _ _ S Ln Kp) as (b & Eb & _ & Kc).
    assert (b = c) as -> by congruence. apply (Go _ _ _ (s_others _ _ _ _ _ _ _ S p k n _ Kp Kc)). unfold stars. now apply (newcat_length W SP).
Qed.

Lemma C130_few_lm : forall W fuel shp us N before st later,
  (forall n c, length (fst (l_eigh W n c)) = n) -> (forall r, Permutation (l_sort W r) r) ->
  (forall k, (k < N)%nat -> in_use W fuel shp (us k)) -> Forall (proper N) (before ++ later) ->
  begun_all W before (untouched us) = Ok st ->
  (forall k c, (k < N)%nat -> catalogue_of (st k) = Ok c -> (stars c < 15)%nat) ->
  none_lost W N later st.
Proof.
  intros W fuel shp us N before st later EL SP Hu Fp Eb Few. apply Forall_app in Fp as [Fb Fl]. intros done todo st1 k c c1 -> Ed Hk Ec Ec1.
  assert (HN : (0 < N)%nat) by lia. apply Forall_app in Fl as [Fd _].
  pose proof (well_all W fuel shp us N EL SP HN Hu before _ _ Fb (well_start W fuel shp us N) Eb) as W0.
  assert (G : forall done st, Forall (proper N) done -> well W fuel shp us N st -> begun_all W done st = Ok st1 ->
     forall c, catalogue_of (st k) = Ok c -> (stars c < 15)%nat -> exists c1, catalogue_of (st1 k) = Ok c1 /\ stars c1 = stars c).
  { clear - EL SP HN Hu Hk. induction done as [|a done IH]; intros st Fd Wst Ed c Ec Lt.
    - injection Ed as <-. eauto.
    - cbn [begun_all] in Ed. destruct (begun W a st) as [st2|] eqn:Ea; [|discriminate]. cbn [bind] in Ed.
      inversion Fd as [|? ? Pa Fd']; subst. destruct (few_step W fuel shp us N a st st2 EL SP HN Hu Pa Wst Ea k c Hk Ec Lt) as (c2 & E2 & L2).
      destruct (IH st2 Fd' (well_step W fuel shp us N EL SP HN Hu a st st2 Pa Wst Ea) Ed c2 E2) as (c3 & E3 & L3); [lia|]. exists c3. split; [exact E3|lia]. }
  destruct (G done st Fd W0 Ed c Ec (Few k c Hk Ec)) as (c2 & E2 & L2). congruence.
Qed.

Lemma part_less op c z h h1 n : partway op 7 c z h = Ok h1 -> exists h2, partway op n c z h = Ok h2.
Proof.
  do 4 (destruct n as [|n]; [intros _; cbn; eauto|]). unfold partway. cbv zeta. destruct op as [l ? ? ?|? ? l ?].
  - destruct (first_element l _); [cbn [bind]; eauto|discriminate].
  - destruct (fst _); [|discriminate]. cbn [bind]. destruct (coadd_seen _); [cbn [bind]; eauto|discriminate].
Qed.

(** An operation that can finish can stop after any of its steps, in each image. *)
Lemma C130_anywhere_lm : forall W op ks st st1 i js,
  NoDup ks -> ~ In 0%nat ks -> begun W (mkattempt op 7 (map (fun k => (k, 7%nat)) ks)) st = Ok st1 -> map fst js = ks ->
  exists st2, begun W (mkattempt op i js) st = Ok st2.
Proof.
  intros W op ks st st1 i js Nd N0 E <-. unfold begun in *. cbn [at_op at_ref at_others] in *.
  destruct (catalogue_of (st 0%nat)) as [c|]; [|discriminate]. cbn [bind] in *.
  rewrite (mapM_fst (fun k => catalogue_of (st k))) in E |- *. rewrite map_map in E. cbn [fst] in E. rewrite map_id in E.
  destruct (mapM _ _) as [bs|] eqn:Eb; [|discriminate]. cbn [bind] in *.
  destruct (transparency _ _ _ _ _) as [t|] eqn:Et; [|discriminate]. cbn [bind] in *.
  destruct (partway _ 7 _ _ _) as [r|] eqn:Er; [|discriminate]. destruct (part_less _ _ _ _ _ i Er) as [r2 ->]. cbn [bind] in *.
  assert (Lt : length (cats t) = length (map fst js)).
  { rewrite (cats_are (l_query W) (l_sort W) (l_lsqr W) c bs t Et), map_length. exact (proj1 (mapM_nth _ _ _ Eb)). }
  destruct (partways op (map (fun k => (k, 7%nat)) (map fst js)) _ _ _) as [st'|] eqn:Ep; [|discriminate].
  assert (F1 : map fst (map (fun k => (k, 7%nat)) (map fst js)) = map fst js) by (rewrite map_map; apply map_id).
  destruct (partways_at op (map (fun k => (k, 7%nat)) (map fst js)) (cats t) (tl (zps t)) st st') as [_ B]; auto.
  { now rewrite F1. } { rewrite Lt. rewrite !map_length. reflexivity. }
  destruct (partways_ok op js (cats t) (tl (zps t)) st Nd) as [st2 ->]; [rewrite Lt; apply map_length| |cbn [bind]; eauto].
  intros p k n b Kp Kc. assert (K7 : nth_error (map (fun k => (k, 7%nat)) (map fst js)) p = Some (k, 7%nat)).
  { apply (map_nth_error (fun k => (k, 7%nat))). exact (map_nth_error fst p _ Kp). }
  exact (part_less _ _ _ _ _ n (B p k _ b K7 Kc)).
Qed.

Lemma coadd_part f s l n c z h x0 v : setup_kl_a_fields _ _ _ (bu_lib (h_img h)) (Some l) false (set_zp _ _ _ (Some z) (bu_attr (with_best (map src_of (rows c)) (h_img h)))) = (Ok tt, x0) ->
  coadd_seen (with_attr x0 (with_best (map src_of (rows c)) (h_img h))) = Ok v ->
  partway (Add f s l n) 7 c z h = Ok (leave (with_attr x0 (with_best (map src_of (rows c)) (h_img h)), c)).
Proof.
  intros E Ev. unfold partway. cbv zeta.
  change (set_zp _ _ _ (Some z) (bu_attr (with_best (map src_of (rows c)) (h_img h)))) with (bu_attr (given_zp c z (h_img h))) in E.
  rewrite E. cbn [fst snd bind]. change (with_attr x0 (with_best (map src_of (rows c)) (h_img h))) with (with_attr x0 (h_img h)) in *. rewrite Ev. reflexivity.
Qed.

(** A coadd that finishes is one whose last step came for all its images: what it leaves. *)
Lemma C130_coadd_done_lm : forall W f s l n st ks r hs1,
  NoDup ks -> ~ In 0%nat ks -> coadd_run W f s l n (map st (0%nat :: ks)) = Some (Ok (r, hs1)) ->
  exists st1, begun W (mkattempt (Add f s l n) 7 (map (fun k => (k, 7%nat)) ks)) st = Ok st1 /\
    map st1 (0%nat :: ks) = hs1 /\ forall i, ~ In i (0%nat :: ks) -> st1 i = st i.
Proof.
  intros W f s l n st ks r hs1 Nd N0 E. destruct (run_parts _ _ _ _ _ _ _ _ E) as (_ & cs & t & ws & vs & [Pc Pt Pw Pv P1] & _).
  cbn [map mapM] in Pc. destruct (catalogue_of (st 0%nat)) as [c|] eqn:Ec; [|discriminate]. cbn [bind] in Pc.
  assert (M : forall q, mapM catalogue_of (map st q) = mapM (fun k => catalogue_of (st k)) q) by (induction q as [|x q IH]; cbn; [reflexivity|now rewrite IH]).
  rewrite M in Pc. destruct (mapM (fun k => catalogue_of (st k)) ks) as [bs|] eqn:Eb; [|discriminate]. cbn [bind] in Pc. injection Pc as <-.
  assert (Lt : length (cats t) = length ks).
  { rewrite (cats_are (l_query W) (l_sort W) (l_lsqr W) c bs t Pt), map_length. exact (proj1 (mapM_nth _ _ _ Eb)). }
  destruct (set_up_nth _ _ _ _ Pw) as [Lw Hw].
  destruct (mapM_nth _ _ _ Pv) as [Lv Hv].
  assert (Each : forall p k d, nth_error (0%nat :: ks) p = Some k -> nth_error (mcat t :: cats t) p = Some d ->
     exists h1, partway (Add f s l n) 7 d (nth p (zps t) 0) (st k) = Ok h1 /\ nth_error hs1 p = Some h1).
  { intros p k d Kp Kd.
    pose proof (nth_combine _ _ p _ _ (map_nth_error st p _ Kp) Kd) as Kc.
    destruct (Hw p _ (map_nth_error (fun xc => with_best (map src_of (rows (snd xc))) (h_img (fst xc))) p _ Kc)) as (z & x0 & Kz & Es & Kw).
    cbn [fst snd] in Es, Kw. destruct (Hv p _ Kw) as (v & Ev & _). rewrite (nth_error_nth _ _ _ Kz).
    exists (leave (with_attr x0 (with_best (map src_of (rows d)) (h_img (st k))), d)). split; [exact (coadd_part f s l n d z (st k) x0 v Es Ev)|].
    rewrite P1. exact (map_nth_error leave p _ (nth_combine _ _ p _ _ Kw Kd)). }
  set (js := map (fun k => (k, 7%nat)) ks).
  assert (F1 : map fst js = ks) by (unfold js; rewrite map_map; apply map_id).
  destruct (Each 0%nat 0%nat (mcat t) eq_refl eq_refl) as (h0 & E0 & K0).
  assert (Ot : forall p k n0 d, nth_error js p = Some (k, n0) -> nth_error (cats t) p = Some d -> exists h, partway (Add f s l n) n0 d (nth p (tl (zps t)) 0) (st k) = Ok h /\ nth_error hs1 (Datatypes.S p) = Some h).
  { intros p k n0 d Kj Kd. assert (n0 = 7%nat) as -> by (unfold js in Kj; apply nth_error_In, in_map_iff in Kj as (? & [= _ <-] & _); reflexivity).
    pose proof (map_nth_error fst p _ Kj) as Kk. rewrite F1 in Kk. cbn [fst] in Kk.
    destruct (Each (Datatypes.S p) k d Kk Kd) as (h & Eh & Kh). exists h. split; [|exact Kh]. destruct (zps t); [destruct p; exact Eh|exact Eh]. }
  destruct (partways_ok (Add f s l n) js (cats t) (tl (zps t)) st) as [st' Est].
  { now rewrite F1. } { unfold js. now rewrite Lt, map_length. } { intros p k n0 d Kj Kd. destruct (Ot p k n0 d Kj Kd) as (h & Eh & _). eauto. }
  destruct (partways_at (Add f s l n) js (cats t) (tl (zps t)) st st') as [A B]; auto.
  { now rewrite F1. } { unfold js. now rewrite Lt, map_length. }
  exists (put 0 h0 st'). split; [|split].
  - unfold begun. cbn [at_op at_ref at_others]. rewrite Ec. cbn [bind]. fold js. rewrite (mapM_fst (fun k => catalogue_of (st k))), F1, Eb. cbn [bind]. rewrite Pt. cbn [bind].
    assert (Ez : hd 0 (zps t) = nth 0 (zps t) 0) by now destruct (zps t). rewrite Ez, E0. cbn [bind]. rewrite Est. reflexivity.
  - assert (L1 : length hs1 = Datatypes.S (length ks)).
    { rewrite P1, map_length, combine_length, Lw; unfold seats; rewrite map_length, combine_length. cbn [length map]. rewrite ?map_length, Lt. lia. }
    apply list_ext. intros [|p]; [cbn [map nth_error]; rewrite put_same; now symmetry|].
    destruct (nth_error ks p) as [k|] eqn:Kk.
    + rewrite (map_nth_error (put 0 h0 st') (Datatypes.S p) (0%nat :: ks) Kk).
      assert (Kj : nth_error js p = Some (k, 7%nat)) by exact (map_nth_error (fun k => (k, 7%nat)) p _ Kk).
      destruct (nth_error (cats t) p) as [d|] eqn:Kd; [|apply nth_error_None in Kd; assert (p < length ks)%nat by (apply nth_error_Some; congruence); lia].
      destruct (Ot p k _ d Kj Kd) as (h & Eh & ->). rewrite put_other; [|intros ->; apply N0; now apply nth_error_In in Kk].
      rewrite (B p k _ d Kj Kd) in Eh. now injection Eh as ->.
    + apply nth_error_None in Kk. assert (X : nth_error hs1 (Datatypes.S p) = None) by (apply nth_error_None; lia). rewrite X. apply nth_error_None. rewrite map_length. cbn [length]. lia.
  - intros i Hi. rewrite put_other; [|intros ->; apply Hi; now left]. apply A. rewrite F1. intros X. apply Hi. now right.
Qed.

(** A subtraction that finishes is one whose last step came for both images. *)
Lemma C130_subtract_done_lm : forall W l beta shift iterative st k r p1,
  k <> 0%nat -> subtract_run W l beta shift iterative (st 0%nat) (st k) = Ok (r, p1) ->
  exists st1, begun W (mkattempt (Sub l beta shift iterative) 7 [(k, 7%nat)]) st = Ok st1 /\
    st1 0%nat = fst p1 /\ st1 k = snd p1 /\ forall i, i <> 0%nat -> i <> k -> st1 i = st i.
Proof.
  intros W l be sh it st k r p1 Hk E.
  assert (Ed : do_task W (Sub l be sh it) (st 0%nat, st k) = Some (Ok p1)) by (cbn [do_task fst snd]; now rewrite E).
  apply C128_finished_lm in Ed. unfold stopped in Ed. cbn [fst snd] in Ed.
  destruct (catalogue_of (st 0%nat)) as [c|] eqn:Ec; [|discriminate]. destruct (catalogue_of (st k)) as [b|] eqn:Eb; [|discriminate]. cbn [bind] in Ed.
  destruct (transparency _ _ _ _ _) as [t|] eqn:Et; [|discriminate]. cbn [bind] in Ed. cbv zeta in Ed.
  pose proof (cats_are (l_query W) (l_sort W) (l_lsqr W) c [b] t Et) as Ct.
  destruct (cats t) as [|d [|? ?]] eqn:Ecs; try discriminate. clear Ct.
  destruct (partway _ 7 (mcat t) _ _) as [h0|] eqn:E0; [|discriminate]. cbn [bind] in Ed.
  destruct (partway _ 7 d _ _) as [h1|] eqn:E1; [|discriminate]. cbn [bind] in Ed. injection Ed as <-.
  exists (put 0 h0 (put k h1 st)). cbn [fst snd]. split; [|split; [apply put_same|split; [rewrite put_other by exact Hk; apply put_same|intros i Hi Hi'; now rewrite !put_other]]].
  unfold begun. cbn [at_op at_ref at_others mapM fst]. rewrite Ec. cbn [bind]. rewrite Eb. cbn [bind]. rewrite Et. cbn [bind].
  assert (Ez : hd 0 (zps t) = nth 0 (zps t) 0) by now destruct (zps t). rewrite Ez, E0. cbn [bind]. rewrite Ecs. cbn [partways].
  assert (Ez1 : hd 0 (tl (zps t)) = nth 1 (zps t) 0) by (destruct (zps t) as [|? [|]]; reflexivity). rewrite Ez1, E1. reflexivity.
Qed.
