(** What a coadd uses of images built from pixels: the statements. *)
From Coq Require Import ZArith List Bool Arith Reals Lia Lra Permutation.
From Coquelicot Require Import Complex.
From Verif.Model Require Import Py Plane Ma Coadd.
From Verif.Spec Require Import Coadd.
From Verif.Proof Require Import Coadd CoaddThreads CoaddMain CoaddMore.
From Verif.Model Require Import Filter.
From Verif.Proof Require Import Filter FilterMain.
From Verif.Model Require Import Interp Subtract Filter Sources Stamps Transparency KL Session Chain ChainCoadd.
From Verif.Spec Require Import Session Uses UsesCoadd.
From Verif.Proof Require Import Session SessionLm Chain ChainUnits Uses UsesCoadd.
Import ListNotations.
Local Open Scope R_scope.
Set Bullet Behavior "Strict Subproofs".

(** The catalogues that the matching leaves. *)
Lemma matched_all query sort_cat lsqr a l t : (forall l, Permutation (sort_cat l) l) ->
  transparency query sort_cat lsqr (mkcat false false a :: map (mkcat false false) l) None = Ok t ->
  map rspot (rows (mcat t)) = map rspot a /\
  Forall2 (fun b c => Permutation (map rspot (rows c)) (map rspot b)) l (cats t).
Proof.
  intros SP. unfold transparency, transparency_of. rewrite map_length, map_map.
  set (mc := with_source_ids (mkcat false false a)).
  assert (Hc : Forall2 (fun b c => Permutation (map rspot (rows c)) (map rspot b)) l
                 (map (fun x => snd (process_image query sort_cat mc x)) (map (mkcat false false) l))).
  { induction l as [|b l IH]; [constructor|]. cbn [map]. constructor; [|exact IH].
    unfold process_image. cbn [snd rows append_ids has_id]. eapply Permutation_trans; [apply Permutation_map, SP|].
    rewrite set_ids_spots; [apply Permutation_refl|]. unfold matching. cbn [fst rows].
    now rewrite map_length, seq_length, map_length. }
  assert (Hm : map rspot (rows mc) = map rspot a).
  { unfold mc, with_source_ids. cbn [append_ids has_id rows]. apply set_ids_spots. now rewrite map_length, seq_length. }
  assert (Hd : has_det mc = false) by reflexivity.
  set (det := map _ (rows mc)).
  assert (Hl : length det = length (rows mc)) by apply map_length.
  unfold append_dets. rewrite Hd. cbn [rows has_id has_det andb].
  destruct (Nat.eqb _ 0).
  - intros [= <-]. cbn [mcat cats rows]. split; [reflexivity || exact Hm|]. rewrite map_map in *. exact Hc.
  - destruct (mapM _ _) as [mm|]; [|discriminate]. cbn [bind]. intros [= <-]. cbn [mcat cats rows].
    split; [rewrite set_dets_spots by exact Hl; exact Hm|]. rewrite map_map in *. exact Hc.
Qed.

Lemma mapM_nth {A B} (f : A -> res B) l r : mapM f l = Ok r -> length r = length l /\
  forall k a, nth_error l k = Some a -> exists b, f a = Ok b /\ nth_error r k = Some b.
Proof.
  revert r. induction l as [|a l IH]; cbn [mapM]; intros r E.
  - injection E as <-. split; [reflexivity|]. intros [|k]; discriminate.
  - destruct (f a) as [b|] eqn:Fa; [|discriminate]. cbn [bind] in E. destruct (mapM f l) as [r'|] eqn:Fl; [|discriminate].
    cbn [bind] in E. injection E as <-. destruct (IH r' eq_refl) as [Ln H]. split; [cbn; now rewrite Ln|].
    intros [|k] x; cbn; [intros [= <-]; eauto|apply H].
Qed.

Lemma set_up_nth loss : forall ys zs us, set_up loss ys zs = Ok us -> length us = length ys /\
  forall k y, nth_error ys k = Some y -> exists z s, nth_error zs k = Some z /\
    setup_kl_a_fields _ _ _ (bu_lib y) (Some loss) false (set_zp _ _ _ (Some z) (bu_attr y)) = (Ok tt, s) /\
    nth_error us k = Some (with_attr s y).
Proof.
  induction ys as [|y ys IH]; intros zs us E.
  - cbn in E. injection E as <-. split; [reflexivity|]. intros [|k]; discriminate.
  - destruct zs as [|z zs]; [discriminate|]. cbn [set_up] in E.
    destruct (setup_kl_a_fields _ _ _ _ _ _ _) as [[[]|e] s] eqn:Es; [|discriminate].
    destruct (set_up loss ys zs) as [l|] eqn:El; [|discriminate]. cbn [bind] in E. injection E as <-.
    destruct (IH zs l El) as [Ln H]. split; [cbn; now rewrite Ln|].
    intros [|k] x; cbn [nth_error]; [intros [= <-]; eauto 6|apply H].
Qed.

Lemma on_pixels_at a : fields_at a (on_pixels a).
Proof.
  destruct a as [|l]; cbn; [exact I|]. induction l as [|f l IH]; [constructor|]. constructor; [reflexivity|exact IH].
Qed.

Lemma numbers_are b : elements_are b (map numbers b).
Proof.
  unfold elements_are. induction b as [|p b IH]; [constructor|]. constructor; [|exact IH].
  split; [reflexivity|]. intros i j v H. cbn. now rewrite H.
Qed.

Lemma s_hat_shape im nrm fs bs h : Filter.s_hat im nrm fs bs = Ok h -> shape h = f_shape im.
Proof.
  unfold Filter.s_hat, s_base. destruct bs as [|b bs]; [discriminate|]. cbn [bind]. intros [= <-].
  destruct fs as [fs|]; [exact (s_hat_fields_shape im nrm (center_of_mass b) fs (b :: bs))|].
  unfold s_hat_const. destruct (center_of_mass b). now destruct (f_shape im).
Qed.

(** An image of which the attributes are computed as they should. *)
Definition usable (W : libs) (x : built) : Prop :=
  lib_ok (bu_lib x) /\ new_image (bu_lib x) (stamp_shape (bu_attr x)) (bu_attr x) /\
  (forall z a b n, shat_of (bu_lib x) z a b n =
     Filter.s_hat (mkfimg (shape (m_dat (bu_data x))) (px (bu_clean x)) (b_rms (bu_back x)) z) (px n) (on_pixels a) (map numbers b)) /\
  normal_of (bu_lib x) = l_normal W (shape (m_dat (bu_data x))).

Lemma built_usable W fuel o d x : (forall n c, length (fst (l_eigh W n c)) = n) ->
  build W fuel o d = Some (Ok x) -> usable W x.
Proof.
  intros EL Bx. destruct (build_lib _ _ _ _ _ Bx) as (Dx & Lx & sh & N & Sh). rewrite Sh in N.
  split; [rewrite Lx; now apply lib_of_ok|]. split; [exact N|]. rewrite Lx, Dx. split; reflexivity.
Qed.

(** One image as the workers see it. *)
Lemma seen_adds W x cs left loss z sp v s :
  usable W x -> Forall plain cs -> 0 <= loss ->
  stamps_of _ _ _ (bu_lib x) (stamp_shape (bu_attr x)) = Ok sp ->
  setup_kl_a_fields _ _ _ (bu_lib x) (Some loss) false
    (set_zp _ _ _ (Some z) (bu_attr (with_best left (after cs x)))) = (Ok tt, s) ->
  coadd_seen (with_attr s (with_best left (after cs x))) = Ok v ->
  exists h q, adds W loss x cs left z h q /\ shape h = shape (m_dat (bu_data x)) /\ shape q = shape (m_dat (bu_data x)) /\
    v = mksimg (shape (m_dat (bu_data x))) (Full (m_msk (bu_data x))) (b_rms (bu_back x)) z loss
          (fst (stamp_shape (bu_attr x)) + 6) (fun _ => px h) (fun _ => px q) (Some (px h)) (Some loss) false true.
Proof.
  intros (O & N & Sx & Nx) F Hl Hsp Es E. remember (stamp_shape (bu_attr x)) as sh eqn:Sh.
  assert (Es' : s = exec (bu_lib x) (CCoadd loss z) (set_best _ _ _ (Some left) (exec_all (bu_lib x) cs (bu_attr x)))).
  { cbn [exec]. change (set_best _ _ _ (Some left) (exec_all (bu_lib x) cs (bu_attr x))) with (bu_attr (with_best left (after cs x))).
    unfold void. now rewrite Es. }
  pose proof (coadd_filter _ _ _ (bu_lib x) sh (bu_attr x) cs left loss z sp O N Hsp F Hl) as Hf.
  pose proof (fun q => coadd_answers _ _ _ (bu_lib x) sh (bu_attr x) cs left loss z sp O N Hsp F Hl q) as Ha.
  rewrite <- Es' in Hf, Ha.
  set (L' := if stamps_read (looked_at (bu_attr x)) cs then bu_lib x else given (bu_lib x) left) in *.
  set (m := need_filt (history (cs ++ [CCoadd loss z]))) in *.
  unfold coadd_seen in E. change (bu_lib (with_attr s (with_best left (after cs x)))) with (bu_lib x) in E.
  change (bu_attr (with_attr s (with_best left (after cs x)))) with s in E.
  destruct (s_hat_comp (bu_lib x) s) as [rh s2] eqn:Eh. cbn [fst snd] in Hf, Ha.
  destruct rh as [[h|]|]; cbn [bind] in E; try discriminate.
  symmetry in Hf. unfold filt_for in Hf. destruct (psf_for L' sh loss) as [[a b]|] eqn:Ep; [|discriminate]. cbn [bind] in Hf.
  unfold norm_for in Hf. destruct (psf_for L' sh (norm_loss m)) as [[a' b']|] eqn:En; [|discriminate]. cbn [bind fst snd] in Hf.
  destruct (Ha _ eq_refl) as (_ & Hz & Hlo & Hst & Hb & Hfi). clear Ha.
  unfold sqnorm_of in E. cbn [bu_lib bu_attr with_attr bu_data] in E.
  change (bu_lib (with_best left (after cs x))) with (bu_lib x) in E.
  destruct (Session.kl_basis _ _ _ (bu_lib x) s2) as [rb s3] eqn:Eb. cbn [fst snd] in Hb, Hfi. rewrite Hb in E. cbn [bind] in E.
  rewrite Hfi in E. cbn [bind fst snd] in E. cbn [bu_data with_best after bu_back] in E.
  rewrite Hz, Hlo, Hst in E. cbn [fst] in E. injection E as <-.
  assert (Sf : Filter.s_hat (mkfimg (shape (m_dat (bu_data x))) (px (bu_clean x)) (b_rms (bu_back x)) (snd (made_of m)))
                 (px (l_normal W (shape (m_dat (bu_data x))) a' b')) (on_pixels a) (map numbers b) = Ok h).
  { assert (G : shat_of L' = shat_of (bu_lib x) /\ normal_of L' = normal_of (bu_lib x))
      by (unfold L'; destruct (stamps_read _ _); now split).
    destruct G as [G1 G2]. rewrite G1, G2, Nx, Sx in Hf. now injection Hf. }
  exists h, (psf_hat_sqnorm (shape (m_dat (bu_data x))) (on_pixels a) (map numbers b)).
  split; [|split; [|split; [|reflexivity]]].
  - unfold adds, stars_for. fold L'. fold m. cbn zeta. split.
    + exists a, b, a', b', (on_pixels a), (map numbers b). rewrite <- Sh. split; [exact Ep|]. split; [exact En|].
      split; [apply on_pixels_at|]. split; [apply numbers_are|exact Sf].
    + exists a, b, (on_pixels a), (map numbers b). rewrite <- Sh. split; [exact Ep|].
      split; [apply on_pixels_at|]. split; [apply numbers_are|reflexivity].
  - now apply s_hat_shape in Sf.
  - apply sqnorm_shape.
Qed.

Definition zeros : plane C := frame (0, 0)%nat (fun _ _ => RtoC 0).

Lemma choose_list {A B} (P : nat -> A -> B -> Prop) : forall (l : list A),
  (forall k a, nth_error l k = Some a -> exists b, P k a b) ->
  exists bs, length bs = length l /\ forall k a, nth_error l k = Some a -> exists b, nth_error bs k = Some b /\ P k a b.
Proof.
  intros l. revert P. induction l as [|a l IH]; intros P H.
  - exists []. split; [reflexivity|]. intros [|k]; discriminate.
  - destruct (H 0%nat a eq_refl) as [b Hb].
    destruct (IH (fun k => P (S k)) (fun k x E => H (S k) x E)) as (bs & Ln & Hbs).
    exists (b :: bs). split; [cbn; now rewrite Ln|]. intros [|k] x E; cbn in *; [injection E as <-; eauto|now apply Hbs].
Qed.

Lemma nth_of {A} (l : list A) k a d : nth_error l k = Some a -> nth k l d = a.
Proof. apply nth_error_nth. Qed.

Lemma Forall2_nth {A B} (P : A -> B -> Prop) l l' : Forall2 P l l' -> length l = length l' /\
  forall k a, nth_error l k = Some a -> exists b, nth_error l' k = Some b /\ P a b.
Proof.
  induction 1 as [|a b l l' Hab F [Ln IH]]; split; try reflexivity; [intros [|k]; discriminate|cbn; now rewrite Ln|].
  intros [|k] x E; cbn in *; [injection E as <-; eauto|now apply IH].
Qed.

Lemma total_seq_nth {A} (f : nat -> C) (g : A -> C) d : forall (l : list A) o,
  (forall k, (k < length l)%nat -> f (o + k)%nat = g (nth k l d)) -> total f (seq o (length l)) = total g l.
Proof.
  induction l as [|a l IH]; intros o H; [reflexivity|]. cbn [length seq total fold_right]. f_equal.
  - specialize (H 0%nat). cbn in H. rewrite <- H by lia. f_equal. lia.
  - apply IH. intros k Hk. change (nth k l d) with (nth (S k) (a :: l) d). rewrite <- (H (S k)) by (cbn; lia). f_equal. lia.
Qed.

(** Ready for a coadd. *)
Definition ready (W : libs) (sh : nat * nat) (u : built * list call) : Prop :=
  let x := fst u in
  usable W x /\ shape (m_dat (bu_data x)) = sh /\ shape (m_msk (bu_data x)) = sh /\
  (exists sp, stamps_of _ _ _ (bu_lib x) (stamp_shape (bu_attr x)) = Ok sp) /\ Forall plain (snd u).

Lemma use_ready W fuel sh us : (forall n c, length (fst (l_eigh W n c)) = n) ->
  Forall (in_use W fuel sh) us -> Forall (ready W sh) us.
Proof.
  intros EL. apply Forall_impl. intros u ((o & d & B) & A). split; [now apply (built_usable W fuel o d)|exact A].
Qed.

Lemma coadd_gen : forall W fuel' sched loss n sh us Rr P m,
  (forall r, Permutation (l_sort W r) r) -> 0 <= loss ->
  Forall (ready W sh) us -> run_limits fuel' (seq 0 (length us)) n ->
  coadd_built W fuel' sched loss n (map (fun u => after (snd u) (fst u)) us) = Some (Ok (Rr, P, m)) ->
  exists cs t parts S Q ps raw,
    Forall2 (fun u c => fst (best_sources (bu_lib (fst u)) (bu_attr (after (snd u) (fst u)))) = Ok c) us cs /\
    transparency (l_query W) (l_sort W) (l_lsqr W) (map (fun c => mkcat false false (map row_of c)) cs) None = Ok t /\
    length parts = length us /\
    (forall k u c p, nth_error us k = Some u -> nth_error cs k = Some c -> nth_error parts k = Some p ->
       exists left z, nth_error (map (fun c => map src_of (rows c)) (mcat t :: cats t)) k = Some left /\
         Permutation (map spot left) (map spot c) /\ (k = 0%nat -> map spot left = map spot c) /\
         nth_error (zps t) k = Some z /\ pt_weight p = (z / var (bu_back (fst u)))%R /\
         adds W loss (fst u) (snd u) left z (pt_filtered p) (pt_squared p)) /\
    shape S = sh /\ shape Q = sh /\
    (forall i j, (i < fst sh)%nat -> (j < snd sh)%nat ->
      px S i j = total (fun p => px (pt_filtered p) i j) parts /\
      px Q i j = total (fun p => (RtoC (pt_weight p ^ 2)%R * px (pt_squared p) i j)%C) parts) /\
    (exists u, In u us /\ ps = (fst (stamp_shape (bu_attr (fst u))) + 6)%nat) /\
    (forall u, In u us -> (fst (stamp_shape (bu_attr (fst u))) + 6 <= ps)%nat) /\
    plane_eq Rr (ifft2 (pmap2 Cdiv S (pmap csqrt Q))) /\
    plane_eq raw (ifft2 (fourier_shift (pmap csqrt Q) (INR ps) (INR ps))) /\
    plane_eq P (pmap (fun z => (z / psum raw)%C) raw) /\
    is_union (fun u => Full (m_msk (bu_data (fst u)))) us sh m.
Proof.
  intros W fuel' sched loss n sh us Rr P m SP Hl Hu Hrl E.
  unfold coadd_built in E. set (xs := map (fun u => after (snd u) (fst u)) us) in *.
  assert (Hne : us <> []).
  { intros ->. cbn in E. discriminate. }
  assert (E' : match bind (match_all W xs) (fun '(zs, xs) => bind (set_up loss xs zs) (mapM coadd_seen)) with
      | Raise e => Some (Raise e)
      | Ok vs => coadd_core fuel' sched (fun k => nth k vs blank) (seq 0 (length vs)) n
      end = Some (Ok (Rr, P, m))).
  { destruct xs as [|x0 xs0]; [discriminate|exact E]. }
  clear E. rename E' into E.
  destruct (bind _ _) as [vs|] eqn:Ev; [|discriminate].
  unfold match_all in Ev.
  destruct (mapM _ xs) as [cs|] eqn:Ecs; [|discriminate]. cbn [bind] in Ev.
  destruct (transparency _ _ _ _ _) as [t|] eqn:Et; [|discriminate]. cbn [bind] in Ev.
  set (ys := map _ (combine xs (mcat t :: cats t))) in Ev.
  destruct (set_up loss ys (zps t)) as [ws|] eqn:Ews; [|discriminate]. cbn [bind] in Ev.
  destruct (mapM_nth _ _ _ Ecs) as [Lc Hc]. destruct (set_up_nth _ _ _ _ Ews) as [Lw Hw].
  destruct (mapM_nth _ _ _ Ev) as [Lv Hv].
  assert (Lx : length xs = length us) by apply map_length.
  assert (Hx : forall k u, nth_error us k = Some u -> nth_error xs k = Some (after (snd u) (fst u)))
    by (intros k u H; exact (map_nth_error (fun u => after (snd u) (fst u)) k us H)).
  (* the catalogues that the matching leaves *)
  assert (Hk : length (mcat t :: cats t) = length cs /\ forall k c, nth_error cs k = Some c ->
            exists c', nth_error (mcat t :: cats t) k = Some c' /\ Permutation (map rspot (rows c')) (map rspot (map row_of c)) /\
              (k = 0%nat -> map rspot (rows c') = map rspot (map row_of c))).
  { destruct cs as [|c0 cs0]; [destruct us; [congruence|cbn in *; lia]|]. cbn [map] in Et.
    rewrite <- (map_map (map row_of) (mkcat false false)) in Et.
    destruct (matched_all _ _ _ _ _ _ SP Et) as [M1 M2]. destruct (Forall2_nth _ _ _ M2) as [Ln M3].
    rewrite map_length in Ln. split; [cbn; now rewrite <- Ln|]. intros [|k] c Ec; cbn in Ec |- *.
    - injection Ec as <-. exists (mcat t). rewrite M1. auto.
    - destruct (M3 k (map row_of c)) as (c' & N1 & N2); [now apply map_nth_error|]. exists c'. split; [exact N1|]. split; [exact N2|discriminate]. }
  destruct Hk as [Lk Hk].
  assert (Ly : length ys = length us).
  { unfold ys. rewrite map_length, combine_length, Lk, Lc, Lx. apply Nat.min_id. }
  assert (Lvs : length vs = length us) by lia.
  (* image by image *)
  assert (Hall : forall k u, nth_error us k = Some u -> exists p c,
            nth_error cs k = Some c /\ fst (best_sources (bu_lib (fst u)) (bu_attr (after (snd u) (fst u)))) = Ok c /\
            (exists left z, nth_error (map (fun c => map src_of (rows c)) (mcat t :: cats t)) k = Some left /\
         Permutation (map spot left) (map spot c) /\ (k = 0%nat -> map spot left = map spot c) /\
               nth_error (zps t) k = Some z /\ pt_weight p = (z / var (bu_back (fst u)))%R /\
               adds W loss (fst u) (snd u) left z (pt_filtered p) (pt_squared p) /\
               nth_error vs k = Some (mksimg sh (Full (m_msk (bu_data (fst u)))) (b_rms (bu_back (fst u))) z loss
                  (fst (stamp_shape (bu_attr (fst u))) + 6) (fun _ => px (pt_filtered p)) (fun _ => px (pt_squared p))
                  (Some (px (pt_filtered p))) (Some loss) false true)) /\
            shape (m_msk (bu_data (fst u))) = sh).
  { intros k [x cl] Ek. pose proof (proj1 (Forall_forall _ _) Hu _ (nth_error_In _ _ Ek)) as (Bx & S1 & S2 & (sp & Hsp) & Fp).
    cbn [fst snd] in *. destruct (Hc k _ (Hx _ _ Ek)) as (c & Bc & Nc). destruct (Hk k c Nc) as (c' & Nc' & Pc & P0).
    assert (Ny : nth_error ys k = Some (with_best (map src_of (rows c')) (after cl x))).
    { unfold ys. apply (map_nth_error (fun xc => with_best (map src_of (rows (snd xc))) (fst xc)) k _ (d := (after cl x, c'))).
      pose proof (Hx _ _ Ek) as Nx. cbn [fst snd] in Nx. clear - Nx Nc'. revert k Nx Nc'. generalize (mcat t :: cats t) xs. clear xs.
      induction l as [|a l IH]; intros xs [|k] Nx Nc'; cbn in *; try discriminate; destruct xs as [|x0 xs]; cbn in *; try discriminate.
      - congruence.
      - now apply IH. }
    destruct (Hw k _ Ny) as (z & s & Nz & Es & Nw). destruct (Hv k _ Nw) as (v & Sv & Nv).
    destruct (seen_adds _ _ _ _ _ _ _ _ _ Bx Fp Hl Hsp Es Sv) as (h & q & A & S3 & S4 & ->).
    exists (mkpart (z / var (bu_back x))%R h q), c. split; [exact Nc|]. split; [exact Bc|]. split; [|exact S2].
    assert (Q : forall r, map spot (map src_of r) = map rspot r) by (intros r; rewrite map_map; reflexivity).
    assert (Q' : forall s, map rspot (map row_of s) = map spot s) by (intros s'; rewrite map_map; reflexivity).
    exists (map src_of (rows c')), z. rewrite Q, <- Q'. cbn [pt_weight pt_filtered pt_squared].
    split; [exact (map_nth_error (fun c => map src_of (rows c)) k _ Nc')|].
    repeat split; auto; [apply A|apply A|]. rewrite <- S1. exact Nv. }
  destruct (choose_list (fun k u p => exists c, _) us Hall) as (parts & Lp & Hp).
  set (h := fun k => nth k vs blank) in E.
  assert (Hids : seq 0 (length vs) <> []) by (rewrite Lvs; destruct us; [congruence|discriminate]).
  assert (Hh : forall k u, nth_error us k = Some u -> exists p z, nth_error parts k = Some p /\
             pt_weight p = (z / var (bu_back (fst u)))%R /\ shape (m_msk (bu_data (fst u))) = sh /\
             h k = mksimg sh (Full (m_msk (bu_data (fst u)))) (b_rms (bu_back (fst u))) z loss
                  (fst (stamp_shape (bu_attr (fst u))) + 6) (fun _ => px (pt_filtered p)) (fun _ => px (pt_squared p))
                  (Some (px (pt_filtered p))) (Some loss) false true).
  { intros k u Ek. destruct (Hp k u Ek) as (p & Np & c & _ & _ & (left & z & _ & _ & _ & _ & Wt & _ & Nv) & Sm).
    exists p, z. repeat split; auto. unfold h. now apply nth_of. }
  assert (Hin : forall k, In k (seq 0 (length vs)) -> exists u, nth_error us k = Some u).
  { intros k Hk'. apply in_seq in Hk'. destruct (nth_error us k) as [u|] eqn:Ek; [eauto|].
    apply nth_error_None in Ek. lia. }
  assert (Hfit : images_fit h (seq 0 (length vs)) sh).
  { intros k Hk'. destruct (Hin k Hk') as [u Ek]. destruct (Hh k u Ek) as (p & z & _ & _ & Sm & ->). cbn. repeat split; auto. discriminate. }
  rewrite <- Lvs in Hrl.
  destruct (core_result _ _ _ _ _ _ _ Hids Hrl Hfit E) as (ps & a & Er & Eps & [S1 S2] & [Q1 Q2] & U & Sk).
  unfold finish in Er. injection Er as -> -> ->.
  destruct (np_max_ok (map (fun i => si_stamp (h i)) (seq 0 (length vs)))) as [ps' [E1 [I1 U1]]].
  { destruct (seq 0 (length vs)); [congruence|discriminate]. }
  rewrite E1 in Eps. injection Eps as ->.
  exists cs, t, parts, (aS a), (aP a), ps, (ifft2 (fourier_shift (pmap csqrt (aP a)) (INR ps) (INR ps))).
  split.
  { clear - Hall Lc Lx. assert (Lc' : length cs = length us) by lia. clear Lc Lx.
    assert (H : forall k u, nth_error us k = Some u -> exists c, nth_error cs k = Some c /\
              fst (best_sources (bu_lib (fst u)) (bu_attr (after (snd u) (fst u)))) = Ok c)
      by (intros k u Ek; destruct (Hall k u Ek) as (p & c & A & B & _); eauto).
    clear Hall. revert cs Lc' H. induction us as [|u us IH]; intros [|c cs] Ln H; try discriminate; [constructor|].
    constructor.
    - destruct (H 0%nat u eq_refl) as (c' & A & B). cbn in A. injection A as <-. exact B.
    - apply IH; [now injection Ln|]. intros k v Ek. exact (H (S k) v Ek). }
  split; [exact Et|]. split; [exact Lp|].
  split.
  { intros k u c p Ku Kc Kp. destruct (Hp k u Ku) as (p' & Np & c' & Nc' & _ & (left & z & A0 & A1 & A2 & A3 & A4 & A5 & _) & _).
    rewrite Kp in Np. injection Np as <-. rewrite Kc in Nc'. injection Nc' as <-. exists left, z. auto 8. }
  split; [exact S1|]. split; [exact Q1|].
  assert (Hq : forall k, (k < length parts)%nat -> exists u p z, nth_error us k = Some u /\ nth k parts (mkpart 0 zeros zeros) = p /\
             pt_weight p = (z / var (bu_back (fst u)))%R /\
             h k = mksimg sh (Full (m_msk (bu_data (fst u)))) (b_rms (bu_back (fst u))) z loss
                  (fst (stamp_shape (bu_attr (fst u))) + 6) (fun _ => px (pt_filtered p)) (fun _ => px (pt_squared p))
                  (Some (px (pt_filtered p))) (Some loss) false true).
  { intros k Lk'. destruct (Hin k) as [u Ek]; [apply in_seq; lia|]. destruct (Hh k u Ek) as (p & z & Np & Wt & _ & Eh).
    exists u, p, z. repeat split; auto. now apply nth_of. }
  split.
  { intros i j Hi Hj. rewrite (S2 i j Hi Hj), (Q2 i j Hi Hj). rewrite Lvs, <- Lp. split.
    - apply (total_seq_nth _ _ (mkpart 0 zeros zeros)). intros k Lk'. destruct (Hq k Lk') as (u & p & z & _ & -> & _ & Eh).
      unfold curc, cur. cbn [Nat.add]. rewrite Eh. cbn. now destruct (Req_EM_T loss loss).
    - apply (total_seq_nth _ _ (mkpart 0 zeros zeros)). intros k Lk'. destruct (Hq k Lk') as (u & p & z & _ & -> & Wt & Eh).
      unfold ptc, pterm. cbn [Nat.add]. rewrite Eh. cbn. rewrite Wt. reflexivity. }
  split; [|split; [|split; [split; reflexivity|split; [split; reflexivity|split; [split; reflexivity|]]]]].
  - apply in_map_iff in I1 as (k & Es & Ik). destruct (Hin k Ik) as [u Ek]. destruct (Hh k u Ek) as (p & z & _ & _ & _ & Eh).
    exists u. split; [eapply nth_error_In; eauto|]. rewrite <- Es, Eh. reflexivity.
  - intros u Iu. apply In_nth_error in Iu as [k Ek]. destruct (Hh k u Ek) as (p & z & _ & _ & _ & Eh).
    apply U1. apply in_map_iff. exists k. rewrite Eh. split; [reflexivity|]. apply in_seq.
    assert (k < length us)%nat by (apply nth_error_Some; congruence). lia.
  - pose proof (uni_union _ _ _ _ U Sk) as (V1 & V2 & V3).
    assert (G : forall (T : mask -> Prop), (exists k, In k (seq 0 (length vs)) /\ T (si_mask (h k))) <->
                 (exists u, In u us /\ T (Full (m_msk (bu_data (fst u)))))).
    { intros T. split.
      - intros (k & Ik & Tk). destruct (Hin k Ik) as [u Ek]. destruct (Hh k u Ek) as (p & z & _ & _ & _ & Eh).
        exists u. split; [eapply nth_error_In; eauto|]. now rewrite Eh in Tk.
      - intros (u & Iu & Tu). apply In_nth_error in Iu as [k Ek]. destruct (Hh k u Ek) as (p & z & _ & _ & _ & Eh).
        exists k. rewrite Eh. split; [|exact Tu]. apply in_seq. assert (k < length us)%nat by (apply nth_error_Some; congruence). lia. }
    split; [|split; [|exact V3]].
    + intros i j Hi Hj. rewrite (V1 i j Hi Hj). apply (G (fun mk => masked_at mk i j = true)).
    + rewrite V2. split; intros H.
      * intros u i j Iu Hi Hj. destruct (masked_at _ i j) eqn:Em; [|reflexivity].
        destruct (proj2 (G (fun mk => masked_at mk i j = true))) as (k & Ik & Tk); [eauto|]. now rewrite (H k i j Ik Hi Hj) in Tk.
      * intros k i j Ik Hi Hj. destruct (masked_at _ i j) eqn:Em; [|reflexivity].
        destruct (proj1 (G (fun mk => masked_at mk i j = true))) as (u & Iu & Tu); [eauto|]. now rewrite (H u i j Iu Hi Hj) in Tu.
Qed.

(** What a coadd uses. *)
Lemma C118_coadd_lm : forall W fuel fuel' sched loss n sh us Rr P m,
  (forall n c, length (fst (l_eigh W n c)) = n) -> (forall r, Permutation (l_sort W r) r) -> 0 <= loss ->
  Forall (in_use W fuel sh) us -> run_limits fuel' (seq 0 (length us)) n ->
  coadd_built W fuel' sched loss n (map (fun u => after (snd u) (fst u)) us) = Some (Ok (Rr, P, m)) ->
  exists cs t parts S Q ps raw,
    Forall2 (fun u c => fst (best_sources (bu_lib (fst u)) (bu_attr (after (snd u) (fst u)))) = Ok c) us cs /\
    transparency (l_query W) (l_sort W) (l_lsqr W) (map (fun c => mkcat false false (map row_of c)) cs) None = Ok t /\
    length parts = length us /\
    (forall k u c p, nth_error us k = Some u -> nth_error cs k = Some c -> nth_error parts k = Some p ->
       exists left z, Permutation (map spot left) (map spot c) /\ (k = 0%nat -> map spot left = map spot c) /\
         nth_error (zps t) k = Some z /\ pt_weight p = (z / var (bu_back (fst u)))%R /\
         adds W loss (fst u) (snd u) left z (pt_filtered p) (pt_squared p)) /\
    shape S = sh /\ shape Q = sh /\
    (forall i j, (i < fst sh)%nat -> (j < snd sh)%nat ->
      px S i j = total (fun p => px (pt_filtered p) i j) parts /\
      px Q i j = total (fun p => (RtoC (pt_weight p ^ 2)%R * px (pt_squared p) i j)%C) parts) /\
    (exists u, In u us /\ ps = (fst (stamp_shape (bu_attr (fst u))) + 6)%nat) /\
    (forall u, In u us -> (fst (stamp_shape (bu_attr (fst u))) + 6 <= ps)%nat) /\
    plane_eq Rr (ifft2 (pmap2 Cdiv S (pmap csqrt Q))) /\
    plane_eq raw (ifft2 (fourier_shift (pmap csqrt Q) (INR ps) (INR ps))) /\
    plane_eq P (pmap (fun z => (z / psum raw)%C) raw) /\
    is_union (fun u => Full (m_msk (bu_data (fst u)))) us sh m.
Proof.
  intros W fuel fuel' sched loss n sh us Rr P m EL SP Hl Hu Hrl E.
  destruct (coadd_gen W fuel' sched loss n sh us Rr P m SP Hl (use_ready W fuel sh us EL Hu) Hrl E)
    as (cs & t & parts & S & Q & ps & raw & A1 & A2 & A3 & A4 & A5).
  exists cs, t, parts, S, Q, ps, raw. split; [exact A1|]. split; [exact A2|]. split; [exact A3|]. split; [|exact A5].
  intros k u c p Ku Kc Kp. destruct (A4 k u c p Ku Kc Kp) as (left & z & _ & A). exists left, z. exact A.
Qed.

Lemma mapM_ok {A B} (f : A -> res B) l : (forall a, In a l -> exists b, f a = Ok b) -> exists r, mapM f l = Ok r.
Proof.
  induction l as [|a l IH]; intros H; [exists []; reflexivity|]. cbn [mapM]. destruct (H a) as [b ->]; [now left|]. cbn [bind].
  destruct IH as [r ->]; [intros x Hx; apply H; now right|]. cbn [bind]. eauto.
Qed.

Lemma set_up_ok loss : forall ys zs, (length ys <= length zs)%nat ->
  (forall k y z, nth_error ys k = Some y -> nth_error zs k = Some z ->
     fst (setup_kl_a_fields _ _ _ (bu_lib y) (Some loss) false (set_zp _ _ _ (Some z) (bu_attr y))) = Ok tt) ->
  exists us, set_up loss ys zs = Ok us.
Proof.
  induction ys as [|y ys IH]; intros zs Ln H; [eexists; reflexivity|]. destruct zs as [|z zs]; [cbn in Ln; lia|].
  cbn [set_up]. pose proof (H 0%nat y z eq_refl eq_refl) as E.
  destruct (setup_kl_a_fields _ _ _ _ _ _ _) as [r s]. cbn [fst] in E. subst r.
  destruct (IH zs) as [us ->]; [cbn in Ln; lia|intros k; exact (H (S k))|]. cbn [bind]. eauto.
Qed.

(** The image can be seen by the workers when its stars give a PSF. *)
Lemma seen_ok W x cs left loss z sp q :
  usable W x -> Forall plain cs -> 0 <= loss ->
  stamps_of _ _ _ (bu_lib x) (stamp_shape (bu_attr x)) = Ok sp ->
  psf_for (stars_for x cs left) (stamp_shape (bu_attr x)) loss = Ok q -> snd q <> [] ->
  exists s, setup_kl_a_fields _ _ _ (bu_lib x) (Some loss) false
    (set_zp _ _ _ (Some z) (bu_attr (with_best left (after cs x)))) = (Ok tt, s) /\
  exists v, coadd_seen (with_attr s (with_best left (after cs x))) = Ok v.
Proof.
  intros (O & N & Sx & Nx) F Hl Hsp Q Ne. remember (stamp_shape (bu_attr x)) as sh eqn:Sh.
  unfold stars_for in Q.
  destruct (coadd_ready _ _ _ (bu_lib x) sh (bu_attr x) cs left loss z sp O N Hsp F Hl q Q) as [Rs [rh Rh]].
  change (bu_attr (with_best left (after cs x))) with (set_best _ _ _ (Some left) (exec_all (bu_lib x) cs (bu_attr x))).
  destruct (setup_kl_a_fields _ _ _ _ _ _ _) as [r s] eqn:Es. cbn [fst] in Rs. subst r. exists s. split; [reflexivity|].
  assert (Es' : s = exec (bu_lib x) (CCoadd loss z) (set_best _ _ _ (Some left) (exec_all (bu_lib x) cs (bu_attr x)))).
  { cbn [exec]. unfold void. now rewrite Es. }
  pose proof (coadd_filter _ _ _ (bu_lib x) sh (bu_attr x) cs left loss z sp O N Hsp F Hl) as Hf.
  destruct (coadd_answers _ _ _ (bu_lib x) sh (bu_attr x) cs left loss z sp O N Hsp F Hl q Q) as (_ & Hz & Hlo & Hst & Hb & Hfi).
  rewrite <- Es' in Hf, Rh, Hz, Hlo, Hst, Hb, Hfi. rewrite Rh in Hf.
  unfold coadd_seen. change (bu_lib (with_attr s (with_best left (after cs x)))) with (bu_lib x).
  change (bu_attr (with_attr s (with_best left (after cs x)))) with s.
  destruct (s_hat_comp (bu_lib x) s) as [r2 s2] eqn:Eh. cbn [fst snd] in *. subst r2. cbn [bind].
  assert (exists h, rh = Ok h) as [h ->].
  { symmetry in Hf. unfold filt_for in Hf. rewrite Q in Hf. cbn [bind] in Hf.
    destruct (norm_for _ _ _) as [nn|]; [|discriminate]. cbn [bind] in Hf.
    assert (G : shat_of (if stamps_read (looked_at (bu_attr x)) cs then bu_lib x else given (bu_lib x) left) = shat_of (bu_lib x))
      by (destruct (stamps_read _ _); reflexivity).
    rewrite G, Sx in Hf. injection Hf as <-.
    unfold Filter.s_hat, s_base. destruct q as [a [|b bs]]; [now elim Ne|]. cbn [snd map bind]. eauto. }
  cbn [bind]. unfold sqnorm_of. change (bu_lib (with_attr s2 (with_attr s (with_best left (after cs x))))) with (bu_lib x).
  change (bu_attr (with_attr s2 (with_attr s (with_best left (after cs x))))) with s2.
  destruct (Session.kl_basis _ _ _ (bu_lib x) s2) as [rb s3]. cbn [fst snd] in *. subst rb. cbn [bind]. rewrite Hfi. cbn [bind]. eauto.
Qed.

Lemma Forall2_len {A B} (P : A -> B -> Prop) l l' : Forall2 P l l' -> length l = length l'.
Proof. induction 1; cbn; congruence. Qed.

Lemma works_gen : forall W fuel' sched loss n sh us cs t,
  (forall r, Permutation (l_sort W r) r) -> 0 <= loss -> (n <= 1)%Z ->
  us <> [] -> Forall (ready W sh) us ->
  Forall2 (fun u c => fst (best_sources (bu_lib (fst u)) (bu_attr (after (snd u) (fst u)))) = Ok c) us cs ->
  transparency (l_query W) (l_sort W) (l_lsqr W) (map (fun c => mkcat false false (map row_of c)) cs) None = Ok t ->
  length (zps t) = length us ->
  Forall2 (fun u c => forall left, Permutation (map spot left) (map spot c) ->
    exists q, psf_for (stars_for (fst u) (snd u) left) (stamp_shape (bu_attr (fst u))) loss = Ok q /\ snd q <> []) us cs ->
  exists r, coadd_built W fuel' sched loss n (map (fun u => after (snd u) (fst u)) us) = Some (Ok r).
Proof.
  intros W fuel' sched loss n sh us cs t SP Hl Hn Hne Hu Hc Et Lz Hq.
  assert (Hm : mapM (fun x => fst (best_sources (bu_lib x) (bu_attr x))) (map (fun u => after (snd u) (fst u)) us) = Ok cs).
  { clear - Hc. induction Hc as [|u c us cs E F IH]; [reflexivity|]. cbn [map mapM].
    change (bu_lib (after (snd u) (fst u))) with (bu_lib (fst u)). rewrite E. cbn [bind]. rewrite IH. reflexivity. }
  destruct (Forall2_nth _ _ _ Hc) as [Lc _]. destruct (Forall2_nth _ _ _ Hq) as [_ Nq].
  assert (Hk : length (mcat t :: cats t) = length cs /\ forall k c, nth_error cs k = Some c ->
            exists c', nth_error (mcat t :: cats t) k = Some c' /\ Permutation (map rspot (rows c')) (map rspot (map row_of c))).
  { destruct cs as [|c0 cs0]; [destruct us; [congruence|cbn in *; lia]|]. cbn [map] in Et.
    rewrite <- (map_map (map row_of) (mkcat false false)) in Et.
    destruct (matched_all _ _ _ _ _ _ SP Et) as [M1 M2]. destruct (Forall2_nth _ _ _ M2) as [Ln M3].
    rewrite map_length in Ln. split; [cbn; now rewrite <- Ln|]. intros [|k] c Ec; cbn in Ec |- *.
    - injection Ec as <-. exists (mcat t). rewrite M1. auto.
    - destruct (M3 k (map row_of c)) as (c' & N1 & N2); [now apply map_nth_error|]. exists c'. now split. }
  destruct Hk as [Lk Hk].
  set (xs := map (fun u => after (snd u) (fst u)) us) in *.
  set (ys := map (fun xc => with_best (map src_of (rows (snd xc))) (fst xc)) (combine xs (mcat t :: cats t))).
  assert (Ly : length ys = length us).
  { unfold ys. rewrite map_length, combine_length, Lk, <- Lc. unfold xs. rewrite map_length. apply Nat.min_id. }
  assert (Each : forall k y, nth_error ys k = Some y -> exists x cl sp left q,
            y = with_best left (after cl x) /\ usable W x /\ Forall plain cl /\
            stamps_of _ _ _ (bu_lib x) (stamp_shape (bu_attr x)) = Ok sp /\
            psf_for (stars_for x cl left) (stamp_shape (bu_attr x)) loss = Ok q /\ snd q <> [] /\
            shape (m_dat (bu_data x)) = sh /\ shape (m_msk (bu_data x)) = sh).
  { intros k y Ey. assert (Lt : (k < length us)%nat) by (rewrite <- Ly; apply nth_error_Some; congruence).
    destruct (nth_error us k) as [[x cl]|] eqn:Ek; [|apply nth_error_None in Ek; lia].
    destruct (Nq k _ Ek) as (c & Nc & Q). destruct (Hk k c Nc) as (c' & Nc' & Pc).
    pose proof (proj1 (Forall_forall _ _) Hu _ (nth_error_In _ _ Ek)) as (Bx & S1 & S2 & (sp & Hsp) & Fp).
    cbn [fst snd] in *.
    assert (P : forall r, map spot (map src_of r) = map rspot r) by (intros r; rewrite map_map; reflexivity).
    assert (P' : forall s, map rspot (map row_of s) = map spot s) by (intros s'; rewrite map_map; reflexivity).
    destruct (Q (map src_of (rows c'))) as (q & Eq & Ne); [now rewrite P, <- P'|].
    exists x, cl, sp, (map src_of (rows c')), q.
    assert (Ny : nth_error ys k = Some (with_best (map src_of (rows c')) (after cl x))).
    { unfold ys. apply (map_nth_error (fun xc => with_best (map src_of (rows (snd xc))) (fst xc)) k _ (d := (after cl x, c'))).
      pose proof (map_nth_error (fun u => after (snd u) (fst u)) k us Ek) as Nx. cbn [fst snd] in Nx. fold xs in Nx.
      clear - Nx Nc'. revert k Nx Nc'. generalize (mcat t :: cats t) xs. clear xs.
      induction l as [|a l IH]; intros xs [|k] Nx Nc'; cbn in *; try discriminate; destruct xs as [|x0 xs]; cbn in *; try discriminate.
      - congruence.
      - now apply IH. }
    rewrite Ey in Ny. injection Ny as ->. auto 10. }
  destruct (set_up_ok loss ys (zps t)) as [ws Ews]; [lia| |].
  { intros k y z Ey Ez. destruct (Each k y Ey) as (x & cl & sp & left & q & -> & Bx & Fp & Hsp & Eq & Ne & _).
    destruct (seen_ok W x cl left loss z sp q Bx Fp Hl Hsp Eq Ne) as (s & Es & _).
    change (bu_lib (with_best left (after cl x))) with (bu_lib x). now rewrite Es. }
  destruct (set_up_nth _ _ _ _ Ews) as [Lw Hw].
  assert (Eachw : forall w, In w ws -> exists v, coadd_seen w = Ok v /\ si_shape v = sh /\
                     (exists p, si_mask v = Full p /\ shape p = sh) /\ si_shat_loss v <> None).
  { intros w Iw. apply In_nth_error in Iw as [k Ew].
    assert (Lt : (k < length ys)%nat) by (rewrite <- Lw; apply nth_error_Some; congruence).
    destruct (nth_error ys k) as [y|] eqn:Ey; [|apply nth_error_None in Ey; lia].
    destruct (Hw k y Ey) as (z & s & Ez & Es & Ew'). rewrite Ew in Ew'. injection Ew' as ->.
    destruct (Each k y Ey) as (x & cl & sp & left & q & -> & Bx & Fp & Hsp & Eq & Ne & S1 & S2).
    destruct (seen_ok W x cl left loss z sp q Bx Fp Hl Hsp Eq Ne) as (s' & Es' & v & Ev).
    change (bu_lib (with_best left (after cl x))) with (bu_lib x) in Es. rewrite Es in Es'. injection Es' as <-.
    exists v. split; [exact Ev|].
    destruct (seen_adds _ _ _ _ _ _ _ _ _ Bx Fp Hl Hsp Es Ev) as (h & q' & _ & _ & _ & ->). cbn.
    split; [exact S1|]. split; [eauto|discriminate]. }
  destruct (mapM_ok coadd_seen ws) as [vs Ev]; [intros w Iw; destruct (Eachw w Iw) as (v & E & _); eauto|].
  destruct (mapM_nth _ _ _ Ev) as [Lv Hv].
  assert (Hids : seq 0 (length vs) <> []) by (replace (length vs) with (length us) by lia; destruct us; [congruence|discriminate]).
  assert (Hfit : images_fit (fun k => nth k vs blank) (seq 0 (length vs)) sh).
  { intros k Ik. apply in_seq in Ik. destruct (nth_error ws k) as [w|] eqn:Ew; [|apply nth_error_None in Ew; lia].
    destruct (Hv k w Ew) as (v & Sv & Nv). rewrite (nth_of _ _ _ blank Nv).
    destruct (Eachw w (nth_error_In _ _ Ew)) as (v' & Sv' & A & (p & B & B') & D). rewrite Sv in Sv'. injection Sv' as <-.
    split; [exact A|]. rewrite B. split; [exact B'|]. intros _. exact D. }
  destruct (seq_spec fuel' sched (fun k => nth k vs blank) (seq 0 (length vs)) sh n Hn Hids Hfit) as (ps & a & E & _).
  exists (finish ps a). unfold coadd_built.
  assert (Em : bind (match_all W xs) (fun '(zs, xs) => bind (set_up loss xs zs) (mapM coadd_seen)) = Ok vs).
  { unfold match_all. rewrite Hm. cbn [bind]. rewrite Et. cbn [bind]. fold ys. rewrite Ews. cbn [bind]. exact Ev. }
  assert (Xne : xs <> []) by (unfold xs; destruct us; [congruence|discriminate]).
  destruct xs as [|x0 xs0] eqn:Ex; [congruence|]. rewrite Em. exact E.
Qed.

(** One after the other, images whose stars give a PSF can be coadded. *)
Lemma C118_works_lm : forall W fuel fuel' sched loss n sh us cs t,
  (forall n c, length (fst (l_eigh W n c)) = n) -> (forall r, Permutation (l_sort W r) r) -> 0 <= loss -> (n <= 1)%Z ->
  us <> [] -> Forall (in_use W fuel sh) us ->
  Forall2 (fun u c => fst (best_sources (bu_lib (fst u)) (bu_attr (after (snd u) (fst u)))) = Ok c) us cs ->
  transparency (l_query W) (l_sort W) (l_lsqr W) (map (fun c => mkcat false false (map row_of c)) cs) None = Ok t ->
  length (zps t) = length us ->
  Forall2 (fun u c => forall left, Permutation (map spot left) (map spot c) ->
    exists q, psf_for (stars_for (fst u) (snd u) left) (stamp_shape (bu_attr (fst u))) loss = Ok q /\ snd q <> []) us cs ->
  exists r, coadd_built W fuel' sched loss n (map (fun u => after (snd u) (fst u)) us) = Some (Ok r).
Proof.
  intros W fuel fuel' sched loss n sh us cs t EL SP Hl Hn Hne Hu Hc Et Lz Hq.
  exact (works_gen W fuel' sched loss n sh us cs t SP Hl Hn Hne (use_ready W fuel sh us EL Hu) Hc Et Lz Hq).
Qed.
