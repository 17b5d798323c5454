(** The zero points in a coadd. *)
From Coq Require Import Arith ZArith List Bool Reals Lia Lra Permutation.
From Coquelicot Require Import Complex.
From Verif.Model Require Import Py Plane Ma Chunk Coadd.
From Verif.Spec Require Import Coadd CoaddExample.
From Verif.Proof Require Import Chunk ChunkSort Coadd CoaddThreads CoaddMain CoaddMore Subtract.
Import ListNotations.
Set Bullet Behavior "Strict Subproofs".

Lemma convert_Img mk w ids : convert mk w (map Img ids) = (Ok ids, map Img ids, w).
Proof. induction ids as [|i ids IH]; cbn; [reflexivity|]. now rewrite IH. Qed.

Lemma set_zps_other loss : forall ids zps h h' k, set_zps h ids zps loss = Ok h' -> ~ In k ids -> h' k = h k.
Proof.
  induction ids as [|i ids IH]; intros zps h h' k E Nk; cbn in E.
  - injection E as <-. reflexivity.
  - destruct zps as [|z zps]; [discriminate|]. cbn in Nk.
    rewrite (IH _ _ _ k E) by tauto. apply upd_other. intuition congruence.
Qed.

Lemma set_zps_in loss : forall ids zps h h' i z, NoDup ids -> set_zps h ids zps loss = Ok h' ->
  In (i, z) (combine ids zps) -> h' i = with_zp_loss z loss (h i).
Proof.
  induction ids as [|i0 ids IH]; intros zps h h' i z Nd E Hin; cbn in E, Hin; [destruct Hin|].
  destruct zps as [|z0 zps]; [discriminate|]. inversion Nd as [|? ? N0 Nd']; subst.
  destruct Hin as [Hin|Hin].
  - injection Hin as <- <-. rewrite (set_zps_other _ _ _ _ _ i0 E N0). apply upd_same.
  - rewrite (IH _ _ _ i z Nd' E Hin). rewrite upd_other; [reflexivity|].
    intros ->. apply N0. now apply in_combine_l in Hin.
Qed.

Lemma total_combine {A} (f : nat -> C) (g : nat * A -> C) ids (zs : list A) : length zs = length ids ->
  (forall i z, In (i, z) (combine ids zs) -> f i = g (i, z)) -> total f ids = total g (combine ids zs).
Proof.
  revert zs. induction ids as [|i ids IH]; intros [|z zs] L H; cbn in *; try discriminate; [reflexivity|].
  rewrite (H i z) by auto. f_equal. apply IH; [lia|]. intros; apply H; auto.
Qed.

Lemma set_zps_len loss : forall ids zps h h', set_zps h ids zps loss = Ok h' -> length ids <= length zps.
Proof.
  induction ids as [|i ids IH]; intros [|z zps] h h' E; cbn in *; try discriminate; try lia.
  apply IH in E. lia.
Qed.

Lemma in_combine_ex {A} (ids : list nat) : forall (zs : list A) (i : nat), length zs = length ids -> In i ids -> exists z : A, In (i, z) (combine ids zs).
Proof.
  induction ids as [|k ids IH]; intros [|z zs] i L Hi; cbn in *; try discriminate; [destruct Hi|].
  destruct Hi as [->|Hi]; [eauto|]. destruct (IH zs i) as [z' H]; [lia|exact Hi|eauto].
Qed.

(** C86: what each image contributes to a coadd is weighted with the zero point that transparency gave
    that image: zp / var^2 times its filtered image, and (zp / var)^2 times its squared PSF
    transform. R is the ratio of the first sum to the root of the second, P its normalised
    image. The exception is an image whose filtered image was computed before, for the same
    inf_loss: that is used as it is. *)
Lemma C86_zero_points_lm : forall mk reg transp fuel sched w ids loss n zps sh Rr P m l',
  ids <> [] -> NoDup ids -> transp (objs w) ids = Ok zps -> length zps = length ids ->
  run_limits fuel ids n -> images_fit (objs w) ids sh ->
  coadd mk reg transp fuel sched w (map Img ids) false loss n = (Some (Ok (Rr, P, m)), l') ->
  exists S Q ps raw, shape S = sh /\ shape Q = sh /\
    (forall r c, (r < fst sh)%nat -> (c < snd sh)%nat ->
      px S r c = total (fun iz => contribution (objs w (fst iz)) loss (snd iz) r c) (combine ids zps) /\
      px Q r c = total (fun iz => let x := objs w (fst iz) in
                   (RtoC ((snd iz / si_var x) ^ 2)%R * si_sq x loss r c)%C) (combine ids zps)) /\
    In ps (map (fun i => si_stamp (objs w i)) ids) /\
    (forall i, In i ids -> (si_stamp (objs w i) <= ps)%nat) /\
    plane_eq Rr (ifft2 (pmap2 Cdiv S (pmap csqrt Q))) /\
    plane_eq raw (ifft2 (fourier_shift (pmap csqrt Q) (INR ps) (INR ps))) /\
    plane_eq P (pmap (fun z => (z / psum raw)%C) raw).
Proof.
  intros mk reg transp fuel sched w ids loss n zps sh Rr P m l' Hne Nd Et El Hrl Hf E.
  unfold coadd, prepare in E. rewrite convert_Img in E.
  assert (exists h', set_zps (objs w) ids zps loss = Ok h' /\
            coadd_core fuel sched h' ids n = Some (Ok (Rr, P, m))) as [h' [Ez Ec]].
  { destruct ids as [|i0 ids0] eqn:Ei; [congruence|]. rewrite Et in E. cbn [bind] in E.
    destruct (set_zps (objs w) (i0 :: ids0) zps loss) as [h'|e] eqn:Ez; cbn [bind] in E; [|discriminate].
    exists h'. split; [reflexivity|]. congruence. }
  clear E.
  assert (forall i z, In (i, z) (combine ids zps) -> h' i = with_zp_loss z loss (objs w i)) as Hz.
  { intros i z Hin. now apply (set_zps_in loss ids zps (objs w)). }
  assert (forall i, In i ids -> exists z, h' i = with_zp_loss z loss (objs w i)) as Hex.
  { intros i Hi. destruct (in_combine_ex ids zps i El Hi) as [z Hin]. eauto. }
  assert (images_fit h' ids sh) as Hf'.
  { intros i Hi. destruct (Hex i Hi) as [z ->]. cbn. exact (Hf i Hi). }
  destruct (core_result _ _ _ _ _ _ _ Hne Hrl Hf' Ec) as (ps & a & Er & Eps & [S1 S2] & [Q1 Q2] & _ & _).
  unfold finish in Er. injection Er as -> -> _.
  assert (map (fun i => si_stamp (h' i)) ids = map (fun i => si_stamp (objs w i)) ids) as Est.
  { apply map_ext_in. intros i Hi. destruct (Hex i Hi) as [z ->]. reflexivity. }
  rewrite Est in Eps.
  destruct (np_max_ok (map (fun i => si_stamp (objs w i)) ids)) as [ps' [E1 [I1 U1]]].
  { destruct ids; [congruence|discriminate]. }
  rewrite E1 in Eps. injection Eps as ->.
  exists (aS a), (aP a), ps, (ifft2 (fourier_shift (pmap csqrt (aP a)) (INR ps) (INR ps))).
  split; [exact S1|]. split; [exact Q1|]. split; [|split; [exact I1|split; [|split; [|split]]]].
  - intros r c Hr Hc. rewrite (S2 r c Hr Hc), (Q2 r c Hr Hc). split.
    + apply total_combine; [exact El|]. intros i z Hin. unfold curc, contribution, cur. rewrite (Hz i z Hin). cbn.
      destruct (si_shat (objs w i)); [|reflexivity]. destruct (si_shat_loss (objs w i)) as [l0|]; [|reflexivity]. now destruct (Req_EM_T l0 loss).
    + apply total_combine; [exact El|]. intros i z Hin. unfold ptc, pterm, psf_term. rewrite (Hz i z Hin). reflexivity.
  - intros i Hi. apply U1. apply in_map_iff. eauto.
  - split; reflexivity.
  - split; reflexivity.
  - split; reflexivity.
Qed.

(** ** An image whose filtered image was computed earlier *)
Local Open Scope R_scope.

Lemma ifft2_one F : nr F = 1%nat -> nc F = 1%nat -> px (ifft2 F) 0%nat 0%nat = px F 0%nat 0%nat.
Proof.
  intros E1 E2. unfold ifft2. cbn [pmap px idft_raw]. rewrite E1, E2. cbn [csum INR].
  replace (2 * PI * (0 * 0 / 1 + 0 * 0 / 1)) with 0 by field.
  unfold cis. rewrite cos_0, sin_0. change (1, 0) with (RtoC 1).
  replace (/ (1 * 1)) with 1 by field. ring.
Qed.

(** A frame of one pixel, with the filtered image of a coadd in which its zero point was 1. *)
Definition used_img : simg :=
  mksimg (1%nat, 1%nat) Nomask 1 1 (1 / 5) 5 (fun _ _ _ => RtoC 1) (fun _ _ _ => RtoC 1)
         (Some (fun _ _ => RtoC 1)) (Some (1 / 5)) false true.
Definition used_world : world := mkworld (fun _ => used_img) 1.

(** C86: so the coadd is not a function of the zero points alone: an image that was in a
    coadd before, with the same inf_loss, keeps in the numerator the zero point it had then. *)
Lemma C86_used_before_refuted_lm : ~ (forall mk reg transp fuel sched w ids loss n zps sh Rr P m l',
  ids <> [] -> NoDup ids -> transp (objs w) ids = Ok zps -> length zps = length ids ->
  run_limits fuel ids n -> images_fit (objs w) ids sh ->
  coadd mk reg transp fuel sched w (map Img ids) false loss n = (Some (Ok (Rr, P, m)), l') ->
  exists S Q, shape S = sh /\ shape Q = sh /\
    (forall r c, (r < fst sh)%nat -> (c < snd sh)%nat ->
      px S r c = total (fun iz => let x := objs w (fst iz) in
                   (RtoC (snd iz / si_var x ^ 2) * si_base x loss r c)%C) (combine ids zps) /\
      px Q r c = total (fun iz => let x := objs w (fst iz) in
                   (RtoC ((snd iz / si_var x) ^ 2) * si_sq x loss r c)%C) (combine ids zps)) /\
    plane_eq Rr (ifft2 (pmap2 Cdiv S (pmap csqrt Q)))).
Proof.
  intros H.
  set (mk := fun _ : nat => Ok used_img). set (reg := fun x _ : simg => Ok x).
  set (transp := fun (_ : heap) (_ : list nat) => Ok [2]).
  assert (images_fit (objs used_world) [0%nat] (1%nat, 1%nat)) as F.
  { intros i [<-|[]]. split; [reflexivity|split; [exact Logic.I|cbn; congruence]]. }
  assert (exists Rr P m, coadd mk reg transp 0%nat [] used_world [Img 0%nat] false (1 / 5) 1%Z = (Some (Ok (Rr, P, m)), [Img 0%nat])) as (Rr & P & m & E).
  { unfold coadd, prepare. cbn [convert bind objs]. unfold transp. cbn [bind set_zps].
    destruct (seq_spec 0%nat [] (upd (objs used_world) 0%nat (with_zp_loss 2 (1 / 5) (objs used_world 0%nat))) [0%nat] (1%nat, 1%nat) 1%Z)
      as [ps [a [E _]]]; [lia|discriminate| |].
    - intros i [<-|[]]. split; [reflexivity|split; [exact Logic.I|cbn; congruence]].
    - rewrite E. unfold finish. eauto. }
  assert (run_limits 0%nat [0%nat] 1%Z) as L by (left; lia).
  assert (NoDup [0%nat]) as Nd by (constructor; [intros []|constructor]).
  assert ([0%nat] <> []) as Ne by discriminate.
  assert ((0 < fst (1%nat, 1%nat))%nat /\ (0 < snd (1%nat, 1%nat))%nat) as [P1 P2] by (cbn; lia).
  destruct (C86_zero_points_lm mk reg transp 0%nat [] used_world [0%nat] (1 / 5) 1%Z [2] (1%nat, 1%nat) Rr P m [Img 0%nat]
              Ne Nd eq_refl eq_refl L F E) as (S & Q & ps & raw & HS & HQ & HSQ & _ & _ & HR & _).
  destruct (H mk reg transp 0%nat [] used_world [0%nat] (1 / 5) 1%Z [2] (1%nat, 1%nat) Rr P m [Img 0%nat]
              Ne Nd eq_refl eq_refl L F E) as (S' & Q' & HS' & HQ' & HSQ' & HR').
  destruct (HSQ 0%nat 0%nat P1 P2) as [A1 A2]. destruct (HSQ' 0%nat 0%nat P1 P2) as [B1 B2]. clear HSQ HSQ' H.
  apply shape_fst in HS, HQ, HS', HQ'. cbn [fst snd] in HS, HQ, HS', HQ'.
  destruct HR as [E1 HR]. destruct HR' as [_ HR'].
  assert (nr Rr = 1%nat /\ nc Rr = 1%nat) as [N1 N2].
  { unfold shape in E1. injection E1. intros E2 E3. split; [rewrite E3|rewrite E2]; cbn; tauto. }
  specialize (HR 0%nat 0%nat ltac:(lia) ltac:(lia)). specialize (HR' 0%nat 0%nat ltac:(lia) ltac:(lia)).
  rewrite ifft2_one in HR, HR' by (cbn; tauto). rewrite HR in HR'. cbn [pmap2 pmap px] in HR'.
  rewrite A1, A2, B1, B2 in HR'. cbn in HR'. unfold contribution in HR'. cbn in HR'.
  destruct (Req_EM_T (1 / 5) (1 / 5)) as [_|N]; [|now apply N].
  replace (RtoC (2 / 1 * (2 / 1 * 1)) * RtoC 1 + RtoC 0)%C with (RtoC 4) in HR'
    by (rewrite <- RtoC_mult, <- RtoC_plus; f_equal; field).
  replace (RtoC (2 / (1 * (1 * 1))) * RtoC 1 + RtoC 0)%C with (RtoC 2) in HR'
    by (rewrite <- RtoC_mult, <- RtoC_plus; f_equal; field).
  rewrite Cplus_0_r in HR'. rewrite csqrt_pos in HR' by lra.
  replace 4 with (2 * 2) in HR' by lra. rewrite sqrt_square in HR' by lra.
  unfold Cdiv in HR'. rewrite <- RtoC_inv in HR' by lra. rewrite <- !RtoC_mult in HR'. injection HR'. intros. lra.
Qed.

(** The hypotheses can be met: two images with zero points 2 and 3. *)
Lemma C86_case_lm : exists Rr P m,
  let transp := fun (_ : heap) (_ : list nat) => Ok [2; 3] in
  images_fit (objs ex_world) [0%nat; 1%nat] (2%nat, 3%nat) /\ run_limits 0%nat [0%nat; 1%nat] 1%Z /\
  coadd ex_mk ex_reg transp 0%nat [] ex_world [Img 0%nat; Img 1%nat] false (1 / 5) 1%Z = (Some (Ok (Rr, P, m)), [Img 0%nat; Img 1%nat]).
Proof.
  assert (forall h, h = objs ex_world \/ h = upd (upd (objs ex_world) 0%nat (with_zp_loss 2 (1 / 5) (objs ex_world 0%nat))) 1%nat (with_zp_loss 3 (1/5) (objs ex_world 1%nat)) ->
     images_fit h [0%nat; 1%nat] (2%nat, 3%nat)) as F.
  { intros h [->| ->] i [<-|[<-|[]]]; (split; [reflexivity|split; [try exact Logic.I; reflexivity|cbn; congruence]]). }
  destruct (seq_spec 0%nat [] _ [0%nat; 1%nat] (2%nat, 3%nat) 1%Z ltac:(lia) ltac:(discriminate) (F _ (or_intror eq_refl)))
    as [ps [a [E _]]].
  unfold finish in E. do 3 eexists. cbn zeta. split; [apply F; auto|]. split; [left; lia|].
  unfold coadd, prepare. cbn [convert bind objs]. cbn [bind set_zps].
  match goal with |- (?x, _) = _ => transitivity (x, [Img 0%nat; Img 1%nat]); [reflexivity|] end.
  f_equal. exact E.
Qed.
