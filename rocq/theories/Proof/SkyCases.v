(** Concrete images for the theorems about the sky. *)
From Coq Require Import Arith ZArith List Bool Reals Lia Lra.
From Coquelicot Require Import Complex.
From Verif.Model Require Import Py Plane Ma Chunk Coadd Subtract Filter.
From Verif.Spec Require Import Coadd Fourier Filter Sky Subtract.
From Verif.Proof Require Import Coadd Fourier Subtract SubtractSum Dft Filter FilterMain CoaddMain CoaddMore CoaddWeights CoaddPoint SkyDft Sky Herm SkyDiff SkyReal.
Import ListNotations.
Local Open Scope R_scope.
Set Bullet Behavior "Strict Subproofs".

(** A stamp of 1 x 3 whose middle cell has 1 - 2e and the others e each. *)
Definition trio (e : R) : plane R :=
  mkplane 1 3 (fun _ j => match j with 1%nat => 1 - 2 * e | _ => e end).
Definition sky1 (r c : nat) : R := INR (r + 2 * c).
Definition sky2 (r c : nat) : R := INR (r + 2 * c) + spot 1 2 r c.

Lemma trio_com e : center_of_mass (trio e) = (IZR 0, IZR 1).
Proof. unfold center_of_mass, psumR, trio. cbn [nr nc px rsum INR]. f_equal; field; lra. Qed.

Lemma cos_4 : cos (4 * (PI / 3)) = - 1 / 2.
Proof. replace (4 * (PI / 3)) with (PI / 3 + PI) by field. rewrite neg_cos, cos_PI3. field. Qed.
Lemma cos_8 : cos (8 * (PI / 3)) = - 1 / 2.
Proof. replace (8 * (PI / 3)) with (2 * (PI / 3) + 2 * PI) by field. rewrite cos_2PI_period || rewrite cos_plus, cos_2PI, sin_2PI. rewrite cos_2PI3. field. Qed.

Lemma trio_response e u v : (v < 3)%nat ->
  fst (response (2%nat, 3%nat) (trio e) u v) = match v with O => 1 | _ => - (1 - 3 * e) / 2 end.
Proof.
  intros Hv. unfold response, trio, sum2. cbn [nr nc px fst snd csum]. unfold cis.
  destruct v as [|[|[|v]]]; [| | |lia]; unfold Cplus, Cmult, RtoC; cbn [fst snd].
  - replace (- (2 * PI * (INR u * INR 0 / INR 2 + INR 0 * INR 0 / INR 3))) with 0 by (cbn [INR]; field).
    replace (- (2 * PI * (INR u * INR 0 / INR 2 + INR 0 * INR 1 / INR 3))) with 0 by (cbn [INR]; field).
    replace (- (2 * PI * (INR u * INR 0 / INR 2 + INR 0 * INR 2 / INR 3))) with 0 by (cbn [INR]; field).
    rewrite cos_0. ring.
  - replace (- (2 * PI * (INR u * INR 0 / INR 2 + INR 1 * INR 0 / INR 3))) with 0 by (cbn [INR]; field).
    replace (- (2 * PI * (INR u * INR 0 / INR 2 + INR 1 * INR 1 / INR 3))) with (- (2 * (PI / 3))) by (cbn [INR]; field).
    replace (- (2 * PI * (INR u * INR 0 / INR 2 + INR 1 * INR 2 / INR 3))) with (- (4 * (PI / 3))) by (cbn [INR]; field).
    rewrite !cos_neg, cos_0, cos_2PI3, cos_4. field.
  - replace (- (2 * PI * (INR u * INR 0 / INR 2 + INR 2 * INR 0 / INR 3))) with 0 by (cbn [INR]; field).
    replace (- (2 * PI * (INR u * INR 0 / INR 2 + INR 2 * INR 1 / INR 3))) with (- (4 * (PI / 3))) by (cbn [INR]; field).
    replace (- (2 * PI * (INR u * INR 0 / INR 2 + INR 2 * INR 2 / INR 3))) with (- (8 * (PI / 3))) by (cbn [INR]; field).
    rewrite !cos_neg, cos_0, cos_8, cos_4. field.
Qed.

Lemma trio_answers e u v : (v < 3)%nat -> e < 1 / 3 -> fst (response (2%nat, 3%nat) (trio e) u v) <> 0.
Proof. intros Hv He. rewrite trio_response by exact Hv. destruct v; lra. Qed.

(** Two images of 2 x 3 that show the same sky. *)
Definition ex_shot (i : nat) : fimg :=
  mkfimg (2%nat, 3%nat) (fun r c => INR (2 + i) * exposure (2%nat, 3%nat) sky1 (trio (1 / INR (5 + i))) 0 1 r c) (INR (S i)) 1.
Definition ex_shots : world :=
  mkworld (fun i => coadd_view (ex_shot i) Nomask (1 / 5) (5 + i) (fun _ _ _ => 1) (fun _ => (None, [trio (1 / INR (5 + i))]))) 2.

Lemma C100_case_lm : exists Rr P m,
  let transp := fun (_ : heap) (_ : list nat) => Ok [INR 2; INR 3] in
  let bs := fun i => trio (1 / INR (5 + i)) in
  images_fit (objs ex_shots) [0%nat; 1%nat] (2%nat, 3%nat) /\ run_limits 0 [0%nat; 1%nat] 1 /\
  (forall i, In i [0%nat; 1%nat] ->
     objs ex_shots i = coadd_view (ex_shot i) Nomask (1 / 5) (5 + i) (fun _ _ _ => 1) (fun _ => (None, [bs i])) /\
     f_var (ex_shot i) <> 0 /\ fits (2%nat, 3%nat) (bs i) /\ center_of_mass (bs i) = (IZR 0, IZR 1)) /\
  covered (2%nat, 3%nat) bs (combine [0%nat; 1%nat] [INR 2; INR 3]) /\
  (forall i z, In (i, z) (combine [0%nat; 1%nat] [INR 2; INR 3]) -> forall x y, (x < 2)%nat -> (y < 3)%nat ->
     f_pix (ex_shot i) x y = z * exposure (2%nat, 3%nat) sky1 (bs i) 0 1 x y) /\
  coadd (fun _ => Raise IOError) (fun x _ => Ok x) transp 0 [] ex_shots [Img 0; Img 1] false (1 / 5) 1 = (Some (Ok (Rr, P, m)), [Img 0; Img 1]).
Proof.
  assert (forall h, h = objs ex_shots \/ h = upd (upd (objs ex_shots) 0 (with_zp_loss (INR 2) (1 / 5) (objs ex_shots 0%nat))) 1
      (with_zp_loss (INR 3) (1/5) (objs ex_shots 1%nat)) -> images_fit h [0%nat; 1%nat] (2%nat, 3%nat)) as F.
  { intros h [->| ->] i [<-|[<-|[]]]; (split; [reflexivity|split; [exact Logic.I|cbn; congruence]]). }
  destruct (seq_spec 0 [] _ [0%nat; 1%nat] (2%nat, 3%nat) 1 ltac:(lia) ltac:(discriminate) (F _ (or_intror eq_refl)))
    as [ps [a [E _]]].
  unfold finish in E. do 3 eexists. cbn zeta. split; [apply F; auto|]. split; [left; lia|].
  split.
  { intros i Hin. split; [reflexivity|]. split; [cbn [ex_shot f_var]; apply not_0_INR; lia|].
    split; [split; cbn; lia|]. apply trio_com. }
  split.
  { intros u v Hu Hv. exists 0%nat, (INR 2). split; [left; reflexivity|]. split; [apply not_0_INR; lia|].
    intros X. apply (trio_answers (1 / INR (5 + 0)) u v Hv); [cbn; lra|]. now rewrite X. }
  split.
  { intros i z [X|[X|[]]] x y _ _; injection X as <- <-; reflexivity. }
  unfold coadd, Verif.Model.Coadd.prepare. cbn [convert bind objs]. cbn [bind set_zps].
  f_equal. exact E.
Qed.

(** A reference and a new image, of two skies. *)
Definition ex_ref : dimg :=
  mkdimg (2%nat, 3%nat) (fun _ _ => 1) Nomask (fun r c => 2 * exposure (2%nat, 3%nat) sky1 (trio (1 / 5)) 0 1 r c) 1 (trio (1 / 5)) (fun _ _ => 0).
Definition ex_new (sky : nat -> nat -> R) : dimg :=
  mkdimg (2%nat, 3%nat) (fun _ _ => 1) Nomask (fun r c => 3 * exposure (2%nat, 3%nat) sky (trio (1 / 7)) 0 1 r c) 2 (trio (1 / 7)) (fun _ _ => 0).

Lemma C103_case_lm : forall sky, exists D P S m,
  let e := ex_env 2 3 ex_found in
  e_transp e ex_ref (ex_new sky) = Ok (2, 3) /\ 0 < d_var (ex_new sky) /\
  ratio_and_shift e (Is ex_ref) (Is (ex_new sky)) false false false false false = Ok (3 / 2, 0, 0) /\
  subtract e (Is ex_ref) (Is (ex_new sky)) false false false false false = Ok (D, P, S, m) /\
  fits (2%nat, 3%nat) (used_psf false ex_ref) /\ fits (2%nat, 3%nat) (used_psf false (ex_new sky)) /\
  center_of_mass (used_psf false ex_ref) = (IZR 0, IZR 1) /\ center_of_mass (used_psf false (ex_new sky)) = (IZR 0, IZR 1) /\
  (forall u v, (u < 2)%nat -> (v < 3)%nat ->
     fst (response (2%nat, 3%nat) (used_psf false ex_ref) u v) <> 0 /\ fst (response (2%nat, 3%nat) (used_psf false (ex_new sky)) u v) <> 0) /\
  (forall i j, (i < 2)%nat -> (j < 3)%nat ->
     d_interped ex_ref i j = 2 * exposure (2%nat, 3%nat) sky1 (used_psf false ex_ref) 0 1 i j /\
     d_interped (ex_new sky) i j = 3 * exposure (2%nat, 3%nat) sky (used_psf false (ex_new sky)) 0 1 i j).
Proof.
  intros sky.
  assert (forall b dx dy c, setup (ex_env 2 3 ex_found) (Is ex_ref) (Is (ex_new sky)) false false = Ok c ->
    fit ex_found c false false false = Ok (b, dx, dy) -> exists D P S m,
    subtract (ex_env 2 3 ex_found) (Is ex_ref) (Is (ex_new sky)) false false false false false = Ok (D, P, S, m)) as Hrun.
  { intros b dx dy c Ec Ef. unfold subtract. rewrite Ec. cbn [bind ex_env e_solve]. rewrite Ef. cbn [bind].
    destruct (difference c b dx dy) as [[[D P] S] m]. now exists D, P, S, m. }
  assert (exists c, setup (ex_env 2 3 ex_found) (Is ex_ref) (Is (ex_new sky)) false false = Ok c /\
    fit ex_found c false false false = Ok (3 / 2, 0, 0)) as (c & Ec & Ef).
  { unfold setup. cbn [as_image bind ex_env e_transp d_shape d_mask ex_ref ex_new fst snd Nat.eqb andb mask_or].
    unfold Verif.Model.Subtract.prepare. cbn [d_shape d_stamp ex_ref ex_new].
    rewrite !trio_com. cbn [negb andb].
    destruct (Rlt_dec (IZR 0) 0) as [X|_]; [lra|]. destruct (Rlt_dec (IZR 1) 0) as [X|_]; [lra|].
    eexists. split; [reflexivity|]. reflexivity. }
  destruct (Hrun _ _ _ c Ec Ef) as (D & P & S & m & Es).
  exists D, P, S, m. cbn zeta. split; [reflexivity|]. split; [cbn; lra|]. split.
  { unfold ratio_and_shift. rewrite Ec. exact Ef. }
  split; [exact Es|]. split; [split; cbn; lia|]. split; [split; cbn; lia|]. split; [apply trio_com|]. split; [apply trio_com|]. split.
  - intros u v _ Hv. split; apply trio_answers; (assumption || lra).
  - intros i j _ _. split; reflexivity.
Qed.

(** One image of 1 x 2 whose PSF has its centre of mass a quarter of a cell from its first cell. *)
Definition skewed : plane R := mkplane 1 2 (fun _ j => match j with O => 3 / 4 | _ => 1 / 4 end).
Definition ex_skewed : fimg := mkfimg (1%nat, 2%nat) (fun _ c => match c with O => 1 | _ => 0 end) 1 1.
Definition ex_skewed_world : world :=
  mkworld (fun _ => coadd_view ex_skewed Nomask (1 / 5) 2 (fun _ _ _ => 1) (fun _ => (None, [skewed]))) 1.

Lemma skewed_com : center_of_mass skewed = (0, 1 / 4).
Proof. unfold center_of_mass, psumR, skewed. cbn [nr nc px rsum INR]. f_equal; field; lra. Qed.

Lemma skewed_response u : fst (response (1%nat, 2%nat) skewed 0 u) = match u with O => 1 | _ => 3 / 4 + 1 / 4 * cos (INR u * PI) end.
Proof.
  unfold response, skewed, sum2. cbn [nr nc px fst snd csum]. unfold cis, Cplus, Cmult, RtoC. cbn [fst snd].
  replace (- (2 * PI * (INR 0 * INR 0 / INR 1 + INR u * INR 0 / INR 2))) with 0 by (cbn [INR]; field).
  replace (- (2 * PI * (INR 0 * INR 0 / INR 1 + INR u * INR 1 / INR 2))) with (- (INR u * PI)) by (cbn [INR]; field).
  rewrite cos_neg, cos_0. destruct u; [cbn [INR]; rewrite (Rmult_0_l PI), cos_0|]; field.
Qed.

Lemma skewed_real u : (u < 2)%nat -> snd (response (1%nat, 2%nat) skewed 0 u) = 0.
Proof.
  intros Hu. unfold response, skewed, sum2. cbn [nr nc px fst snd csum]. unfold cis, Cplus, Cmult, RtoC. cbn [fst snd].
  replace (- (2 * PI * (INR 0 * INR 0 / INR 1 + INR u * INR 0 / INR 2))) with 0 by (cbn [INR]; field).
  replace (- (2 * PI * (INR 0 * INR 0 / INR 1 + INR u * INR 1 / INR 2))) with (- (INR u * PI)) by (cbn [INR]; field).
  rewrite sin_neg, sin_0. destruct u as [|[|u]]; [cbn [INR]; rewrite (Rmult_0_l PI), sin_0|cbn [INR]; rewrite (Rmult_1_l PI), sin_PI|lia]; ring.
Qed.

Lemma skewed_covered : covered (1%nat, 2%nat) (fun _ => skewed) [(0%nat, 1)].
Proof.
  intros u v Hu Hv. cbn [fst snd] in Hu, Hv. exists 0%nat, 1. split; [now left|]. split; [lra|].
  destruct u; [|lia]. intros X. apply (f_equal fst) in X. rewrite skewed_response in X. cbn [fst RtoC] in X.
  destruct v as [|[|v]]; [lra| |lia]. cbn [INR] in X. rewrite (Rmult_1_l PI), cos_PI in X. lra.
Qed.

(** C104: with the centre of mass between cells and an even number of them the coadd has an
    imaginary part. *)
Lemma C104_between_cells_refuted_lm : exists Rr P m,
  let transp := fun (_ : heap) (_ : list nat) => Ok [1] in
  images_fit (objs ex_skewed_world) [0%nat] (1%nat, 2%nat) /\ run_limits 0 [0%nat] 1 /\
  objs ex_skewed_world 0%nat = coadd_view ex_skewed Nomask (1 / 5) 2 (fun _ _ _ => 1) (fun _ => (None, [skewed])) /\
  fits (1%nat, 2%nat) skewed /\ center_of_mass skewed = (0, 1 / 4) /\
  covered (1%nat, 2%nat) (fun _ => skewed) [(0%nat, 1)] /\
  coadd (fun _ => Raise IOError) (fun x _ => Ok x) transp 0 [] ex_skewed_world [Img 0] false (1 / 5) 1 = (Some (Ok (Rr, P, m)), [Img 0]) /\
  0 < snd (px Rr 0%nat 0%nat).
Proof.
  assert (forall h, h = objs ex_skewed_world \/ h = upd (objs ex_skewed_world) 0 (with_zp_loss 1 (1 / 5) (objs ex_skewed_world 0%nat)) ->
     images_fit h [0%nat] (1%nat, 2%nat)) as F.
  { intros h [->| ->] i [<-|[]]; (split; [reflexivity|split; [exact Logic.I|cbn; congruence]]). }
  destruct (seq_spec 0 [] _ [0%nat] (1%nat, 2%nat) 1 ltac:(lia) ltac:(discriminate) (F _ (or_intror eq_refl)))
    as [ps [ac [E _]]].
  unfold finish in E.
  set (transp := fun (_ : heap) (_ : list nat) => Ok [1]).
  assert (exists Rr P m, coadd (fun _ => Raise IOError) (fun x _ => Ok x) transp 0 [] ex_skewed_world (map Img [0%nat]) false (1 / 5) 1 =
    (Some (Ok (Rr, P, m)), [Img 0])) as (Rr & P & m & Er).
  { do 3 eexists. unfold coadd, Verif.Model.Coadd.prepare, transp. cbn [convert bind objs map]. cbn [bind set_zps]. f_equal. exact E. }
  clear E. exists Rr, P, m. cbn zeta. split; [apply F; auto|]. split; [left; lia|]. split; [reflexivity|].
  split; [split; cbn; lia|]. split; [apply skewed_com|]. split; [apply skewed_covered|]. split; [exact Er|].
  destruct (coadd_parts (fun _ => Raise IOError) (fun x _ => Ok x) transp 0 [] ex_skewed_world [0%nat] (1 / 5) 1 [1] (1%nat, 2%nat) Rr P m [Img 0] (fun _ => ex_skewed) (fun _ => Nomask)
    (fun _ => 1 / 5) (fun _ => 2%nat) (fun _ _ _ _ => 1) (fun _ => skewed)) as (_ & Hp & _ & HR & _).
  - discriminate.
  - constructor; [easy|constructor].
  - reflexivity.
  - reflexivity.
  - left; lia.
  - apply F; auto.
  - cbn; lia.
  - cbn; lia.
  - intros i [<-|[]]. split; [reflexivity|]. split; [cbn; lra|split; cbn; lia].
  - apply skewed_covered.
  - exact Er.
  - rewrite HR by (cbn; lia). clear HR. cbn [combine fst snd] in Hp |- *.
    set (pw := power _ _ _ _) in *. pose proof (Hp 0%nat 0%nat ltac:(cbn; lia) ltac:(cbn; lia)) as P0.
    pose proof (Hp 0%nat 1%nat ltac:(cbn; lia) ltac:(cbn; lia)) as P1. clear Hp.
    rewrite ifft_px. cbn [nr nc px]. set (U := unit_of 1 2).
    assert (exists k, 0 < k /\ U = RtoC k) as (k & Pk & EU).
    { exists (/ sqrt (INR 1 * INR 2)). split; [|reflexivity]. apply Rinv_0_lt_compat, sqrt_lt_R0. cbn. lra. }
    assert (forall v, (v < 2)%nat -> px (fft2_ortho (real_frame (1%nat, 2%nat) (f_pix ex_skewed))) 0 v = U) as EI.
    { intros v Hv. rewrite fft_px. cbn [real_frame frame nr nc fst snd]. fold U.
      transitivity (U * RtoC 1)%C; [f_equal|ring]. unfold dft_raw. cbn [nr nc px csum real_frame frame ex_skewed f_pix fst snd].
      replace (- (2 * PI * (INR 0 * INR 0 / INR 1 + INR v * INR 0 / INR 2))) with 0 by (cbn [INR]; field). rewrite cis_0. ring. }
    assert (forall v, (v < 2)%nat -> px (elem_hat (1%nat, 2%nat) skewed) 0 v = (U * RtoC (fst (response (1%nat, 2%nat) skewed 0 v)))%C) as EH.
    { intros v Hv. rewrite elem_response by (split; cbn; lia). cbn [fst snd]. fold U. f_equal.
      pose proof (skewed_real v Hv) as X. destruct (response _ _ 0 v) as [p q]. cbn in *. now subst q. }
    unfold sum2. cbn [csum total fold_right fst snd f_var ex_skewed].
    rewrite !EI, !EH, !skewed_response by lia. cbn [INR]. rewrite (Rmult_1_l PI), cos_PI.
    assert (phase (1%nat, 2%nat) skewed 0 0 = RtoC 1) as ->.
    { unfold phase. rewrite skewed_com. cbn [fst snd freq]. unfold freq. cbn [Nat.ltb Nat.leb Nat.add Nat.div Nat.divmod fst snd INR].
      rewrite <- cis_0. f_equal. field. }
    assert (phase (1%nat, 2%nat) skewed 0 1 = cis (PI / 4)) as ->.
    { unfold phase. rewrite skewed_com. cbn [fst snd]. unfold freq.
      change (1 <? (2 + 1) / 2)%nat with false. change (0 <? (1 + 1) / 2)%nat with true. cbn iota. f_equal. cbn [INR]. field. }
    unfold har2, har. rewrite EU.
    cbn [Z.of_nat]. unfold Rdiv at 3 4 5 6.
    rewrite !Rmult_0_r, !Rmult_0_l, !Rmult_0_r, !cis_0.
    pose proof (sqrt_lt_R0 _ P0) as S0. pose proof (sqrt_lt_R0 _ P1) as S1.
    unfold Cdiv. rewrite <- !RtoC_inv by lra.
    rewrite <- !RtoC_mult, !conj_R.
    pose proof (Rinv_0_lt_compat _ S1) as I1.
    assert (0 < sin (PI / 4)) as Ps by (rewrite sin_PI4; apply Rdiv_lt_0_compat; [lra|apply sqrt_lt_R0; lra]).
    set (i1 := / sqrt (pw 0%nat 1%nat)) in *. set (i0 := / sqrt (pw 0%nat 0%nat)).
    match goal with |- 0 < snd ?t => assert (exists p q, 0 < q /\ t = (RtoC p + RtoC q * cis (PI / 4))%C) as (p & q & Pq & ->) end.
    { exists (k * k * (k * k * i0)), (k * k * (k * k * (1 / 2) * i1)). split.
      - apply Rmult_lt_0_compat; [now apply Rmult_lt_0_compat|]. apply Rmult_lt_0_compat; [|exact I1].
        apply Rmult_lt_0_compat; [now apply Rmult_lt_0_compat|lra].
      - assert (forall q, cis (2 * PI * (0 / q)) = RtoC 1) as Ez.
        { intros r. unfold Rdiv. rewrite Rmult_0_l, Rmult_0_r. apply cis_0. }
        rewrite !Ez. replace (k * (3 * / 4 + 1 * / 4 * -1)) with (k * (1 / 2)) by field.
        replace (1 / 1 ^ 2) with 1 by field. replace (1 * / 1 ^ 2) with 1 by field.
        rewrite !RtoC_mult. ring. }
    unfold cis, Cplus, Cmult, RtoC. cbn [fst snd].
    rewrite Rmult_0_l, Rplus_0_l, Rplus_0_r. now apply Rmult_lt_0_compat.
Qed.

(** An image with two elements and their fields. *)
Definition ex_fields : option (list (nat -> nat -> R)) := Some [(fun _ _ => 1); (fun r _ => INR r)].
Definition ex_varying : world :=
  mkworld (fun i => coadd_view (ex_shot i) Nomask (1 / 5) 5 (fun _ _ _ => 1) (fun _ => (ex_fields, [trio (1 / 5); trio (1 / 7)]))) 1.

Lemma C104_case_lm : exists Rr P m,
  let transp := fun (_ : heap) (_ : list nat) => Ok [2] in
  images_fit (objs ex_varying) [0%nat] (2%nat, 3%nat) /\ run_limits 0 [0%nat] 1 /\
  objs ex_varying 0%nat = coadd_view (ex_shot 0) Nomask (1 / 5) 5 (fun _ _ _ => 1) (fun _ => (ex_fields, trio (1 / 5) :: [trio (1 / 7)])) /\
  f_var (ex_shot 0) <> 0 /\ odd_or_whole2 (2%nat, 3%nat) (center_of_mass (trio (1 / 5))) /\
  (forall u v, (u < 2)%nat -> (v < 3)%nat -> fits (2%nat, 3%nat) (trio (1 / 5)) /\ response (2%nat, 3%nat) (trio (1 / 5)) u v <> RtoC 0) /\
  coadd (fun _ => Raise IOError) (fun x _ => Ok x) transp 0 [] ex_varying [Img 0] false (1 / 5) 1 = (Some (Ok (Rr, P, m)), [Img 0]).
Proof.
  assert (forall h, h = objs ex_varying \/ h = upd (objs ex_varying) 0 (with_zp_loss 2 (1 / 5) (objs ex_varying 0%nat)) ->
     images_fit h [0%nat] (2%nat, 3%nat)) as F.
  { intros h [->| ->] i [<-|[]]; (split; [reflexivity|split; [exact Logic.I|cbn; congruence]]). }
  destruct (seq_spec 0 [] _ [0%nat] (2%nat, 3%nat) 1 ltac:(lia) ltac:(discriminate) (F _ (or_intror eq_refl)))
    as [ps [ac [E _]]].
  unfold finish in E. do 3 eexists. cbn zeta. split; [apply F; auto|]. split; [left; lia|]. split; [reflexivity|].
  split; [cbn; lra|]. split; [rewrite trio_com; split; apply whole|]. split.
  { intros u v _ Hv. split; [split; cbn; lia|]. intros X. apply (trio_answers (1 / 5) u v Hv); [lra|]. now rewrite X. }
  unfold coadd, Verif.Model.Coadd.prepare. cbn [convert bind objs map]. cbn [bind set_zps]. f_equal. exact E.
Qed.
