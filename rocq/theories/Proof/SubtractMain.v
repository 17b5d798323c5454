(** Self-subtraction, exchange of the images, sums. *)
From Coq Require Import Arith ZArith List Bool Reals Lia Lra Psatz.
From Flocq Require Import Core.
From Coquelicot Require Import Complex.
From Verif.Model Require Import Py Plane Ma Subtract.
From Verif.Spec Require Import Coadd Subtract.
From Verif.Proof Require Import Coadd Fourier CoaddMore Subtract.
Import ListNotations.
Set Bullet Behavior "Strict Subproofs".
Local Open Scope R_scope.

Definition ihat (x : dimg) : plane C :=
  fft2_ortho (frame (d_shape x) (fun i j => RtoC (d_interped x i j))).

Lemma prepare_inv back fitted ref new mix zr zn c :
  prepare back fitted ref new mix zr zn = Ok c ->
  c_shape c = d_shape ref /\
  c_pr c = psf_hat (d_shape ref) (used_psf fitted ref) /\
  c_pn c = psf_hat (d_shape new) (used_psf fitted new) /\
  c_dr c = fourier_shift (pmap2 Cmult (c_pn c) (ihat ref))
             (- fst (center_of_mass (used_psf fitted new))) (- snd (center_of_mass (used_psf fitted new))) /\
  c_dn c = fourier_shift (pmap2 Cmult (c_pr c) (ihat new))
             (- fst (center_of_mass (used_psf fitted ref))) (- snd (center_of_mass (used_psf fitted ref))) /\
  c_rdata c = frame (d_shape ref) (d_data ref) /\ c_ndata c = frame (d_shape new) (d_data new).
Proof.
  unfold prepare.
  change (if fitted then frame (d_shape ref) (d_render ref) else d_stamp ref) with (used_psf fitted ref).
  change (if fitted then frame (d_shape new) (d_render new) else d_stamp new) with (used_psf fitted new).
  destruct (center_of_mass (used_psf fitted ref)) as [dxr dyr].
  destruct (center_of_mass (used_psf fitted new)) as [dxn dyn].
  destruct (negb fitted && _); [discriminate|]. intros E. injection E as <-. cbn. auto 8.
Qed.

Lemma sh_eta (sh : nat * nat) : (fst sh, snd sh) = sh.
Proof. now destruct sh. Qed.

Lemma dims {A} (p : plane A) sh : shape p = sh -> nr p = fst sh /\ nc p = snd sh.
Proof. intros <-. auto. Qed.

(** ** C14 *)
Lemma scaled_zero e x y k beta shift it fitted D P S m :
  (forall i j, (i < fst (d_shape x))%nat -> (j < snd (d_shape x))%nat -> d_interped y i j = k * d_interped x i j) ->
  plane_eq (used_psf fitted y) (used_psf fitted x) -> 0 < d_var y ->
  ratio_and_shift e (Is x) (Is y) false beta shift it fitted = Ok (k, 0, 0) ->
  subtract e (Is x) (Is y) false beta shift it fitted = Ok (D, P, S, m) ->
  (forall i j, px D i j = RtoC 0) /\
  (forall i j v, px S i j = Some v -> v = 0).
Proof.
  intros Hk Hp Hv Hr Hs. destruct (subtract_inv _ _ _ _ _ _ _ _ _ Hs) as (c & b & dx & dy & E1 & _ & E3 & E4).
  rewrite Hr in E3. injection E3 as <- <- <-.
  destruct (setup_images _ _ _ _ _ E1) as (zr & zn & mix & Sh & _ & _ & Ep).
  destruct (prepare_wf _ _ _ _ _ _ _ _ Sh Ep) as [W [Cs [_ [Cv _]]]].
  destruct (prepare_inv _ _ _ _ _ _ _ _ Ep) as [_ [Epr [Epn [Edr [Edn _]]]]].
  assert (forall i j, (i < fst (d_shape x))%nat -> (j < snd (d_shape x))%nat ->
            px (c_dn c) i j = (RtoC k * px (c_dr c) i j)%C) as Hd.
  { assert (plane_eq (c_pn c) (c_pr c)) as Ehat.
    { rewrite Epr, Epn, Sh. now apply psf_hat_ext. }
    assert (plane_eq (ihat y) (pmap (fun z => (RtoC k * z)%C) (ihat x))) as Ei.
    { unfold ihat. rewrite Sh. eapply plane_eq_trans.
      - apply fft2_ortho_ext with (G := pmap (fun z => (RtoC k * z)%C) (frame (d_shape x) (fun i j => RtoC (d_interped x i j)))).
        split; [reflexivity|]. cbn. intros i j Hi Hj. rewrite Hk by assumption. apply RtoC_mult.
      - split; [reflexivity|]. intros u v _ _. unfold fft2_ortho, dft_raw, pmap. cbn [px nr nc].
        set (s := RtoC (/ _)).
        rewrite (csum_ext _ _ (fun a => (RtoC k * csum (nc (frame (d_shape x) (fun i j => RtoC (d_interped x i j))))
            (fun b => (RtoC (d_interped x a b) * cis (- (2 * PI * (INR u * INR a / INR (fst (d_shape x)) + INR v * INR b / INR (snd (d_shape x))))))%C))%C)).
        + rewrite csum_scale. cbn. ring.
        + intros a _. rewrite <- csum_scale. apply csum_ext. intros b _. cbn. ring. }
    intros i j Hi Hj.
    assert (i < nr (c_pn c) /\ j < nc (c_pn c))%nat as [Hi' Hj'].
    { destruct (dims _ _ (wf_pn c W)) as [-> ->]. rewrite Cs. auto. }
    rewrite Edn, Edr. unfold fourier_shift, pmap2. cbn [px nr nc].
    rewrite <- (com_ext _ _ Hp), <- (proj2 Ehat) by assumption.
    rewrite (proj2 Ei) by (cbn; rewrite Sh; assumption). cbn [pmap px].
    destruct (dims _ _ (wf_pn c W)) as [-> ->]. destruct (dims _ _ (wf_pr c W)) as [-> ->]. ring. }
  assert (forall i j, (i < nr (diff_hat c k 0 0))%nat -> (j < nc (diff_hat c k 0 0))%nat ->
            px (diff_hat c k 0 0) i j = RtoC 0) as Hz.
  { assert (0 < c_nvar c) as Hv' by (rewrite Cv; exact Hv).
    destruct (diff_hat_0 c k W Hv') as [Se Ve]. intros i j Hi Hj. rewrite Ve by assumption.
    destruct (dims _ _ Se) as [Q1 Q2]. rewrite Q1 in Hi. rewrite Q2 in Hj. cbn in Hi, Hj. rewrite Cs in Hi, Hj.
    cbn. rewrite Hd by assumption. unfold Cdiv. ring. }
  unfold difference in E4. injection E4 as -> -> -> ->. split.
  - now apply ifft2_ortho_zero.
  - intros i j v. clear Edr Edn. unfold s_corr.
    unfold frame at 1. cbn [px].
    match goal with |- (if ?d then _ else _) = _ -> _ => destruct d; [discriminate|] end. intros E.
    apply (f_equal (fun o => match o with Some a => a | None => 0 end)) in E. cbv beta iota in E.
    rewrite <- E, ifft2_ortho_zero.
    + unfold Cdiv. rewrite Cmult_0_l. reflexivity.
    + intros u w Hu Hw. unfold fourier_shift, pmap2 in Hu, Hw |- *. cbn [px nr nc] in Hu, Hw |- *.
      rewrite Hz by assumption. ring.
Qed.

(** ** C15 and the exchange of the images *)
Lemma swap_ctx e x y fitted c c' : setup e (Is x) (Is y) false fitted = Ok c ->
  setup e (Is y) (Is x) false fitted = Ok c' ->
  wf c /\ wf c' /\ c_shape c' = c_shape c /\ c_pr c' = c_pn c /\ c_pn c' = c_pr c /\ c_dr c' = c_dn c /\ c_dn c' = c_dr c /\
  c_rvar c' = c_nvar c /\ c_nvar c' = c_rvar c /\ c_rdata c' = c_ndata c /\ c_ndata c' = c_rdata c /\
  c_rvar c = d_var x /\ c_nvar c = d_var y.
Proof.
  intros H H'. destruct (setup_images _ _ _ _ _ H) as (zr & zn & mix & Sh & _ & _ & Ep).
  destruct (setup_images _ _ _ _ _ H') as (zr' & zn' & mix' & Sh' & _ & _ & Ep').
  destruct (prepare_wf _ _ _ _ _ _ _ _ Sh Ep) as [W [Cs [V1 [V2 _]]]].
  destruct (prepare_wf _ _ _ _ _ _ _ _ Sh' Ep') as [W' [Cs' [V1' [V2' _]]]].
  destruct (prepare_inv _ _ _ _ _ _ _ _ Ep) as [_ [Epr [Epn [Edr [Edn [Er En]]]]]].
  destruct (prepare_inv _ _ _ _ _ _ _ _ Ep') as [_ [Epr' [Epn' [Edr' [Edn' [Er' En']]]]]].
  assert (c_pr c' = c_pn c) as P1 by congruence. assert (c_pn c' = c_pr c) as P2 by congruence.
  split; [exact W|]. split; [exact W'|].
  repeat split; try congruence.
Qed.

Lemma nrm_swap c c' b i j : c_pr c' = c_pn c -> c_pn c' = c_pr c -> c_rvar c' = c_nvar c -> c_nvar c' = c_rvar c ->
  b <> 0 -> nrm c' (/ b) i j = nrm c b i j / b ^ 2.
Proof. intros H1 H2 H3 H4 Hb. unfold nrm. rewrite H1, H2, H3, H4. field. exact Hb. Qed.

Lemma sqrt_over_sq a b : 0 < a -> 0 < b -> sqrt (a / b ^ 2) = sqrt a / b.
Proof.
  intros Ha Hb. assert (0 < b ^ 2) by (apply pow_lt; exact Hb). rewrite sqrt_div by lra.
  rewrite sqrt_pow2 by lra. reflexivity.
Qed.

Lemma mask_or_comm sh m1 m2 a b : mshape sh m1 -> mshape sh m2 -> mask_or m1 m2 = Ok a -> mask_or m2 m1 = Ok b ->
  mask_eq a b.
Proof.
  intros H1 H2 Ea Eb. destruct (mask_or_spec _ _ _ H1 H2) as (u & Eu & Su & Vu).
  destruct (mask_or_spec _ _ _ H2 H1) as (v & Ev & Sv & Vv).
  rewrite Ea in Eu. injection Eu as <-. rewrite Eb in Ev. injection Ev as <-.
  apply shrunk_eq with sh; auto. intros i j Hi Hj. rewrite Vu, Vv by assumption. apply orb_comm.
Qed.

Lemma dzp_swap c c' b : c_rvar c' = c_nvar c -> c_nvar c' = c_rvar c -> 0 < b -> 0 < c_nvar c ->
  diff_zp c' (/ b) = diff_zp c b / b /\ 0 < diff_zp c b.
Proof.
  intros H3 H4 Hb Hv. unfold diff_zp. rewrite H3, H4.
  assert (0 < c_rvar c ^ 2 * b ^ 2 + c_nvar c ^ 2) as Hp.
  { assert (0 <= c_rvar c ^ 2 * b ^ 2) by (apply Rmult_le_pos; apply pow2_ge_0).
    assert (0 < c_nvar c ^ 2) by (apply pow_lt; exact Hv). lra. }
  pose proof (sqrt_lt_R0 _ Hp) as Hs.
  replace (c_nvar c ^ 2 * (/ b) ^ 2 + c_rvar c ^ 2) with ((c_rvar c ^ 2 * b ^ 2 + c_nvar c ^ 2) / b ^ 2)
    by (field; lra).
  rewrite sqrt_over_sq by assumption. split.
  - field. lra.
  - now apply Rdiv_lt_0_compat.
Qed.

Lemma minus_one : RtoC (-1) = (- RtoC 1)%C.
Proof. rewrite <- RtoC_opp. f_equal. Qed.

Lemma RtoC_sq b : RtoC (b ^ 2) = (RtoC b * RtoC b)%C.
Proof. rewrite <- RtoC_mult. f_equal. cbn. ring. Qed.

Section Swap.
Context (c c' : ctx) (b : R) (W : wf c) (W' : wf c').
Hypothesis Sh : c_shape c' = c_shape c.
Hypothesis P1 : c_pr c' = c_pn c.
Hypothesis P2 : c_pn c' = c_pr c.
Hypothesis D1 : c_dr c' = c_dn c.
Hypothesis D2 : c_dn c' = c_dr c.
Hypothesis V1 : c_rvar c' = c_nvar c.
Hypothesis V2 : c_nvar c' = c_rvar c.
Hypothesis Hb : 0 < b.
Hypothesis Hn : 0 < c_nvar c.
Hypothesis Hr : 0 < c_rvar c.

Lemma swap_nrm i j : nrm c' (/ b) i j = nrm c b i j / b ^ 2 /\ 0 < nrm c b i j /\
  sqrt (nrm c' (/ b) i j) = sqrt (nrm c b i j) / b /\ 0 < sqrt (nrm c b i j) /\ 0 < nrm c' (/ b) i j.
Proof.
  pose proof (nrm_pos c b i j W Hn) as P. assert (nrm c' (/ b) i j = nrm c b i j / b ^ 2) as E.
  { apply nrm_swap; auto. lra. }
  split; [exact E|]. split; [exact P|]. split; [rewrite E; now apply sqrt_over_sq|].
  split; [now apply sqrt_lt_R0|]. rewrite E. apply Rdiv_lt_0_compat; [exact P|]. now apply pow_lt.
Qed.

Lemma swap_diff_hat : plane_eq (diff_hat c' (/ b) 0 0) (pmap (fun z => (RtoC (-1) * z)%C) (diff_hat c b 0 0)).
Proof.
  assert (0 < c_nvar c') as Hn' by (rewrite V2; exact Hr).
  eapply plane_eq_trans; [now apply diff_hat_0|].
  eapply plane_eq_trans; [|apply pmap_ext, plane_sym; now apply diff_hat_0].
  unfold zero_shift. split; [unfold shape; cbn; now rewrite Sh|]. intros i j _ _. cbn [px pmap frame].
  rewrite D1, D2. destruct (swap_nrm i j) as [_ [_ [-> [Hs _]]]].
  assert (RtoC b <> RtoC 0) by (intros E; apply RtoC_inj' in E; lra).
  assert (RtoC (sqrt (nrm c b i j)) <> RtoC 0) by (intros E; apply RtoC_inj' in E; lra).
  unfold Rdiv. rewrite RtoC_mult, !RtoC_inv by lra. rewrite minus_one. field. auto.
Qed.

Lemma swap_psf_hat : plane_eq (diff_psf_hat c' (/ b)) (diff_psf_hat c b).
Proof.
  unfold diff_psf_hat. split.
  - transitivity (shape (c_pr c')); [reflexivity|]. rewrite P1, (wf_pn c W), <- (wf_pr c W). reflexivity.
  - intros i j _ _. unfold pmap2. cbn [px]. rewrite P1, P2.
    pose proof (norm2_cell c' (/ b) i j W') as N'. pose proof (norm2_cell c b i j W) as N.
    unfold norm2, pmap2 in N, N'. cbn [px] in N, N'. unfold norm2, pmap2. cbn [px]. rewrite N, N'.
    destruct (swap_nrm i j) as [_ [Q1 [E [Hs Q2]]]].
    rewrite !csqrt_pos by assumption. rewrite E.
    destruct (dzp_swap c c' b V1 V2 Hb Hn) as [-> Hz].
    assert (RtoC b <> RtoC 0) by (intros X; apply RtoC_inj' in X; lra).
    assert (RtoC (sqrt (nrm c b i j)) <> RtoC 0) by (intros X; apply RtoC_inj' in X; lra).
    assert (RtoC (diff_zp c b) <> RtoC 0) by (intros X; apply RtoC_inj' in X; lra).
    unfold Rdiv. rewrite !RtoC_mult, !RtoC_inv by lra. field. auto.
Qed.

(** The kernels, when the flux ratio is the ratio of the zero points. *)
Hypothesis Z : c_nzp c = b * c_nzp c'.
Hypothesis R1 : c_rdata c' = c_ndata c.
Hypothesis R2 : c_ndata c' = c_rdata c.

Hypothesis S1 : shape (c_rdata c) = c_shape c.
Hypothesis S2 : shape (c_ndata c) = c_shape c.

Lemma noise_ext k k' d sh : plane_eq k' k -> shape d = sh -> shape k = sh ->
  plane_eq (noise_map k' d) (noise_map k d).
Proof.
  intros E H1 H2. unfold noise_map. apply ifft2_ortho_ext. apply pmap2_ext.
  - transitivity (shape d); [reflexivity|]. rewrite H1, <- H2. symmetry. exact (proj1 E).
  - apply plane_refl.
  - apply dft_ext, pmap_ext, ifft2_ortho_ext, E.
Qed.

Lemma swap_norm2 i j : px (norm2 c' (/ b)) i j = (px (norm2 c b) i j / RtoC (b ^ 2))%C /\
  px (norm2 c b) i j <> RtoC 0.
Proof.
  rewrite !norm2_cell by assumption. destruct (swap_nrm i j) as [-> [Q _]]. split.
  - unfold Rdiv. rewrite RtoC_mult, RtoC_inv; [reflexivity|]. apply pow_nonzero. lra.
  - intros X. apply RtoC_inj' in X. lra.
Qed.

Lemma swap_kr : plane_eq (kr_hat c' (/ b)) (kn_hat c b).
Proof.
  assert (RtoC b <> RtoC 0) as Hb0 by (intros X; apply RtoC_inj' in X; lra).
  unfold kr_hat, kn_hat. rewrite Sh. apply frame_ext. intros i j _ _. rewrite P1, P2.
  destruct (swap_norm2 i j) as [-> HN]. rewrite Z, RtoC_inv, RtoC_mult by lra. rewrite RtoC_sq. field. auto.
Qed.
Lemma swap_kn : plane_eq (kn_hat c' (/ b)) (kr_hat c b).
Proof.
  assert (RtoC b <> RtoC 0) as Hb0 by (intros X; apply RtoC_inj' in X; lra).
  unfold kr_hat, kn_hat. rewrite Sh. apply frame_ext. intros i j _ _. rewrite P1, P2.
  destruct (swap_norm2 i j) as [-> HN]. rewrite Z, RtoC_mult by lra. rewrite RtoC_sq. field. auto.
Qed.

Lemma swap_s_corr Dh Dh' Ph Ph' P P' :
  plane_eq Dh' (pmap (fun z => (RtoC (-1) * z)%C) Dh) -> plane_eq Ph' Ph -> plane_eq P' P -> shape Dh = shape Ph ->
  shape Dh = c_shape c ->
  plane_eq (s_corr c' (/ b) Dh' Ph' P') (pmap (option_map (fun v => - v / b)) (s_corr c b Dh Ph P)).
Proof.
  intros ED EP EPr Sd Sc. unfold s_corr.
  assert (psf_center P' = psf_center P) as ->.
  { unfold psf_center. now rewrite (com_ext _ _ EPr), (peak_ext _ _ EPr). }
  set (sx := fst _). set (sy := snd _).
  destruct (dzp_swap c c' b V1 V2 Hb Hn) as [Ez Hz].
  assert (RtoC b <> RtoC 0) as Hb0 by (intros X; apply RtoC_inj' in X; lra).
  match goal with |- context [ifft2_ortho (fourier_shift (pmap2 ?f Dh' Ph') sx sy)] => set (S' := pmap2 f Dh' Ph') end.
  match goal with |- context [ifft2_ortho (fourier_shift (pmap2 ?f Dh Ph) sx sy)] => set (S := pmap2 f Dh Ph) end.
  assert (plane_eq S' (pmap (fun z => (RtoC (- / b) * z)%C) S)) as ES.
  { unfold S', S. split.
    - transitivity (shape Dh'); [reflexivity|]. rewrite (proj1 ED). reflexivity.
    - intros i j Hi Hj. cbn in Hi, Hj. unfold pmap, pmap2. cbn [px]. rewrite Ez.
      rewrite (proj2 ED) by assumption. destruct (dims _ _ (proj1 ED)) as [Q1 Q2]. cbn in Q1, Q2.
      rewrite (proj2 EP).
      + cbn [pmap px]. unfold Rdiv. rewrite RtoC_mult, RtoC_opp, RtoC_inv, minus_one by lra. field. auto.
      + destruct (dims _ _ (proj1 EP)) as [-> _]. unfold shape in Sd. injection Sd as T1 T2. cbn. lia.
      + destruct (dims _ _ (proj1 EP)) as [_ ->]. unfold shape in Sd. injection Sd as T1 T2. cbn. lia. }
  assert (plane_eq (ifft2_ortho (fourier_shift S' sx sy))
                   (pmap (fun z => (RtoC (- / b) * z)%C) (ifft2_ortho (fourier_shift S sx sy)))) as EN.
  { eapply plane_eq_trans; [|apply ifft2_ortho_scale]. apply ifft2_ortho_ext.
    eapply plane_eq_trans; [apply fourier_shift_ext, ES|]. split; [reflexivity|].
    intros i j _ _. cbn. ring. }
  rewrite R1, R2.
  pose proof (noise_ext _ _ (c_rdata c) (c_shape c) swap_kn S1 (sh_eta _)) as E1.
  pose proof (noise_ext _ _ (c_ndata c) (c_shape c) swap_kr S2 (sh_eta _)) as E2.
  split; [unfold shape; cbn; now rewrite Sh|].
  intros i j Hi Hj. unfold frame in Hi, Hj. cbn [nr nc] in Hi, Hj. rewrite Sh in Hi, Hj.
  unfold frame, pmap at 1. cbn [px].
  destruct (dims _ _ S1) as [L1 L2]. destruct (dims _ _ S2) as [L3 L4].
  rewrite (proj2 E1), (proj2 E2) by (unfold noise_map; cbn; congruence).
  rewrite (Cplus_comm (px (noise_map (kr_hat c b) _) i j)).
  destruct (Ceq_dec _ (RtoC 0)) as [_|Hv]; [reflexivity|]. cbn [option_map]. f_equal.
  rewrite (proj2 EN).
  - cbn [pmap px]. set (num := px _ i j). set (v := csqrt _).
    replace (RtoC (- / b) * num / v)%C with (RtoC (- / b) * (num / v))%C by (unfold Cdiv; ring).
    unfold Cmult at 1, RtoC. cbn [fst snd]. field. lra.
  - unfold ifft2_ortho, fourier_shift, S', pmap2. cbn. rewrite (proj1 (dims _ _ (proj1 ED))). cbn.
    now rewrite (proj1 (dims _ _ Sc)).
  - unfold ifft2_ortho, fourier_shift, S', pmap2. cbn. rewrite (proj2 (dims _ _ (proj1 ED))). cbn.
    now rewrite (proj2 (dims _ _ Sc)).
Qed.
End Swap.

Lemma exchange e x y beta shift it fitted beta' shift' it' b D P S m D' P' S' m' :
  mask_fits x -> mask_fits y -> 0 < d_var x -> 0 < d_var y -> 0 < b ->
  ratio_and_shift e (Is x) (Is y) false beta shift it fitted = Ok (b, 0, 0) ->
  ratio_and_shift e (Is y) (Is x) false beta' shift' it' fitted = Ok (/ b, 0, 0) ->
  subtract e (Is x) (Is y) false beta shift it fitted = Ok (D, P, S, m) ->
  subtract e (Is y) (Is x) false beta' shift' it' fitted = Ok (D', P', S', m') ->
  plane_eq D' (pmap Copp D) /\ plane_eq P' P /\ mask_eq m' m /\
  ((exists zr zn, e_transp e x y = Ok (zr, zn) /\ e_transp e y x = Ok (zn, zr) /\ zn = b * zr) ->
   plane_eq S' (pmap (option_map (fun v => - v / b)) S)).
Proof.
  intros Mx My Vx Vy Hb Hr Hr' Hs Hs'.
  destruct (subtract_inv _ _ _ _ _ _ _ _ _ Hs) as (c & b1 & dx & dy & E1 & _ & E3 & E4).
  rewrite Hr in E3. injection E3 as <- <- <-.
  destruct (subtract_inv _ _ _ _ _ _ _ _ _ Hs') as (c' & b1' & dx' & dy' & E1' & _ & E3' & E4').
  rewrite Hr' in E3'. injection E3' as <- <- <-.
  destruct (swap_ctx _ _ _ _ _ _ E1 E1') as (W & W' & Sh & P1 & P2 & D1 & D2 & V1 & V2 & R1 & R2 & Vr & Vn).
  unfold difference in E4, E4'. injection E4 as -> -> -> ->. injection E4' as -> -> -> ->.
  assert (0 < c_nvar c) as Hn by congruence. assert (0 < c_rvar c) as Hr0 by congruence.
  pose proof (swap_diff_hat c c' b W W' Sh P1 P2 D1 D2 V1 V2 Hb Hn Hr0) as ED.
  pose proof (swap_psf_hat c c' b W W' P1 P2 V1 V2 Hb Hn) as EP.
  assert (plane_eq (pmap fst (ifft2_ortho (diff_psf_hat c' (/ b)))) (pmap fst (ifft2_ortho (diff_psf_hat c b)))) as EPr.
  { apply pmap_ext, ifft2_ortho_ext, EP. }
  destruct (setup_images _ _ _ _ _ E1) as (zr & zn & mix & Sxy & Em & Et & Ep).
  destruct (setup_images _ _ _ _ _ E1') as (zr' & zn' & mix' & Syx & Em' & Et' & Ep').
  destruct (prepare_wf _ _ _ _ _ _ _ _ Sxy Ep) as (_ & Cs & _ & _ & _ & Nz & Cm).
  destruct (prepare_wf _ _ _ _ _ _ _ _ Syx Ep') as (_ & Cs' & _ & _ & _ & Nz' & Cm').
  destruct (prepare_inv _ _ _ _ _ _ _ _ Ep) as (_ & _ & _ & _ & _ & Er & En).
  split; [|split; [exact EPr|split]].
  - eapply plane_eq_trans; [apply ifft2_ortho_ext, ED|].
    eapply plane_eq_trans; [apply ifft2_ortho_scale|]. split; [reflexivity|].
    intros i j _ _. cbn [pmap px]. rewrite minus_one. ring.
  - rewrite Cm, Cm'. apply (mask_or_comm (d_shape x) (d_mask x) (d_mask y)); auto.
    rewrite <- Sxy. exact My.
  - intros (zr0 & zn0 & T1 & T2 & T3). rewrite T1 in Et. injection Et as <- <-.
    rewrite T2 in Et'. injection Et' as <- <-.
    apply swap_s_corr; auto.
    + congruence.
    + rewrite Er, Cs. apply sh_eta.
    + rewrite En, Sxy, Cs. apply sh_eta.
    + transitivity (shape (c_dn c)); [reflexivity|]. transitivity (shape (c_pr c)); [|reflexivity].
      now rewrite (wf_dn c W), (wf_pr c W).
    + exact (wf_dn c W).
Qed.
