(** What the fits of subtract look for. *)
From Coq Require Import Arith ZArith List Bool Reals Lia Lra.
From Flocq Require Import Core.
From Coquelicot Require Import Complex.
From Verif.Model Require Import Py Plane Ma Subtract.
From Verif.Spec Require Import Coadd Fourier Subtract Fits.
From Verif.Proof Require Import Coadd Fourier Dft CoaddMore Subtract SubtractMain SubtractFit Sign.
Import ListNotations.
Local Open Scope R_scope.
Set Bullet Behavior "Strict Subproofs".

Lemma nearest_0 : ZnearestE 0 = 0%Z.
Proof. exact (Zrnd_IZR ZnearestE 0). Qed.

(** A difference of inverse transforms. *)
Lemma ifft_minus F G H sh : shape F = sh -> shape G = sh -> shape H = sh -> forall k : C,
  (forall u v, (u < fst sh)%nat -> (v < snd sh)%nat -> (px F u v - k * px G u v)%C = px H u v) ->
  forall i j, (px (ifft2_ortho F) i j - k * px (ifft2_ortho G) i j)%C = px (ifft2_ortho H) i j.
Proof.
  intros SF SG SH k E i j. destruct (dims _ _ SF) as [F1 F2]. destruct (dims _ _ SG) as [G1 G2]. destruct (dims _ _ SH) as [H1 H2].
  rewrite !ifft_px, F1, F2, G1, G2, H1, H2.
  rewrite (sum2_ext _ _ (fun u v => (px F u v * har2 (fst sh) (snd sh) u v (Z.of_nat i) (Z.of_nat j))%C)
     (fun u v => (px H u v * har2 (fst sh) (snd sh) u v (Z.of_nat i) (Z.of_nat j) + k * (px G u v * har2 (fst sh) (snd sh) u v (Z.of_nat i) (Z.of_nat j)))%C)).
  - rewrite sum2_plus, sum2_scale. ring.
  - intros u v Hu Hv. rewrite <- (E u v) by assumption. ring.
Qed.

Lemma phase_cis sh dx dy u v : phase sh dx dy u v =
  cis (- (2 * PI) * (freq (fst sh) u * dx / INR (fst sh) + freq (snd sh) v * dy / INR (snd sh))).
Proof.
  unfold phase. destruct (Req_EM_T dx 0) as [->|]; [|reflexivity]. destruct (Req_EM_T dy 0) as [->|]; [|reflexivity].
  replace (- (2 * PI) * _) with 0 by (unfold Rdiv; ring). unfold cis. now rewrite cos_0, sin_0.
Qed.

(** The residual of the objective with a shift is the difference image for these values. *)
Lemma residual_shift_cell c b dx dy i j : wf c -> 0 < c_nvar c ->
  px (residual_shift c b dx dy) i j =
  fst (px (ifft2_ortho (diff_hat c b dx dy)) i j) - px (roll_flat (gammap c b) (ZnearestE dx + ZnearestE dy)) i j.
Proof.
  intros W V. unfold residual_shift, frame. cbn [px].
  rewrite <- (ifft_minus (over_norm c b (c_dn c)) (fourier_shift (over_norm c b (c_dr c)) dx dy) (diff_hat c b dx dy) (c_shape c)) with (k := RtoC b).
  - unfold Cminus, Cplus, Copp, Cmult, RtoC. cbn [fst snd]. ring.
  - transitivity (shape (c_dn c)); [reflexivity|]. apply wf_dn, W.
  - transitivity (shape (c_dr c)); [reflexivity|]. apply wf_dr, W.
  - now apply diff_hat_shape.
  - intros u v Hu Hv. rewrite diff_hat_cell by exact W. rewrite phase_cis.
    destruct (dims _ _ (wf_dr c W)) as [D1 D2]. unfold fourier_shift, over_norm, pmap2. cbn [px nr nc]. rewrite D1, D2.
    unfold Cdiv. ring.
Qed.

Lemma residual_beta_cell c b i j : wf c -> 0 < c_nvar c ->
  px (residual_beta c b) i j = fst (px (ifft2_ortho (diff_hat c b 0 0)) i j) - px (gammap c b) i j.
Proof.
  intros W V. unfold residual_beta, frame. cbn [px].
  rewrite <- (ifft_minus (over_norm c b (c_dn c)) (over_norm c b (c_dr c)) (diff_hat c b 0 0) (c_shape c)) with (k := RtoC b).
  - unfold Cminus, Cplus, Copp, Cmult, RtoC. cbn [fst snd]. ring.
  - transitivity (shape (c_dn c)); [reflexivity|]. apply wf_dn, W.
  - transitivity (shape (c_dr c)); [reflexivity|]. apply wf_dr, W.
  - now apply diff_hat_shape.
  - intros u v Hu Hv. rewrite diff_hat_cell by exact W. unfold phase. do 2 (destruct (Req_EM_T 0 0); [|congruence]).
    unfold over_norm, pmap2. cbn [px]. unfold Cdiv. ring.
Qed.

(** The background term. *)
Lemma prepare_gamma back fitted x y mix zr zn c : prepare back fitted x y mix zr zn = Ok c ->
  c_gamma c = pmap2 Rminus (back (pixels y)) (back (pixels x)).
Proof.
  unfold prepare. destruct (center_of_mass _) as [? ?]. destruct (center_of_mass _) as [? ?].
  destruct (negb fitted && _); [discriminate|]. intros E. injection E as <-. reflexivity.
Qed.

Lemma roll_sky e x y fitted c b s i j : setup e (Is x) (Is y) false fitted = Ok c ->
  (forall p, shape (e_back e p) = shape p) ->
  px (roll_flat (gammap c b) s) i j = sky_term e x y b s i j.
Proof.
  intros H HB. destruct (setup_images _ _ _ _ _ H) as (zr & zn & mix & Sh & _ & _ & Ep).
  destruct (prepare_wf _ _ _ _ _ _ _ _ Sh Ep) as (W & Cs & Rv & Nv & _).
  pose proof (prepare_gamma _ _ _ _ _ _ _ _ Ep) as G.
  assert (S1 : shape (c_gamma c) = d_shape x).
  { rewrite G. transitivity (shape (e_back e (pixels y))); [reflexivity|]. rewrite HB. unfold shape, pixels. cbn. rewrite Sh. apply sh_eta. }
  destruct (dims _ _ S1) as [N1 N2].
  unfold roll_flat, gammap, sky_term. cbn [pmap px nr nc]. rewrite N1, N2, G, Rv, Nv. reflexivity.
Qed.

Lemma gamma_sky e x y fitted c b i j : setup e (Is x) (Is y) false fitted = Ok c ->
  (forall p, shape (e_back e p) = shape p) -> (i < fst (d_shape x))%nat -> (j < snd (d_shape x))%nat ->
  px (gammap c b) i j = sky_term e x y b 0 i j.
Proof.
  intros H HB Hi Hj. rewrite <- (roll_sky e x y fitted c b 0 i j H HB).
  destruct (setup_images _ _ _ _ _ H) as (zr & zn & mix & Sh & _ & _ & Ep).
  pose proof (prepare_gamma _ _ _ _ _ _ _ _ Ep) as G.
  assert (S1 : shape (c_gamma c) = d_shape x).
  { rewrite G. transitivity (shape (e_back e (pixels y))); [reflexivity|]. rewrite HB. unfold shape, pixels. cbn. rewrite Sh. apply sh_eta. }
  destruct (dims _ _ S1) as [N1 N2].
  unfold roll_flat. cbn [gammap pmap px nr nc]. rewrite N1, N2, Z.sub_0_r.
  assert (0 <= Z.of_nat (i * snd (d_shape x) + j) < Z.of_nat (fst (d_shape x) * snd (d_shape x)))%Z as B by nia.
  rewrite Z.mod_small, Nat2Z.id by exact B.
  rewrite Nat.div_add_l, (Nat.div_small j), Nat.add_0_r by lia. rewrite Nat.add_comm, Nat.mod_add, Nat.mod_small by lia. reflexivity.
Qed.

(** The objectives in terms of what is left over. *)
Lemma misfit_all_ext sh m r r' : (forall i j, (i < fst sh)%nat -> (j < snd sh)%nat -> r i j = r' i j) ->
  misfit_all sh m r = misfit_all sh m r'.
Proof. intros E. apply rsum_ext. intros i Hi. apply rsum_ext. intros j Hj. now rewrite E. Qed.

Lemma misfit_inner_ext sh m r r' : (forall i j, r i j = r' i j) -> misfit_inner sh m r = misfit_inner sh m r'.
Proof. intros E. apply rsum_ext. intros i _. apply rsum_ext. intros j _. now rewrite E. Qed.

Lemma rsum_nonneg n f : (forall i, (i < n)%nat -> 0 <= f i) -> 0 <= rsum n f.
Proof. induction n as [|n IH]; intros H; cbn; [lra|]. specialize (IH (fun i Hi => H i ltac:(lia))). specialize (H n ltac:(lia)). lra. Qed.

Lemma rsum_0 n f : (forall i, (i < n)%nat -> f i = 0) -> rsum n f = 0.
Proof. induction n as [|n IH]; intros H; cbn; [reflexivity|]. rewrite IH, H by (intros; try apply H; lia). ring. Qed.

Lemma rsum_le_0 n f : (forall i, (i < n)%nat -> 0 <= f i) -> rsum n f <= 0 -> forall i, (i < n)%nat -> f i = 0.
Proof.
  induction n as [|n IH]; intros H L i Hi; [lia|]. cbn in L.
  pose proof (rsum_nonneg n f (fun i Hi => H i ltac:(lia))). pose proof (H n ltac:(lia)).
  destruct (Nat.eq_dec i n) as [->|]; [lra|]. apply IH; [intros; apply H; lia|lra|lia].
Qed.

Lemma cell_nonneg (m : bool) r : 0 <= (if m then 0 else Rabs r).
Proof. destruct m; [lra|apply Rabs_pos]. Qed.

Lemma misfit_all_nonneg sh m r : 0 <= misfit_all sh m r.
Proof. apply rsum_nonneg. intros i _. apply rsum_nonneg. intros j _. apply cell_nonneg. Qed.
Lemma misfit_inner_nonneg sh m r : 0 <= misfit_inner sh m r.
Proof. apply rsum_nonneg. intros i _. apply rsum_nonneg. intros j _. apply cell_nonneg. Qed.

Lemma frame_cost_all m p v : frame_cost m p = Some v -> v = misfit_all (shape p) m (px p).
Proof.
  unfold frame_cost. destruct (match m with Nomask => _ | Full _ => _ end); [discriminate|]. intros E. injection E as <-.
  unfold sum_unmasked. rewrite (fold_rect (fun ij => if masked_at m (fst ij) (snd ij) then 0 else Rabs (px p (fst ij) (snd ij)))). reflexivity.
Qed.

Lemma frame_cost_none m p : frame_cost m p = None -> forall r, misfit_all (shape p) m r = 0.
Proof.
  unfold frame_cost. destruct m as [|q]; [discriminate|]. destruct (all_masked _ _) eqn:A; [|discriminate]. intros _ r.
  unfold all_masked in A. rewrite forallb_forall in A.
  apply rsum_0. intros i Hi. apply rsum_0. intros j Hj.
  specialize (A (i, j)). cbn [fst snd] in A. rewrite A; [reflexivity|]. apply in_prod; apply in_seq; cbn in *; lia.
Qed.

Lemma window_cost_inner m p v : window_cost m p = Some v -> (200 < nr p)%nat /\ (200 < nc p)%nat /\
  v = misfit_inner (shape p) m (px p) / (INR (nr p - 200) * INR (nc p - 200)).
Proof.
  intros E. destruct (le_lt_dec (nr p) 200) as [L|L]; [rewrite small_window in E by (now left); discriminate|].
  destruct (le_lt_dec (nc p) 200) as [L'|L']; [rewrite small_window in E by (now right); discriminate|].
  split; [exact L|]. split; [exact L'|]. exact (proj2 (large_window m p L L') v E).
Qed.

Lemma window_cost_none m p : window_cost m p = None -> forall r, misfit_inner (shape p) m r = 0.
Proof.
  intros E r. unfold misfit_inner. cbn [shape fst snd].
  destruct (le_lt_dec (nr p) 200) as [L|L]; [replace (nr p - 200)%nat with 0%nat by lia; reflexivity|].
  destruct (le_lt_dec (nc p) 200) as [L'|L'].
  { replace (nc p - 200)%nat with 0%nat by lia. apply rsum_0. reflexivity. }
  pose proof (proj1 (proj1 (large_window m p L L')) E) as A.
  apply rsum_0. intros i Hi. apply rsum_0. intros j Hj. rewrite A by lia. reflexivity.
Qed.

Lemma left_over_shift e x y fitted c b dx dy : setup e (Is x) (Is y) false fitted = Ok c ->
  (forall p, shape (e_back e p) = shape p) -> 0 < d_var y ->
  left_over e x y true (c_mask c) b dx dy (ifft2_ortho (diff_hat c b dx dy)) =
  misfit_inner (d_shape x) (c_mask c) (px (residual_shift c b dx dy)).
Proof.
  intros H HB V. destruct (setup_images _ _ _ _ _ H) as (zr & zn & mix & Sh & _ & _ & Ep).
  destruct (prepare_wf _ _ _ _ _ _ _ _ Sh Ep) as (W & Cs & Rv & Nv & _).
  apply misfit_inner_ext. intros i j. rewrite residual_shift_cell by (auto; congruence).
  now rewrite (roll_sky e x y fitted c b _ i j H HB).
Qed.

Lemma left_over_beta e x y fitted c b : setup e (Is x) (Is y) false fitted = Ok c ->
  (forall p, shape (e_back e p) = shape p) -> 0 < d_var y ->
  left_over e x y false (c_mask c) b 0 0 (ifft2_ortho (diff_hat c b 0 0)) =
  misfit_all (d_shape x) (c_mask c) (px (residual_beta c b)).
Proof.
  intros H HB V. destruct (setup_images _ _ _ _ _ H) as (zr & zn & mix & Sh & _ & _ & Ep).
  destruct (prepare_wf _ _ _ _ _ _ _ _ Sh Ep) as (W & Cs & Rv & Nv & _).
  apply misfit_all_ext. intros i j Hi Hj. rewrite residual_beta_cell by (auto; congruence).
  rewrite nearest_0. now rewrite (gamma_sky e x y fitted c b i j H HB).
Qed.

Lemma window_nonneg m p v : window_cost m p = Some v -> 0 <= v.
Proof.
  intros E. destruct (window_cost_inner _ _ _ E) as (A & B & ->). apply Rmult_le_pos; [apply misfit_inner_nonneg|].
  left. apply Rinv_0_lt_compat, Rmult_lt_0_compat; apply lt_0_INR; lia.
Qed.

Lemma frame_nonneg m p v : frame_cost m p = Some v -> 0 <= v.
Proof. intros E. rewrite (frame_cost_all _ _ _ E). apply misfit_all_nonneg. Qed.

(** Comparing values of an objective compares what is left over. *)
Lemma window_compare m p q : shape p = shape q ->
  (forall v w, window_cost m p = Some v -> window_cost m q = Some w -> v <= w) ->
  misfit_inner (shape p) m (px p) <= misfit_inner (shape p) m (px q).
Proof.
  intros S H. destruct (window_cost m p) as [v|] eqn:E; [|rewrite !(window_cost_none _ _ E); lra].
  destruct (window_cost m q) as [w|] eqn:F; [|rewrite S, !(window_cost_none _ _ F); lra].
  specialize (H v w eq_refl eq_refl).
  destruct (window_cost_inner _ _ _ E) as (A & B & ->). destruct (window_cost_inner _ _ _ F) as (_ & _ & ->).
  injection S as S1 S2. unfold shape in *. rewrite <- S1, <- S2 in H.
  assert (0 < INR (nr p - 200) * INR (nc p - 200)) as P by (apply Rmult_lt_0_compat; apply lt_0_INR; lia).
  apply Rmult_le_reg_r with (2 := H). now apply Rinv_0_lt_compat.
Qed.

Lemma frame_compare m p q : shape p = shape q ->
  (forall v w, frame_cost m p = Some v -> frame_cost m q = Some w -> v <= w) ->
  misfit_all (shape p) m (px p) <= misfit_all (shape p) m (px q).
Proof.
  intros S H. destruct (frame_cost m p) as [v|] eqn:E; [|rewrite !(frame_cost_none _ _ E); lra].
  destruct (frame_cost m q) as [w|] eqn:F; [|rewrite S, !(frame_cost_none _ _ F); lra].
  specialize (H v w eq_refl eq_refl). rewrite (frame_cost_all _ _ _ E), (frame_cost_all _ _ _ F) in H. now rewrite <- S in H.
Qed.

Lemma within_three l1 l2 l3 a b c h1 h2 h3 : l1 <= a <= h1 -> l2 <= b <= h2 -> l3 <= c <= h3 ->
  within [l1; l2; l3] [a; b; c] [h1; h2; h3].
Proof.
  intros A B Cc. split; [reflexivity|]. split; [reflexivity|]. intros k a' l h E1 E2 E3.
  destruct k as [|[|[|k]]]; cbn in *; [..|destruct k; discriminate]; congruence || (injection E1 as <-; injection E2 as <-; injection E3 as <-; assumption).
Qed.
Lemma within_two l1 l2 a b h1 h2 : l1 <= a <= h1 -> l2 <= b <= h2 -> within [l1; l2] [a; b] [h1; h2].
Proof.
  intros A B. split; [reflexivity|]. split; [reflexivity|]. intros k a' l h E1 E2 E3.
  destruct k as [|[|k]]; cbn in *; [..|destruct k; discriminate]; congruence || (injection E1 as <-; injection E2 as <-; injection E3 as <-; assumption).
Qed.
Lemma within_one l1 a h1 : l1 <= a <= h1 -> within [l1] [a] [h1].
Proof.
  intros A. split; [reflexivity|]. split; [reflexivity|]. intros k a' l h E1 E2 E3.
  destruct k as [|k]; cbn in *; [|destruct k; discriminate]. injection E1 as <-; injection E2 as <-; injection E3 as <-; assumption.
Qed.

Lemma residual_shift_shape c b dx dy : shape (residual_shift c b dx dy) = c_shape c.
Proof. unfold residual_shift, frame, shape. cbn. apply sh_eta. Qed.
Lemma residual_beta_shape c b : shape (residual_beta c b) = c_shape c.
Proof. unfold residual_beta, frame, shape. cbn. apply sh_eta. Qed.

Lemma answering_setup e b dx dy x y fitted : setup (answering e b dx dy) (Is x) (Is y) false fitted = setup e (Is x) (Is y) false fitted.
Proof. reflexivity. Qed.

(** The fit with beta or shift: when the solver succeeds, no flux ratio and no shift within
    the bounds gives a difference image with less left over. *)
Lemma C110_best_lm : forall e x y zr zn beta shift it fitted b dx dy D P S m b' dx' dy',
  reports_minima (e_solve e) -> (forall p, shape (e_back e p) = shape p) -> 0 < d_var y ->
  e_transp e x y = Ok (zr, zn) -> beta = true \/ shift = true ->
  ratio_and_shift e (Is x) (Is y) false beta shift it fitted = Ok (b, dx, dy) ->
  subtract e (Is x) (Is y) false beta shift it fitted = Ok (D, P, S, m) ->
  allowed beta shift (zn / zr) b' dx' dy' ->
  (gave_up (e_solve e) /\ b = zn / zr /\ dx = 0 /\ dy = 0) \/
  exists D' P' S',
    ratio_and_shift (answering e b' dx' dy') (Is x) (Is y) false beta shift it fitted = Ok (b', dx', dy') /\
    subtract (answering e b' dx' dy') (Is x) (Is y) false beta shift it fitted = Ok (D', P', S', m) /\
    left_over e x y shift m b dx dy D <= left_over e x y shift m b' dx' dy' D'.
Proof.
  intros e x y zr zn beta shift it fitted b dx dy D P S m b' dx' dy' Hs HB V T Hbs R H [A1 A2].
  destruct (subtract_inv _ _ _ _ _ _ _ _ _ H) as (c & b1 & dx1 & dy1 & E & F & R1 & G).
  rewrite R in R1. injection R1 as <- <- <-. injection G as -> _ _ ->.
  pose proof (setup_ratio _ _ _ _ _ _ _ T E) as Rt. pose proof (setup_shape _ _ _ _ _ E) as Cs.
  unfold ratio_and_shift, subtract. rewrite !answering_setup, E. cbn [bind].
  unfold fit in F. rewrite Rt in F. unfold fit. rewrite Rt. cbn [answering e_solve].
  destruct beta, shift; [| | |destruct Hbs; discriminate].
  - (* ratio and shift *)
    destruct A2 as [A2 A3]. unfold least_squares in F. unfold least_squares at 1 2.
    destruct (in_bounds [zn / zr; 0; 0] _ _); [|discriminate].
    destruct (lsq _ _ _ _ _) as [[ok v]|] eqn:L; [|discriminate]. cbn [bind] in F.
    destruct ok.
    + destruct v as [|v1 [|v2 [|v3 [|]]]]; try discriminate. injection F as -> -> ->. right. cbn [lsq bind length].
      do 3 eexists. split; [reflexivity|]. split; [reflexivity|].
      rewrite (left_over_shift _ _ _ _ _ _ _ _ E HB V), (left_over_shift _ _ _ _ _ _ _ _ E HB V).
      rewrite <- Cs, <- (residual_shift_shape c b dx dy).
      apply window_compare; [now rewrite !residual_shift_shape|]. intros v w Hv Hw.
      destruct (proj1 Hs) with (2 := L) as [_ M].
      { intros z v0 Z. destruct z as [|? [|? [|? [|]]]]; try discriminate. now apply window_nonneg in Z. }
      apply (M [b'; dx'; dy'] v w); [|exact Hv|exact Hw].
      apply Rabs_le_inv in A2, A3. now apply within_three.
    + injection F as <- <- <-. left. split; [|auto]. left. do 5 eexists. exact L.
  - (* ratio *)
    destruct A2 as [-> ->]. destruct it.
    + destruct (bounded _ _ _ _) as [ok v] eqn:L. destruct ok.
      * injection F as -> <- <-. right. cbn [bounded bind]. do 3 eexists. split; [reflexivity|]. split; [reflexivity|].
        rewrite (left_over_beta _ _ _ _ _ _ E HB V), (left_over_beta _ _ _ _ _ _ E HB V).
        rewrite <- Cs, <- (residual_beta_shape c b).
        apply frame_compare; [now rewrite !residual_beta_shape|]. intros v w Hv Hw.
        destruct (proj2 Hs) with (2 := L) as [_ M]; [intros z v0 Z; now apply frame_nonneg in Z|].
        exact (M b' v w A1 Hv Hw).
      * injection F as <- <- <-. left. split; [|auto]. right. do 4 eexists. exact L.
    + unfold least_squares in F. unfold least_squares at 1 2. destruct (in_bounds [zn / zr] _ _); [|discriminate].
      destruct (lsq _ _ _ _ _) as [[ok v]|] eqn:L; [|discriminate]. cbn [bind] in F. destruct ok.
      * destruct v as [|v1 [|]]; try discriminate. injection F as -> <- <-. right. cbn [lsq bind length].
        do 3 eexists. split; [reflexivity|]. split; [reflexivity|].
        rewrite (left_over_beta _ _ _ _ _ _ E HB V), (left_over_beta _ _ _ _ _ _ E HB V).
        rewrite <- Cs, <- (residual_beta_shape c b).
        apply frame_compare; [now rewrite !residual_beta_shape|]. intros v w Hv Hw.
        destruct (proj1 Hs) with (2 := L) as [_ M].
        { intros z v0 Z. destruct z as [|? [|]]; try discriminate. now apply frame_nonneg in Z. }
        apply (M [b'] v w); [|exact Hv|exact Hw]. now apply within_one.
      * injection F as <- <- <-. left. split; [|auto]. left. do 5 eexists. exact L.
  - (* shift *)
    destruct A2 as [A2 A3]. subst b'. unfold least_squares in F. unfold least_squares at 1 2.
    destruct (in_bounds [0; 0] _ _); [|discriminate].
    destruct (lsq _ _ _ _ _) as [[ok v]|] eqn:L; [|discriminate]. cbn [bind] in F. destruct ok.
    + destruct v as [|v1 [|v2 [|]]]; try discriminate. injection F as <- -> ->. right. cbn [lsq bind length].
      do 3 eexists. split; [reflexivity|]. split; [reflexivity|].
      rewrite (left_over_shift _ _ _ _ _ _ _ _ E HB V), (left_over_shift _ _ _ _ _ _ _ _ E HB V).
      rewrite <- Cs, <- (residual_shift_shape c (zn / zr) dx dy).
      apply window_compare; [now rewrite !residual_shift_shape|]. intros v w Hv Hw.
      destruct (proj1 Hs) with (2 := L) as [_ M].
      { intros z v0 Z. destruct z as [|? [|? [|]]]; try discriminate. now apply window_nonneg in Z. }
      apply (M [dx'; dy'] v w); [|exact Hv|exact Hw]. apply Rabs_le_inv in A2, A3. now apply within_two.
    + injection F as <- <- <-. left. split; [|auto]. left. do 5 eexists. exact L.
Qed.

Lemma no_sky e x y b s i j : (forall i j, px (e_back e (pixels y)) i j = px (e_back e (pixels x)) i j) ->
  sky_term e x y b s i j = 0.
Proof. intros H. unfold sky_term. rewrite H. unfold Rdiv. ring. Qed.

(** A multiple of the reference: with beta, whatever the zero points say, nothing is left. *)
Lemma C110_recovers_lm : forall e x y k zr zn shift it fitted b dx dy D P S m,
  reports_minima (e_solve e) -> (forall p, shape (e_back e p) = shape p) -> 0 < d_var y ->
  (forall i j, px (e_back e (pixels y)) i j = px (e_back e (pixels x)) i j) ->
  (forall i j, (i < fst (d_shape x))%nat -> (j < snd (d_shape x))%nat -> d_interped y i j = k * d_interped x i j) ->
  plane_eq (used_psf fitted y) (used_psf fitted x) -> 1 / 10 <= k <= 10 ->
  e_transp e x y = Ok (zr, zn) ->
  ratio_and_shift e (Is x) (Is y) false true shift it fitted = Ok (b, dx, dy) ->
  subtract e (Is x) (Is y) false true shift it fitted = Ok (D, P, S, m) ->
  (gave_up (e_solve e) /\ b = zn / zr /\ dx = 0 /\ dy = 0) \/
  forall i j, (i < fst (d_shape x))%nat -> (j < snd (d_shape x))%nat -> masked_at m i j = false ->
    (shift = true -> (100 <= i < fst (d_shape x) - 100)%nat /\ (100 <= j < snd (d_shape x) - 100)%nat) ->
    fst (px D i j) = 0.
Proof.
  intros e x y k zr zn shift it fitted b dx dy D P S m Hs HB V Hb Hk Hp K T R H.
  destruct (C110_best_lm e x y zr zn true shift it fitted b dx dy D P S m k 0 0 Hs HB V T (or_introl eq_refl) R H) as [L|L].
  { split; [exact K|]. destruct shift; [rewrite Rabs_R0; split; lra|auto]. }
  { left. exact L. }
  right. destruct L as (D' & P' & S' & R' & H' & L).
  assert (Z : forall i j, px D' i j = RtoC 0).
  { apply (scaled_zero (answering e k 0 0) x y k true shift it fitted D' P' S' m); assumption. }
  assert (Lz : left_over e x y shift m k 0 0 D' = 0).
  { unfold left_over. destruct shift; apply rsum_0; intros i _; apply rsum_0; intros j _;
      rewrite Z, no_sky by exact Hb; cbn [RtoC fst]; rewrite Rminus_0_r, Rabs_R0; now destruct (masked_at _ _ _). }
  rewrite Lz in L. intros i j Hi Hj Hm Hsh. unfold left_over in L. destruct shift.
  - destruct (Hsh eq_refl) as [I J]. unfold misfit_inner in L.
    pose proof (rsum_le_0 _ _ (fun i _ => rsum_nonneg _ _ (fun j _ => cell_nonneg _ _)) L (i - 100)%nat ltac:(lia)) as Q. cbv beta in Q.
    assert (Q' := rsum_le_0 _ _ (fun j _ => cell_nonneg _ _) (Req_le _ _ Q) (j - 100)%nat ltac:(lia)). cbv beta in Q'.
    replace (100 + (i - 100))%nat with i in Q' by lia. replace (100 + (j - 100))%nat with j in Q' by lia.
    rewrite Hm, no_sky, Rminus_0_r in Q' by exact Hb. destruct (Req_dec (fst (px D i j)) 0) as [|N]; [assumption|].
    now apply Rabs_no_R0 in N.
  - unfold misfit_all in L.
    pose proof (rsum_le_0 _ _ (fun i _ => rsum_nonneg _ _ (fun j _ => cell_nonneg _ _)) L i Hi) as Q. cbv beta in Q.
    assert (Q' := rsum_le_0 _ _ (fun j _ => cell_nonneg _ _) (Req_le _ _ Q) j Hj). cbv beta in Q'.
    rewrite Hm, no_sky, Rminus_0_r in Q' by exact Hb. destruct (Req_dec (fst (px D i j)) 0) as [|N]; [assumption|].
    now apply Rabs_no_R0 in N.
Qed.

(** *** A solver that tries one value *)
Definition hits (o : option R) : bool := match o with Some v => if Req_EM_T v 0 then true else false | None => false end.
Definition tries (t : R) : solvers := mksolvers
  (fun f _ lo hi => match lo, hi with
     | [l], [h] => if in_bounds [t] [l] [h] then Ok (hits (f [t]), [t]) else Ok (false, [t])
     | _, _ => Ok (false, [t]) end)
  (fun f lo hi => (in_bounds [t] [lo] [hi] && hits (f t), t)).

Lemma hits_true o : hits o = true -> o = Some 0.
Proof. destruct o as [v|]; [|discriminate]. cbn. destruct (Req_EM_T v 0) as [->|]; [reflexivity|discriminate]. Qed.

Lemma one_bound t l h : in_bounds [t] [l] [h] = true -> l <= t <= h.
Proof. cbn. destruct (Rle_dec l t); [|discriminate]. destruct (Rle_dec t h); [|discriminate]. auto. Qed.

Lemma tries_reports t : reports_minima (tries t).
Proof.
  split.
  - intros f x0 lo hi x N E. cbn [tries lsq] in E. destruct lo as [|l [|]]; try discriminate. destruct hi as [|h [|]]; try discriminate.
    destruct (in_bounds _ _ _) eqn:B; [|discriminate]. injection E as E <-. apply hits_true in E.
    split; [now apply within_one, one_bound|]. intros z v w _ Hv Hw. rewrite E in Hv. injection Hv as <-. now apply N in Hw.
  - intros f lo hi x N E. cbn [tries bounded] in E. injection E as E <-. apply andb_true_iff in E. destruct E as [B E].
    apply hits_true in E. split; [now apply one_bound|]. intros z v w _ Hv Hw. rewrite E in Hv. injection Hv as <-. now apply N in Hw.
Qed.

(** Twice the reference, equal zero points: the solver finds the factor 2. *)
Lemma C110_recovers_case_lm :
  let e := ex_env 1 1 (tries 2) in let x := ex_dimg 1 Nomask in let y := ex_dimg 2 Nomask in
  reports_minima (e_solve e) /\ (forall p, shape (e_back e p) = shape p) /\ 0 < d_var y /\
  (forall i j, px (e_back e (pixels y)) i j = px (e_back e (pixels x)) i j) /\
  (forall i j, d_interped y i j = 2 * d_interped x i j) /\ plane_eq (used_psf true y) (used_psf true x) /\
  e_transp e x y = Ok (1, 1) /\
  ratio_and_shift e (Is x) (Is y) false true false false true = Ok (2, 0, 0) /\
  exists D P S m, subtract e (Is x) (Is y) false true false false true = Ok (D, P, S, m) /\ m = Nomask.
Proof.
  cbn zeta. set (e := ex_env 1 1 (tries 2)). set (x := ex_dimg 1 Nomask). set (y := ex_dimg 2 Nomask).
  assert (X : ratio_and_shift e (Is x) (Is y) false true false false true = Ok (2, 0, 0)).
  { destruct (setup e (Is x) (Is y) false true) as [c|] eqn:E; [|discriminate].
    pose proof (setup_ratio e x y true c 1 1 eq_refl E) as Rt. pose proof (setup_shape _ _ _ _ _ E) as Cs.
    unfold ratio_and_shift. rewrite E. cbn [bind]. unfold fit, least_squares. rewrite Rt, within1 by lra.
    unfold e, ex_env. cbn [e_solve tries lsq]. rewrite within1 by lra.
    assert (hits (frame_cost (c_mask c) (residual_beta c 2)) = true) as ->; [|reflexivity].
    assert (c_mask c = Nomask) as M by (clear - E; injection E as <-; reflexivity). rewrite M.
    destruct (frame_cost Nomask (residual_beta c 2)) as [v|] eqn:F; [|discriminate].
    assert (0 < d_var y) as V by (cbn; lra).
    pose proof (left_over_beta e x y true c 2 E (fun p => eq_refl) V) as Lo. rewrite M, <- Cs, <- (residual_beta_shape c 2), <- (frame_cost_all _ _ _ F) in Lo.
    cbn. rewrite <- Lo. destruct (Req_EM_T _ 0) as [|N]; [reflexivity|]. exfalso. apply N.
    assert (In : in_bounds [1 / 1] [1 / 10] [10] = true) by (apply within1; lra).
    destruct (subtract (answering e 2 0 0) (Is x) (Is y) false true false false true) as [[[[D P] S] m]|] eqn:H.
    2:{ exfalso. unfold subtract in H. rewrite answering_setup, E in H. cbn [bind] in H. unfold fit, least_squares in H.
        rewrite Rt in H. rewrite In in H. discriminate. }
    assert (R2 : ratio_and_shift (answering e 2 0 0) (Is x) (Is y) false true false false true = Ok (2, 0, 0)).
    { unfold ratio_and_shift. rewrite answering_setup, E. cbn [bind]. unfold fit, least_squares. rewrite Rt, In. reflexivity. }
    assert (forall i j, px D i j = RtoC 0) as Z.
    { apply (scaled_zero (answering e 2 0 0) x y 2 true false false true D P S m); auto.
      - intros i j _ _. cbn. ring.
      - split; [reflexivity|]. reflexivity. }
    destruct (subtract_inv _ _ _ _ _ _ _ _ _ H) as (c' & b & dx & dy & E' & _ & R' & G).
    rewrite R2 in R'. injection R' as <- <- <-. rewrite answering_setup, E in E'. injection E' as <-. injection G as -> _ _ _.
    unfold left_over. apply rsum_0. intros i _. apply rsum_0. intros j _. rewrite Z, no_sky by reflexivity.
    cbn [masked_at RtoC fst]. now rewrite Rminus_0_r, Rabs_R0. }
  split; [apply tries_reports|]. split; [reflexivity|]. split; [cbn; lra|]. split; [reflexivity|]. split; [intros; cbn; ring|].
  split; [split; reflexivity|]. split; [reflexivity|]. split; [exact X|].
  unfold ratio_and_shift in X. unfold subtract. destruct (setup e (Is x) (Is y) false true) as [c|] eqn:E; [|discriminate].
  cbn [bind] in X |- *. rewrite X. do 4 eexists. split; [reflexivity|]. clear - E. injection E as <-. reflexivity.
Qed.
