(** C122: the PSFs of a subtraction in the default mode. *)
From Coq Require Import ZArith List Bool Arith Reals Lia Lra Permutation.
From Coquelicot Require Import Complex.
From Verif.Model Require Import Py Plane Ma Coadd.
From Verif.Spec Require Import Coadd Subtract.
From Verif.Model Require Import Filter.
From Verif.Spec Require Import Filter.
From Verif.Proof Require Import Filter FilterMain.
From Verif.Model Require Import Interp Subtract FindS Sources Stamps Transparency KL Session Chain ChainCoadd Gauss GaussImage GaussSub.
From Verif.Spec Require Import Stamps KL Session Uses UsesCoadd GaussImage GaussSub.
From Verif.Proof Require Import Interp Stamps StampsLoop StampsExample KL KLMain Session SessionLm SessionExample Chain ChainUnits Uses UsesEx UsesCoadd UsesCoaddMain UsesCoaddEx Filtered FilteredEx GaussMain GaussImage GaussFiltered GaussImageEx GaussSub GaussTotal GaussSubEx.
Import ListNotations.
Local Open Scope R_scope.
Local Notation rsum := Subtract.rsum.

(** What a subtraction in the default mode uses. *)
Theorem C122_subtract : forall W fuel o o' d d' x y fitter stats render cs cs' beta shift iterative sp sp' g0 g0' D P S m,
  (forall n c, length (fst (l_eigh W n c)) = n) -> (forall r, Permutation (l_sort W r) r) ->
  build W fuel o d = Some (Ok x) -> build W fuel o' d' = Some (Ok y) ->
  stamps_of _ _ _ (bu_lib x) (stamp_shape (bu_attr x)) = Ok sp -> params_of fitter stats (fst sp) g0 ->
  stamps_of _ _ _ (bu_lib y) (stamp_shape (bu_attr y)) = Ok sp' -> params_of fitter stats (fst sp') g0' ->
  Forall g_plain cs -> Forall g_plain cs' ->
  let x' := g_after fitter stats render cs x in let y' := g_after fitter stats render cs' y in
  subtract_gauss W fitter stats beta shift iterative x' y' = Ok (D, P, S, m) ->
  exists cr cn left left' t e u v a b th a' b' th',
    fst (best_sources (bu_lib x) (bu_attr x')) = Ok cr /\ fst (best_sources (bu_lib y) (bu_attr y')) = Ok cn /\
    transparency (l_query W) (l_sort W) (l_lsqr W)
      [mkcat false false (map row_of cr); mkcat false false (map row_of cn)] None = Ok t /\
    map spot left = map spot cr /\ Permutation (map spot left') (map spot cn) /\
    g_reads fitter stats x cs left (a, b, th) u /\ g_reads fitter stats y cs' left' (a', b', th') v /\
    (a <> 0 -> b <> 0 ->
     gaussian_at (d_render u) (d_shape u) a b th (INR (snd (d_shape u)) / 2) (INR (fst (d_shape u)) / 2)) /\
    (a' <> 0 -> b' <> 0 ->
     gaussian_at (d_render v) (d_shape v) a' b' th' (INR (snd (d_shape v)) / 2) (INR (fst (d_shape v)) / 2)) /\
    e_transp e u v = Ok (nth 0 (zps t) 0, nth 1 (zps t) 0) /\ e_back e = l_back W /\ e_solve e = l_solve W /\
    subtract e (Is u) (Is v) false beta shift iterative true = Ok (D, P, S, m).
Proof. exact C122_subtract_lm. Qed.
Print Assumptions C122_subtract.

Example C122_subtract_case : exists x sp D P S m,
  build striped 1 schosen sdata = Some (Ok x) /\ (forall n c, length (fst (l_eigh striped n c)) = n) /\
  (forall r, Permutation (l_sort striped r) r) /\
  stamps_of _ _ _ (bu_lib x) (stamp_shape (bu_attr x)) = Ok sp /\ params_of ex_fitter ex_stats (fst sp) (1, 2, 0) /\
  Forall g_plain looked /\ Forall g_plain used /\
  subtract_gauss striped ex_fitter ex_stats false false false
    (g_after ex_fitter ex_stats ex_render looked x) (g_after ex_fitter ex_stats ex_render used x) = Ok (D, P, S, m) /\
  stamps_read (looked_at (bu_attr x)) looked = false /\ stamps_read (looked_at (bu_attr x)) used = true.
Proof. exact C122_subtract_case_lm. Qed.

(** The rendered stamp of such an image: the hypotheses of C121. *)
Theorem C122_stamp : forall a b t, a <> 0 -> b <> 0 ->
  let p := render_stamp a b t 1 in
  exists dy dx, symmetric p dy dx /\ px p dy dx = 1 /\
    (forall i j, (i < nr p)%nat -> (j < nc p)%nat -> 0 < px p i j <= 1) /\
    (11 / 2 * sqrt ((a * cos t) ^ 2 + (b * sin t) ^ 2) <= INR dx < 11 / 2 * sqrt ((a * cos t) ^ 2 + (b * sin t) ^ 2) + 1) /\
    (11 / 2 * sqrt ((b * cos t) ^ 2 + (a * sin t) ^ 2) <= INR dy < 11 / 2 * sqrt ((b * cos t) ^ 2 + (a * sin t) ^ 2) + 1).
Proof. exact C122_stamp_lm. Qed.
Print Assumptions C122_stamp.

(** The total of the difference image and of its PSF, for PSFs with the sums [sr] and [sn]. *)
Theorem C122_total : forall e x y beta shift it fitted sr sn b dx dy D P S m,
  psumR (used_psf fitted x) = sr -> psumR (used_psf fitted y) = sn -> 0 < sr -> 0 < sn ->
  psf_inside fitted x -> psf_inside fitted y -> (0 < fst (d_shape x))%nat -> (0 < snd (d_shape x))%nat ->
  0 < d_var y ->
  ratio_and_shift e (Is x) (Is y) false beta shift it fitted = Ok (b, dx, dy) ->
  subtract e (Is x) (Is y) false beta shift it fitted = Ok (D, P, S, m) ->
  let q := sqrt ((d_var y * sr) ^ 2 + (b * d_var x * sn) ^ 2) in
  0 < q /\
  psum D = RtoC ((sr * flux y - b * sn * flux x) / q) /\
  (b <> 0 -> psumR P = sr * sn * sqrt (d_var y ^ 2 + (b * d_var x) ^ 2) / q).
Proof. exact C122_total_lm. Qed.
Print Assumptions C122_total.

Example C122_total_case : let u := misty (2, 2)%nat 1 in let v := misty (2, 2)%nat 2 in exists sr sn r dx dy D P S m,
  psumR (used_psf true u) = sr /\ psumR (used_psf true v) = sn /\ 0 < sr < sn /\
  psf_inside true u /\ psf_inside true v /\ 0 < d_var v /\
  ratio_and_shift calm (Is u) (Is v) false false false false true = Ok (r, dx, dy) /\
  subtract calm (Is u) (Is v) false false false false true = Ok (D, P, S, m) /\
  r <> 0 /\ flux v = r * flux u /\ flux v <> 0.
Proof.
  intros u v. destruct C122_seeing_case_lm as (r & dx & dy & D & P & S & m & Gu & Gv & V & R & E & F & L).
  assert (O : 0 < 1 < 2) by lra.
  destruct (wider_sum u v 1 1 2 2 0 1 1 eq_refl ltac:(cbn; lia) ltac:(cbn; lia) O O ltac:(lra) Gu Gv) as [S0 S1].
  do 9 eexists. split; [reflexivity|]. split; [reflexivity|]. split; [split; [exact S0|lra]|].
  split; [split; cbn; apply le_n|]. split; [split; cbn; apply le_n|]. split; [exact V|].
  split; [exact R|]. split; [exact E|]. fold u v in F, L. split; [|split; [exact F|lra]].
  intros ->. rewrite Rmult_0_l in F. lra.
Qed.

(** If no source changed, the total of the difference is zero only if the PSFs have the same
    sum. *)
Theorem C122_unchanged : forall e x y beta shift it fitted sr sn b dx dy D P S m,
  psumR (used_psf fitted x) = sr -> psumR (used_psf fitted y) = sn -> 0 < sr -> 0 < sn ->
  psf_inside fitted x -> psf_inside fitted y -> (0 < fst (d_shape x))%nat -> (0 < snd (d_shape x))%nat ->
  0 < d_var y ->
  ratio_and_shift e (Is x) (Is y) false beta shift it fitted = Ok (b, dx, dy) ->
  subtract e (Is x) (Is y) false beta shift it fitted = Ok (D, P, S, m) ->
  flux y = b * flux x -> flux y <> 0 -> (psum D = RtoC 0 <-> sr = sn).
Proof. exact C122_unchanged_lm. Qed.
Print Assumptions C122_unchanged.

(** Worse seeing in the new image, and nothing else changed: the total of the difference is
    negative. *)
Theorem C122_seeing_refuted : forall e u v beta shift it a b a' b' th y0 x0 r dx dy D P S m,
  d_shape v = d_shape u -> (0 < fst (d_shape u))%nat -> (0 < snd (d_shape u))%nat -> 0 < x0 -> 0 < d_var v ->
  gaussian_at (d_render u) (d_shape u) a b th y0 x0 -> gaussian_at (d_render v) (d_shape v) a' b' th y0 x0 ->
  0 < a < a' -> 0 < b < b' ->
  ratio_and_shift e (Is u) (Is v) false beta shift it true = Ok (r, dx, dy) ->
  subtract e (Is u) (Is v) false beta shift it true = Ok (D, P, S, m) ->
  flux v = r * flux u -> 0 < flux v ->
  exists t, psum D = RtoC t /\ t < 0.
Proof. exact C122_seeing_refuted_lm. Qed.
Print Assumptions C122_seeing_refuted.

Example C122_seeing_case : let u := misty (2, 2)%nat 1 in let v := misty (2, 2)%nat 2 in exists r dx dy D P S m,
  gaussian_at (d_render u) (d_shape u) 1 1 0 1 1 /\ gaussian_at (d_render v) (d_shape v) 2 2 0 1 1 /\ 0 < d_var v /\
  ratio_and_shift calm (Is u) (Is v) false false false false true = Ok (r, dx, dy) /\
  subtract calm (Is u) (Is v) false false false false true = Ok (D, P, S, m) /\
  flux v = r * flux u /\ 0 < flux v.
Proof. exact C122_seeing_case_lm. Qed.

(** In a frame at least twice as wide as high, the values of a PSF with its axes along those of
    the frame grow from each row to the next. *)
Theorem C122_axes_refuted : forall u a b i j,
  gaussian_at (d_render u) (d_shape u) a b 0 (INR (snd (d_shape u)) / 2) (INR (fst (d_shape u)) / 2) -> b <> 0 ->
  (2 * fst (d_shape u) <= snd (d_shape u))%nat -> (S i < fst (d_shape u))%nat -> (j < snd (d_shape u))%nat ->
  d_render u i j < d_render u (S i) j < 1.
Proof. exact C122_axes_refuted_lm. Qed.
Print Assumptions C122_axes_refuted.

Example C122_axes_case : let u := misty (3, 6)%nat 1 in
  gaussian_at (d_render u) (d_shape u) 1 1 0 (INR (snd (d_shape u)) / 2) (INR (fst (d_shape u)) / 2) /\
  (2 * fst (d_shape u) <= snd (d_shape u))%nat /\ d_render u 0 0 < d_render u 1 0.
Proof. exact C122_axes_case_lm. Qed.

(** The centre of mass of a PSF whose axes are those of a square frame of n x n pixels. *)
Theorem C122_centre : forall u a b n, d_shape u = (n, n) -> (0 < n)%nat ->
  gaussian_at (d_render u) (n, n) a b 0 (INR n / 2) (INR n / 2) ->
  let along w i := exp (- ((INR i - INR n / 2) / w) ^ 2 / 2) in
  let part w := along w 0%nat / rsum n (along w) in
  center_of_mass (used_psf true u) = (INR n / 2 * (1 - part b), INR n / 2 * (1 - part a)).
Proof. exact C122_centre_lm. Qed.
Print Assumptions C122_centre.

(** The two images are moved by different amounts when the seeing differs. *)
Theorem C122_displaced_refuted : forall u v a b a' b' n, d_shape u = (n, n) -> d_shape v = (n, n) -> (2 <= n)%nat ->
  gaussian_at (d_render u) (n, n) a b 0 (INR n / 2) (INR n / 2) ->
  gaussian_at (d_render v) (n, n) a' b' 0 (INR n / 2) (INR n / 2) ->
  0 < a < a' -> 0 < b < b' ->
  let (r, c) := center_of_mass (used_psf true u) in let (r', c') := center_of_mass (used_psf true v) in
  r' < r < INR n / 2 /\ c' < c < INR n / 2.
Proof. exact C122_displaced_refuted_lm. Qed.
Print Assumptions C122_displaced_refuted.
