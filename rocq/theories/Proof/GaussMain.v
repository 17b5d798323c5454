(** The Gaussian PSF. *)
From Coq Require Import ZArith List Bool Arith Reals Lia Lra.
From Verif.Model Require Import Py Plane Sources KL Session Gauss.
From Verif.Model Require Stamps.
From Verif.Proof Require Import Session SessionLm.
Import ListNotations.
Local Open Scope R_scope.
Set Bullet Behavior "Strict Subproofs".
Arguments gauss_psf {NI FT IM} L fitter stats render l sh s.

Lemma fold_max_ge x t : forall y, In y (x :: t) -> y <= fold_right Rmax x t.
Proof.
  induction t as [|z t IH]; intros y H; cbn.
  - destruct H as [->|[]]. lra.
  - destruct H as [->|[->|H]].
    + eapply Rle_trans; [apply IH; now left|apply Rmax_r].
    + apply Rmax_l.
    + eapply Rle_trans; [apply IH; now right|apply Rmax_r].
Qed.

Lemma fold_max_in x t : In (fold_right Rmax x t) (x :: t).
Proof.
  induction t as [|z t IH]; cbn [fold_right]; [now left|]. unfold Rmax at 1. destruct (Rle_dec _ _).
  - destruct IH as [H|H]; [now left|right; now right].
  - right. now left.
Qed.

Lemma fold_min_le x t : forall y, In y (x :: t) -> fold_right Rmin x t <= y.
Proof.
  induction t as [|z t IH]; intros y H; cbn.
  - destruct H as [->|[]]. lra.
  - destruct H as [->|[->|H]].
    + eapply Rle_trans; [apply Rmin_r|apply IH; now left].
    + apply Rmin_l.
    + eapply Rle_trans; [apply Rmin_r|apply IH; now right].
Qed.

Lemma fold_min_in x t : In (fold_right Rmin x t) (x :: t).
Proof.
  induction t as [|z t IH]; cbn [fold_right]; [now left|]. unfold Rmin at 1. destruct (Rle_dec _ _).
  - right. now left.
  - destruct IH as [H|H]; [now left|right; now right].
Qed.

Lemma cells_in p i j : (i < nr p)%nat -> (j < nc p)%nat -> In (px p i j) (cells p).
Proof.
  intros Hi Hj. unfold cells. apply in_map_iff. exists (i, j). split; [reflexivity|].
  apply in_prod; apply in_seq; lia.
Qed.

Lemma in_cells p x : In x (cells p) -> exists i j, (i < nr p)%nat /\ (j < nc p)%nat /\ x = px p i j.
Proof.
  intros H. apply in_map_iff in H. destruct H as ((i & j) & <- & H). apply in_prod_iff in H.
  destruct H as [Hi Hj]. apply in_seq in Hi. apply in_seq in Hj. exists i, j. cbn. split; [lia|]. split; [lia|reflexivity].
Qed.

(** Where the fit of a stamp starts. *)
Lemma C85_start_lm : forall fitter arr, (0 < nr arr)%nat -> (0 < nc arr)%nat ->
  exists lo hi,
    (exists i j, (i < nr arr)%nat /\ (j < nc arr)%nat /\ px arr i j = lo) /\
    (exists i j, (i < nr arr)%nat /\ (j < nc arr)%nat /\ px arr i j = hi) /\
    (forall i j, (i < nr arr)%nat -> (j < nc arr)%nat -> lo <= px arr i j <= hi) /\
    fit_gaussian2d fitter arr =
    Ok (fitter {| g_x := INR (nc arr) / 2; g_y := INR (nr arr) / 2; g_xw := 1; g_yw := 1; g_th := PI / 4;
                  g_am := hi - lo; g_back := lo |} arr).
Proof.
  intros fitter arr Hr Hc. unfold fit_gaussian2d. pose proof (cells_in arr 0 0 Hr Hc) as I0.
  destruct (cells arr) as [|x t] eqn:E; [destruct I0|].
  exists (fold_right Rmin x t), (fold_right Rmax x t).
  split; [pose proof (fold_min_in x t) as H; rewrite <- E in H; apply in_cells in H; destruct H as (i & j & ? & ? & ?); eauto|].
  split; [pose proof (fold_max_in x t) as H; rewrite <- E in H; apply in_cells in H; destruct H as (i & j & ? & ? & ?); eauto|].
  split; [|reflexivity]. intros i j Hi Hj. pose proof (cells_in arr i j Hi Hj) as H. rewrite E in H.
  split; [now apply fold_min_le|now apply fold_max_ge].
Qed.

Lemma C85_empty_lm : forall fitter arr, (nr arr = 0 \/ nc arr = 0)%nat -> fit_gaussian2d fitter arr = Raise ValueError.
Proof.
  intros fitter arr H. unfold fit_gaussian2d. destruct (cells arr) as [|x t] eqn:E; [reflexivity|].
  assert (X : In x (cells arr)) by (rewrite E; now left). apply in_cells in X. destruct X as (i & j & ? & ? & _). lia.
Qed.

Lemma fit_all_ok fitter l gs : Forall2 (fun p g => fit_gaussian2d fitter p = Ok g) l gs -> fit_all fitter l = Ok gs.
Proof. intros H. induction H as [|p g l gs H0 H IH]; [reflexivity|]. cbn. rewrite H0. cbn. now rewrite IH. Qed.

(** The answer, whatever loss and shape are asked for; no attribute but those of n_sources
    moves. *)
Lemma C61_answer_lm : forall NI FT IM (L : lib NI FT IM) fitter stats render l sh s n s1 stamps fits,
  n_sources L s = (Ok n, s1) -> db s1 = Some stamps -> length fits = n -> (n <= length stamps)%nat ->
  Forall2 (fun stamp g => fit_gaussian2d fitter stamp = Ok g) (firstn n stamps) fits ->
  gauss_psf L fitter stats render l sh s =
  (Ok (NoField, [render (fst (fst (stats (map xw fits)))) (fst (fst (stats (map yw fits))))
                        (fst (fst (stats (map th fits)))) 1]), s1).
Proof.
  intros NI FT IM L fitter stats render l sh s n s1 stamps fits Hn Hs Hl Hd Hf. unfold gauss_psf. rewrite Hn.
  unfold no_file, stored. rewrite Hs. rewrite (fit_all_ok fitter _ _ Hf). rewrite (proj2 (Nat.ltb_ge _ _) Hd). reflexivity.
Qed.

(** Whatever else happened, the loss and the shape have no influence, and asking again gives
    the same. *)
Lemma n_again NI FT IM (L : lib NI FT IM) s n s1 : n_sources L s = (Ok n, s1) -> n_sources L s1 = (Ok n, s1).
Proof.
  unfold n_sources. destruct (nsrc s) as [m|] eqn:N.
  - intros H. injection H as -> <-. now rewrite N.
  - intros H. apply mbind_ok in H. destruct H as (p & s2 & _ & H). unfold mbind, get in H.
    destruct (nsrc s2) as [m|] eqn:N2; [|discriminate]. injection H as -> <-. now rewrite N2.
Qed.

Lemma C61_ignored_lm : forall NI FT IM (L : lib NI FT IM) fitter stats render l sh l' sh' s r s1,
  gauss_psf L fitter stats render l sh s = (Ok r, s1) ->
  gauss_psf L fitter stats render l' sh' s = (Ok r, s1) /\
  gauss_psf L fitter stats render l' sh' s1 = (Ok r, s1) /\
  (forall x, fst (gauss_psf L fitter stats render l' sh' (set_inf_loss x s1)) = Ok r).
Proof.
  intros NI FT IM L fitter stats render l sh l' sh' s r s1 H. split; [exact H|].
  unfold gauss_psf in *. destruct (n_sources L s) as [[n|e] s2] eqn:Hn; [|discriminate].
  assert (s2 = s1) by congruence. subst s2. pose proof (n_again _ _ _ _ _ _ _ Hn) as Hn1.
  split; [rewrite Hn1; congruence|].
  assert (N : nsrc s1 = Some n).
  { unfold n_sources in Hn. destruct (nsrc s) as [m|] eqn:N.
    - congruence.
    - apply mbind_ok in Hn. destruct Hn as (p & s2 & _ & Hn). unfold mbind, get in Hn.
      destruct (nsrc s2) as [m|] eqn:N2; [|discriminate]. unfold ret in Hn. congruence. }
  intros x. assert (Hn2 : n_sources L (set_inf_loss x s1) = (Ok n, set_inf_loss x s1)).
  { unfold n_sources. cbn [nsrc set_inf_loss]. now rewrite N. }
  rewrite Hn2. unfold no_file, stored in *. cbn [db set_inf_loss fst]. congruence.
Qed.

(** The width is not the median. *)
Definition mean_of (l : list R) : R := fold_right Rplus 0 l / INR (length l).
Definition three_stamps : list (plane R) := [pconst (1, 1)%nat 1; pconst (1, 1)%nat 1; pconst (1, 1)%nat 4].
Definition three : lib nat nat nat := {|
  select := Ok []; extract := fun _ _ => (three_stamps, Ok ([(0, 0); (0, 0); (0, 0)], []));
  eigh := fun n _ => (repeat 0 n, fun _ _ => 0); smooth := None; fit := fun _ _ _ _ => 0;
  normal_of := fun _ _ => 0%nat; shat_of := fun _ _ _ _ => 0%nat; ifft_real := fun h => h |}.

Lemma C61_median_refuted_lm : exists NI FT IM (L : lib NI FT IM) fitter stats render s fits answer,
  Forall2 (fun stamp g => fit_gaussian2d fitter stamp = Ok g) (fst (extract L (stamp_shape s) [])) fits /\
  length fits = 3%nat /\
  (forall l, stats l = (mean_of l, Stamps.median l, 0)) /\
  (forall a b c d, render a b c d = pconst (1, 1)%nat (Some a)) /\
  fst (gauss_psf L fitter stats render None None s) = Ok (NoField, [answer]) /\
  answer <> render (Stamps.median (map xw fits)) 1 1 1.
Proof.
  pose (fitter := fun (_ : start) (p : plane R) => mkgauss (px p 0 0) 1 1 1).
  pose (stats := fun l => (mean_of l, Stamps.median l, 0)).
  pose (render := fun a b c d : R => pconst (1, 1)%nat (Some a)).
  exists nat, nat, nat, three, fitter, stats, render, (fresh _ _ _ (1, 1)%nat None),
    [mkgauss 1 1 1 1; mkgauss 1 1 1 1; mkgauss 4 1 1 1], (render (mean_of [1; 1; 4]) 1 1 1).
  split; [repeat constructor|]. split; [reflexivity|]. split; [reflexivity|]. split; [reflexivity|].
  split; [reflexivity|].
  intros H. apply (f_equal (fun p => px p 0 0)) in H. cbn [render pconst px] in H. injection H as H.
  unfold mean_of in H. cbn [fold_right length map xw] in H. unfold Stamps.median in H. cbn in H.
  repeat (match type of H with context [Rle_dec ?a ?b] => destruct (Rle_dec a b); [|lra] end; cbn in H).
  lra.
Qed.
