(** C61, C64, C85: the Gaussian PSF, the fit of a stamp, and the settings of an image. *)
From Coq Require Import ZArith List Bool Arith Reals Lia Lra.
From Verif.Model Require Import Py Plane Sources KL Session Knobs Gauss Stamps.
From Verif.Spec Require Import KL Session.
From Verif.Proof Require Import Session SessionLm Knobs GaussMain.
Import ListNotations.
Local Open Scope R_scope.

(** The answer, whatever loss and shape are asked for; no attribute but those of n_sources
    moves. *)
Theorem C61_answer : forall NI FT IM (L : lib NI FT IM) fitter stats render l sh s n s1 stamps fits,
  n_sources L s = (Ok n, s1) -> db s1 = Some stamps -> length fits = n -> (n <= length stamps)%nat ->
  Forall2 (fun stamp g => fit_gaussian2d fitter stamp = Ok g) (firstn n stamps) fits ->
  gauss_psf L fitter stats render l sh s =
  (Ok (NoField, [render (fst (fst (stats (map xw fits)))) (fst (fst (stats (map yw fits))))
                        (fst (fst (stats (map th fits)))) 1]), s1).
Proof. exact C61_answer_lm. Qed.
Print Assumptions C61_answer.

Theorem C61_ignored : forall NI FT IM (L : lib NI FT IM) fitter stats render l sh l' sh' s r s1,
  gauss_psf L fitter stats render l sh s = (Ok r, s1) ->
  gauss_psf L fitter stats render l' sh' s = (Ok r, s1) /\
  gauss_psf L fitter stats render l' sh' s1 = (Ok r, s1) /\
  (forall x, fst (gauss_psf L fitter stats render l' sh' (set_inf_loss x s1)) = Ok r).
Proof. exact C61_ignored_lm. Qed.
Print Assumptions C61_ignored.

(** Three stamps, each fitted by a Gaussian as wide as its first pixel. *)
Example C61_case :
  let fitter := fun (_ : start) (p : plane R) => mkgauss (px p 0%nat 0%nat) 1 1 1 in
  let s1 := snd (n_sources three (fresh _ _ _ (1, 1)%nat None)) in
  n_sources three (fresh _ _ _ (1, 1)%nat None) = (Ok 3%nat, s1) /\ db s1 = Some three_stamps /\
  Forall2 (fun stamp g => fit_gaussian2d fitter stamp = Ok g) (firstn 3 three_stamps)
    [mkgauss 1 1 1 1; mkgauss 1 1 1 1; mkgauss 4 1 1 1].
Proof. cbn zeta. split; [reflexivity|]. split; [reflexivity|]. repeat constructor. Qed.

Theorem C61_median_refuted : exists NI FT IM (L : lib NI FT IM) fitter stats render s fits answer,
  Forall2 (fun stamp g => fit_gaussian2d fitter stamp = Ok g) (fst (extract L (stamp_shape s) [])) fits /\
  length fits = 3%nat /\
  (forall l, stats l = (mean_of l, Stamps.median l, 0)) /\
  (forall a b c d, render a b c d = pconst (1, 1)%nat (Some a)) /\
  fst (gauss_psf L fitter stats render None None s) = Ok (NoField, [answer]) /\
  answer <> render (Stamps.median (map xw fits)) 1 1 1.
Proof. exact C61_median_refuted_lm. Qed.
Print Assumptions C61_median_refuted.

(** Values never assigned. *)
Theorem C64_defaults : forall V (twenty sixteen one : V) min mask l,
  let k := turn_all V sixteen l (build V sixteen one min mask) in
  ((forall v, ~ In (KMin V v) l) -> min_sources V twenty k = Some (match min with Some x => x | None => twenty end)) /\
  ((forall v, ~ In (KMask V v) l) -> maskthresh V sixteen k = Some (match mask with Some x => x | None => sixteen end)) /\
  ((forall v, ~ In (KZp V v) l) -> zp V one k = Some one).
Proof. exact C64_defaults_lm. Qed.
Print Assumptions C64_defaults.

(** Values assigned: the last one counts; None is kept as it is, except for the mask
    threshold, where it stands for 16. *)
Theorem C64_assigned : forall V (twenty sixteen one : V) k l1 l2 v,
  ((forall w, ~ In (KMin V w) l2) -> min_sources V twenty (turn_all V sixteen (l1 ++ KMin V v :: l2) k) = v) /\
  ((forall w, ~ In (KMask V w) l2) ->
     maskthresh V sixteen (turn_all V sixteen (l1 ++ KMask V v :: l2) k) = match v with Some x => Some x | None => Some sixteen end) /\
  ((forall w, ~ In (KZp V w) l2) -> zp V one (turn_all V sixteen (l1 ++ KZp V v :: l2) k) = v).
Proof. exact C64_assigned_lm. Qed.
Print Assumptions C64_assigned.

Example C64_case :
  min_sources nat 20%nat (turn_all nat 16%nat [KMin nat (Some 5%nat); KMask nat None; KMin nat None] (build nat 16%nat 1%nat None (Some 3%nat))) = None /\
  maskthresh nat 16%nat (turn_all nat 16%nat [KMask nat None] (build nat 16%nat 1%nat None (Some 3%nat))) = Some 16%nat.
Proof. split; reflexivity. Qed.

(** Where the fit of a stamp starts. *)
Theorem C85_start : forall fitter arr, (0 < nr arr)%nat -> (0 < nc arr)%nat ->
  exists lo hi,
    (exists i j, (i < nr arr)%nat /\ (j < nc arr)%nat /\ px arr i j = lo) /\
    (exists i j, (i < nr arr)%nat /\ (j < nc arr)%nat /\ px arr i j = hi) /\
    (forall i j, (i < nr arr)%nat -> (j < nc arr)%nat -> lo <= px arr i j <= hi) /\
    fit_gaussian2d fitter arr =
    Ok (fitter {| g_x := INR (nc arr) / 2; g_y := INR (nr arr) / 2; g_xw := 1; g_yw := 1; g_th := PI / 4;
                  g_am := hi - lo; g_back := lo |} arr).
Proof. exact C85_start_lm. Qed.
Print Assumptions C85_start.

Theorem C85_empty : forall fitter arr, (nr arr = 0 \/ nc arr = 0)%nat -> fit_gaussian2d fitter arr = Raise ValueError.
Proof. exact C85_empty_lm. Qed.
Print Assumptions C85_empty.

Example C85_case : exists g, fit_gaussian2d (fun s _ => mkgauss (g_x s) (g_y s) (g_am s) (g_back s))
  (mkplane 1 2 (fun _ j => if Nat.eqb j 0 then 3 else 5)) = Ok g /\ xw g = 1 /\ yw g = 1 / 2 /\ th g = 2 /\ am g = 3.
Proof.
  eexists. split; [reflexivity|]. cbn.
  rewrite Rmax_left, Rmin_right by lra. repeat split; lra.
Qed.
