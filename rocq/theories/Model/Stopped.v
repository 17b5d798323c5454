(** Model of a subtraction or a coadd of two images that stopped before its end, because a later
    step raised or because it was interrupted between two steps (operations.py 56-426 and
    457-577, utils.py 141-243). *)
From Coq Require Import ZArith List Bool Arith Reals.
From Coquelicot Require Import Complex.
From Verif.Model Require Import Py Plane Ma Interp Coadd Subtract Filter Sources Stamps KL Session Transparency Chain ChainCoadd Again SubAgain.
Import ListNotations.
Local Open Scope R_scope.

(** One of the two images when the operation [k] stopped, where [c] is the catalogue that
    transparency makes for it and [z] its zero point. The steps are numbered:
    - 0: nothing was asked yet;
    - 1: transparency has read best_sources (utils.py:167, 182);
    - 2: transparency has stored the matched catalogue (utils.py:199, 224);
    - 3: the zero point was stored (operations.py:151-152 and 507);
    - 4: [get_variable_psf(inf_loss)] (operations.py:156-157) or [_setup_kl_a_fields(inf_loss)]
      (operations.py:508) has returned;
    - 5, 6, 7: a worker of the coadd has read s_hat_comp, then the PSF, then its coefficients
      for psf_hat_sqnorm() (operations.py:447-450, 558-561).
    What a step that raises leaves in its own image is not modelled. *)
Definition partway (k : task) (n : nat) (c : cat) (z : R) (h : held) : res held :=
  let x := h_img h in
  match n with
  | 0 => Ok h
  | 1 => Ok (mkheld (with_attr (exec _ _ _ (bu_lib x) CBestSources (bu_attr x)) x) (h_cat h))
  | 2 => Ok (mkheld (with_best (map src_of (rows c)) x) (Some c))
  | 3 => Ok (mkheld (given_zp c z x) (Some c))
  | S (S (S (S m))) =>
      match k with
      | Sub l _ _ _ => bind (first_element l (given_zp c z x)) (fun _ => Ok (keeping (asked l (given_zp c z x)) c))
      | Add _ _ l _ =>
          let rs := setup_kl_a_fields _ _ _ (bu_lib x) (Some l) false (bu_attr (given_zp c z x)) in
          bind (fst rs) (fun _ => bind (coadd_seen (with_attr (snd rs) x)) (fun _ =>
          Ok (keeping (with_attr (exec_all _ _ _ (bu_lib x) (firstn m [CSHat; CBasis; CAfields]) (snd rs)) x) c)))
      end
  end%nat.

Section Stopped.
Variable W : libs.

(** The two images when the operation [k] stopped after step [i] for the reference and step [j]
    for the new image. In a run the images take turns; workers of a coadd may be anywhere in
    steps 4 to 7. *)
Definition stopped (k : task) (i j : nat) (p : held * held) : res (held * held) :=
  bind (catalogue_of (fst p)) (fun cr =>
  bind (catalogue_of (snd p)) (fun cn =>
  bind (transparency (l_query W) (l_sort W) (l_lsqr W) [cr; cn] None) (fun t =>
  let kn := match cats t with c :: _ => c | [] => cn end in
  bind (partway k i (mcat t) (nth 0 (zps t) 0) (fst p)) (fun a =>
  bind (partway k j kn (nth 1 (zps t) 0) (snd p)) (fun b => Ok (a, b)))))).

(** Several such operations on the same two images. *)
Fixpoint attempts (ks : list (task * nat * nat)) (p : held * held) : res (held * held) :=
  match ks with
  | [] => Ok p
  | (k, i, j) :: ks' => bind (stopped k i j p) (attempts ks')
  end.
End Stopped.
