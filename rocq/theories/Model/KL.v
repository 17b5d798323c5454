(** Model of the Karhunen-Loeve PSF: [cov_matrix], [eigenv], [_setup_kl_basis]
    (properimage/single_image.py 970-1087) and [get_psf_xy] (1416-1438).

    Exact real numbers; the stamps are finite (see the property about stored stamps for the
    cases in which they are not). [None] in a cell of a result stands for nan or inf. *)
From Coq Require Import ZArith List Bool Arith Reals.
From Flocq Require Import Core.Raux Core.Round_NE Core.Generic_fmt.
From Verif.Model Require Import Py Plane.
Import ListNotations.
Local Open Scope R_scope.

(** [f 0 + ... + f (n-1)] *)
Fixpoint sumn (n : nat) (f : nat -> R) : R :=
  match n with O => 0 | S n' => sumn n' f + f n' end.

(** [a.flatten()[k]] *)
Definition flat {A} (p : plane A) (k : nat) : A := px p (k / nc p) (k mod nc p).

(** [v.reshape(sh)] *)
Definition reshape {A} (sh : nat * nat) (v : nat -> A) : plane A :=
  mkplane (fst sh) (snd sh) (fun i j => v (i * snd sh + j)%nat).

(** The matrix whose columns are the flattened stamps (single_image.py:982-987). *)
Definition columns (stamps : list (plane R)) (p j : nat) : R :=
  flat (nth j stamps (pconst (0, 0)%nat 0)) p.

(** [np.cov(m, rowvar=False)], columns as variables, rows as [P] observations. *)
Definition np_cov (P : nat) (m : nat -> nat -> R) (i j : nat) : R :=
  let mean k := sumn P (fun p => m p k) / INR P in
  sumn P (fun p => (m p i - mean i) * (m p j - mean j)) / INR (P - 1).

(** single_image.py:990-1005: the pair (i, j) with i <= j gives both cells. *)
Definition gram (P : nat) (m : nat -> nat -> R) (i j : nat) : R :=
  sumn P (fun p => m p (Nat.min i j) * m p (Nat.max i j)).

(** single_image.py:971-1007 [cov_matrix]. Stamps of another shape do not fit the columns, or
    the inner product: ValueError. *)
Definition cov_matrix (sh : nat * nat) (stamps : list (plane R)) : res (nat -> nat -> R) :=
  if negb (forallb (fun p => Nat.eqb (nr p) (fst sh) && Nat.eqb (nc p) (snd sh)) stamps)
  then Raise ValueError
  else
    let P := (fst sh * snd sh)%nat in
    let m := columns stamps in
    Ok (if Nat.leb (length stamps) 250 then np_cov P m else gram P m).

(** single_image.py:1010-1019 [eigenv]. [eigh] is numpy.linalg.eigh: the eigenvalues in
    ascending order and the matrix of eigenvectors (columns). With one stamp np.cov gives a
    0-dimensional array, eigh raises LinAlgError, and that becomes ValueError. *)
Definition eigenv (eigh : nat -> (nat -> nat -> R) -> list R * (nat -> nat -> R))
  (sh : nat * nat) (stamps : list (plane R)) : res (list R * (nat -> nat -> R)) :=
  bind (cov_matrix sh stamps) (fun c =>
  if Nat.eqb (length stamps) 1 then Raise ValueError else Ok (eigh (length stamps) c)).

(** single_image.py:1042-1047: the loop over the relative powers, largest eigenvalue first. *)
Fixpoint cut_loop (inf_loss pw : R) (cut : nat) (elems : list R) : nat :=
  match elems with
  | [] => cut
  | e :: t =>
      let pw' := pw - e in
      if Rlt_dec inf_loss pw' then cut_loop inf_loss pw' (S cut) t else cut
  end.

Definition sum_abs (l : list R) : R := fold_right (fun x s => Rabs x + s) 0 l.

(** single_image.py:1038-1047. With a zero spectrum the powers are nan and the loop stops at
    once. *)
Definition kl_cut (inf_loss : R) (valh : list R) : nat :=
  let tot := sum_abs valh in
  if Req_EM_T tot 0 then 1%nat
  else cut_loop inf_loss 1 1 (map (fun v => Rabs v / tot) (rev valh)).

(** Sum of the cells; [None] when one of them is not finite. *)
Definition total_opt (p : plane (option R)) : option R :=
  fold_right (fun c s => match px p (fst c) (snd c), s with
                         | Some x, Some t => Some (x + t)
                         | _, _ => None
                         end) (Some 0) (list_prod (seq 0 (nr p)) (seq 0 (nc p))).

(** [a / np.sum(a)] *)
Definition unit_total (p : plane (option R)) : plane (option R) :=
  match total_opt p with
  | Some t => if Req_EM_T t 0 then pmap (fun _ => None) p
              else pmap (option_map (fun x => x / t)) p
  | None => pmap (fun _ => None) p
  end.

(** [a - np.abs(np.min(a))] *)
Definition lower (p : plane (option R)) : plane (option R) :=
  match total_opt p with
  | None => pmap (fun _ => None) p
  | Some _ =>
      let vals := map (fun c => match px p (fst c) (snd c) with Some x => x | None => 0 end)
                    (list_prod (seq 0 (nr p)) (seq 0 (nc p))) in
      let mn := match vals with [] => 0 | x :: t => fold_right Rmin x t end in
      pmap (option_map (fun x => x - Rabs mn)) p
  end.

(** Column [k] of [m . vech] (single_image.py:1057-1062; 1064-1068). *)
Definition combination (n : nat) (stamps : list (plane R)) (vech : nat -> nat -> R) (k p : nat) : R :=
  sumn n (fun j => columns stamps p j * vech j k).

(** single_image.py:1028-1087 [_setup_kl_basis], from the stamps. [smooth] is
    skimage's gaussian filter when smooth_psf was given. *)
Definition kl_basis (eigh : nat -> (nat -> nat -> R) -> list R * (nat -> nat -> R))
  (smooth : option (plane (option R) -> plane (option R)))
  (sh : nat * nat) (stamps : list (plane R)) (inf_loss : R) : res (list (plane (option R))) :=
  bind (eigenv eigh sh stamps) (fun '(valh, vech) =>
  let n := length stamps in
  let cut := kl_cut inf_loss valh in
  let lo := (n - cut)%nat in
  bind (if Nat.leb n 250 then
          Ok (map (fun i => reshape sh (fun p => Some (combination n stamps vech (lo + i) p)))
                  (seq 0 (n - lo)))
        else if Nat.ltb n cut then Raise IndexError
        else
          Ok (map (fun i =>
                 unit_total (lower (unit_total
                   (reshape sh (fun p => Some (combination n stamps vech (lo + i) p))))))
                 (seq 0 cut)))
    (fun psf_basis =>
  let psf_basis := rev psf_basis in
  let psf_basis := match smooth with
                   | Some g => map (fun p => unit_total (g p)) psf_basis
                   | None => psf_basis
                   end in
  Ok (match psf_basis with [p] => [unit_total p] | l => l end))).

(** single_image.py:1125-1128: the values the k-th coefficient field is fitted to, one for
    each stamp. *)
Definition measures (n : nat) (vech : nat -> nat -> R) (k j : nat) : R :=
  vech j (n - 1 - k)%nat.

(** [np.mgrid[a:b, c:d]] fed to a coefficient field. *)
Definition field_on (f : R -> R -> R) (a b c d : Z) : plane R :=
  mkplane (Z.to_nat (b - a)) (Z.to_nat (d - c))
    (fun i j => f (IZR (a + Z.of_nat i)) (IZR (c + Z.of_nat j))).

(** [img[a:b, c:d]] *)
Definition slice2 {A} (img : plane A) (a b c d : Z) : plane A :=
  let r0 := slice_bound (Z.of_nat (nr img)) a in
  let r1 := slice_bound (Z.of_nat (nr img)) b in
  let c0 := slice_bound (Z.of_nat (nc img)) c in
  let c1 := slice_bound (Z.of_nat (nc img)) d in
  mkplane (Z.to_nat (r1 - r0)) (Z.to_nat (c1 - c0))
    (fun i j => px img (Z.to_nat r0 + i) (Z.to_nat c0 + j)).

(** single_image.py:1428-1433: one turn of the loop. Cells where the normalisation image is
    zero would be nan; here they hold Coq's quotient. *)
Definition add_component (normal : plane R) (xmin xmax ymin ymax : Z)
  (acc : res (plane R)) (t : plane R * (R -> R -> R)) : res (plane R) :=
  bind acc (fun acc =>
  bind (ufunc2 Rmult (fst t) (field_on (snd t) xmin xmax ymin ymax)) (fun prod =>
  bind (ufunc2 Rdiv prod (slice2 normal xmin xmax ymin ymax)) (fun quot =>
  add_out Rplus quot acc))).

(** single_image.py:1416-1438 [get_psf_xy]. The fields are [None] when there is a single
    basis element. *)
Definition get_psf_xy (basis : list (plane R)) (fields : option (list (R -> R -> R)))
  (normal : plane R) (x y : R) : res (plane (option R)) :=
  match basis with
  | [] => Raise IndexError
  | b0 :: _ =>
      match fields with
      | None => Ok (pmap Some b0)
      | Some fs =>
          let delta := Z.quot (Z.of_nat (nr b0) - 1) 2 in
          let xp := ZnearestE x in
          let yp := ZnearestE y in
          bind (fold_left (add_component normal (xp - delta) (xp + delta + 1) (yp - delta) (yp + delta + 1))
                  (combine basis fs) (Ok (pconst (shape b0) 0)))
            (fun psf => Ok (unit_total (pmap Some psf)))
      end
  end.
