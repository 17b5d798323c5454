(** Model of the arithmetic of [normal_image] and of [get_afield_domain]
    (properimage/single_image.py 1096-1099, 1193-1212).

    Exact real numbers, PSF elements without nan. *)
From Coq Require Import ZArith List Bool Arith Reals.
From Verif.Model Require Import Py Plane KL.
Import ListNotations.
Local Open Scope R_scope.

(** Index in an axis of length [n] of the cell at [z] when the axis is continued by mirroring
    at its ends, "(d c b a | a b c d | d c b a)". *)
Definition reflect (n : nat) (z : Z) : nat :=
  let r := (z mod (2 * Z.of_nat n))%Z in
  Z.to_nat (if (r <? Z.of_nat n)%Z then r else (2 * Z.of_nat n - 1 - r)%Z).

(** Row (or column) of the input that the row [u] of a kernel of [n] rows meets at the row [i]
    of the output. *)
Definition meets (i n u : nat) : Z := (Z.of_nat i + Z.of_nat (n / 2) - Z.of_nat u)%Z.

(** [scipy.ndimage.convolve(a, w)]: mode "reflect", the kernel centred at half its shape. *)
Definition convolve_scp (a w : plane R) : plane R :=
  mkplane (nr a) (nc a) (fun i j =>
    sumn (nr w) (fun u => sumn (nc w) (fun v =>
      px w u v * px a (reflect (nr a) (meets i (nr w) u)) (reflect (nc a) (meets j (nc w) v))))).

(** A cell of [a], 0 outside its shape. *)
Definition or_zero (a : plane R) (y z : Z) : R :=
  if ((0 <=? y) && (y <? Z.of_nat (nr a)) && (0 <=? z) && (z <? Z.of_nat (nc a)))%Z
  then px a (Z.to_nat y) (Z.to_nat z) else 0.

Definition total_of (w : plane R) : R := sumn (nr w) (fun u => sumn (nc w) (fun v => px w u v)).

(** astropy's normalization_zero_tol *)
Definition zero_tol : R := / 100000000.

(** [astropy.convolution.convolve_fft(a, w)] of an array without nan: boundary="fill" with 0,
    normalize_kernel=True, ValueError when the kernel adds up to about 0. *)
Definition convolve_fft (a w : plane R) : res (plane R) :=
  if Rle_dec (Rabs (total_of w)) zero_tol then Raise ValueError
  else Ok (mkplane (nr a) (nc a) (fun i j =>
    sumn (nr w) (fun u => sumn (nc w) (fun v =>
      px w u v / total_of w * or_zero a (meets i (nr w) u) (meets j (nc w) v))))).

(** single_image.py:1096-1099: the rows and the columns of the cells. *)
Definition get_afield_domain (sh : nat * nat) : plane R * plane R :=
  (mkplane (fst sh) (snd sh) (fun i _ => INR i), mkplane (fst sh) (snd sh) (fun _ j => INR j)).

(** [a(x, y)] of a fitted model. *)
Definition on_domain (a : R -> R -> R) (xy : plane R * plane R) : plane R := pmap2 a (fst xy) (snd xy).

(** single_image.py:1193-1212 for an image of shape [sh]; [fields] is [None] for a_fields =
    [None]. *)
Definition normal_image (sh : nat * nat) (fields : option (list (R -> R -> R)))
  (basis : list (plane R)) : res (plane R) :=
  match fields with
  | None =>
      match basis with
      | [] => Raise IndexError
      | p :: _ => convolve_fft (pconst sh 1) p
      end
  | Some fs =>
      let xy := get_afield_domain sh in
      Ok (fold_left (fun conv ap => pmap2 Rplus conv (convolve_scp (on_domain (fst ap) xy) (snd ap)))
            (combine fs basis) (pconst sh 0))
  end.
