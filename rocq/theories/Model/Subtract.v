(** Model of [subtract] (/repo/properimage/operations.py:56-426).

    Exact arithmetic; see [Plane] for arrays and transforms. Cells that numpy would fill by
    dividing by zero are marked where the theorems need it (S_corr); elsewhere the
    theorems carry the hypotheses under which nothing is divided by zero. *)
From Coq Require Import Arith ZArith List Bool Reals.
From Flocq Require Import Core.
From Coquelicot Require Import Complex.
From Verif.Model Require Import Py Plane Ma.
Import ListNotations.
Local Open Scope R_scope.

(** The part of an image that subtract looks at.
    - [d_shape] data.data.shape; [d_data] the cells of data.filled(0); [d_mask] data.mask
    - [d_interped] the cells of interped (single_image.py:1313-1375), same shape as data
    - [d_var] single_image.py:1253-1256
    - [d_stamp] get_variable_psf(inf_loss)[1][0], a stamp (used when fitted_psf is False)
    - [d_render] cells of the Gaussian model rendered in the frame (when it is True),
      after the assignments of x_mean, y_mean and bounding_box of lines 159-170 *)
Record dimg : Type := mkdimg {
  d_shape : nat * nat;
  d_data : nat -> nat -> R;
  d_mask : mask;
  d_interped : nat -> nat -> R;
  d_var : R;
  d_stamp : plane R;
  d_render : nat -> nat -> R }.

Definition frame {A} (sh : nat * nat) (f : nat -> nat -> A) : plane A := mkplane (fst sh) (snd sh) f.

(** operations.py:52 *)
Definition eps : R := / 2 ^ 52.

(** operations.py:187-188: psf_hat[psf_hat.real == 0] = eps *)
Definition no_zero (z : C) : C := if Req_EM_T (fst z) 0 then RtoC eps else z.

(** operations.py:184-188: the transform of a PSF padded to the frame. *)
Definition psf_hat (sh : nat * nat) (p : plane R) : plane C :=
  pmap no_zero (fft2_ortho (pad_to sh (pmap RtoC p))).

(** Sum of [f 0 .. f (n-1)], and [np.sum] of a real array. *)
Fixpoint rsum (n : nat) (f : nat -> R) : R :=
  match n with O => 0 | S n' => rsum n' f + f n' end.
Definition psumR (p : plane R) : R := rsum (nr p) (fun i => rsum (nc p) (fun j => px p i j)).

(** scipy.ndimage.center_of_mass *)
Definition center_of_mass (p : plane R) : R * R :=
  (psumR (mkplane (nr p) (nc p) (fun i j => px p i j * INR i)) / psumR p,
   psumR (mkplane (nr p) (nc p) (fun i j => px p i j * INR j)) / psumR p).

(** What is computed before the flux ratio is chosen (lines 140-203). *)
Record ctx : Type := mkctx {
  c_shape : nat * nat;
  c_pr : plane C;       (* psf_ref_hat *)
  c_pn : plane C;       (* psf_new_hat *)
  c_dr : plane C;       (* D_hat_r *)
  c_dn : plane C;       (* D_hat_n *)
  c_na : plane C;       (* norm_a *)
  c_nb : plane C;       (* norm_b *)
  c_gamma : plane R;
  c_rvar : R;
  c_nvar : R;
  c_ratio : R;          (* n_zp / r_zp *)
  c_nzp : R;
  c_mask : mask;
  c_rdata : plane R;    (* ref.data.filled(0) *)
  c_ndata : plane R }.

(** operations.py:151-203. [back] is sep.Background(x).back(). *)
Definition prepare (back : plane R -> plane R) (fitted : bool) (ref new : dimg) (mix : mask)
  (r_zp n_zp : R) : res ctx :=
  let sh := d_shape ref in
  let p_r := if fitted then frame sh (d_render ref) else d_stamp ref in
  let p_n := if fitted then frame (d_shape new) (d_render new) else d_stamp new in
  let '(dx_ref, dy_ref) := center_of_mass p_r in
  let '(dx_new, dy_new) := center_of_mass p_n in
  if negb fitted && (if Rlt_dec dx_new 0 then true else if Rlt_dec dy_new 0 then true else false)
  then Raise ValueError
  else
    let hr := psf_hat sh p_r in
    let hn := psf_hat (d_shape new) p_n in
    let ihat x := fft2_ortho (frame (d_shape x) (fun i j => RtoC (d_interped x i j))) in
    let dr := fourier_shift (pmap2 Cmult hn (ihat ref)) (- dx_new) (- dy_new) in
    let dn := fourier_shift (pmap2 Cmult hr (ihat new)) (- dx_ref) (- dy_ref) in
    let nb := pmap (fun z => (RtoC (d_var ref ^ 2) * z * Cconj z)%C) hn in
    let na := pmap (fun z => (RtoC (d_var new ^ 2) * z * Cconj z)%C) hr in
    let bk x := back (frame (d_shape x) (d_interped x)) in
    Ok (mkctx sh hr hn dr dn na nb (pmap2 Rminus (bk new) (bk ref)) (d_var ref) (d_var new)
          (n_zp / r_zp) n_zp mix (frame sh (d_data ref)) (frame (d_shape new) (d_data new))).

(** ** Objective functions of the fits *)

(** norm_a + norm_b * b**2 *)
Definition norm2 (c : ctx) (b : R) : plane C :=
  pmap2 (fun x y => (x + y * RtoC (b ^ 2))%C) (c_na c) (c_nb c).

Definition gammap (c : ctx) (b : R) : plane R :=
  pmap (fun g => g / sqrt (c_nvar c ^ 2 + b ^ 2 * c_rvar c ^ 2)) (c_gamma c).

(** x / np.sqrt(norm_a + norm_b * b**2) *)
Definition over_norm (c : ctx) (b : R) (x : plane C) : plane C :=
  pmap2 (fun z n => (z / csqrt n)%C) x (norm2 c b).

(** np.roll(p, (s1, s2)) without axis: numpy rolls the flattened array, by s1 + s2. *)
Definition roll_flat (p : plane R) (s : Z) : plane R :=
  mkplane (nr p) (nc p) (fun i j =>
    let k := Z.to_nat ((Z.of_nat (i * nc p + j) - s) mod Z.of_nat (nr p * nc p)) in
    px p (k / nc p)%nat (k mod nc p)%nat).

(** b_n.real of the cost functions with a shift: lines 210-219 and 308-318. Python's
    round is to the nearest integer, ties to even. *)
Definition residual_shift (c : ctx) (b dx dy : R) : plane R :=
  let x := ifft2_ortho (over_norm c b (c_dn c)) in
  let y := ifft2_ortho (fourier_shift (over_norm c b (c_dr c)) dx dy) in
  let g := roll_flat (gammap c b) (ZnearestE dx + ZnearestE dy) in
  frame (c_shape c) (fun i j => fst (px x i j - px y i j * RtoC b - RtoC (px g i j))%C).

(** b_n.real of the functions F without shift: lines 252-259 and 286-293. *)
Definition residual_beta (c : ctx) (b : R) : plane R :=
  let x := ifft2_ortho (over_norm c b (c_dn c)) in
  let y := ifft2_ortho (over_norm c b (c_dr c)) in
  frame (c_shape c) (fun i j => fst (px x i j - RtoC (px (gammap c b) i j) - RtoC b * px y i j)%C).

(** The cells of the slice [a:-a] of an axis of length [n] (OPT_BORDER, line 53). *)
Definition border_cells (a : Z) (n : nat) : list nat :=
  let lo := slice_bound (Z.of_nat n) a in
  let hi := slice_bound (Z.of_nat n) (- a) in
  seq (Z.to_nat lo) (Z.to_nat (hi - lo)).

Definition OPT_BORDER : Z := 100.

(** Sum of the unmasked values. *)
Definition sum_unmasked (m : mask) (f : nat -> nat -> R) (cells : list (nat * nat)) : R :=
  fold_right (fun ij s => (if masked_at m (fst ij) (snd ij) then 0 else f (fst ij) (snd ij)) + s) 0 cells.

Definition all_masked (m : mask) (cells : list (nat * nat)) : bool :=
  forallb (fun ij => masked_at m (fst ij) (snd ij)) cells.

(** Lines 220-222: the mean absolute value over the inner window. Dividing a masked array
    gives it a full mask, so the sum is numpy.ma.masked ([None]) when all the cells of the
    window are masked, in particular when there is none. *)
Definition window_cost (m : mask) (p : plane R) : option R :=
  let rows := border_cells OPT_BORDER (nr p) in
  let cols := border_cells OPT_BORDER (nc p) in
  let cells := list_prod rows cols in
  if all_masked m cells then None
  else Some (sum_unmasked m (fun i j => Rabs (px p i j / INR (length rows * length cols))) cells).

(** Lines 262-263 and 294-295: the sum over the whole frame. *)
Definition frame_cost (m : mask) (p : plane R) : option R :=
  let cells := list_prod (seq 0 (nr p)) (seq 0 (nc p)) in
  if match m with Nomask => false | Full _ => all_masked m cells end then None
  else Some (sum_unmasked m (fun i j => Rabs (px p i j)) cells).

(** ** The choice of the flux ratio and the shift *)

(** scipy's solvers. [lsq f x0 lo hi] gives success and x, or raises. *)
Record solvers : Type := mksolvers {
  lsq : (list R -> option R) -> list R -> list R -> list R -> res (bool * list R);
  bounded : (R -> option R) -> R -> R -> bool * R }.

Fixpoint in_bounds (x lo hi : list R) : bool :=
  match x, lo, hi with
  | a :: x', l :: lo', h :: hi' =>
      (if Rle_dec l a then true else false) && (if Rle_dec a h then true else false) && in_bounds x' lo' hi'
  | _, _, _ => true
  end.

(** scipy.optimize.least_squares: ValueError when x0 is outside the bounds. *)
Definition least_squares (s : solvers) (f : list R -> option R) (x0 lo hi : list R)
  : res (bool * list R) :=
  if in_bounds x0 lo hi then lsq s f x0 lo hi else Raise ValueError.

(** operations.py:204-359. Unpacking a result of another length is a ValueError. *)
Definition fit (s : solvers) (c : ctx) (beta shift iterative : bool) : res (R * R * R) :=
  let ratio := c_ratio c in
  if beta then
    if shift then
      let cost v := match v with
                    | [b; dx; dy] => window_cost (c_mask c) (residual_shift c b dx dy)
                    | _ => None end in
      bind (least_squares s cost [ratio; 0; 0] [1 / 10; - (9 / 10); - (9 / 10)] [10; 9 / 10; 9 / 10])
        (fun '(success, x) =>
           if success : bool then
             match x with [b; dx; dy] => Ok (b, dx, dy) | _ => Raise ValueError end
           else Ok (ratio, 0, 0))
    else if iterative then
      let '(success, x) := bounded s (fun b => frame_cost (c_mask c) (residual_beta c b)) (1 / 10) 10 in
      Ok (if success : bool then x else ratio, 0, 0)
    else
      let cost v := match v with [b] => frame_cost (c_mask c) (residual_beta c b) | _ => None end in
      bind (least_squares s cost [ratio] [1 / 10] [10])
        (fun '(success, x) =>
           if success : bool then match x with [b] => Ok (b, 0, 0) | _ => Raise ValueError end
           else Ok (ratio, 0, 0))
  else
    if shift then
      let cost v := match v with
                    | [dx; dy] => window_cost (c_mask c) (residual_shift c ratio dx dy)
                    | _ => None end in
      bind (least_squares s cost [0; 0] [- (9 / 10); - (9 / 10)] [9 / 10; 9 / 10])
        (fun '(success, x) =>
           if success : bool then match x with [dx; dy] => Ok (ratio, dx, dy) | _ => Raise ValueError end
           else Ok (ratio, 0, 0))
    else Ok (ratio, 0, 0).

(** ** The outputs *)

(** First cell, in row-major order, holding the maximum: lines 382. *)
Definition peak (p : plane R) : nat * nat :=
  fold_left (fun best ij =>
      if Rlt_dec (px p (fst best) (snd best)) (px p (fst ij) (snd ij)) then ij else best)
    (list_prod (seq 0 (nr p)) (seq 0 (nc p))) (0%nat, 0%nat).

Definition is_far (x y : R) : bool := if Rlt_dec 30 (Rabs (x - y)) then true else false.

(** operations.py:361-376 *)
Definition diff_hat (c : ctx) (b dx dy : R) : plane C :=
  let scaled := pmap (fun z => (RtoC b * z)%C) (c_dr c) in
  let shifted := if Req_EM_T dx 0 then (if Req_EM_T dy 0 then scaled else fourier_shift scaled dx dy)
                 else fourier_shift scaled dx dy in
  pmap2 (fun z n => (z / csqrt n)%C) (pmap2 Cminus (c_dn c) shifted) (norm2 c b).

(** operations.py:375-376 *)
Definition diff_zp (c : ctx) (b : R) : R := b / sqrt (c_rvar c ^ 2 * b ^ 2 + c_nvar c ^ 2).
Definition diff_psf_hat (c : ctx) (b : R) : plane C :=
  pmap2 (fun z n => (z / (csqrt n * RtoC (diff_zp c b)))%C)
        (pmap2 (fun x y => (x * y * RtoC b)%C) (c_pr c) (c_pn c)) (norm2 c b).

(** operations.py:391-399: the transforms of kr and kn. Both use the zero point of the new
    image. *)
Definition kr_hat (c : ctx) (b : R) : plane C :=
  frame (c_shape c) (fun i j =>
    (RtoC (c_nzp c) * Cconj (px (c_pr c) i j) * RtoC b * px (c_pn c) i j * Cconj (px (c_pn c) i j)
     / px (norm2 c b) i j)%C).
Definition kn_hat (c : ctx) (b : R) : plane C :=
  frame (c_shape c) (fun i j =>
    (RtoC (c_nzp c) * Cconj (px (c_pn c) i j) * px (c_pr c) i j * Cconj (px (c_pr c) i j)
     / px (norm2 c b) i j)%C).

(** operations.py:401-411: V_en, V_er; the second transform has no normalisation. *)
Definition noise_map (k_hat : plane C) (data : plane R) : plane C :=
  ifft2_ortho (pmap2 Cmult (fft2_ortho (pmap (fun x => RtoC (x + 1)) data))
                           (dft_raw (pmap (fun z => (z * z)%C) (ifft2_ortho k_hat)))).

(** operations.py:378-389: where the difference PSF is centred. *)
Definition psf_center (P : plane R) : R * R :=
  let '(cx, cy) := center_of_mass P in
  let '(kx, ky) := peak P in
  if is_far cx (INR kx) || is_far cy (INR ky) then (INR kx, INR ky) else (cx, cy).

(** operations.py:378-413; a cell of S_corr is [None] when numpy divides by zero there. *)
Definition s_corr (c : ctx) (b : R) (D_hat P_hat : plane C) (P : plane R) : plane (option R) :=
  let S_hat := fourier_shift (pmap2 (fun d p => (RtoC (diff_zp c b) * d * Cconj p)%C) D_hat P_hat)
                             (fst (psf_center P)) (snd (psf_center P)) in
  let num := ifft2_ortho S_hat in
  frame (c_shape c) (fun i j =>
    let v := csqrt (px (noise_map (kn_hat c b) (c_ndata c)) i j
                    + px (noise_map (kr_hat c b) (c_rdata c)) i j)%C in
    if Ceq_dec v (RtoC 0) then None else Some (fst (px num i j / v)%C)).

(** operations.py:361-426: D, P, S_corr and the mask. *)
Definition difference (c : ctx) (b dx dy : R) : plane C * plane R * plane (option R) * mask :=
  let D_hat := diff_hat c b dx dy in
  let P_hat := diff_psf_hat c b in
  let P := pmap fst (ifft2_ortho P_hat) in
  (ifft2_ortho D_hat, P, s_corr c b D_hat P_hat P, c_mask c).

(** ** subtract *)

(** What the caller passes: an instance of the class in use, or something else. *)
Inductive arg : Type := Is (x : dimg) | Other (r : nat).

(** operations.py:109-125: SI(x), and when that fails SI(x.data). *)
Definition as_image (mk mkdata : nat -> res dimg) (a : arg) : res dimg :=
  match a with
  | Is x => Ok x
  | Other r => match mk r with Ok x => Ok x | Raise _ => mkdata r end
  end.

(** The surroundings of subtract: constructors, registration (with the constructor applied to
    its result, lines 127-137), transparency and background. *)
Record env : Type := mkenv {
  e_mk : nat -> res dimg;
  e_mkdata : nat -> res dimg;
  e_reg : dimg -> dimg -> res dimg;
  e_transp : dimg -> dimg -> res (R * R);
  e_back : plane R -> plane R;
  e_solve : solvers }.

(** operations.py:103-203: everything up to the fit. *)
Definition setup (e : env) (ref new : arg) (align fitted : bool) : res ctx :=
  bind (as_image (e_mk e) (e_mkdata e) ref) (fun ref =>
  bind (as_image (e_mk e) (e_mkdata e) new) (fun new0 =>
  bind (if align then e_reg e new0 ref else Ok new0) (fun new =>
  if (fst (d_shape new) =? fst (d_shape ref))%nat && (snd (d_shape new) =? snd (d_shape ref))%nat then
    bind (mask_or (d_mask new) (d_mask ref)) (fun mix =>
    bind (e_transp e ref new) (fun '(r_zp, n_zp) =>
    prepare (e_back e) fitted ref new mix r_zp n_zp))
  else Raise ValueError))).

(** operations.py:56-426 *)
Definition subtract (e : env) (ref new : arg) (align beta shift iterative fitted : bool)
  : res (plane C * plane R * plane (option R) * mask) :=
  bind (setup e ref new align fitted) (fun c =>
  bind (fit (e_solve e) c beta shift iterative) (fun '(b, dx, dy) =>
  Ok (difference c b dx dy))).
