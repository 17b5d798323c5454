(** Notions used to state the properties of subtract. *)
From Coq Require Import Arith ZArith List Bool Reals.
From Coquelicot Require Import Complex.
From Verif.Model Require Import Py Plane Ma Subtract.
Import ListNotations.
Local Open Scope R_scope.

(** The flux ratio and the shift that subtract settles on. *)
Definition ratio_and_shift (e : env) (ref new : arg) (align beta shift iterative fitted : bool)
  : res (R * R * R) :=
  bind (setup e ref new align fitted) (fun c => fit (e_solve e) c beta shift iterative).

(** The PSF that subtract uses for an image. *)
Definition used_psf (fitted : bool) (x : dimg) : plane R :=
  if fitted then mkplane (fst (d_shape x)) (snd (d_shape x)) (d_render x) else d_stamp x.

(** Sum of the pixels entering the subtraction. *)
Definition flux (x : dimg) : R :=
  psumR (mkplane (fst (d_shape x)) (snd (d_shape x)) (d_interped x)).

(** The PSF lies within the frame (otherwise it would be cropped). *)
Definition psf_inside (fitted : bool) (x : dimg) : Prop :=
  (nr (used_psf fitted x) <= fst (d_shape x))%nat /\ (nc (used_psf fitted x) <= snd (d_shape x))%nat.

(** A mask has the shape of the frame or is nomask. *)
Definition mask_fits (x : dimg) : Prop :=
  match d_mask x with Nomask => True | Full p => shape p = d_shape x end.

(** Componentwise lo <= x <= hi. *)
Definition within (lo x hi : list R) : Prop :=
  length x = length lo /\ length x = length hi /\
  forall k a l h, nth_error x k = Some a -> nth_error lo k = Some l -> nth_error hi k = Some h ->
    l <= a <= h.

(** One side of the frame is at most 200 pixels. *)
Definition small (x : dimg) : Prop := (fst (d_shape x) <= 200 \/ snd (d_shape x) <= 200)%nat.

(** The same subtraction with no difference between the backgrounds. *)
Definition without_gamma (c : ctx) : ctx :=
  mkctx (c_shape c) (c_pr c) (c_pn c) (c_dr c) (c_dn c) (c_na c) (c_nb c)
    (pmap (fun _ => 0) (c_gamma c)) (c_rvar c) (c_nvar c) (c_ratio c) (c_nzp c) (c_mask c) (c_rdata c) (c_ndata c).

(** ** A concrete pair of images, to show that the hypotheses of the theorems can be met. *)

(** A 2 x 2 frame with pixels k, 2k, 2k, 3k, whose PSF is a single pixel. *)
Definition ex_point (i j : nat) : R := match i, j with O, O => 1 | _, _ => 0 end.
Definition ex_dimg (k : R) (m : mask) : dimg :=
  mkdimg (2%nat, 2%nat) (fun _ _ => 1) m (fun i j => k * INR (1 + i + j)) (1 / 2)
         (mkplane 1 1 (fun _ _ => 1)) ex_point.
Definition ex_bad : mask := Full (mkplane 2 2 (fun i j => (i =? 0)%nat && (j =? 1)%nat)).

(** Solvers that give back the starting point / fail; zero points [zr] and [zn]. *)
Definition ex_found : solvers :=
  mksolvers (fun _ x0 _ _ => Ok (true, x0)) (fun _ lo _ => (true, lo)).
Definition ex_lost : solvers :=
  mksolvers (fun _ x0 _ _ => Ok (false, x0)) (fun _ lo _ => (false, lo)).
Definition ex_env (zr zn : R) (s : solvers) : env :=
  mkenv (fun _ => Raise IOError) (fun _ => Raise IOError) (fun x _ => Ok x) (fun _ _ => Ok (zr, zn))
        (fun p => pmap (fun _ => 0) p) s.
