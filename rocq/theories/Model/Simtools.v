(** Model of /repo/properimage/simtools.py, except the FITS header written by
    [store_fits].

    Numbers are exact reals; a pixel that numpy sets to nan is [None]. The random
    generator, the FFT convolution and [rotate] are arguments. *)
From Coq Require Import ZArith List Bool String Ascii Reals DecimalString.
From Flocq Require Import Core.Raux.
From Verif.Model Require Import Py Plane.
Import ListNotations.
Local Open Scope R_scope.

(** [range(a, b)] *)
Definition zrange (a b : Z) : list Z :=
  map (fun k => (a + Z.of_nat k)%Z) (seq 0 (Z.to_nat (b - a))).

(** [int(x)] of a float: truncation towards zero. *)
Definition py_int (x : R) : Z := Ztrunc x.

(** [p[i, j] = v] *)
Definition pset {A} (p : plane A) (i j : Z) (v : A) : res (plane A) :=
  match py_index (Z.of_nat (nr p)) i, py_index (Z.of_nat (nc p)) j with
  | Some r, Some c =>
      Ok (mkplane (nr p) (nc p)
            (fun a b => if (Nat.eqb a r && Nat.eqb b c)%bool then v else px p a b))
  | _, _ => Raise IndexError
  end.

(** A loop of such assignments. *)
Fixpoint write_all {A} (p : plane A) (ws : list (Z * Z * A)) : res (plane A) :=
  match ws with
  | [] => Ok p
  | (i, j, v) :: ws' => bind (pset p i j v) (fun p' => write_all p' ws')
  end.

(** Sum of [f 0 .. f (n-1)]. *)
Fixpoint rsum (n : nat) (f : nat -> R) : R :=
  match n with O => 0 | S n' => rsum n' f + f n' end.

(** [np.sum] of a real array. *)
Definition total (p : plane R) : R := rsum (nr p) (fun i => rsum (nc p) (fun j => px p i j)).

(** [a / s] for an array and a number: nan (or an infinity) everywhere when s = 0. *)
Definition pdiv (p : plane R) (s : R) : plane (option R) :=
  pmap (fun x => if Req_EM_T s 0 then None else Some (x / s)) p.

(** [stats.norm.pdf(x, loc, scale)] *)
Definition norm_pdf (x loc scale : R) : R :=
  exp (- (((x - loc) / scale) ^ 2) / 2) / (scale * sqrt (2 * PI)).

(** simtools.py:39-61, [Psf(N, X_FWHM, Y_FWHM, theta)] for N >= 0. [N] need not be an
    integer: [image] passes 5 * FWHM. *)
Definition psf_half (N xf yf : R) : R :=
  let sigma := Rmax (xf / (2335 / 1000)) (yf / (2335 / 1000)) in
  Rmin (IZR (py_int (5 * sigma))) (N / 2).

Definition psf_lo (N xf yf : R) : Z := py_int (IZR (py_int ((N - 1) / 2)) - psf_half N xf yf).
Definition psf_hi (N xf yf : R) : Z := py_int (IZR (py_int ((N - 1) / 2)) + psf_half N xf yf).

Definition psf_writes (N xf yf : R) : list (Z * Z * R) :=
  let mu := (N - 1) / 2 in
  flat_map (fun i => map (fun j =>
    (i, j, norm_pdf (IZR i) mu (xf / (2335 / 1000)) * norm_pdf (IZR j) mu (yf / (2335 / 1000))))
    (zrange (psf_lo N xf yf) (psf_hi N xf yf)))
  (zrange (psf_lo N xf yf) (psf_hi N xf yf)).

Definition Psf (rotate : plane R -> R -> plane R) (N xf yf0 theta : R)
  : res (plane (option R)) :=
  let yf := if Req_EM_T yf0 0 then xf else yf0 in
  let n := Z.to_nat (py_int N) in
  bind (write_all (pconst (n, n) 0) (psf_writes N xf yf)) (fun a =>
  let a' := if Req_EM_T theta 0 then a else rotate a theta in
  Ok (pdiv a' (total a'))).

(** simtools.py:64-82, [astropy_Psf(N, FWHM)]; astropy's Gaussian2D of amplitude 1. *)
Definition gaussian2d (mu sigma x y : R) : R :=
  exp (- ((x - mu) ^ 2 / (2 * sigma ^ 2) + (y - mu) ^ 2 / (2 * sigma ^ 2))).

Definition astropy_Psf (N : nat) (fwhm : R) : res (plane (option R)) :=
  let mu := (INR N - 1) / 2 in
  let sigma := fwhm / (2335 / 1000) in
  let tail := py_int (7 * sigma) in
  let mu_int := py_int mu in
  let i := zrange (mu_int - tail) (mu_int + tail) in
  bind (write_all (pconst (N, N) 0)
          (flat_map (fun ii => map (fun jj =>
             (ii, jj, gaussian2d mu sigma (IZR ii) (IZR jj))) i) i)) (fun psf =>
  Ok (pdiv psf (total psf))).

(** simtools.py:85-119, [airy_patron(N, width)]; [j1] is the Bessel function. At radius
    zero the quotient is 0/0. *)
Definition airy_func (j1 : R -> R) (rr width : R) : option R :=
  let r := rr / width in
  if Req_EM_T r 0 then None else Some ((2 * j1 r / r) ^ 2).

Definition radius (N i j : nat) : R :=
  let mu := (INR N - 1) / 2 in sqrt ((INR i - mu) ^ 2 + (INR j - mu) ^ 2).

Definition airy_patron (j1 : R -> R) (N : nat) (width : R) : plane (option R) :=
  mkplane N N (fun i j => airy_func j1 (radius N i j) width).

(** Python's [x ** y] for x >= 0 and y > 0. *)
Definition rpow (x y : R) : R := if Req_EM_T x 0 then 0 else Rpower x y.

(** simtools.py:138-151 *)
Definition perfilsersic (r_e I_e n r : R) : R :=
  let b := 1999 / 1000 * n - 327 / 1000 in
  (I_e * exp (- b * (rpow (r / r_e) (1 / n) - 1)))
  / (I_e * exp (- b * (rpow (0 / r_e) (1 / n) - 1))).

(** simtools.py:154-168: the loops cover [range(N - 1)] on both axes. *)
Definition gal_sersic (N : nat) (n : R) : plane R :=
  let R_e := (INR N - 1) / 6 in
  mkplane N N (fun i j =>
    if (Nat.ltb i (N - 1) && Nat.ltb j (N - 1))%bool then
      if Rle_dec (radius N i j) (4 * R_e) then perfilsersic R_e 10 n (radius N i j) else 0
    else 0).

(** simtools.py:171-187, [cartesian_product(arrays)]. Item [t] of the flattened k-th
    broadcast array is item [(t / stride) mod length] of the k-th input, the stride being
    the product of the lengths of the inputs after it. [cast] converts to the dtype of
    the first array, which the output array has. *)
Section Cartesian.
Variable A : Type.
Variable cast : A -> A.
Variable d : A.   (* content of np.empty *)

Definition prod_list (l : list nat) : nat := fold_right Nat.mul 1%nat l.

Definition flat_broadcast (arrays : list (list A)) (k : nat) : list A :=
  let dims := map (@List.length A) arrays in
  let stride := prod_list (skipn (S k) dims) in
  let a := nth k arrays [] in
  map (fun t => nth (Nat.modulo (Nat.div t stride) (List.length a)) a d)
      (seq 0 (prod_list dims)).

Definition cartesian_product (arrays : list (list A)) : res (plane A) :=
  match arrays with
  | [] => Raise IndexError
  | _ =>
      let rows := prod_list (map (@List.length A) arrays) in
      let cols := List.length arrays in
      let out := flat_map (fun k => map cast (flat_broadcast arrays k)) (seq 0 cols) in
      Ok (mkplane rows cols (fun t k => nth (k * rows + t) out d))
  end.
End Cartesian.
Arguments flat_broadcast {A} d arrays k.
Arguments cartesian_product {A} cast d arrays.

(** simtools.py:190-220, [delta_point]. [xy] is a list of positions or an iterator such
    as zip(x, y), which has no length. *)
Inductive positions : Type :=
| Listed (l : list (Z * Z))
| Iterator (l : list (Z * Z)).

Definition pos_items (xy : positions) : list (Z * Z) :=
  match xy with Listed l => l | Iterator l => l end.

Fixpoint delta_loop (m : plane R) (xy : list (Z * Z)) (weights : list R) (j : Z)
  : res (plane R) :=
  match xy with
  | [] => Ok m
  | (x, y) :: xy' =>
      bind (pyget weights j) (fun w =>
      bind (pset m x y w) (fun m' =>
      delta_loop m' xy' weights (j - 1)))
  end.

Definition delta_point (N : nat) (center : bool) (xy : positions) (weights : option (list R))
  : res (plane R) :=
  let m := pconst (N, N) 0 in
  if center then pset m (Z.of_nat (N / 2)) (Z.of_nat (N / 2)) 1
  else
    bind (match weights, xy with
          | Some w, _ => Ok w
          | None, Listed l => Ok (repeat 1 (List.length l))
          | None, Iterator _ => Raise TypeError
          end) (fun w =>
    delta_loop m (pos_items xy) w (-1)).

(** [np.max] of an array with at least one cell. *)
Definition pmax (p : plane R) : R :=
  let cells := flat_map (fun i => map (px p i) (seq 0 (nc p))) (seq 0 (nr p)) in
  match cells with [] => 0 | c :: l => fold_left Rmax l c end.

Definition padd3 (c im : plane R) (bias : R) : res (plane R) :=
  bind (ufunc2 Rplus c im) (fun s => Ok (pmap (fun x => x + bias) s)).

Section Random.
(** States of a numpy Generator. *)
Variable G : Type.
Variable default_rng : Z -> G.
Variable rng_normal : G -> R -> R -> nat -> plane R * G.
Variable rng_poisson : G -> R -> nat -> plane R * G.
Variable rng_integers : G -> R -> R -> nat -> res (list Z) * G.
(** [blur m s xf yf theta] is [convol_gal_psf_fft(m, Psf(s, xf, yf, theta))],
    simtools.py:122-135 and 254-255. *)
Variable blur : plane R -> R -> R -> R -> R -> plane R.

(** simtools.py:223-271, [image]. Besides the image, the state of the module's generator
    [random_def]: it is drawn from when no seed is given. t_exp is not used by the code.
    np.max of an empty image (N = 0) raises ValueError. *)
Definition image (g : G) (MF : plane R) (N : nat) (xf sn yf theta : R) (bkg_pdf : string)
  (std : option R) (seed : option Z) (bias : R) : res (plane R) * G :=
  let fwhm := Rmax xf yf in
  let im := blur MF (5 * fwhm) xf yf theta in
  if (Nat.eqb (nr im) 0 || Nat.eqb (nc im) 0)%bool then (Raise ValueError, g)
  else
  let b := pmax im in
  let rng := match seed with Some s => default_rng s | None => g end in
  let back g' := match seed with Some _ => g | None => g' end in
  if String.eqb bkg_pdf "poisson" then
    let (c, g') := rng_poisson rng (b / sn) N in (padd3 c im bias, back g')
  else if String.eqb bkg_pdf "gaussian" then
    let (c, g') := rng_normal rng 0 (b / sn) N in (padd3 c im bias, back g')
  else (Raise UnboundLocalError, g).

(** [np.linspace(100.0, 10000.0, k)] *)
Definition linspace (k : nat) : list R :=
  map (fun i => if Nat.eqb k 1 then 100 else 100 + 9900 * INR i / INR (k - 1)) (seq 0 k).

(** [frame[r0:r0+N, c0:c0+N] = q]: [q] must broadcast to N x N. *)
Definition set_block {A} (p : plane A) (r0 c0 N : nat) (q : plane A) : res (plane A) :=
  let fits d := (Nat.eqb d N || Nat.eqb d 1)%bool in
  if (fits (nr q) && fits (nc q))%bool then
    Ok (mkplane (nr p) (nc p) (fun i j =>
      if (Nat.leb r0 i && Nat.ltb i (r0 + N) && Nat.leb c0 j && Nat.ltb j (c0 + N))%bool
      then px q (bidx (nr q) (i - r0)) (bidx (nc q) (j - c0)) else px p i j))
  else Raise ValueError.

(** simtools.py:354-358: the four quadrants, in the order of the loops. *)
Definition tile (N : nat) (frames : list (plane R)) : res (plane R) :=
  fold_left (fun acc ij => bind acc (fun f =>
      bind (pyget frames (Z.of_nat (fst ij + 2 * snd ij))) (fun q =>
      set_block f (fst ij * N) (snd ij * N) N q)))
    [(0, 0); (1, 0); (0, 1); (1, 1)]%nat
    (Ok (pconst (2 * N, 2 * N)%nat 0)).

(** simtools.py:325-352: the frame of one angle. [loc] is the local generator when a seed
    is given. *)
Definition one_frame (st : option G * G) (nstars : nat) (sn : R) (theta : R) (N : nat)
  (seed : option Z) : res (plane R) * (option G * G) :=
  let xf := 5 + 5 * theta / 180 in
  let mx := Rmax xf 5 in
  let cur := match fst st with Some g => g | None => snd st end in
  let put g := match fst st with Some _ => (Some g, snd st) | None => (None, g) end in
  let (x, g1) := rng_integers cur (3 * mx) (INR N - 3 * mx) (nstars / 4) in
  match x with
  | Raise e => (Raise e, put g1)
  | Ok xs =>
      let (y, g2) := rng_integers g1 (3 * mx) (INR N - 3 * mx) (nstars / 4) in
      match y with
      | Raise e => (Raise e, put g2)
      | Ok ys =>
          let st2 := put g2 in
          match delta_point N false (Iterator (combine xs ys)) (Some (linspace (List.length xs))) with
          | Raise e => (Raise e, st2)
          | Ok m =>
              let (im, g3) := image (snd st2) m N xf sn 5 theta "gaussian" None seed 100 in
              (match im with
               | Raise e => Raise e
               | Ok p => Ok (pmap (fun v => v + 100) p)
               end, (fst st2, g3))
          end
      end
  end.

Fixpoint all_frames (st : option G * G) (nstars : nat) (sn : R) (thetas : list R) (N : nat)
  (seed : option Z) : res (list (plane R)) * (option G * G) :=
  match thetas with
  | [] => (Ok [], st)
  | theta :: l =>
      let (f, st1) := one_frame st nstars sn theta N seed in
      match f with
      | Raise e => (Raise e, st1)
      | Ok p =>
          let (fs, st2) := all_frames st1 nstars sn l N seed in
          (match fs with Ok ps => Ok (p :: ps) | Raise e => Raise e end, st2)
      end
  end.

(** simtools.py:308-360, [sim_varpsf]. *)
Definition sim_varpsf (g : G) (nstars : nat) (sn : R) (thetas : list R) (N : nat)
  (seed : option Z) : res (plane R) * G :=
  let loc := option_map default_rng seed in
  let (fs, st) := all_frames (loc, g) nstars sn thetas N seed in
  (bind fs (tile N), snd st).
End Random.
Arguments image {G} default_rng rng_normal rng_poisson blur g MF N xf sn yf theta bkg_pdf std seed bias.
Arguments one_frame {G} default_rng rng_normal rng_poisson rng_integers blur st nstars sn theta N seed.
Arguments all_frames {G} default_rng rng_normal rng_poisson rng_integers blur st nstars sn thetas N seed.
Arguments sim_varpsf {G} default_rng rng_normal rng_poisson rng_integers blur g nstars sn thetas N seed.

Local Open Scope string_scope.

(** [str(i)] of an integer. *)
Definition py_str (i : Z) : string := NilZero.string_of_int (Z.to_int i).

(** POSIX [os.path.join(path, name)] for a relative [name]. *)
Definition path_join (path name : string) : string :=
  match String.length path with
  | O => name
  | S k => match String.get k path with
           | Some c => if Ascii.eqb c "/"%char then path ++ name else path ++ "/" ++ name
           | None => path ++ "/" ++ name
           end
  end.

(** simtools.py:303-305: the name under which [store_fits] writes (and overwrites). *)
Definition store_fits_name (path : string) (i : Z) : string :=
  path_join path ("image00" ++ py_str i ++ ".fits").

(** The files of a directory tree: their contents by name. *)
Definition files (content : Type) : Type := string -> option content.

(** simtools.py:274-305, [store_fits]: writes with overwrite=True and returns the name.
    [content] stands for the image with its header. *)
Definition store_fits {content : Type} (fs : files content) (path : string) (i : Z)
  (c : content) : string * files content :=
  let name := store_fits_name path i in
  (name, fun f => if String.eqb f name then Some c else fs f).
