(** Model of [plot_S], [plot_R] and [Plot.imshow] (properimage/plot.py 78-150, 171-184) on the
    state of matplotlib.pyplot: the open figures, the axes and images on them, the files
    written.

    Simplified: exact real numbers; colour maps, tight_layout, figure sizes and interpolation
    leave no trace; a file is the figure it was made from. *)
From Coq Require Import List Bool Arith String Reals.
From Verif.Model Require Import Py Plane.
Import ListNotations.
Local Open Scope R_scope.

(** One image on some axes: the number at each cell ([None]: nan or infinite), the colour
    limits given (vmin, vmax), and whether origin is "lower". *)
Record picture := mkpicture { cells : plane (option R); limits : option (R * R); lower : bool }.

(** The images on some axes, the last one drawn first, and the shape written in the title. *)
Record axes := mkaxes { pictures : list picture; title : option (nat * nat) }.

(** A figure: its axes, the current one first, and the number of its colour bars. *)
Record figure := mkfigure { axs : list axes; bars : nat }.

(** The open figures, the current one first; the files written, the last one first; the
    figures open at each [plt.show()]. *)
Record pyplot := mkpyplot { figs : list figure; files : list (string * figure); shows : list (list figure) }.

Definition blank : axes := mkaxes [] None.

Definition with_figs (s : pyplot) (l : list figure) : pyplot := mkpyplot l (files s) (shows s).

(** [plt.gca()]: the current axes of the current figure, made where missing. *)
Definition gca (s : pyplot) : axes * pyplot :=
  match figs s with
  | [] => (blank, with_figs s [mkfigure [blank] 0])
  | f :: r =>
      match axs f with
      | [] => (blank, with_figs s (mkfigure [blank] (bars f) :: r))
      | a :: _ => (a, s)
      end
  end.

(** Change the current axes of the current figure. *)
Definition on_current (g : axes -> axes) (s : pyplot) : pyplot :=
  match figs s with
  | [] => s
  | f :: r => match axs f with [] => s | a :: l => with_figs s (mkfigure (g a :: l) (bars f) :: r) end
  end.

(** [plt.imshow(...)] of an array of real numbers. *)
Definition draw (p : picture) (s : pyplot) : pyplot :=
  on_current (fun a => mkaxes (p :: pictures a) (title a)) (snd (gca s)).

(** [plt.colorbar()] after an imshow: one more colour bar, the current axes stay. *)
Definition colorbar (s : pyplot) : pyplot :=
  match figs s with [] => s | f :: r => with_figs s (mkfigure (axs f) (S (bars f)) :: r) end.

(** [plt.savefig(path)] *)
Definition savefig (path : string) (s : pyplot) : pyplot :=
  match figs s with [] => s | f :: _ => mkpyplot (figs s) ((path, f) :: files s) (shows s) end.

(** [plt.show()]; [left] tells which figures the backend leaves open. *)
Definition show (left : list figure -> list figure) (s : pyplot) : pyplot :=
  mkpyplot (left (figs s)) (files s) (figs s :: shows s).

(** [plt.close()]: the current figure, if any. *)
Definition close (s : pyplot) : pyplot := with_figs s (tl (figs s)).

Definition save_or_show left (path : option string) : pyplot -> pyplot :=
  match path with Some p => savefig p | None => show left end.

(** An array or masked array: its numbers (real and imaginary parts), its mask, its fill value
    (the real part) and its dtype. *)
Inductive dtype := Float | Complex128 | Complex64.
Record array := mkarray
  { re : plane R; im : plane R; mask : option (plane bool); fill : R; dt : dtype }.

(** [isinstance(A, np.ma.masked_array)] then [A.filled()], for the real part. *)
Definition filled (a : array) : plane R :=
  match mask a with
  | None => re a
  | Some m => mkplane (nr (re a)) (nc (re a)) (fun i j => if px m i j then fill a else px (re a) i j)
  end.

(** plot.py:78-112 for an array of real numbers; [clip] gives the median and the deviation of
    astropy's sigma_clipped_stats. *)
Definition plot_S (clip : plane R -> R * R) left (a : array) (path : option string) (nbook : bool)
  (s : pyplot) : axes * pyplot :=
  let v := filled a in
  let (med, std) := clip v in
  let s := draw (mkpicture (pmap Some v) (Some (med - 4 * std, med + 4 * std)) false) s in
  let s := colorbar s in
  let s := save_or_show left path s in
  let s := if nbook then s else close s in
  gca s.

(** [np.log10]: no number (nan or -inf) for 0 and below. *)
Definition log10 (x : R) : option R := if Rlt_dec 0 x then Some (ln x / ln 10) else None.

(** [isinstance(R[0, 0], complex)]: a numpy complex128 is one, a complex64 and the masked
    constant are not; IndexError for an array without cells. *)
Definition first_is_complex (a : array) : res bool :=
  if ((nr (re a) =? 0) || (nc (re a) =? 0))%nat then Raise IndexError
  else Ok (match dt a with
           | Complex128 => match mask a with Some m => negb (px m 0%nat 0%nat) | None => true end
           | _ => false
           end).

(** numpy's default fill value of an array of floats *)
Definition default_fill : R := 100000000000000000000.

(** [R.real]: the mask is kept, the fill value is not. *)
Definition real_part (a : array) : array :=
  mkarray (re a) (pconst (shape (re a)) 0) (mask a) default_fill Float.

(** plot.py:115-150. imshow refuses complex numbers after it made the axes. *)
Definition plot_R left (a : array) (path : option string) (nbook : bool) (s : pyplot) : res unit * pyplot :=
  match first_is_complex a with
  | Raise e => (Raise e, s)
  | Ok c =>
      let a := if c then real_part a else a in
      match dt a with
      | Float =>
          let s := draw (mkpicture (pmap log10 (filled a)) None false) s in
          let s := colorbar s in
          let s := save_or_show left path s in
          (Ok tt, if nbook then s else close s)
      | _ => (Raise TypeError, snd (gca s))
      end
  end.

(** plot.py:171-184 without [ax] and with no keyword or origin="upper" ([lo] = false), for the
    pixels [d] of an image (masked ones are [None]). *)
Definition imshow (d : plane (option R)) (lo : bool) (s : pyplot) : axes * pyplot :=
  let s := snd (gca s) in
  let s := on_current (fun a => mkaxes (mkpicture d None lo :: pictures a) (title a)) s in
  let s := on_current (fun a => mkaxes (pictures a) (Some (shape d))) s in
  (fst (gca s), s).
