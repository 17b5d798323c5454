(** Words used in the statements about the way from pixels to results. *)
From Coq Require Import ZArith List Bool Arith Reals.
From Verif.Model Require Import Py Plane Ma Image Interp Sources Chain Subtract.
From Verif.Spec Require Import Image.
Import ListNotations.
Local Open Scope R_scope.

(** Two arrays of one shape hold the same values in the cells that [m] leaves unmasked. *)
Definition same_off {A} (m : plane bool) (p q : plane A) : Prop :=
  shape p = shape q /\
  forall i j, (i < nr p)%nat -> (j < nc p)%nat -> px m i j = false -> px p i j = px q i j.

(** What the documentation of sep says of its mask arguments: the values of masked pixels are
    not used. *)
Definition sep_skips_masked (W : libs) : Prop :=
  (forall m p q, same_off m p q -> l_background W p (Some m) = l_background W q (Some m)) /\
  (forall stack m p q t n, same_off m p q -> l_extract W stack p t m n = l_extract W stack q t m n).

(** Two images of one shape, with the same mask and the same values where nothing is masked. *)
Definition alike (im im' : image) : Prop :=
  shape (pixels im) = shape (pixels im') /\
  forall i j, (i < nr (pixels im))%nat -> (j < nc (pixels im))%nat ->
    (is_masked im i j <-> is_masked im' i j) /\
    (~ is_masked im i j -> px (pixels im) i j = px (pixels im') i j).

(** The second image is the first one with [c] added to every pixel that is not masked; the
    mask is the same. *)
Definition raised_by (c : R) (im im' : image) : Prop :=
  shape (pixels im) = shape (pixels im') /\
  forall i j, (i < nr (pixels im))%nat -> (j < nc (pixels im))%nat ->
    (is_masked im i j <-> is_masked im' i j) /\
    (~ is_masked im i j ->
     to_real (px (pixels im') i j) = option_map (fun x => x + c) (to_real (px (pixels im) i j))).

(** A background that follows the level of the sky: the same amount added to every pixel is
    added to the background, and the noise stays as it is. *)
Definition sep_follows_sky (W : libs) : Prop :=
  forall c p m, l_background W (pmap (option_map (fun x => x + c)) p) m =
    match l_background W p m with
    | Ok b => Ok (mkbackobj (pmap (fun x => x + c) (b_back b)) (b_rms b))
    | Raise e => Raise e
    end.

(** The second image is the first one with every pixel that is not masked multiplied by [k];
    the mask is the same. *)
Definition multiplied_by (k : R) (im im' : image) : Prop :=
  shape (pixels im) = shape (pixels im') /\
  forall i j, (i < nr (pixels im))%nat -> (j < nc (pixels im))%nat ->
    (is_masked im i j <-> is_masked im' i j) /\
    (~ is_masked im i j ->
     to_real (px (pixels im') i j) = option_map (fun x => k * x) (to_real (px (pixels im) i j))).

(** The same source, its flux multiplied by [k]. *)
Definition brighter (k : R) (s : src) : src :=
  mksrc (s_x s) (s_y s) (s_npix s) (k * s_flux s) (s_flag s).

(** Libraries for which the unit of the pixels does not matter: the background and the noise
    of [k] times an array are [k] times those of the array, the sources found above [k] times
    the threshold are the same with fluxes [k] times as large, and smoothing is linear. *)
Definition unit_free (W : libs) : Prop :=
  forall k, 0 < k ->
  let times := pmap (option_map (fun x => k * x)) in
  (forall p m, l_background W (times p) m =
     match l_background W p m with
     | Ok b => Ok (mkbackobj (pmap (fun x => k * x) (b_back b)) (k * b_rms b))
     | Raise e => Raise e
     end) /\
  (forall stack p t m n, l_extract W stack (times p) (k * t) m n =
     match l_extract W stack p t m n with
     | Ok l => Ok (map (brighter k) l)
     | Raise e => Raise e
     end) /\
  (forall p, l_conv W (times p) = times (l_conv W p)).

(** The size of sep's pixel stack only decides whether a call overflows. *)
Definition stack_only_overflows (W : libs) : Prop :=
  exists need answer, forall stack p t m n,
    l_extract W stack p t m n =
    if (need p t m n <=? stack)%Z then answer p t m n else Raise ValueError.

(** One image after the other is given to best_sources: the pixel stack in the end. Each is
    described by its pixels, its background and its min_sources. *)
Definition stack_run (W : libs) (stack : Z) (l : list (mimg * backobj * Z)) : Z :=
  fold_left (fun st x => let '(d, b, mn) := x in stack_after st (attempts_of W st d b) mn) l stack.

(** The search for sources, as a relation between the size of the pixel stack before, what is
    found (or the error) and the size afterwards. [extract stack k minarea] is what sep finds
    above k times the noise. First the bright sources are looked for; if that fails the stack
    is enlarged and only the brightest are looked for. If these are fewer than [mn] the faint
    ones are looked for, and if that fails once more with another stack and larger sources;
    the longer list is kept. *)
Inductive bright (extract : Z -> R -> nat -> res (list src)) (stack : Z) : res (list src) -> Z -> Prop :=
| found l : extract stack 8 9%nat = Ok l -> bright extract stack (Ok l) stack
| brightest e : extract stack 8 9%nat = Raise e -> bright extract stack (extract 3600000%Z 35 9%nat) 3600000%Z.

Inductive faint (extract : Z -> R -> nat -> res (list src)) (stack : Z) : res (list src) -> Z -> Prop :=
| small_ones l : extract stack 3 5%nat = Ok l -> faint extract stack (Ok l) stack
| larger_ones e : extract stack 3 5%nat = Raise e -> faint extract stack (extract 900000%Z 3 9%nat) 900000%Z.

Inductive searched (extract : Z -> R -> nat -> res (list src)) (mn stack : Z) : res (list src) -> Z -> Prop :=
| nothing e st : bright extract stack (Raise e) st -> searched extract mn stack (Raise e) st
| enough l st : bright extract stack (Ok l) st -> (mn <= Z.of_nat (length l))%Z -> searched extract mn stack (Ok l) st
| no_more l st e st' : bright extract stack (Ok l) st -> (Z.of_nat (length l) < mn)%Z ->
    faint extract st (Raise e) st' -> searched extract mn stack (Raise e) st'
| more l st l' st' : bright extract stack (Ok l) st -> (Z.of_nat (length l) < mn)%Z ->
    faint extract st (Ok l') st' -> (length l <= length l')%nat -> searched extract mn stack (Ok l') st'
| fewer l st l' st' : bright extract stack (Ok l) st -> (Z.of_nat (length l) < mn)%Z ->
    faint extract st (Ok l') st' -> (length l' < length l)%nat -> searched extract mn stack (Ok l) st'.
