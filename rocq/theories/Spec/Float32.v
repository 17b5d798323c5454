(** Single precision numbers, said with real numbers only. *)
From Coq Require Import ZArith Reals.
From Coq Require Import SpecFloat.
From Verif.Model Require Import Py Plane Ma Image.
Local Open Scope R_scope.

(** The number a finite pixel stands for. *)
Definition value (v : pix) : R :=
  match v with
  | S754_finite s m e => (if s then -1 else 1) * IZR (Zpos m) * powerRZ 2 e
  | _ => 0
  end.

(** The numbers that have a float32: 24 significant bits, exponents from -149 to 104. *)
Definition f32 (r : R) : Prop :=
  exists m e : Z, (Z.abs m < 2 ^ 24)%Z /\ (-149 <= e <= 104)%Z /\ r = IZR m * powerRZ 2 e.

(** [x] is the float32 nearest to [r]; of two equally near ones it is the one that is an
    even multiple of their distance. *)
Definition nearest32 (r x : R) : Prop :=
  f32 x /\
  (forall y, f32 y -> Rabs (x - r) <= Rabs (y - r)) /\
  (forall y, f32 y -> y <> x -> Rabs (y - r) = Rabs (x - r) ->
     exists k : Z, x = 2 * IZR k * Rabs (x - y)).

(** From here on a number counts as infinite: the middle between the largest float32,
    2^128 - 2^104, and 2^128. *)
Definition f32_limit : R := powerRZ 2 128 - powerRZ 2 103.

(** The pixel that stands for the number [r] in single precision. *)
Definition rounded (r : R) (p : pix) : Prop :=
  (Rabs r < f32_limit -> finiteb p = true /\ nearest32 r (value p)) /\
  (f32_limit <= r -> p = S754_infinity false) /\
  (r <= - f32_limit -> p = S754_infinity true).
