(** Specification of the widths of point spread functions. *)
From Coq Require Import Reals.
Local Open Scope R_scope.

(** A Gaussian profile of full width at half maximum [w] is halved at a distance w/2 from
    its centre: at distance [d] it has fallen by the factor 2^((2d/w)^2). *)
Definition bell (w d : R) : R := Rpower 2 (- (2 * d / w) ^ 2).

(** [j1] is the Bessel function of the first kind of order one on the interval (0, 2]: the
    sum of its power series. *)
Definition bessel1 (j1 : R -> R) : Prop :=
  forall r, 0 < r <= 2 ->
    Un_cv (fun n => sum_f_R0
      (fun k => (-1) ^ k / (INR (fact k) * INR (fact (S k))) * (r / 2) ^ (2 * k + 1)) n) (j1 r).
