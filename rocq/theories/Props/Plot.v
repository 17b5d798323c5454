(** C51-C53, C75: plotting. *)
From Coq Require Import ZArith List Bool String Arith Lia.
From Verif.Model Require Import Py Chunk Plot.
From Verif.Spec Require Import Plot.
From Verif.Proof Require Import Plot PlotMain.
Import ListNotations.
Local Open Scope nat_scope.

(** C51: with one to three distinct prime factors, the largest of them... *)
Theorem C51_largest_prime_factor : forall (n : nat) (P : list nat),
  2 <= n -> prime_factors n P -> List.length P <= 3 ->
  prime_factor (primes n) n /\ forall p, prime_factor p n -> p <= primes n.
Proof. exact C51_largest_prime_factor_lm. Qed.
Print Assumptions C51_largest_prime_factor.

Example C51_case : prime_factors 60 [2; 3; 5] /\ primes 60 = 5.
Proof.
  split; [|reflexivity]. change [2; 3; 5] with (prims 60). split; [apply sorted_NoDup, prims_sorted|].
  intros p. rewrite prims_spec. split; [tauto|]. intros H. split; [assumption|].
  destruct H as [[H1 H2] H3]. apply Nat.divide_pos_le in H3 as H4; [|lia].
  destruct (Nat.eq_dec p 60) as [->|]; [|lia]. destruct (H2 2); [exists 30; reflexivity|lia..].
Qed.

(** ... with four or more, the product of the two largest... *)
Theorem C51_two_largest : forall (n : nat) (P : list nat),
  2 <= n -> prime_factors n P -> 4 <= List.length P ->
  exists p q, prime_factor p n /\ prime_factor q n /\ p < q /\ primes n = p * q /\
    forall r, prime_factor r n -> r = q \/ r <= p.
Proof. exact C51_two_largest_lm. Qed.
Print Assumptions C51_two_largest.

Example C51_two_case : prime_factors 210 [2; 3; 5; 7] /\ primes 210 = 35.
Proof.
  split; [|vm_compute; reflexivity]. change [2; 3; 5; 7] with (prims 210).
  split; [apply sorted_NoDup, prims_sorted|].
  intros p. rewrite prims_spec. split; [tauto|]. intros H. split; [assumption|].
  destruct H as [[H1 H2] H3]. apply Nat.divide_pos_le in H3 as H4; [|lia].
  destruct (Nat.eq_dec p 210) as [->|]; [|lia]. destruct (H2 2); [exists 105; reflexivity|lia..].
Qed.

(** ... 0 and 1 are returned unchanged, and the answer always divides [n]. *)
Theorem C51_divides : forall n : nat,
  Nat.divide (primes n) n /\ (n <= 1 -> primes n = n).
Proof. exact C51_divides_lm. Qed.
Print Assumptions C51_divides.

Example C51_divides_case : primes 0 = 0 /\ primes 1 = 1 /\ primes 97 = 97.
Proof. repeat split. Qed.

(** C52: the grid has room for [n] panels, and is full when [n] is composite. *)
Theorem C52_grid_has_room : forall n : nat,
  1 <= n -> (Z.of_nat n <= 2 ^ 53)%Z ->
  (1 <= fst (subplots n) /\ 1 <= snd (subplots n) /\
   Z.of_nat n <= fst (subplots n) * snd (subplots n) /\
   (composite n -> fst (subplots n) * snd (subplots n) = Z.of_nat n))%Z.
Proof. exact C52_grid_has_room_lm. Qed.
Print Assumptions C52_grid_has_room.

Example C52_room_case : subplots 7 = (3, 4)%Z /\ subplots 12 = (4, 3)%Z /\ subplots 1 = (1, 2)%Z /\ composite 12.
Proof. repeat split; try (vm_compute; reflexivity). exists 3, 4. repeat split; lia. Qed.

(** C52: automatic axes never lead to an error; component k is drawn once, in the k-th new
    cell, row by row. *)
Theorem C52_automatic_axes : forall (component : Type) (first : nat) (basis : list component),
  1 <= List.length basis -> (Z.of_nat (List.length basis) <= 2 ^ 53)%Z ->
  exists axs calls, autopsf first None basis = Ok (axs, calls) /\
    List.length calls = List.length basis /\
    forall k c, nth_error basis k = Some c -> nth_error calls k = Some (first + k, c).
Proof. exact C52_automatic_axes_lm. Qed.
Print Assumptions C52_automatic_axes.

Example C52_axes_case : autopsf 10 None [true; false; true; false]
  = Ok (ManyAxes 2 [10; 11; 12; 13], [(10, true); (11, false); (12, true); (13, false)]).
Proof. vm_compute. reflexivity. Qed.

(** C52: the same for the coefficients, unless the PSF has one component only, in which
    case there is nothing to plot. *)
Theorem C52_automatic_axes_coef : forall (component : Type) (first : nat)
  (fields : list (option component)),
  2 <= List.length fields -> (Z.of_nat (List.length fields) <= 2 ^ 53)%Z ->
  (exists axs calls, autopsf_coef first None fields = Ok (axs, calls) /\
    List.length calls = List.length fields /\
    forall k c, nth_error fields k = Some c -> nth_error calls k = Some (first + k, c)) /\
  forall given, @autopsf_coef component first given [None] = Raise NoDataToPlot.
Proof. exact C52_automatic_axes_coef_lm. Qed.
Print Assumptions C52_automatic_axes_coef.

Example C52_coef_case : autopsf_coef 0 None [Some 5; Some 6]
  = Ok (ManyAxes 2 [0; 1], [(0, Some 5); (1, Some 6)]).
Proof. vm_compute. reflexivity. Qed.

(** C53: a name runs a method iff it is the name of a public method; then that method
    runs, with the given arguments; every other string raises ValueError; None runs
    imshow. *)
Theorem C53_dispatch : forall (kwargs answer : Type) (run : string -> kwargs -> res answer) (kw : kwargs),
  plot_call run None kw = run "imshow"%string kw /\
  (forall s, In s ["imshow"; "autopsf"; "autopsf_coef"]%string ->
     plot_call run (Some s) kw = run s kw) /\
  (forall s, ~ In s ["imshow"; "autopsf"; "autopsf_coef"]%string ->
     plot_call run (Some s) kw = Raise ValueError).
Proof. exact C53_dispatch_lm. Qed.
Print Assumptions C53_dispatch.

Example C53_case :
  plot_call (fun s (_ : unit) => Ok s) (Some "autopsf"%string) tt = Ok "autopsf"%string /\
  plot_call (fun s (_ : unit) => Ok s) (Some ""%string) tt = Raise ValueError /\
  plot_call (fun s (_ : unit) => Ok s) (Some "si"%string) tt = Raise ValueError /\
  plot_call (fun s (_ : unit) => Ok s) (Some "__init__"%string) tt = Raise ValueError.
Proof. repeat split. Qed.

(** C75: with explicit axes, component k is drawn on the k-th of them in row-major order,
    those left over are not touched, and the axes are returned. *)
Theorem C75_explicit_axes : forall (component : Type) (first : nat) (axs : axes)
  (basis : list component),
  List.length basis <= np_size axs ->
  exists calls, autopsf first (Some axs) basis = Ok (axs, calls) /\
    List.length calls = List.length basis /\
    forall k c a, nth_error basis k = Some c -> nth_error (ravel axs) k = Some a ->
      nth_error calls k = Some (a, c).
Proof. exact C75_explicit_axes_lm. Qed.
Print Assumptions C75_explicit_axes.

Example C75_case : autopsf 0 (Some (ManyAxes 1 [7; 8; 9])) [true; false]
  = Ok (ManyAxes 1 [7; 8; 9], [(7, true); (8, false)]).
Proof. vm_compute. reflexivity. Qed.

(** C75: too few axes: nothing is drawn; ValueError for a sequence of axes, but TypeError
    for a single Axes object, because building the message takes its length. *)
Theorem C75_too_few_axes : forall (component : Type) (first : nat) (basis : list component),
  (forall len flat, List.length flat < List.length basis ->
     autopsf first (Some (ManyAxes len flat)) basis = Raise ValueError) /\
  (forall a, 2 <= List.length basis ->
     autopsf first (Some (OneAxes a)) basis = Raise TypeError).
Proof. exact C75_too_few_axes_lm. Qed.
Print Assumptions C75_too_few_axes.

Example C75_few_case : autopsf 0 (Some (OneAxes 4)) [true; false] = Raise TypeError /\
  autopsf 0 (Some (ManyAxes 1 [4])) [true; false] = Raise ValueError.
Proof. vm_compute. split; reflexivity. Qed.
