(** What a coadd is, said without the model's accumulation code. *)
From Coq Require Import Arith ZArith List Bool Reals.
From Coquelicot Require Import Complex.
From Verif.Model Require Import Py Plane Ma Coadd.
Import ListNotations.

(** Sum of a quantity over a list. *)
Definition total {A} (f : A -> C) (l : list A) : C := fold_right (fun a s => Cplus (f a) s) (RtoC 0) l.

(** [m] flags exactly the cells (of a frame of shape [sh]) flagged in one of the masks,
    and is [nomask] when there is none. *)
Definition is_union {A} (mk : A -> mask) (l : list A) (sh : nat * nat) (m : mask) : Prop :=
  (forall i j, i < fst sh -> j < snd sh ->
     (masked_at m i j = true <-> exists a, In a l /\ masked_at (mk a) i j = true)) /\
  (m = Nomask <-> forall a i j, In a l -> i < fst sh -> j < snd sh -> masked_at (mk a) i j = false) /\
  match m with Nomask => True | Full p => shape p = sh end.

(** Equality of masks and of results (coadd image, PSF, mask). *)
Definition mask_eq (m1 m2 : mask) : Prop :=
  match m1, m2 with
  | Nomask, Nomask => True
  | Full p, Full q => plane_eq p q
  | _, _ => False
  end.

Definition result_eq (r1 r2 : plane C * plane C * mask) : Prop :=
  match r1, r2 with
  | (R1, P1, M1), (R2, P2, M2) => plane_eq R1 R2 /\ plane_eq P1 P2 /\ mask_eq M1 M2
  end.

(** The images can be added: one shape, masks of that shape (or nomask), and no image is
    in the middle of filling its cache (when _s_hat_comp is there so is _s_hat_inf_loss). *)
Definition images_fit (h : heap) (ids : list nat) (sh : nat * nat) : Prop :=
  forall i, In i ids -> si_shape (h i) = sh /\
    match si_mask (h i) with Nomask => True | Full p => shape p = sh end /\
    (si_shat (h i) <> None -> si_shat_loss (h i) <> None).

(** A schedule in which each task gets enough steps. *)
Definition fair (sched : list nat) (tasks steps : nat) : Prop :=
  forall k, k < tasks -> steps <= count_occ Nat.eq_dec sched k.

(** Limits of a run: sequential, or distinct images, fewer than 2^52 of them and of
    workers, and enough fuel for the loop of chunk_it. *)
Definition run_limits (fuel : nat) (ids : list nat) (n : Z) : Prop :=
  (n <= 1)%Z \/ ((n <= 2 ^ 52)%Z /\ (Z.of_nat (length ids) < 2 ^ 52)%Z /\
                 5 * Z.to_nat n + 1 <= fuel /\ NoDup ids).

(** The caller's list [l'] after the call, [l] being the list before: images stay where
    they are; anything else is replaced by a new image (identity not below [nxt]) until the
    first one from which no image can be built, which stays, and so does all that follows. *)
Definition list_after {A} (built : nat -> option A) (nxt : nat) (l l' : list item) : Prop :=
  length l' = length l /\
  (forall k i, nth_error l k = Some (Img i) -> nth_error l' k = Some (Img i)) /\
  (forall k r, nth_error l k = Some (Other r) ->
     (forall k' r', k' <= k -> nth_error l k' = Some (Other r') -> built r' <> None) ->
     exists i, nxt <= i /\ nth_error l' k = Some (Img i)) /\
  (forall k r k' r', nth_error l k = Some (Other r) -> k' <= k -> nth_error l k' = Some (Other r') ->
     built r' = None -> nth_error l' k = Some (Other r)).

(** The image built from something that is not an image, if it can be built. *)
Definition built (mk : nat -> res simg) (r : nat) : option simg :=
  match mk r with Ok x => Some x | Raise _ => None end.

(** What an image with zero point [z] adds to the filtered sum: what it has from before for
    this inf_loss, or zp / var^2 times its filtered image. *)
Definition contribution (x : simg) (loss z : R) (r c : nat) : C :=
  match si_shat x, si_shat_loss x with
  | Some v, Some l => if Req_EM_T l loss then v r c else (RtoC (z / si_var x ^ 2) * si_base x loss r c)%C
  | _, _ => (RtoC (z / si_var x ^ 2) * si_base x loss r c)%C
  end.
