(** C111: the stars and the loss behind the PSF of a subtraction. *)
From Coq Require Import ZArith List Bool Arith Reals Lia Lra Permutation.
From Coquelicot Require Import Complex.
From Verif.Model Require Import Py Plane Ma Interp Subtract Sources Stamps Filter Transparency KL Session Chain.
From Verif.Spec Require Import Session Transparency Uses.
From Verif.Proof Require Import Session SessionLm SessionExample Uses UsesEx.
Import ListNotations.
Local Open Scope R_scope.

(** A list of stars given to an image decides its PSF, for every loss and whatever is asked
    afterwards, as long as no stamps were asked for before; then it decides nothing. *)
Theorem C111_given : forall NI FT IM (L : lib NI FT IM) sh s0 cs stars cs' l sp,
  lib_ok L -> new_image L sh s0 -> stamps_of _ _ _ L sh = Ok sp ->
  Forall plain cs -> Forall plain cs' -> Forall no_new_sources cs' -> 0 <= l ->
  fst (update_sources L (Some stars) (exec_all L cs s0)) = Ok tt ->
  fst (get_variable_psf L (Some l) None (exec_all L (cs ++ CUpdateSources (Some stars) :: cs') s0)) =
  if stamps_read (looked_at s0) cs then psf_for L sh l else psf_for (given L stars) sh l.
Proof. exact C111_given_lm. Qed.
Print Assumptions C111_given.

Example C111_given_case : exists f p t f' p' t',
  fst (get_variable_psf shown (Some (2 / 10)) None
         (exec_all shown ([CBestSources] ++ CUpdateSources (Some [star 1; star 2]) :: []) dnew)) = Ok (f, p :: t) /\
  px p 0 0 = Some 2 /\
  fst (get_variable_psf shown (Some (2 / 10)) None
         (exec_all shown ([CBestSources; CGetPSF (Some (1 / 10)) None] ++ CUpdateSources (Some [star 1; star 2]) :: []) dnew)) = Ok (f', p' :: t') /\
  px p' 0 0 = Some 50.
Proof. exact C111_given_case_lm. Qed.

(** What a subtraction uses. *)
Theorem C111_subtract : forall W fuel o o' d d' x y cs cs' l beta shift iterative sp sp' D P S m,
  (forall n c, length (fst (l_eigh W n c)) = n) -> (forall r, Permutation (l_sort W r) r) ->
  build W fuel o d = Some (Ok x) -> build W fuel o' d' = Some (Ok y) -> 0 <= l ->
  stamps_of _ _ _ (bu_lib x) (stamp_shape (bu_attr x)) = Ok sp ->
  stamps_of _ _ _ (bu_lib y) (stamp_shape (bu_attr y)) = Ok sp' ->
  Forall plain cs -> Forall plain cs' ->
  subtract_built W l beta shift iterative (after cs x) (after cs' y) = Ok (D, P, S, m) ->
  exists cr cn left left' t e u v,
    fst (best_sources (bu_lib x) (bu_attr (after cs x))) = Ok cr /\
    fst (best_sources (bu_lib y) (bu_attr (after cs' y))) = Ok cn /\
    transparency (l_query W) (l_sort W) (l_lsqr W)
      [mkcat false false (map row_of cr); mkcat false false (map row_of cn)] None = Ok t /\
    map spot left = map spot cr /\ Permutation (map spot left') (map spot cn) /\
    reads l x cs left u /\ reads l y cs' left' v /\
    e_transp e u v = Ok (nth 0 (zps t) 0, nth 1 (zps t) 0) /\ e_back e = l_back W /\ e_solve e = l_solve W /\
    subtract e (Is u) (Is v) false beta shift iterative false = Ok (D, P, S, m).
Proof. exact C111_subtract_lm. Qed.
Print Assumptions C111_subtract.

Example C111_subtract_case : exists x D P S m,
  build striped 1 schosen sdata = Some (Ok x) /\ (exists sp, stamps_of _ _ _ (bu_lib x) (stamp_shape (bu_attr x)) = Ok sp) /\ Forall plain [CBestSources] /\ Forall plain [CBestSources; CGetPSF (Some (1 / 2)) None] /\ (forall r, Permutation (l_sort striped r) r) /\ (forall n c, length (fst (l_eigh striped n c)) = n) /\ subtract_built striped (2 / 10) false false false (after [CBestSources] x)
    (after [CBestSources; CGetPSF (Some (1 / 2)) None] x) = Ok (D, P, S, m) /\ stamps_read (looked_at (bu_attr x)) [CBestSources] = false /\ stamps_read (looked_at (bu_attr x)) [CBestSources; CGetPSF (Some (1 / 2)) None] = true.
Proof. exact C111_subtract_case_lm. Qed.
