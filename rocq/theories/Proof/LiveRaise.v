(** A first extraction that raises. *)
From Coq Require Import ZArith List Bool Arith Reals Lia.
From Verif.Model Require Import Py Plane Sources KL Session Live.
From Verif.Proof Require Import Session SessionLm Live.
Import ListNotations.
Set Bullet Behavior "Strict Subproofs".
Local Open Scope R_scope.

Section Raises.
Variables PIC NI FT IM : Type.
Variable L : llib PIC NI FT IM.
(** When the first extraction raises, so does the computation of the coefficients. *)
Lemma fields_raises p0 sh0 cat p' st e s l u : before NI FT IM sh0 cat s -> best s = Some cat ->
  cutting L p0 sh0 cat = (p', (st, Raise e)) ->
  exists x', l_setup_kl_a_fields _ _ _ _ L (Some l) u (p0, s) = (Raise e, x').
Proof.
  intros (A & B & _ & D & E1 & E2 & E3 & E4 & E5 & _) Bs Cu.
  set (s1 := set_inf_loss l s).
  assert (S : exists x', l_stamps_pos _ _ _ _ L (p0, s1) = (Raise e, x')).
  { unfold l_stamps_pos, reshaped. cbn [fst snd]. change (req_shape s1) with (req_shape s). change (pos s1) with (pos s). rewrite A, D.
    unfold lbind, l_best_sources, best_sources, lget, lupd, lraise. cbn [fst snd].
    change (best (set_db NI FT IM (Some []) s1)) with (best s). rewrite Bs. cbn [fst snd].
    change (stamp_shape (set_db NI FT IM (Some []) s1)) with (stamp_shape s). rewrite B, Cu. eexists. reflexivity. }
  destruct S as (x1 & S).
  assert (N : l_n_sources _ _ _ _ L (p0, s1) = (Raise e, x1)).
  { unfold l_n_sources. cbn [snd]. change (nsrc s1) with (nsrc s). rewrite E1. unfold lbind at 1. now rewrite S. }
  assert (C : l_cov_matrix _ _ _ _ L (p0, s1) = (Raise e, x1)).
  { unfold l_cov_matrix. cbn [snd]. change (cov s1) with (cov s). rewrite E2. unfold lbind at 1. now rewrite N. }
  assert (G : l_eigenv _ _ _ _ L (p0, s1) = (Raise e, x1)).
  { unfold l_eigenv. cbn [snd]. change (eig s1) with (eig s). rewrite E3. unfold lbind at 1. now rewrite C. }
  exists x1. unfold l_setup_kl_a_fields. cbn [snd]. rewrite E5. cbn [orb].
  unfold lbind at 1. unfold lbind at 1, l_setup_kl_basis at 1. cbn [snd]. rewrite E4. cbn [orb].
  unfold lbind at 1, lupd at 1. cbn [fst snd]. fold s1. unfold lbind at 1. now rewrite G.
Qed.
End Raises.
