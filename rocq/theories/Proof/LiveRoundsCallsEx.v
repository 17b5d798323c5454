(** Calls between two subtractions of the images with stripes. *)
From Coq Require Import ZArith List Bool Arith Reals Lia Lra Permutation.
From Coquelicot Require Import Complex.
From Verif.Model Require Import Py Plane Ma Image Interp FindS Sources Stamps Cut KL Session Filter Transparency Subtract Chain Again CutChain Live LiveSub LiveRounds.
From Verif.Spec Require Import Image Stamps Chain Session Uses Cut CutCoadd Live LiveMore LiveRounds.
From Verif.Proof Require Import Coadd Stamps StampsExample Session SessionLm Chain ChainMain ChainUnits ChainExample Uses UsesEx UsesCoaddEx CutIntact CutEx CutChain CutChainLeft CutCoaddEx CutUses CutUsesEx Live LiveMain LiveSub LiveSubEx LiveMore LiveRounds LiveRoundsEx.
Import ListNotations.
Set Bullet Behavior "Strict Subproofs".
Local Open Scope R_scope.

Lemma C142_calls_case_lm : exists x c ex A hs hs1 D hs2,
  let rs := [Calls [CSHat; CUpdateSources (Some [mid])] [CStampsPos]] in
  let pre := [CBestSources] in
  let pre' := [CBestSources; CGetPSF (Some (1 / 2)) None] in
  build striped 1 schosen sdata = Some (Ok x) /\ fst (best_sources (bu_lib x) (bu_attr x)) = Ok c /\
  snd (first_cut striped schosen x c) = Ok ex /\ (forall r, Permutation (l_sort striped r) r) /\
  (forall n c, length (fst (l_eigh striped n c)) = n) /\ Forall plain pre /\ Forall plain pre' /\
  stamps_read (looked_at (bu_attr x)) pre = false /\ stamps_read (looked_at (bu_attr x)) pre' = true /\
  subtract_held striped schosen schosen (2 / 10) false false false x x
    ((lived striped schosen pre x, None), (lived striped schosen pre' x, None)) = Ok (A, hs) /\
  Forall usual rs /\ play_all striped schosen schosen x x rs hs = Ok hs1 /\
  subtract_held striped schosen schosen (2 / 10) false false false x x hs1 = Ok (D, hs2) /\
  Forall plain [CSHat; CSetZp 3; CGetPSF (Some (1 / 2)) None] /\ Forall plain [CStampsPos; CBasis] /\
  ~ In (CUpdateSources None) [CSHat; CSetZp 3; CGetPSF (Some (1 / 2)) None] /\ ~ In (CUpdateSources None) [CStampsPos; CBasis].
Proof.
  destruct C142_subtract_case_lm as (x & c & ex & A & hs & hs1 & D & hs2 & H1 & H2 & H3 & H4 & H5 & H6 & H7 & H8 & H9 & H10 & H11 & H12 & H13).
  exists x, c, ex, A, hs, hs1, D, hs2. cbv zeta. repeat (split; [assumption|]).
  split; [repeat constructor; lra|]. split; [repeat constructor|].
  split; intros I; repeat (destruct I as [I|I]; [discriminate|]); exact I.
Qed.
