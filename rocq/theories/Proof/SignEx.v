(** Two stars for the statement on the signs of the elements. *)
From Coq Require Import ZArith List Bool Arith Reals Lia Lra.
From Verif.Model Require Import Py Plane Sources Session KL.
From Verif.Spec Require Import KL Session Order.
From Verif.Proof Require Import KL KLMain Session SessionFrame SessionMain SessionLm SessionExample Order OrderMain OrderSign OrderEx.
Import ListNotations.
Local Open Scope R_scope.
Set Bullet Behavior "Strict Subproofs".

Lemma C109_element_case_lm :
  lib_ok found /\ new_image found (1, 1)%nat (fresh _ _ _ (1, 1)%nat None) /\
  stamps_of _ _ _ found (1, 1)%nat = Ok ([row; col], [(0, 0); (1, 0)]) /\
  smooth found = None /\ fair_fit (fit found) [(0, 0); (1, 0)] /\
  exists fs b, fst (get_variable_psf found (Some 0) None (exec_all found [] (fresh _ _ _ (1, 1)%nat None))) = Ok (Fields fs, b) /\
    length b = 2%nat.
Proof.
  split; [exact found_ok|]. split; [now left|]. do 2 (split; [reflexivity|]). split; [apply total_fair|].
  destruct found_psf as ((fl & b) & E & Len). cbn [snd] in Len.
  assert (X : exists fs, fl = Fields fs).
  { rewrite (psf_for_from found (1, 1)%nat 0 [row; col] [(0, 0); (1, 0)]) in E by reflexivity. unfold psf_from in E.
    cbn [combine map fst snd] in E. destruct (KL.kl_basis _ _ _ _ _) as [q|x]; [|discriminate]. cbn [bind] in E.
    destruct (Nat.eqb_spec (length q) 1) as [Q|Q].
    - injection E as <- <-. lia.
    - cbn in E. injection E as <- <-. now eexists. }
  destruct X as (fs & ->). exists fs, b. split; [|exact Len].
  rewrite (proj1 (C39_history_lm _ _ _ found (1, 1)%nat _ [] found_ok (or_introl eq_refl) (Forall_nil _)) 0) by lra. exact E.
Qed.
