(** A convolution that meets the expectations, and two small images. *)
From Coq Require Import ZArith List Bool Arith Reals Lia Lra.
From Verif.Model Require Import Py Plane Interp.
From Verif.Spec Require Import Interp.
Import ListNotations.
Local Open Scope R_scope.

Definition near_number (a : plane (option R)) (i j : nat) : bool :=
  existsb (fun c => (fst c <=? S i) && (i <=? S (fst c)) && (snd c <=? S j) && (j <=? S (snd c)) &&
                    negb (is_nan (px a (fst c) (snd c))))
    (list_prod (seq 0 (nr a)) (seq 0 (nc a))).

(** Gives 7 next to a number, nan elsewhere. *)
Definition sevens (a : plane (option R)) : plane (option R) :=
  mkplane (nr a) (nc a) (fun i j => if near_number a i j then Some 7 else None).

Lemma near_number_true a i j : near_number a i j = true <->
  exists i' j', (i' < nr a)%nat /\ (j' < nc a)%nat /\ touching i j i' j' /\ px a i' j' <> None.
Proof.
  unfold near_number, touching. rewrite existsb_exists. split.
  - intros ((i' & j') & Hin & T). apply in_prod_iff in Hin. rewrite !in_seq in Hin. cbn [fst snd] in T.
    rewrite !andb_true_iff, !Nat.leb_le in T. exists i', j'.
    destruct (px a i' j'); cbn in T; [|destruct T as [_ T]; discriminate]. repeat split; try lia. discriminate.
  - intros (i' & j' & Hi & Hj & T & N). exists (i', j'). split.
    + apply in_prod_iff. rewrite !in_seq. lia.
    + cbn [fst snd]. rewrite !andb_true_iff, !Nat.leb_le.
      destruct (px a i' j'); [cbn; repeat split; lia|congruence].
Qed.

Lemma sevens_spreads : spreads sevens.
Proof.
  intros a. split; [reflexivity|]. intros i j i' j' Hi Hj Hi' Hj' T N. cbn [px sevens].
  rewrite (proj2 (near_number_true a i j)); [discriminate|]. exists i', j'. auto.
Qed.

Lemma sevens_keeps_nothing : keeps_nothing sevens.
Proof.
  intros a H i j _ _. cbn [px sevens]. destruct (near_number a i j) eqn:E; [|reflexivity].
  apply near_number_true in E. destruct E as (i' & j' & Hi & Hj & _ & N). now rewrite H in N.
Qed.

(** A 1x3 image: 10, a masked pixel, nan; and one with everything masked. *)
Definition strip : mimg :=
  mkmimg (mkplane 1 3 (fun _ j => match j with 0%nat => Some 10 | 1%nat => Some 50 | _ => None end))
         (mkplane 1 3 (fun _ j => Nat.eqb j 1)).
Definition dead : mimg := mkmimg (mkplane 1 3 (fun _ _ => Some 10)) (mkplane 1 3 (fun _ _ => true)).
Definition cosmic_everywhere (a : mimg) : plane bool := pmap (fun _ => true) (m_msk a).

Lemma strip_good : good strip 0 0.
Proof. repeat split; cbn; try lia. discriminate. Qed.

Lemma dead_bad i j : ~ good dead i j.
Proof. intros (_ & _ & M & _). discriminate. Qed.
