(** A small set of stamps with a known spectrum. *)
From Coq Require Import ZArith List Bool Arith Reals Lia Lra.
From Verif.Model Require Import Py Plane KL.
From Verif.Spec Require Import KL.
From Verif.Proof Require Import KL KLMain.
Import ListNotations.
Local Open Scope R_scope.

Definition row4 (a b c d : R) : plane R :=
  mkplane 1 4 (fun _ j => match j with 0%nat => a | 1%nat => b | 2%nat => c | _ => d end).

(** Three uncorrelated stamps of 1x4 cells. *)
Definition trio : list (plane R) := [row4 2 0 1 1; row4 1 1 2 0; row4 2 2 0 0].
Definition trio_eig : list R * (nat -> nat -> R) := ([2 / 3; 2 / 3; 4 / 3], delta).

Lemma trio_cov : exists c, cov_matrix (1, 4)%nat trio = Ok c /\
  forall i j, (i < 3)%nat -> (j < 3)%nat -> c i j = nth i (fst trio_eig) 0 * delta i j.
Proof.
  eexists. split; [reflexivity|]. intros i j Hi Hj.
  destruct i as [|[|[|i]]]; [| | |lia];
    (destruct j as [|[|[|j]]]; [| | |lia]); cbn; unfold np_cov, delta; cbn; field.
Qed.

Lemma trio_eigh_ok c : cov_matrix (1, 4)%nat trio = Ok c -> eigh_ok (length trio) c trio_eig.
Proof.
  intros H. destruct trio_cov as (c' & E & C). rewrite H in E. injection E as <-.
  change (length trio) with 3%nat. unfold eigh_ok.
  split; [reflexivity|]. split.
  { intros i j [Hi Hj]. destruct i as [|[|[|i]]]; [| | |lia];
      (destruct j as [|[|[|j]]]; [| | |lia]); cbn; try lra; lia. }
  split; [intros k l Hk Hl|split; [intros k l Hk Hl|intros i k Hi Hk]].
  - destruct k as [|[|[|k]]]; [| | |lia]; (destruct l as [|[|[|l]]]; [| | |lia]); cbn; ring.
  - destruct k as [|[|[|k]]]; [| | |lia]; (destruct l as [|[|[|l]]]; [| | |lia]); cbn; ring.
  - cbn [sumn]. rewrite !C by lia. destruct i as [|[|[|i]]]; [| | |lia];
      (destruct k as [|[|[|k]]]; [| | |lia]); cbn; ring.
Qed.

Lemma trio_total : sum_abs (fst trio_eig) = 8 / 3.
Proof. cbn. rewrite !Rabs_pos_eq by lra. field. Qed.

Lemma trio_cut : kl_cut (3 / 10) (fst trio_eig) = 2%nat.
Proof.
  unfold kl_cut. rewrite trio_total. destruct (Req_EM_T (8 / 3) 0); [lra|].
  cbn [trio_eig fst rev app map cut_loop]. rewrite !Rabs_pos_eq by lra.
  destruct (Rlt_dec (3 / 10) (1 - 4 / 3 / (8 / 3))) as [_|B].
  - destruct (Rlt_dec (3 / 10) (1 - 4 / 3 / (8 / 3) - 2 / 3 / (8 / 3))) as [B|_]; [|reflexivity].
    exfalso. replace (1 - 4 / 3 / (8 / 3) - 2 / 3 / (8 / 3)) with (1 / 4) in B by field. lra.
  - exfalso. apply B. replace (1 - 4 / 3 / (8 / 3)) with (1 / 2) by field. lra.
Qed.
