(** The brightest cell of an array. *)
From Coq Require Import Arith List Bool Reals Lia Lra Sorted.
From Verif.Model Require Import Py Plane Subtract.
Import ListNotations.
Local Open Scope R_scope.
Set Bullet Behavior "Strict Subproofs".

Definition before (a b : nat * nat) : Prop := (fst a < fst b \/ (fst a = fst b /\ snd a < snd b))%nat.

Lemma sorted_app {A} (R : A -> A -> Prop) l m : StronglySorted R l -> StronglySorted R m ->
  (forall a b, In a l -> In b m -> R a b) -> StronglySorted R (l ++ m).
Proof.
  intros Hl Hm H. induction Hl as [|a l Sl IH Fa]; cbn; [exact Hm|].
  constructor.
  - apply IH. intros x y Hx Hy. apply H; cbn; auto.
  - apply Forall_app. split; [exact Fa|]. apply Forall_forall. intros y Hy. apply H; cbn; auto.
Qed.

Lemma sorted_row i M : forall s, StronglySorted before (map (fun j => (i, j)) (seq s M)).
Proof.
  induction M as [|M IH]; intros s; cbn; [constructor|]. constructor; [apply IH|].
  apply Forall_forall. intros x Hx. apply in_map_iff in Hx. destruct Hx as [j [<- Hj]]. apply in_seq in Hj.
  right. cbn. lia.
Qed.

Lemma sorted_prod N M : forall s, StronglySorted before (list_prod (seq s N) (seq 0 M)).
Proof.
  induction N as [|N IH]; intros s; cbn; [constructor|].
  apply sorted_app; [apply sorted_row|apply IH|].
  intros a b Ha Hb. apply in_map_iff in Ha. destruct Ha as [j [<- _]].
  destruct b as [i' j']. apply in_prod_iff in Hb. destruct Hb as [Hb _]. apply in_seq in Hb. left. cbn. lia.
Qed.

Section Peak.
Variable p : plane R.
Let v (ij : nat * nat) : R := px p (fst ij) (snd ij).

Lemma fold_peak : forall l pre mid b, (forall a, In a pre -> v a < v b) -> (forall a, In a mid -> v a <= v b) ->
  exists r l1 l2, fold_left (fun best ij => if Rlt_dec (px p (fst best) (snd best)) (px p (fst ij) (snd ij)) then ij else best) l b = r /\
    pre ++ b :: mid ++ l = l1 ++ r :: l2 /\ (forall a, In a l1 -> v a < v r) /\ (forall a, In a l2 -> v a <= v r).
Proof.
  induction l as [|x l IH]; intros pre mid b Hp Hm; cbn [fold_left].
  - exists b, pre, mid. rewrite app_nil_r. auto.
  - fold (v b). fold (v x). destruct (Rlt_dec (v b) (v x)) as [L|L].
    + destruct (IH (pre ++ b :: mid) [] x) as (r & l1 & l2 & E & Es & H1 & H2).
      * intros a Ha. apply in_app_iff in Ha. destruct Ha as [Ha|[<-|Ha]]; [specialize (Hp a Ha); lra|exact L|specialize (Hm a Ha); lra].
      * intros a [].
      * exists r, l1, l2. split; [exact E|]. split; [|auto]. rewrite <- Es. rewrite <- app_assoc. reflexivity.
    + destruct (IH pre (mid ++ [x]) b) as (r & l1 & l2 & E & Es & H1 & H2).
      * exact Hp.
      * intros a Ha. apply in_app_iff in Ha. destruct Ha as [Ha|[<-|[]]]; [auto|lra].
      * exists r, l1, l2. split; [exact E|]. split; [|auto]. rewrite <- Es. rewrite <- !app_assoc. reflexivity.
Qed.

Lemma peak_first : (0 < nr p)%nat -> (0 < nc p)%nat ->
  (fst (peak p) < nr p)%nat /\ (snd (peak p) < nc p)%nat /\
  (forall i j, (i < nr p)%nat -> (j < nc p)%nat -> px p i j <= px p (fst (peak p)) (snd (peak p))) /\
  (forall i j, (i < nr p)%nat -> (j < nc p)%nat -> before (i, j) (peak p) -> px p i j < px p (fst (peak p)) (snd (peak p))).
Proof.
  intros HN HM. unfold peak. pose proof (sorted_prod (nr p) (nc p) 0) as Ss.
  assert (forall i j, In (i, j) (list_prod (seq 0 (nr p)) (seq 0 (nc p))) <-> (i < nr p)%nat /\ (j < nc p)%nat) as Hin.
  { intros i j. rewrite in_prod_iff, !in_seq. lia. }
  assert (exists rest, list_prod (seq 0 (nr p)) (seq 0 (nc p)) = (0%nat, 0%nat) :: rest) as [rest Er].
  { destruct (nr p) as [|N]; [lia|]. destruct (nc p) as [|M]; [lia|]. cbn. eauto. }
  rewrite Er in *. cbn [fold_left].
  match goal with |- context [Rlt_dec ?a ?b] => destruct (Rlt_dec a b) as [L|_]; [lra|] end.
  destruct (fold_peak rest [] [] (0%nat, 0%nat)) as (r & l1 & l2 & E & Es & H1 & H2).
  1,2: intros a [].
  rewrite E. cbn [app] in Es.
  rewrite Es in Ss, Hin. clear E Es Er rest.
  destruct r as [kx ky]. cbn [fst snd].
  assert ((kx < nr p)%nat /\ (ky < nc p)%nat) as [K1 K2].
  { apply Hin. apply in_app_iff. right. left. reflexivity. }
  split; [exact K1|]. split; [exact K2|].
  assert (forall l1', StronglySorted before (l1' ++ (kx, ky) :: l2) -> Forall (before (kx, ky)) l2) as Hl2.
  { induction l1' as [|a l1' IH]; intros S; inversion S; subst; auto. }
  apply Hl2 in Ss. rewrite Forall_forall in Ss.
  split.
  - intros i j Hi Hj. assert (In (i, j) (l1 ++ (kx, ky) :: l2)) as Ha by (apply Hin; auto).
    apply in_app_iff in Ha. destruct Ha as [Ha|[Ha|Ha]].
    + left. apply (H1 _ Ha).
    + injection Ha as <- <-. right. reflexivity.
    + apply (H2 _ Ha).
  - intros i j Hi Hj Hb. assert (In (i, j) (l1 ++ (kx, ky) :: l2)) as Ha by (apply Hin; auto).
    apply in_app_iff in Ha. destruct Ha as [Ha|[Ha|Ha]].
    + apply (H1 _ Ha).
    + injection Ha as <- <-. unfold before in Hb. cbn in Hb. lia.
    + specialize (Ss _ Ha). unfold before in Hb, Ss. cbn in Hb, Ss. lia.
Qed.
End Peak.
