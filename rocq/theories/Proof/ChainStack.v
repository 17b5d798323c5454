(** The size of sep's pixel stack, shared by all images of a process. *)
From Coq Require Import ZArith List Bool Arith Reals Lia Lra.
From Verif.Model Require Import Py Plane Ma Image Interp Sources Session Subtract Chain.
From Verif.Spec Require Import Chain.
Import ListNotations.
Set Bullet Behavior "Strict Subproofs".
Local Open Scope R_scope.

(** Whatever was done before, the pixel stack has the size it had or one of two others. *)
Lemma C96_sizes_lm : forall W stack l,
  let st := stack_run W stack l in st = stack \/ st = 3600000%Z \/ st = 900000%Z.
Proof.
  intros W stack l. cbv zeta. unfold stack_run. revert stack.
  induction l as [|[[d b] mn] t IH]; intros stack; cbn [fold_left]; [now left|].
  set (s := stack_after stack (attempts_of W stack d b) mn).
  assert (H : s = stack \/ s = 3600000%Z \/ s = 900000%Z).
  { unfold s, stack_after. generalize (attempts_of W stack d b). intros a.
    destruct (failed (at_default a)); destruct (orelse _ _) as [srcs|e]; auto;
      destruct ((Z.of_nat (length srcs) <? mn)%Z && failed (at_low5 a)); auto. }
  destruct (IH s) as [E|[E|E]]; rewrite E; auto.
Qed.

(** An image for which the first stack is large enough, for the bright sources and, if they
    are too few, for the faint ones, has the same sources whatever images were looked at
    before it. *)
Lemma C96_enough_lm : forall W d b mn l srcs, stack_only_overflows W ->
  at_default (attempts_of W 300000 d b) = Ok srcs ->
  ((Z.of_nat (length srcs) < mn)%Z -> exists low, at_low5 (attempts_of W 300000 d b) = Ok low) ->
  catalogue W (stack_run W 300000 l) mn d b = catalogue W 300000 mn d b.
Proof.
  intros W d b mn l srcs (need & answer & E) D L.
  set (st := stack_run W 300000 l).
  assert (G : (300000 <= st)%Z).
  { destruct (C96_sizes_lm W 300000 l) as [H|[H|H]]; fold st in H; lia. }
  assert (A : forall p t m n r, l_extract W 300000 p t m n = Ok r -> l_extract W st p t m n = Ok r).
  { intros p t m n r H. rewrite !E in *. destruct (Z.leb_spec (need p t m n) 300000) as [X|X]; [|discriminate].
    destruct (Z.leb_spec (need p t m n) st) as [Y|Y]; [exact H|lia]. }
  unfold catalogue, Sources.best_sources. f_equal. unfold attempts_of in *. cbn [at_default at_low5] in D, L.
  pose proof (A _ _ _ _ _ D) as D'. rewrite D in *. rewrite D' in *. cbn [failed] in *. unfold detect.
  cbn [at_default at_high at_low5 at_low9 orelse bind].
  destruct (Z.ltb_spec (Z.of_nat (length srcs)) mn) as [H|H]; [|reflexivity].
  destruct (L H) as (low & Hl). rewrite Hl, (A _ _ _ _ _ Hl). reflexivity.
Qed.

Definition fill (n : nat) : list src := repeat (mksrc 0 0 9 1 0) n.

(** A library for the example: sources are counted by area; one image needs more than the
    first stack at once, another only for its faintest sources. *)
Definition stub : libs :=
  mklibs (fun _ _ => Raise ValueError)
    (fun stack p t m n =>
       let need := if Nat.eqb (nc p) 1 then 1000000%Z else if Nat.eqb n 5 then 400000%Z else 0%Z in
       if (need <=? stack)%Z then Ok (fill (if Nat.eqb n 5 then 3 else 2)) else Raise ValueError)
    (fun p => p) (fun d => m_msk d) (fun _ => []) (fun _ => (0, 0, 0)) (fun p => (pmap (fun _ => 0%nat) p, 0%nat))
    (fun _ _ => ([], fun _ _ => 0)) None (fun _ _ _ _ => 0) (fun _ _ _ => mkplane 0 0 (fun _ _ => 0))
    (fun _ _ _ => []) (fun l => l) (fun _ _ _ _ => []) (fun p => p)
    (mksolvers (fun _ _ _ _ => Raise ValueError) (fun _ lo _ => (false, lo))).

Definition grey (cols : nat) : mimg :=
  mkmimg (mkplane 1 cols (fun _ _ => Some 1)) (mkplane 1 cols (fun _ _ => false)).
Definition dark : backobj := mkbackobj (mkplane 1 1 (fun _ _ => 0)) 1.

Lemma stub_overflows : stack_only_overflows stub.
Proof.
  exists (fun p _ _ n => if Nat.eqb (nc p) 1 then 1000000%Z else if Nat.eqb n 5 then 400000%Z else 0%Z),
         (fun _ _ _ n => Ok (fill (if Nat.eqb n 5 then 3 else 2))).
  reflexivity.
Qed.

Lemma filter_len {A} (f : A -> bool) l : (length (filter f l) <= length l)%nat.
Proof. induction l as [|x t IH]; [auto|]. cbn. destruct (f x); cbn; lia. Qed.

Lemma select_few choice l : (length l < 5)%nat -> Sources.select choice l = l.
Proof.
  intros H. unfold Sources.select.
  assert (X : (length (filter (Sources.good l) l) <= length l)%nat) by apply filter_len.
  replace (length (filter (Sources.good l) l) <? 5)%nat with true by (symmetry; apply Nat.ltb_lt; lia).
  replace (MAX_SRCS_LIMIT <? length l)%nat with false; [reflexivity|].
  symmetry. apply Nat.ltb_ge. assert (5 <= MAX_SRCS_LIMIT)%nat by (apply Nat.leb_le; vm_compute; reflexivity). lia.
Qed.

(** Otherwise the sources of an image depend on what the process did before it was looked
    at. *)
Lemma C96_history_refuted_lm : exists W d d' b mn, stack_only_overflows W /\
  exists l l', catalogue W (stack_run W 300000 []) mn d b = Ok l /\
    catalogue W (stack_run W 300000 [(d', b, mn)]) mn d b = Ok l' /\ length l <> length l'.
Proof.
  exists stub, (grey 2), (grey 1), dark, 30%Z. split; [exact stub_overflows|].
  exists (fill 2), (fill 3). split; [|split; [|discriminate]].
  - unfold catalogue, Sources.best_sources. change (detect _ 30) with (Ok (fill 2)). cbn [bind].
    rewrite select_few; [reflexivity|cbn; lia].
  - unfold catalogue, Sources.best_sources. change (detect _ 30) with (Ok (fill 3)). cbn [bind].
    rewrite select_few; [reflexivity|cbn; lia].
Qed.

(** The sources of an image and the pixel stack it leaves behind are those of the search. *)
Lemma C96_search_lm : forall W stack mn d b,
  exists r, searched (fun st k minarea => l_extract W st (sub_data d b) (k * b_rms b) (m_msk d) minarea) mn stack
              r (stack_after stack (attempts_of W stack d b) mn) /\
    (forall e, r = Raise e -> catalogue W stack mn d b = Raise e) /\
    (forall l, r = Ok l -> (length l < 2)%nat -> catalogue W stack mn d b = Raise ValueError) /\
    (forall l, r = Ok l -> (2 <= length l)%nat -> catalogue W stack mn d b = Ok (Sources.select (l_choice W) l)).
Proof.
  intros W stack mn d b.
  set (ex := fun st k minarea => l_extract W st (sub_data d b) (k * b_rms b) (m_msk d) minarea).
  assert (catalogue W stack mn d b = bind (detect (attempts_of W stack d b) mn) (fun srcs => Ok (Sources.select (l_choice W) srcs))) as -> by reflexivity.
  unfold attempts_of, thresh_default, thresh_high, thresh_low. fold (ex stack 8 9%nat) (ex 3600000%Z 35 9%nat) (ex 900000%Z 3 9%nat).
  set (st := if failed (ex stack 8 9%nat) then 3600000%Z else stack).
  assert (bright ex stack (orelse (ex stack 8 9%nat) (ex 3600000%Z 35 9%nat)) st) as B.
  { unfold st. destruct (ex stack 8 9%nat) as [l|e] eqn:E; cbn [failed orelse]; econstructor; exact E. }
  fold (ex st 3 5%nat).
  set (st' := if failed (ex st 3 5%nat) then 900000%Z else st).
  assert (faint ex st (orelse (ex st 3 5%nat) (ex 900000%Z 3 9%nat)) st') as F.
  { unfold st'. destruct (ex st 3 5%nat) as [l|e] eqn:E; cbn [failed orelse]; econstructor; exact E. }
  unfold stack_after, detect. cbn [at_default at_high at_low5 at_low9]. fold st.
  destruct (orelse (ex stack 8 9%nat) (ex 3600000%Z 35 9%nat)) as [l|e] eqn:Eb; cbn [bind].
  2: { exists (Raise e). split; [now constructor|]. repeat split; intros; try congruence; discriminate. }
  assert (forall l0 : list src, let r := bind (match l0 with [] | [_] => Raise ValueError | _ => Ok l0 end) (fun srcs => Ok (Sources.select (l_choice W) srcs)) in
    (forall e, Ok l0 = Raise e -> r = Raise e) /\ (forall l, Ok l0 = Ok l -> (length l < 2)%nat -> r = Raise ValueError) /\
    (forall l, Ok l0 = Ok l -> (2 <= length l)%nat -> r = Ok (Sources.select (l_choice W) l))) as Hfin.
  { intros l0 r. split; [intros ? X; discriminate X|]. split; intros l1 X; injection X as <-; unfold r;
      (destruct l0 as [|? [|? ?]]; cbn [length bind]; intros; try lia; reflexivity). }
  destruct (Z.ltb_spec (Z.of_nat (length l)) mn) as [H|H]; cbn [andb bind].
  - fold st'. destruct (orelse (ex st 3 5%nat) (ex 900000%Z 3 9%nat)) as [l'|e] eqn:Ef; cbn [bind].
    + destruct (Nat.ltb_spec (length l') (length l)) as [L|L].
      * exists (Ok l). split; [eapply fewer; eassumption|]. apply Hfin.
      * exists (Ok l'). split; [eapply more; eassumption|]. apply Hfin.
    + exists (Raise e). split; [eapply no_more; eassumption|]. repeat split; intros; try congruence; discriminate.
  - exists (Ok l). split; [apply enough; assumption|]. apply Hfin.
Qed.
