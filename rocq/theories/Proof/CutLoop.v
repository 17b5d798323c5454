(** The loop over the sources, cutting in place. *)
From Coq Require Import ZArith List Bool Arith Reals Lia Lra Sorting.Sorted.
From Flocq Require Import Core.Raux.
From Verif.Model Require Import Py Plane Sources FindS Stamps Interp Cut.
From Verif.Spec Require Import FindS Stamps Cut.
From Verif.Proof Require Import FindSMain SourcesMain Stamps StampsLoop StampsMain Cut CutIntact.
Import ListNotations.
Local Open Scope R_scope.

Notation stamp := (plane (option R)).
Notation at_ := (fun s => (s_y s, s_x s)).

Lemma cut_pick stats label pk pk' im rms sh s : private_pick pk = private_pick pk' ->
  cut_one stats label pk im rms sh s = cut_one stats label pk' im rms sh s.
Proof. intros E. unfold cut_one, judge. now rewrite E. Qed.

Lemma loop_pick stats label pk pk' rms sh srcs : private_pick pk = private_pick pk' -> forall im jj pos st del,
  cut_loop stats label pk im rms sh srcs jj pos st del = cut_loop stats label pk' im rms sh srcs jj pos st del.
Proof.
  intros E. induction srcs as [|s l IH]; intros; cbn [cut_loop]; [reflexivity|].
  rewrite (cut_pick stats label pk pk') by exact E.
  destruct (cut_one stats label pk' im rms sh s) as [im' [[p|]|e]]; auto.
Qed.

(** The outcomes of the sources, each in its turn, and the images they meet. *)
Inductive turns stats label pk rms sh : plane (option R) -> list src -> list (option stamp) -> plane (option R) -> Prop :=
| no_turn im : turns stats label pk rms sh im [] [] im
| turn im s o im1 l v im2 : cut_one stats label pk im rms sh s = (im1, Ok o) ->
    turns stats label pk rms sh im1 l v im2 -> turns stats label pk rms sh im (s :: l) (o :: v) im2.

Lemma turns_len stats label pk rms sh im l v im' : turns stats label pk rms sh im l v im' -> length l = length v.
Proof. induction 1; cbn; auto. Qed.

Lemma turns_pick stats label pk pk' rms sh im l v im' : private_pick pk = private_pick pk' ->
  turns stats label pk rms sh im l v im' -> turns stats label pk' rms sh im l v im'.
Proof. intros E. induction 1; econstructor; eauto. rewrite <- H. now apply cut_pick. Qed.

Lemma loop_turns stats label pk rms sh srcs : forall im im' jj pos st del pos' st' del',
  cut_loop stats label pk im rms sh srcs jj pos st del = (im', Ok (pos', st', del')) ->
  exists v, turns stats label pk rms sh im srcs v im' /\
    pos' = pos ++ map at_ (pick srcs v) /\ st' = st ++ somes v /\ del' = del ++ dropped jj v.
Proof.
  induction srcs as [|s srcs IH]; intros im im' jj pos st del pos' st' del' H; cbn [cut_loop] in H.
  - injection H as <- <- <- <-. exists []. split; [constructor|]. cbn. now rewrite !app_nil_r.
  - destruct (cut_one stats label pk im rms sh s) as [im1 [[p|]|e]] eqn:E; [| |discriminate];
      apply IH in H; destruct H as (v & F & -> & -> & ->).
    + exists (Some p :: v). split; [econstructor; eauto|]. cbn. now rewrite <- !app_assoc.
    + exists (None :: v). split; [econstructor; eauto|]. cbn. now rewrite <- !app_assoc.
Qed.

Lemma turns_loop stats label pk rms sh im l v im' : turns stats label pk rms sh im l v im' -> forall jj pos st del,
  cut_loop stats label pk im rms sh l jj pos st del =
  (im', Ok (pos ++ map at_ (pick l v), st ++ somes v, del ++ dropped jj v)).
Proof.
  induction 1 as [im|im s o im1 l v im2 E F IH]; intros; cbn [cut_loop].
  - cbn. now rewrite !app_nil_r.
  - rewrite E. destruct o as [p|]; rewrite IH; cbn; now rewrite <- ?app_assoc.
Qed.

Lemma loop_raise stats label pk rms sh srcs : forall im im' jj pos st del e,
  cut_loop stats label pk im rms sh srcs jj pos st del = (im', Raise e) ->
  exists pre s post v mid, srcs = pre ++ s :: post /\ turns stats label pk rms sh im pre v mid /\
    cut_one stats label pk mid rms sh s = (im', Raise e).
Proof.
  induction srcs as [|s srcs IH]; intros im im' jj pos st del e H; cbn [cut_loop] in H; [discriminate|].
  destruct (cut_one stats label pk im rms sh s) as [im1 [[p|]|e']] eqn:E.
  - apply IH in H. destruct H as (pre & t & post & v & mid & -> & F & X).
    exists (s :: pre), t, post, (Some p :: v), mid. split; [reflexivity|]. split; [econstructor; eauto|exact X].
  - apply IH in H. destruct H as (pre & t & post & v & mid & -> & F & X).
    exists (s :: pre), t, post, (None :: v), mid. split; [reflexivity|]. split; [econstructor; eauto|exact X].
  - injection H as <- <-. exists [], s, srcs, [], im. split; [reflexivity|]. split; [constructor|exact E].
Qed.

Lemma turns_app stats label pk rms sh l1 : forall im l2 v im', turns stats label pk rms sh im (l1 ++ l2) v im' ->
  exists v1 v2 mid, v = v1 ++ v2 /\ turns stats label pk rms sh im l1 v1 mid /\ turns stats label pk rms sh mid l2 v2 im'.
Proof.
  induction l1 as [|s l1 IH]; intros im l2 v im' H; cbn in H.
  - exists [], v, im. split; [reflexivity|]. split; [constructor|exact H].
  - inversion H as [|? ? o im1 ? v' ? E F]; subst. destruct (IH _ _ _ _ F) as (v1 & v2 & mid & -> & A & B).
    exists (o :: v1), v2, mid. split; [reflexivity|]. split; [econstructor; eauto|exact B].
Qed.

(** The whole call. *)
Definition same_pick (n : nat) (pk : picks) : picks := if Nat.leb n 20 then mkpicks (private_pick pk) (Some false) else pk.
Lemma same_pick_eq n pk : private_pick (same_pick n pk) = private_pick pk.
Proof. unfold same_pick. destruct (Nat.leb n 20); reflexivity. Qed.

Definition result (sh : nat * nat) (pk : picks) (sources : list src) (v : list (option stamp)) : extraction :=
  mkextraction (map at_ (pick sources v)) (somes v)
    (if Nat.leb 15 (length (somes v)) then pick sources v else sources)
    (fst sh + 6, snd sh + 6)%nat (length (somes v)) (same_pick (length sources) pk).

Lemma cut_ok stats label pk im rms sh sources left ex :
  cut_stamps stats label pk im rms sh sources = (left, Ok ex) <->
  exists v, turns stats label pk rms sh im sources v left /\ ex = result sh pk sources v.
Proof.
  assert (R : forall v, length sources = length v ->
     mkextraction (map at_ (pick sources v)) (somes v)
       (if Nat.leb 15 (length sources - length (dropped 0 v)) then np_delete 0 (dropped 0 v) sources else sources)
       (fst sh + STAMP_PADSIZE, snd sh + STAMP_PADSIZE)%nat (length (map at_ (pick sources v))) (same_pick (length sources) pk)
     = result sh pk sources v).
  { intros v L. unfold result. pose proof (somes_dropped v 0) as SD.
    replace (length sources - length (dropped 0 v))%nat with (length (somes v)) by lia.
    rewrite map_length, pick_length by exact L. f_equal. destruct (Nat.leb 15 _); [|reflexivity].
    exact (np_delete_drop sources v L 0 [] ltac:(intros k [])). }
  unfold cut_stamps. fold (same_pick (length sources) pk). split.
  - destruct (cut_loop _ _ _ _ _ _ _ _ _ _ _) as [im' [[[pos st] del]|]] eqn:E; cbn [bind]; [|discriminate].
    intros H. injection H as <- <-. apply loop_turns in E. destruct E as (v & F & -> & -> & ->). cbn [app].
    exists v. split; [apply (turns_pick _ _ _ pk _ _ _ _ _ _ (same_pick_eq _ _) F)|]. apply R. now apply turns_len in F.
  - intros (v & F & ->). pose proof (turns_len _ _ _ _ _ _ _ _ _ F) as L.
    apply (turns_pick _ _ _ (same_pick (length sources) pk)) in F; [|symmetry; apply same_pick_eq].
    rewrite (turns_loop _ _ _ _ _ _ _ _ _ F). cbn [app bind]. now rewrite (R v L).
Qed.

Lemma cut_raise stats label pk im rms sh sources left e :
  cut_stamps stats label pk im rms sh sources = (left, Raise e) ->
  exists pre s post v mid, sources = pre ++ s :: post /\ turns stats label pk rms sh im pre v mid /\
    cut_one stats label pk mid rms sh s = (left, Raise e).
Proof.
  unfold cut_stamps. fold (same_pick (length sources) pk).
  destruct (cut_loop _ _ _ _ _ _ _ _ _ _ _) as [im' [[[pos st] del]|e']] eqn:E; cbn [bind]; [discriminate|].
  intros H. injection H as <- <-. apply loop_raise in E.
  destruct E as (pre & s & post & v & mid & -> & F & X). exists pre, s, post, v, mid. split; [reflexivity|].
  split; [exact (turns_pick _ _ _ pk _ _ _ _ _ _ (same_pick_eq _ _) F)|]. rewrite <- X. apply cut_pick. now rewrite same_pick_eq.
Qed.

(** * Stamps that share no cell *)
Section Apart.
Variables (stats : plane R -> R * R * R) (label : plane bool -> plane nat * nat).
Variables (pk : picks) (rms : R) (sh : nat * nat).
Hypothesis Hr : (0 < fst sh)%nat.
Hypothesis Hc : (0 < snd sh)%nat.
Variable base : plane (option R).

Definition clear_of (s t : src) : Prop := forall r c, in_stamp sh s r c -> in_stamp sh t r c -> False.

Lemma agree_after s t cur : clear_of s t -> agree sh t cur base ->
  agree sh t (fst (cut_one stats label pk cur rms sh s)) base.
Proof.
  intros D (A & B & H). destruct (cut_dims stats label pk rms sh Hr Hc cur s) as [X Y].
  split; [congruence|]. split; [congruence|]. intros i j Hi Hj I. rewrite X in Hi. rewrite Y in Hj.
  rewrite cut_out; auto. intros J. exact (D _ _ J I).
Qed.

Lemma turns_apart : forall srcs cur v last, apart sh srcs -> (forall s, In s srcs -> agree sh s cur base) ->
  turns stats label pk rms sh cur srcs v last ->
  Forall2 (fun s o => snd (cut_one stats label pk base rms sh s) = Ok o) srcs v.
Proof.
  induction srcs as [|s l IH]; intros cur v last Ap Ag H; inversion H as [|? ? o im1 ? v' ? E F]; subst; [constructor|].
  inversion Ap as [|? ? As Al]; subst. constructor.
  - destruct (cut_agree stats label pk rms sh Hr Hc s cur base) as [X _]; [apply Ag; now left|]. now rewrite <- X, E.
  - apply (IH im1 v' last); [exact Al| |exact F]. intros t I.
    replace im1 with (fst (cut_one stats label pk cur rms sh s)) by now rewrite E.
    apply agree_after; [|apply Ag; now right]. rewrite Forall_forall in As. exact (As t I).
Qed.

Lemma apart_turns : forall srcs cur v, apart sh srcs -> (forall s, In s srcs -> agree sh s cur base) ->
  Forall2 (fun s o => snd (cut_one stats label pk base rms sh s) = Ok o) srcs v ->
  exists last, turns stats label pk rms sh cur srcs v last.
Proof.
  induction srcs as [|s l IH]; intros cur v Ap Ag H; inversion H as [|? o ? v' E F]; subst; [eexists; constructor|].
  inversion Ap as [|? ? As Al]; subst.
  destruct (cut_agree stats label pk rms sh Hr Hc s cur base) as [X _]; [apply Ag; now left|].
  destruct (cut_one stats label pk cur rms sh s) as [im1 r] eqn:C. cbn [snd] in X.
  destruct (IH im1 v' Al) as [last T]; [|exact F|].
  - intros t I. replace im1 with (fst (cut_one stats label pk cur rms sh s)) by now rewrite C.
    apply agree_after; [|apply Ag; now right]. rewrite Forall_forall in As. exact (As t I).
  - exists last. econstructor; [|exact T]. rewrite C. now rewrite X, E.
Qed.

(** The image that is left. *)
Lemma turns_out : forall srcs cur v last, turns stats label pk rms sh cur srcs v last ->
  nr last = nr cur /\ nc last = nc cur /\
  forall i j, (forall s, In s srcs -> ~ in_stamp sh s (Z.of_nat i) (Z.of_nat j)) -> px last i j = px cur i j.
Proof.
  induction srcs as [|s l IH]; intros cur v last H; inversion H as [|? ? o im1 ? v' ? E F]; subst; [auto|].
  destruct (IH _ _ _ F) as (A & B & O). destruct (cut_dims stats label pk rms sh Hr Hc cur s) as [X Y].
  rewrite E in X, Y. cbn [fst] in X, Y. split; [congruence|]. split; [congruence|]. intros i j N.
  rewrite O by (intros; apply N; now right).
  pose proof (cut_out stats label pk rms sh Hr Hc cur s i j (N s (or_introl eq_refl))) as Z. now rewrite E in Z.
Qed.

Lemma turns_in : forall srcs cur v last, apart sh srcs -> (forall s, In s srcs -> agree sh s cur base) ->
  turns stats label pk rms sh cur srcs v last ->
  forall s i j, In s srcs -> (i < nr cur)%nat -> (j < nc cur)%nat -> in_stamp sh s (Z.of_nat i) (Z.of_nat j) ->
  px last i j = px (fst (cut_one stats label pk base rms sh s)) i j.
Proof.
  induction srcs as [|a l IH]; intros cur v last Ap Ag H s i j I Hi Hj J; [destruct I|].
  inversion H as [|? ? o im1 ? v' ? E F]; subst. inversion Ap as [|? ? As Al]; subst.
  assert (E1 : im1 = fst (cut_one stats label pk cur rms sh a)) by now rewrite E.
  destruct (cut_dims stats label pk rms sh Hr Hc cur a) as [X Y].
  destruct I as [->|I].
  - destruct (turns_out _ _ _ _ F) as (_ & _ & O). rewrite O.
    + destruct (cut_agree stats label pk rms sh Hr Hc s cur base) as [_ (A & B & G)]; [apply Ag; now left|].
      rewrite E1. apply G; [now rewrite X|now rewrite Y|exact J].
    + intros t It Jt. rewrite Forall_forall in As. exact (As t It _ _ J Jt).
  - apply (IH im1 v' last); auto.
    + intros t It. rewrite E1. apply agree_after; [|apply Ag; now right]. rewrite Forall_forall in As. exact (As t It).
    + now rewrite E1, X.
    + now rewrite E1, Y.
Qed.
End Apart.

Lemma agree_refl sh s im : agree sh s im im.
Proof. repeat split; auto. Qed.

Lemma apart_cons sh s l : apart sh (s :: l) <-> (forall t, In t l -> clear_of sh s t) /\ apart sh l.
Proof.
  split.
  - intros H. inversion H as [|? ? A B]; subst. rewrite Forall_forall in A. split; [exact A|exact B].
  - intros [A B]. constructor; [apply Forall_forall; exact A|exact B].
Qed.

Lemma apart_single sh s : apart sh [s].
Proof. constructor; constructor. Qed.

Lemma apart_app sh l1 l2 : apart sh (l1 ++ l2) ->
  apart sh l1 /\ apart sh l2 /\ forall s t, In s l1 -> In t l2 -> clear_of sh s t.
Proof.
  induction l1 as [|a l1 IH]; cbn [app]; intros H.
  - repeat split; [constructor|exact H|intros s t []].
  - apply apart_cons in H. destruct H as [A H]. destruct (IH H) as (B & C & D). split.
    + apply apart_cons. split; [|exact B]. intros t I. apply A. apply in_app_iff. now left.
    + split; [exact C|]. intros s t [->|I] It; [apply A; apply in_app_iff; now right|now apply D].
Qed.
