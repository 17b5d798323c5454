(** What any history leaves alone in the interpolated image. *)
From Coq Require Import ZArith List Bool Arith Reals Lia.
From Coquelicot Require Import Complex.
From Verif.Model Require Import Py Plane Ma Interp FindS Sources Stamps Cut KL Session Filter Chain CutChain Live.
From Verif.Spec Require Import Stamps Chain Session Cut CutCoadd Live LiveFar.
From Verif.Proof Require Import Session SessionLm Chain ChainMain ChainUnits Cut CutMain CutLeft CutChain CutChainLeft Live LiveKeeps LiveMain.
Import ListNotations.
Set Bullet Behavior "Strict Subproofs".
Local Open Scope R_scope.

Lemma dump_out W pk rms sh : (0 < fst sh)%nat -> (0 < snd sh)%nat -> forall l im jj,
  let last := fst (cut_dump W pk im rms sh l jj) in
  nr last = nr im /\ nc last = nc im /\
  forall i j, (forall s, In s l -> ~ in_stamp sh s (Z.of_nat i) (Z.of_nat j)) -> px last i j = px im i j.
Proof.
  intros Hr Hc. induction l as [|s l IH]; intros im jj; cbn [cut_dump]; [now repeat split|].
  destruct (cut_dims (l_stats W) (l_label W) pk rms sh Hr Hc im s) as [A B].
  pose proof (cut_out (l_stats W) (l_label W) pk rms sh Hr Hc im s) as O.
  destruct (cut_one (l_stats W) (l_label W) pk im rms sh s) as [im' [v|e]]; cbn [fst] in *.
  - destruct (IH im' (S jj)) as (A' & B' & O'). destruct (cut_dump W pk im' rms sh l (S jj)) as [last [st r]]. cbn [fst] in *.
    split; [congruence|]. split; [congruence|]. intros i j N. rewrite O', O; [reflexivity|apply N; now left|].
    intros t I. apply N. now right.
  - split; [exact A|]. split; [exact B|]. intros i j N. apply O, N. now left.
Qed.

Lemma delete_in {A} (del : list nat) (l : list A) : forall k s, In s (np_delete k del l) -> In s l.
Proof.
  induction l as [|a l IH]; intros k s; cbn [np_delete]; [tauto|].
  destruct (existsb (Nat.eqb k) del); [intros I; right; eapply IH; eassumption|].
  intros [I|I]; [now left|right; eapply IH; eassumption].
Qed.

Lemma own_build W fuel o d x : build W fuel o d = Some (Ok x) ->
  (forall c, Session.select (bu_lib x) = Ok c -> c = own_sources x) /\
  (forall c, best (bu_attr x) = Some c -> c = own_sources x) /\
  req_shape (bu_attr x) = None.
Proof.
  intros E. unfold own_sources. destruct (build_lib _ _ _ _ _ E) as (D & L & sh & N & Sh).
  destruct N as [N|(c' & S & N)]; rewrite N; cbn; repeat split.
  - intros c S. now rewrite S.
  - discriminate.
  - intros c S'. congruence.
  - intros c [= <-]. reflexivity.
Qed.

(** Whatever is called, in whatever order, whatever raises: a pixel that is in no stamp of the
    shapes asked for, around the sources of the image and those given to it, is what the
    constructor made; so it is where the matched filter reads it. *)
Lemma C137_far_lm : forall W fuel o d x cs,
  build W fuel o d = Some (Ok x) ->
  let shapes := stamp_shape (bu_attr x) :: flat_map asks_shape cs in
  (forall q, In q shapes -> (0 < fst q)%nat /\ (0 < snd q)%nat) ->
  let p := fst (lived W o cs x) in
  shape (pic_now p) = shape (bu_clean x) /\
  forall i j,
  (forall q s, In q shapes -> In s (own_sources x ++ flat_map brings cs) -> ~ in_stamp q s (Z.of_nat i) (Z.of_nat j)) ->
  px (pic_now p) i j = Some (px (bu_clean x) i j) /\
  forall h, pic_hat p = Some h -> px h i j = Some (px (bu_clean x) i j).
Proof.
  intros W fuel o d x cs E shapes Pos p. destruct (own_build _ _ _ _ _ E) as (O1 & O2 & O3).
  pose (src_ok := fun s => In s (own_sources x ++ flat_map brings cs)).
  pose (far := fun i j => forall q s, In q shapes -> src_ok s -> ~ in_stamp q s (Z.of_nat i) (Z.of_nat j)).
  pose (same := fun im : plane (option R) => forall i j, far i j -> px im i j = Some (px (bu_clean x) i j)).
  pose (pinv := fun p => nr (pic_now p) = nr (bu_clean x) /\ nc (pic_now p) = nc (bu_clean x) /\ same (pic_now p) /\
    forall h, pic_hat p = Some h -> same h).
  assert (Own : Forall src_ok (own_sources x)) by (apply Forall_forall; intros s I; apply in_app_iff; now left).
  assert (H : holds _ _ _ _ pinv (fun q => In q shapes) src_ok (lived W o cs x)).
  { apply (k_all _ _ _ _ (live_lib W o x)).
    - intros c S. now rewrite (O1 c S).
    - intros p0 sh c p' st r (A & B & Sm & Hh) Hq Hc. cbn [live_lib cutting].
      destruct (Pos sh Hq) as [Hr Hc'].
      destruct (dump_out W (mkpicks (o_pick o) None) (b_rms (bu_back x)) sh Hr Hc' c (pic_now p0) 0) as (A' & B' & O').
      destruct (cut_dump W _ _ _ sh c 0) as [now [sts rr]]. cbn [fst] in A', B', O'. intros [= <- <- <-]. split.
      + split; [cbn; congruence|]. split; [cbn; congruence|]. split; [|exact Hh]. intros i j F. cbn [pic_now].
        rewrite O'; [now apply Sm|]. intros s I. apply (F sh s Hq). now apply (proj1 (Forall_forall _ _) Hc).
      + intros ps kept. destruct rr as [[pos' del]|e]; cbn [bind]; [|discriminate]. intros [= <- <-].
        match goal with |- Forall _ (if ?b then _ else _) => destruct b end; [|exact Hc].
        apply Forall_forall. intros s I. apply (proj1 (Forall_forall _ _) Hc). exact (delete_in _ _ _ _ I).
    - intros p0 z a b n (A & B & Sm & Hh). cbn [live_lib filtering]. destruct a; [|now repeat split]. cbn [fst].
      split; [exact A|]. split; [exact B|]. split; [exact Sm|]. intros h. cbn [pic_hat]. intros [= <-].
      destruct (pic_hat p0) as [h0|] eqn:P; [now apply Hh|exact Sm].
    - intros q I. now right.
    - intros s I. apply in_app_iff. now right.
    - unfold holds. cbn [fst snd untouched pic_now pic_hat]. split; [|split; [|split]].
      + unfold pinv. cbn. repeat split; auto. discriminate.
      + intros c B. now rewrite (O2 c B).
      + intros q. rewrite O3. discriminate.
      + intros _. now left. }
  destruct H as ((A & B & Sm & Hh) & _). split; [unfold shape, p; now rewrite A, B|]. intros i j F. split; [now apply Sm|].
  intros h Hp. now apply (Hh h Hp).
Qed.

(** Calls that need neither stamps nor PSF do not touch the image. *)
Lemma C137_idle_lm : forall W o x cs,
  Forall idle cs -> pic_now (fst (lived W o cs x)) = intact (bu_clean x).
Proof. intros W o x cs F. unfold lived. rewrite (idle_all _ _ _ _ _ cs F). reflexivity. Qed.
