(** The image a new image goes on with after its stamps were extracted. *)
From Coq Require Import ZArith List Bool Arith Reals Lia Lra.
From Coquelicot Require Import Complex.
From Verif.Model Require Import Py Plane Ma Image Interp FindS Sources Stamps Cut KL Session Filter Transparency Subtract Chain CutChain.
From Verif.Spec Require Import Image Stamps Chain Session Cut.
From Verif.Proof Require Import Stamps StampsLoop StampsMain Cut CutIntact CutLoop CutMain CutLeft Chain ChainMain ChainScale ChainUnits ChainExample SessionLm CutChain StampsExample CutEx.
Import ListNotations.
Set Bullet Behavior "Strict Subproofs".
Local Open Scope R_scope.

Lemma turns_dump W pk rms sh im l v im' : turns (l_stats W) (l_label W) pk rms sh im l v im' -> forall jj,
  cut_dump W pk im rms sh l jj = (im', (somes v, Ok (map (fun s => (s_y s, s_x s)) (pick l v), dropped jj v))).
Proof.
  induction 1 as [im|im s o im1 l v im2 E F IH]; intros; cbn [cut_dump]; [reflexivity|].
  rewrite E, IH. destruct o as [p|]; reflexivity.
Qed.

Lemma cut_dump_stamps W pk im rms sh c last ex :
  cut_stamps (l_stats W) (l_label W) pk im rms sh c = (last, Ok ex) ->
  exists del, cut_dump W pk im rms sh c 0 = (last, (ex_stamps ex, Ok (ex_pos ex, del))) /\
    (if Nat.leb 15 (length c - length del) then np_delete 0 del c else c) = ex_sources ex.
Proof.
  intros H. apply cut_ok in H. destruct H as (v & T & ->). exists (dropped 0 v).
  split; [exact (turns_dump _ _ _ _ _ _ _ _ T 0)|]. cbn [result ex_sources].
  pose proof (turns_len _ _ _ _ _ _ _ _ _ T) as L. pose proof (somes_dropped v 0) as SD.
  replace (length c - length (dropped 0 v))%nat with (length (somes v)) by lia.
  destruct (Nat.leb 15 _); [|reflexivity]. exact (np_delete_drop c v L 0 [] ltac:(intros k [])).
Qed.

(** After the stamps of the sources [c] were extracted, PSF and stamps are those of that
    extraction, and the image that the matched filter and the subtraction read is the one it
    left: without the level of each stamp inside the frame, when no two stamps overlap. *)
Lemma C133_left_lm : forall W o c x last ex,
  let sh := stamp_shape (bu_attr x) in
  let img := bu_clean x in
  let rms := var (bu_back x) in
  (0 < fst sh)%nat -> (0 < snd sh)%nat ->
  cut_stamps (l_stats W) (l_label W) (mkpicks (o_pick o) None) (intact img) rms sh c = (last, Ok ex) ->
  let y := opened W o c x in
  extract (bu_lib y) sh c = (map numbers (ex_stamps ex), Ok (ex_pos ex, ex_sources ex)) /\
  (forall p i j, d_interped (seen y p) i j = px (numbers last) i j) /\
  (apart sh c -> forall p i j, (i < nr img)%nat -> (j < nc img)%nat ->
     (forall s, In s c -> in_stamp sh s (Z.of_nat i) (Z.of_nat j) -> inner img sh s -> has_level img rms sh s ->
        d_interped (seen y p) i j = px img i j - level_of img rms sh s) /\
     ((forall s, In s c -> in_stamp sh s (Z.of_nat i) (Z.of_nat j) -> ~ inner img sh s) ->
        d_interped (seen y p) i j = px img i j)).
Proof.
  intros W o c x last ex sh img rms Hr Hc H y.
  destruct (cut_dump_stamps _ _ _ _ _ _ _ _ H) as (del & D & K).
  assert (Lf : forall p i j, d_interped (seen y p) i j = px (numbers last) i j).
  { intros p i j. unfold y, seen, opened, left_by. cbn [bu_clean d_interped].
    change (pmap Some (bu_clean x)) with (intact img). change (b_rms (bu_back x)) with rms. fold sh. now rewrite D. }
  split; [|split; [exact Lf|]].
  - unfold y, opened. cbn [bu_lib extract]. unfold cut_for. change (pmap Some (bu_clean x)) with (intact img).
    change (b_rms (bu_back x)) with rms. rewrite D. cbn [bind]. now rewrite K.
  - intros Ap p i j Hi Hj. destruct (C132_left_lm _ _ _ _ _ _ _ _ _ Hr Hc Ap H i j Hi Hj) as [A B]. split.
    + intros s I J Y L. rewrite Lf. unfold numbers. cbn [pmap px]. destruct (A s I J Y) as [A1 _]. now rewrite (A1 L).
    + intros N. rewrite Lf. unfold numbers. cbn [pmap px]. now rewrite (B N).
Qed.

(** An image that the extraction changes. *)
Definition plainly : choices := mkchoices (Some (1, 1)%nat) 2 false None 300000.
Definition bright_one : built :=
  mkbuilt (mkmimg (pmap Some raised) (mkplane 20 20 (fun _ _ => false))) (mkbackobj (mkplane 20 20 (fun _ _ => 0)) 1) raised
    (lib_of small 300000 2 (mkpicks false None) (mkmimg (pmap Some raised) (mkplane 20 20 (fun _ _ => false)))
       (mkbackobj (mkplane 20 20 (fun _ _ => 0)) 1) raised)
    (fresh _ _ _ (1, 1)%nat None).

Lemma bright_cut : exists last ex,
  cut_stamps (l_stats small) (l_label small) (mkpicks false None) (intact raised) 1 one [mid] = (last, Ok ex) /\
  apart one [mid] /\ inner raised one mid /\ has_level raised 1 one mid /\ level_of raised 1 one mid = 1 /\
  forall p, d_interped (seen (opened small plainly [mid] bright_one) p) 10 10 = px raised 10 10 - 1.
Proof.
  assert (X : exists last ex, cut_stamps (l_stats small) (l_label small) (mkpicks false None) (intact raised) 1 one [mid] = (last, Ok ex)).
  { do 2 eexists. apply cut_ok. eexists. split; [|reflexivity]. econstructor; [|constructor].
    rewrite <- (cut_good (l_stats small) (l_label small) None raised mid good_raised_mid). apply surjective_pairing. }
  destruct X as (last & ex & H). exists last, ex. split; [exact H|]. split; [apply apart_single|].
  destruct raised_level as [L1 L2]. pose proof (inner_mid raised eq_refl eq_refl) as Y.
  split; [exact Y|]. split; [exact L1|]. split; [exact L2|]. intros p.
  destruct (C133_left_lm small plainly [mid] bright_one last ex) as (_ & _ & A); [cbn; lia|cbn; lia|exact H|].
  destruct (A (apart_single _ _) p 10%nat 10%nat) as [A1 _]; [cbn; lia|cbn; lia|].
  rewrite (A1 mid); [cbn [bright_one bu_clean bu_back bu_attr stamp_shape fresh var b_rms]; change (1,1)%nat with one; now rewrite L2|now left| |exact Y|exact L1].
  cbn [bright_one bu_attr stamp_shape fresh]. apply (in_mid 10 10). reflexivity.
Qed.

(** The small image of Proof/ChainExample.v in two units. *)
Lemma plain_used : exists x x' y y', build small 1 asis (mdata plainim) = Some (Ok x) /\ var (bu_back x) <> 0 /\
  build small 1 asis (mdata doubled) = Some (Ok x') /\ used small asis x = Ok y /\ used small asis x' = Ok y'.
Proof.
  destruct plain_built as (x & E & V & s & s' & S).
  pose proof (C95_construct_lm small 2 1 asis plainim doubled Rlt_0_2 small_skips small_units plain_doubled) as H.
  rewrite E in H. destruct (build small 1 asis (mdata doubled)) as [[x'|e]|]; [|contradiction|contradiction].
  destruct H as (_ & _ & _ & H & _). unfold used. exists x, x'. rewrite S in H. rewrite S, H.
  do 2 eexists. split; [exact E|]. split; [exact V|]. split; [reflexivity|]. split; reflexivity.
Qed.
