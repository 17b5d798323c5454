(** Histories of an image whose stamps are cut from its interpolated image. *)
From Coq Require Import ZArith List Bool Arith Reals Lia Lra FunctionalExtensionality.
From Coquelicot Require Import Complex.
From Verif.Model Require Import Py Plane Ma Interp FindS Sources Stamps Cut KL Session Filter Chain CutChain Live.
From Verif.Spec Require Import Stamps Chain Session Cut CutCoadd Live.
From Verif.Proof Require Import Session SessionLm Chain ChainMain ChainScale ChainUnits CutMain CutLeft CutChain CutChainLeft Live.
Import ListNotations.
Set Bullet Behavior "Strict Subproofs".
Local Open Scope R_scope.

Arguments l_best_sources {PIC NI FT IM}.
Arguments l_stamps_pos {PIC NI FT IM}.
Arguments l_get_variable_psf {PIC NI FT IM}.
Arguments l_normal_image {PIC NI FT IM}.
Arguments l_s_hat_comp {PIC NI FT IM}.
Arguments l_s_component {PIC NI FT IM}.

Section Pixels.
Variable W : libs.
Variables (o : choices) (x : built) (c : list src) (ex : extraction).
Hypothesis Hsel : Session.select (bu_lib x) = Ok c.
Hypothesis New : new_image (bu_lib x) (stamp_shape (bu_attr x)) (bu_attr x).
Hypothesis First : snd (first_cut W o x c) = Ok ex.

Definition pic1 : picture := mkpicture (fst (first_cut W o x c)) None.
Definition goodpic (p : picture) : Prop :=
  pic_now p = pic_now pic1 /\ (pic_hat p = None \/ pic_hat p = Some (pic_now pic1)).

Lemma first_dump : exists del,
  cut_dump W (mkpicks (o_pick o) None) (pmap Some (bu_clean x)) (b_rms (bu_back x)) (stamp_shape (bu_attr x)) c 0 =
    (pic_now pic1, (ex_stamps ex, Ok (ex_pos ex, del))) /\
  (if Nat.leb 15 (length c - length del) then np_delete 0 del c else c) = ex_sources ex.
Proof.
  apply (cut_dump_stamps W (mkpicks (o_pick o) None) (intact (bu_clean x)) (var (bu_back x)) (stamp_shape (bu_attr x)) c).
  change (first_cut W o x c = (pic_now pic1, Ok ex)). cbn [pic1 pic_now]. rewrite <- First. apply surjective_pairing.
Qed.

Lemma first_cutting : cutting (live_lib W o x) (untouched x) (stamp_shape (bu_attr x)) c =
  (pic1, (map numbers (ex_stamps ex), Ok (ex_pos ex, ex_sources ex))).
Proof.
  destruct first_dump as (del & D & K). cbn [live_lib cutting untouched pic_now pic_hat]. rewrite D. cbn [bind]. now rewrite K.
Qed.

Lemma still_opened : still _ _ _ _ (live_lib W o x) (untouched x) pic1 = bu_lib (opened W o c x).
Proof.
  unfold still, opened. cbn [bu_lib live_lib base]. f_equal.
  - extensionality sh. extensionality l. cbn [cutting untouched pic_now pic_hat]. unfold cut_for.
    cbn [live_lib cutting untouched pic_now pic_hat]. destruct (cut_dump W (mkpicks (o_pick o) None) (pmap Some (bu_clean x)) (b_rms (bu_back x)) sh l 0) as [now [st r]]. reflexivity.
  - extensionality z. extensionality a. extensionality b. extensionality n. cbn [filtering].
    assert (E : numbers (pic_now pic1) = left_by W (mkpicks (o_pick o) None) (bu_clean x) (b_rms (bu_back x)) (stamp_shape (bu_attr x)) c).
    { unfold left_by. destruct first_dump as (del & D & _). now rewrite D. }
    rewrite <- E. now destruct a.
Qed.

Lemma live_good1 : goodpic pic1.
Proof. split; [reflexivity|now left]. Qed.
Lemma live_good p z a b n : goodpic p -> goodpic (fst (filtering (live_lib W o x) p z a b n)).
Proof.
  intros [A B]. cbn [live_lib filtering]. destruct a; [|now split]. cbn [fst]. split; [exact A|]. right. cbn [pic_hat].
  destruct B as [B|B]; rewrite B; now rewrite ?A.
Qed.
Lemma live_read p z a b n : goodpic p ->
  snd (filtering (live_lib W o x) p z a b n) = snd (filtering (live_lib W o x) pic1 z a b n).
Proof.
  intros [A B]. cbn [live_lib filtering]. destruct a; cbn [snd]; [|now rewrite A].
  cbn [pic1 pic_hat]. destruct B as [B|B]; rewrite B; now rewrite ?A.
Qed.

Notation y := (opened W o c x).
Notation agr := (agree _ _ _ _ (untouched x) (stamp_shape (bu_attr x)) c (ex_pos ex) goodpic).

Lemma live_start : agr (untouched x, bu_attr x).
Proof.
  right. split; [reflexivity|]. cbn [snd]. destruct New as [N|(c' & S & N)].
  - unfold before. rewrite N. cbn. repeat split; auto.
  - assert (c' = c) by congruence. subst c'. unfold before. rewrite N. cbn. repeat split; auto.
Qed.

Lemma live_all cs : Forall same_stamps cs ->
  snd (lived W o cs x) = bu_attr (after cs y) /\ agr (lived W o cs x).
Proof.
  intros F. unfold lived, after. cbn [bu_attr]. rewrite <- still_opened.
  exact (exec_all_sim _ _ _ _ (live_lib W o x) (untouched x) pic1 (stamp_shape (bu_attr x)) c
    _ _ _ goodpic Hsel first_cutting live_good1 live_good live_read cs F _ live_start).
Qed.

Lemma live_answer {X} (m : LM _ _ _ _ X) m' :
  (simA _ _ _ _ (untouched x) (stamp_shape (bu_attr x)) c (ex_pos ex) goodpic m m') ->
  (simB _ _ _ _ (ex_pos ex) goodpic m m') ->
  forall cs, Forall same_stamps cs -> fst (m (lived W o cs x)) = fst (m' (bu_attr (after cs y))).
Proof.
  intros A B cs F. destruct (live_all cs F) as [E G]. rewrite <- E.
  now destruct (void_sim _ _ _ _ (untouched x) (stamp_shape (bu_attr x)) c (ex_pos ex) goodpic _ m m' A B _ G).
Qed.
End Pixels.

Lemma build_catalogue W fuel o d x c : build W fuel o d = Some (Ok x) ->
  fst (Session.best_sources (bu_lib x) (bu_attr x)) = Ok c ->
  Session.select (bu_lib x) = Ok c /\ new_image (bu_lib x) (stamp_shape (bu_attr x)) (bu_attr x).
Proof.
  intros E B. destruct (build_lib _ _ _ _ _ E) as (D & L & sh & N & Sh). rewrite Sh in *. split; [|exact N].
  destruct N as [N|(c' & S & N)]; unfold Session.best_sources in B; rewrite N in B; cbn [best fresh] in B.
  - destruct (Session.select (bu_lib x)); [|discriminate]. exact B.
  - cbn in B. congruence.
Qed.

(** The attributes, the answers and the interpolated image after a history, when every
    extraction works on the image as it is: those of an image whose stamps are cut once, from
    the image of the constructor, and whose matched filter reads what that extraction left. *)
Lemma C136_history_lm : forall W fuel o d x c ex,
  build W fuel o d = Some (Ok x) -> fst (Session.best_sources (bu_lib x) (bu_attr x)) = Ok c ->
  snd (first_cut W o x c) = Ok ex ->
  let y := opened W o c x in
  let L := live_lib W o x in
  forall cs, Forall same_stamps cs ->
  let s := lived W o cs x in
  let a := bu_attr (after cs y) in
  snd s = a /\
  pic_now (fst s) = (if pos a then fst (first_cut W o x c) else intact (bu_clean x)) /\
  fst (l_best_sources L s) = fst (Session.best_sources (bu_lib y) a) /\
  fst (l_stamps_pos L s) = fst (Session.stamps_pos (bu_lib y) a) /\
  fst (l_stamps_pos L s) = Ok (ex_pos ex) /\
  (forall l, fst (l_get_variable_psf L l None s) = fst (get_variable_psf (bu_lib y) l None a)) /\
  fst (l_normal_image L s) = fst (normal_image (bu_lib y) a) /\
  fst (l_s_hat_comp L s) = fst (s_hat_comp (bu_lib y) a) /\
  fst (l_s_component L s) = fst (Session.s_component (bu_lib y) a).
Proof.
  intros W fuel o d x c ex E Bs First y L cs F s a.
  destruct (build_catalogue _ _ _ _ _ _ E Bs) as [Hsel New].
  destruct (live_all W o x c ex Hsel New First cs F) as [A G].
  pose proof (still_opened W o x c ex First) as SO.
  pose proof (first_cutting W o x c ex First) as FC.
  pose proof (live_good1 W o x c) as G1. pose proof (live_good W o x c) as GS. pose proof (live_read W o x c) as GR.
  assert (Ans : forall X (m : LM _ _ _ _ X) m', 
     (simA _ _ _ _ (untouched x) (stamp_shape (bu_attr x)) c (ex_pos ex) (goodpic W o x c) m (m' (still _ _ _ _ L (untouched x) (pic1 W o x c)))) ->
     (simB _ _ _ _ (ex_pos ex) (goodpic W o x c) m (m' (still _ _ _ _ L (untouched x) (pic1 W o x c)))) -> fst (m s) = fst (m' (bu_lib y) a)).
  { intros X m m' HA HB. unfold L in HA, HB. rewrite SO in HA, HB. exact (live_answer W o x c ex Hsel New First m (m' (bu_lib y)) HA HB cs F). }
  split; [exact A|]. split; [|split; [|split; [|split; [|split; [|split; [|split]]]]]].
  - unfold a, y. rewrite <- A. unfold s. destruct G as [(_ & G2 & _ & G4 & _)|[G5 G6]].
    + rewrite G2. exact G4.
    + destruct G6 as (_ & _ & _ & G7 & _). rewrite G7, G5. reflexivity.
  - destruct (best_void _ _ _ _ L (untouched x) (pic1 W o x c) (stamp_shape (bu_attr x)) c (ex_pos ex) (goodpic W o x c) Hsel s G) as [Q _].
    unfold L in Q. rewrite SO in Q. unfold L. rewrite Q. unfold a, y. now rewrite <- A.
  - apply (Ans _ (l_stamps_pos L) (fun l => Session.stamps_pos l)).
    + eapply stamps_A; first [exact Hsel|exact FC|exact G1|exact GS|exact GR].
    + eapply stamps_B; first [exact Hsel|exact FC|exact G1|exact GS|exact GR].
  - unfold s in *. destruct G as [G|[G5 G6]].
    + unfold l_stamps_pos. destruct G as (G1' & G2 & _). unfold reshaped. now rewrite G2, G1'.
    + destruct (lived W o cs x) as [p0 s0]. cbn [fst snd] in *. subst p0.
      unfold l_stamps_pos. cbn [fst snd]. destruct G6 as (Q1 & Q2 & Q3 & Q4 & _). unfold reshaped. rewrite Q1, Q4.
      unfold lbind, l_best_sources, Session.best_sources, lget, lupd. cbn [fst snd set_db best].
      assert (Q5 : forall b, stamp_shape (set_best _ _ _ b (set_db _ _ _ (Some []) s0)) = stamp_shape (bu_attr x)) by (intros; exact Q2).
      destruct Q3 as [Q3|Q3]; rewrite Q3; cbn [base L live_lib]; [rewrite Hsel|]; cbn [fst snd].
      * rewrite Q5. unfold L. rewrite FC. reflexivity.
      * change (stamp_shape (set_db _ _ _ (Some []) s0)) with (stamp_shape s0). rewrite Q2. unfold L. rewrite FC. reflexivity.
  - intros l. apply (Ans _ (l_get_variable_psf L l None) (fun lb => get_variable_psf lb l None)).
    + eapply psf_A; first [exact Hsel|exact FC|exact G1|exact GS|exact GR].
    + eapply psf_B; first [exact Hsel|exact FC|exact G1|exact GS|exact GR].
  - apply (Ans _ (l_normal_image L) (fun lb => normal_image lb)).
    + eapply normal_A; first [exact Hsel|exact FC|exact G1|exact GS|exact GR].
    + eapply normal_B; first [exact Hsel|exact FC|exact G1|exact GS|exact GR].
  - apply (Ans _ (l_s_hat_comp L) (fun lb => s_hat_comp lb)).
    + eapply shat_A; first [exact Hsel|exact FC|exact G1|exact GS|exact GR].
    + eapply shat_B; first [exact Hsel|exact FC|exact G1|exact GS|exact GR].
  - apply (Ans _ (l_s_component L) (fun lb => Session.s_component lb)).
    + eapply scomp_A; first [exact Hsel|exact FC|exact G1|exact GS|exact GR].
    + eapply scomp_B; first [exact Hsel|exact FC|exact G1|exact GS|exact GR].
Qed.

(** The PSF of a plain history: the one of the stamps that the first extraction cuts from the
    image of the constructor. *)
Lemma C136_psf_lm : forall W fuel o d x c ex,
  (forall n m, length (fst (l_eigh W n m)) = n) ->
  build W fuel o d = Some (Ok x) -> fst (Session.best_sources (bu_lib x) (bu_attr x)) = Ok c ->
  snd (first_cut W o x c) = Ok ex ->
  let y := opened W o c x in
  let sh := stamp_shape (bu_attr x) in
  forall cs, Forall plain cs ->
  let s := lived W o cs x in
  stamps_of _ _ _ (bu_lib y) sh = Ok (map numbers (ex_stamps ex), ex_pos ex) /\
  (forall l, 0 <= l -> fst (l_get_variable_psf (live_lib W o x) (Some l) None s) = psf_for (bu_lib y) sh l) /\
  fst (l_get_variable_psf (live_lib W o x) None None s) = psf_for (bu_lib y) sh (last_loss cs).
Proof.
  intros W fuel o d x c ex EL E Bs First y sh cs P s.
  assert (F : Forall same_stamps cs).
  { revert P. apply Forall_impl. intros c0 H. destruct c0 as [| | | | | | |[l|] q| | | | | |q| | |]; cbn in *; tauto. }
  destruct (build_catalogue _ _ _ _ _ _ E Bs) as [Hsel New].
  destruct (C136_history_lm W fuel o d x c ex E Bs First cs F) as (_ & _ & _ & _ & _ & A & _).
  assert (LO : lib_ok (bu_lib y)).
  { apply opened_ok. destruct (build_lib _ _ _ _ _ E) as (D & L & _). rewrite L. exact EL. }
  assert (N : new_image (bu_lib y) sh (bu_attr y)) by exact New.
  destruct (C39_history_lm _ _ _ (bu_lib y) sh (bu_attr y) cs LO N P) as (B1 & B2 & _).
  split; [|split].
  - unfold stamps_of. change (Session.select (bu_lib y)) with (Session.select (bu_lib x)). rewrite Hsel.
    destruct (first_dump W o x c ex First) as (del & Dd & K). unfold y, opened. cbn [bu_lib extract]. unfold cut_for, sh.
    rewrite Dd. reflexivity.
  - intros l Hl. unfold s. rewrite A. exact (B1 l Hl).
  - unfold s. rewrite A. exact B2.
Qed.

(** * Another shape *)

Lemma cut_one_pick stats label pk pk' im rms sh s : private_pick pk = private_pick pk' ->
  cut_one stats label pk im rms sh s = cut_one stats label pk' im rms sh s.
Proof. intros H. unfold cut_one, judge. now rewrite H. Qed.
Lemma cut_dump_pick W pk pk' rms sh l : private_pick pk = private_pick pk' -> forall im jj,
  cut_dump W pk im rms sh l jj = cut_dump W pk' im rms sh l jj.
Proof.
  intros H. induction l as [|s l IH]; intros; cbn [cut_dump]; [reflexivity|].
  rewrite (cut_one_pick _ _ pk pk') by exact H. destruct (cut_one _ _ pk' im rms sh s) as [im' [r|]]; [|reflexivity].
  now rewrite IH.
Qed.

Lemma stamps_access W o x now h a q cat last ex : req_shape a = Some q -> stamp_shape a <> q \/ pos a = None ->
  fst (Session.best_sources (bu_lib x) a) = Ok cat ->
  forall pk, private_pick pk = o_pick o ->
  cut_stamps (l_stats W) (l_label W) pk now (var (bu_back x)) q cat = (last, Ok ex) ->
  exists s1, l_stamps_pos (live_lib W o x) (mkpicture now h, a) = (Ok (ex_pos ex), s1) /\
    fst s1 = mkpicture last h /\ db (snd s1) = Some (map numbers (ex_stamps ex)) /\
    req_shape (snd s1) = Some q /\ stamp_shape (snd s1) = (fst q + 6, snd q + 6)%nat /\
    best (snd s1) = Some (ex_sources ex).
Proof.
  intros Rq Ns Bs pk Hp H. destruct (cut_dump_stamps _ _ _ _ _ _ _ _ H) as (del & D & K).
  rewrite (cut_dump_pick W pk (mkpicks (o_pick o) None)) in D by exact Hp.
  assert (C : cutting (live_lib W o x) (mkpicture now h) q cat = (mkpicture last h, (map numbers (ex_stamps ex), Ok (ex_pos ex, ex_sources ex)))).
  { cbn [live_lib cutting pic_now pic_hat]. change (b_rms (bu_back x)) with (var (bu_back x)). rewrite D. cbn [bind]. now rewrite K. }
  assert (G : forall a', (a' = set_db _ _ _ (Some []) (set_stamp_shape _ _ _ q a) \/ stamp_shape a = q /\ a' = set_db _ _ _ (Some []) a) ->
    exists s1,
    lbind _ _ _ _ (l_best_sources (live_lib W o x)) (fun cat0 => lbind _ _ _ _ (lget _ _ _ _) (fun s =>
       let sh := stamp_shape s in
       lbind _ _ _ _ (fun s => let '(p, x0) := cutting (live_lib W o x) (fst s) sh cat0 in (Ok x0, (p, snd s))) (fun x0 =>
       let '(stamps, r) := x0 in
       lbind _ _ _ _ (lupd _ _ _ _ (set_db _ _ _ (Some stamps))) (fun _ =>
       match r with
       | Raise e => lraise _ _ _ _ e
       | Ok (p, kept) =>
           lbind _ _ _ _ (lupd _ _ _ _ (set_best _ _ _ (Some kept))) (fun _ =>
           lbind _ _ _ _ (lupd _ _ _ _ (set_stamp_shape _ _ _ (fst sh + 6, snd sh + 6)%nat)) (fun _ =>
           lbind _ _ _ _ (lupd _ _ _ _ (set_pos _ _ _ (Some p) (Some (length p)))) (fun _ =>
           lret _ _ _ _ p)))
       end)))) (mkpicture now h, a') = (Ok (ex_pos ex), s1) /\
    fst s1 = mkpicture last h /\ db (snd s1) = Some (map numbers (ex_stamps ex)) /\
    req_shape (snd s1) = Some q /\ stamp_shape (snd s1) = (fst q + 6, snd q + 6)%nat /\
    best (snd s1) = Some (ex_sources ex)).
  { intros a' Ha.
    assert (Sa : exists a2, l_best_sources (live_lib W o x) (mkpicture now h, a') = (Ok cat, (mkpicture now h, a2)) /\
                 stamp_shape a2 = q /\ req_shape a2 = Some q).
    { unfold l_best_sources, Session.best_sources in *. cbn [live_lib base fst snd] in *.
      destruct Ha as [->|[Sh ->]]; cbn [set_db set_stamp_shape best] in *.
      - destruct (best a) as [b|] eqn:Eb; [injection Bs as ->; eexists; split; [reflexivity|split; [reflexivity|exact Rq]]|].
        destruct (Session.select (bu_lib x)) as [b|]; [|discriminate]. injection Bs as ->.
        eexists. split; [reflexivity|]. split; [reflexivity|exact Rq].
      - destruct (best a) as [b|] eqn:Eb; [injection Bs as ->; eexists; split; [reflexivity|split; [exact Sh|exact Rq]]|].
        destruct (Session.select (bu_lib x)) as [b|]; [|discriminate]. injection Bs as ->.
        eexists. split; [reflexivity|]. split; [exact Sh|exact Rq]. }
    destruct Sa as (a2 & E1 & E2 & E3). unfold lbind at 1. rewrite E1. unfold lbind at 1, lget. cbn [fst snd]. cbv zeta. rewrite E2.
    unfold lbind at 1. cbn [fst snd]. rewrite C. eexists. split; [reflexivity|]. cbn. repeat split; auto. }
  unfold l_stamps_pos. cbn [fst snd]. unfold reshaped. rewrite Rq.
  destruct (shape_eqb q (stamp_shape a)) eqn:Es.
  - assert (Sh : stamp_shape a = q).
    { unfold shape_eqb in Es. apply andb_prop in Es as [X Y]. apply Nat.eqb_eq in X, Y.
      destruct q, (stamp_shape a); cbn in *; congruence. }
    assert (Po : pos a = None) by (destruct Ns; [contradiction|assumption]). rewrite Po. cbn [negb].
    apply G. right. now split.
  - cbn [negb]. destruct (pos a); apply G; now left.
Qed.

(** Every access to the positions after a shape was asked for cuts again, from what the access
    before left: the answers, the file and the image stay the same when no two stamps overlap. *)
Lemma C136_again_lm : forall W o x image h a q cat last ex last' ex',
  (0 < fst q)%nat -> (0 < snd q)%nat -> apart q cat ->
  req_shape a = Some q -> stamp_shape a <> q \/ pos a = None ->
  fst (Session.best_sources (bu_lib x) a) = Ok cat ->
  cut_stamps (l_stats W) (l_label W) (mkpicks (o_pick o) None) (intact image) (var (bu_back x)) q cat = (last, Ok ex) ->
  all_finite ex ->
  cut_stamps (l_stats W) (l_label W) (ex_picks ex) last (var (bu_back x)) q (ex_sources ex) = (last', Ok ex') ->
  exists s1 s2,
  l_stamps_pos (live_lib W o x) (mkpicture (intact image) h, a) = (Ok (ex_pos ex), s1) /\
  l_stamps_pos (live_lib W o x) s1 = (Ok (ex_pos ex), s2) /\
  pic_now (fst s1) = last /\ plane_eq (pic_now (fst s2)) last /\
  db (snd s1) = Some (map numbers (ex_stamps ex)) /\ db (snd s2) = db (snd s1) /\ best (snd s2) = best (snd s1).
Proof.
  intros W o x image h a q cat last ex last' ex' H1 H2 Ap Rq Ns Bs C1 Fi C2.
  destruct (stamps_access W o x (intact image) h a q cat last ex Rq Ns Bs (mkpicks (o_pick o) None) eq_refl C1) as ([p1 a1] & E1 & P1 & D1 & R1 & S1 & B1).
  cbn [fst snd] in *. subst p1.
  destruct (C33_repeatable_lm _ _ _ _ _ _ _ _ _ _ _ H1 H2 Ap C1 Fi C2) as (K1 & K2 & K3 & K4 & K5 & K6).
  assert (Pk : private_pick (ex_picks ex) = o_pick o).
  { unfold cut_stamps in C1. destruct (Cut.cut_loop _ _ _ _ _ _ _ _ _ _ _) as [im [[[ps st] td]|]]; [|discriminate].
    cbn [bind] in C1. injection C1 as <- <-. cbn [ex_picks]. now destruct (Nat.leb _ 20). }
  assert (Bs1 : fst (Session.best_sources (bu_lib x) a1) = Ok (ex_sources ex)).
  { unfold Session.best_sources. now rewrite B1. }
  assert (Ns1 : stamp_shape a1 <> q \/ pos a1 = None).
  { left. rewrite S1. destruct q as [u v]. cbn. intros Q. injection Q. lia. }
  destruct (stamps_access W o x last h a1 q (ex_sources ex) last' ex' R1 Ns1 Bs1 _ Pk C2) as ([p2 a2] & E2 & P2 & D2 & R2 & S2 & B2).
  cbn [fst snd] in *. subst p2. exists (mkpicture last h, a1), (mkpicture last' h, a2). cbn [fst snd pic_now].
  split; [exact E1|]. split; [rewrite E2; now rewrite K1|]. split; [reflexivity|]. split; [exact K6|].
  split; [exact D1|]. split; [rewrite D1, D2; now rewrite K2|]. rewrite B1, B2. now rewrite K3.
Qed.
