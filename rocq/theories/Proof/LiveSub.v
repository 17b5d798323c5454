(** The subtraction of two images with what their interpolated images have become. *)
From Coq Require Import ZArith List Bool Arith Reals Lia Lra Permutation FunctionalExtensionality.
From Coquelicot Require Import Complex.
From Verif.Model Require Import Py Plane Ma Interp Coadd Subtract FindS Filter Sources Stamps Cut KL Session Transparency Chain Again SubAgain CutChain Live LiveSub.
From Verif.Spec Require Import Stamps Chain Session Uses Cut CutCoadd Live.
From Verif.Proof Require Import Session SessionBad SessionHist SessionMain SessionLm Chain ChainMain ChainUnits Uses SubAgain CutMain CutLeft CutChain CutChainLeft CutUses Live LiveSame LiveMain.
Import ListNotations.
Set Bullet Behavior "Strict Subproofs".
Local Open Scope R_scope.

Section One.
Variable W : libs.
Variables (o : choices) (x : built).

(** The image once the stamps of [c] were cut, whether or not that raised. *)
Definition gone (c : list src) : plane (option R) :=
  fst (cut_dump W (mkpicks (o_pick o) None) (pmap Some (bu_clean x)) (b_rms (bu_back x)) (stamp_shape (bu_attr x)) c 0).
Definition picG (c : list src) : picture := mkpicture (gone c) None.
Definition goodG (c : list src) (p : picture) : Prop := pic_now p = gone c /\ (pic_hat p = None \/ pic_hat p = Some (gone c)).

Lemma gone_left c : numbers (gone c) = bu_clean (opened W o c x).
Proof. reflexivity. Qed.

Lemma still_gone c : still _ _ _ _ (live_lib W o x) (untouched x) (picG c) = bu_lib (opened W o c x).
Proof.
  unfold still, opened. cbn [bu_lib live_lib base]. f_equal.
  - extensionality sh. extensionality l. cbn [cutting untouched pic_now pic_hat]. unfold cut_for.
    cbn [live_lib cutting untouched pic_now pic_hat]. destruct (cut_dump W (mkpicks (o_pick o) None) (pmap Some (bu_clean x)) (b_rms (bu_back x)) sh l 0) as [now [st r]]. reflexivity.
  - extensionality z. extensionality a. extensionality b. extensionality n. cbn [filtering]. now destruct a.
Qed.

Lemma goodG1 c : goodG c (picG c).
Proof. split; [reflexivity|now left]. Qed.
Lemma goodGS c p z a b n : goodG c p -> goodG c (fst (filtering (live_lib W o x) p z a b n)).
Proof.
  intros [A B]. cbn [live_lib filtering]. destruct a; [|now split]. cbn [fst]. split; [exact A|]. right. cbn [pic_hat].
  destruct B as [B|B]; rewrite B; now rewrite ?A.
Qed.
Lemma goodGR c p z a b n : goodG c p -> snd (filtering (live_lib W o x) p z a b n) = snd (filtering (live_lib W o x) (picG c) z a b n).
Proof.
  intros [A B]. cbn [live_lib filtering]. destruct a; cbn [snd]; [|now rewrite A].
  cbn [picG pic_hat]. destruct B as [B|B]; rewrite B; now rewrite ?A.
Qed.
Lemma cut_gone c : exists r, cutting (live_lib W o x) (untouched x) (stamp_shape (bu_attr x)) c = (picG c, r).
Proof.
  cbn [live_lib cutting untouched pic_now pic_hat]. unfold picG, gone.
  destruct (cut_dump W _ _ _ (stamp_shape (bu_attr x)) c 0) as [now [st r]]. cbn [fst]. eauto.
Qed.

(** A history that has read no stamps. *)
Lemma unread cat sh cs : Session.select (bu_lib x) = Ok cat -> forall lk p s, Forall plain cs -> virgin _ _ _ sh cat lk s ->
  stamps_read lk cs = false ->
  exists lk' s', l_exec_all (live_lib W o x) cs (p, s) = (p, s') /\ virgin _ _ _ sh cat lk' s'.
Proof.
  intros Sel. induction cs as [|c cs IH]; intros lk p s F V Rd; [exists lk, s; now split|].
  inversion F as [|? ? Pc Fc]; subst. unfold l_exec_all. cbn [fold_left]. destruct V as (z & ->).
  destruct c; cbn [stamps_read] in Rd; try discriminate.
  - assert (E : l_exec (live_lib W o x) CBestSources (p, set_zp _ _ _ (Some z) (fresh _ _ _ sh (if lk then Some cat else None))) =
      (p, set_zp _ _ _ (Some z) (fresh _ _ _ sh (Some cat)))).
    { cbn [l_exec]. unfold lvoid, l_best_sources, best_sources. cbn [fst snd live_lib base]. destruct lk; [reflexivity|]. cbn. now rewrite Sel. }
    rewrite E. apply (IH true p); [exact Fc|now exists z|exact Rd].
  - apply (IH lk p (set_zp _ _ _ (Some z0) (fresh _ _ _ sh (if lk then Some cat else None)))); [exact Fc| |exact Rd]. now exists z0.
  - destruct lk; [discriminate|]. apply (IH false p (set_zp _ _ _ (Some z) (fresh _ _ _ sh None))); [exact Fc| |exact Rd]. exists z. reflexivity.
Qed.
End One.

Lemma first_gone W o x c ex : snd (first_cut W o x c) = Ok ex -> pic1 W o x c = picG W o x c.
Proof. intros First. destruct (first_dump W o x c ex First) as (del & D & _). unfold picG, gone. rewrite D. reflexivity. Qed.

Lemma first_gone' W o x c ex : snd (first_cut W o x c) = Ok ex -> pic_now (pic1 W o x c) = gone W o x c.
Proof. intros First. rewrite (first_gone W o x c ex First). reflexivity. Qed.
Lemma plain_stamps cs : Forall plain cs -> Forall Verif.Spec.Live.same_stamps cs.
Proof. apply Forall_impl. intros c0 H. destruct c0 as [| | | | | | |[l|] q| | | | | |q| | |]; cbn in *; tauto. Qed.

(** The PSF of an image that was given the stars [stars] and the zero point [z] after a history. *)
Lemma turned W fuel o d x cs c l stars z : (forall n m, length (fst (l_eigh W n m)) = n) ->
  build W fuel o d = Some (Ok x) -> Forall plain cs -> fst (Session.best_sources (bu_lib x) (bu_attr x)) = Ok c -> 0 <= l ->
  let rd := stamps_read (looked_at (bu_attr x)) cs in
  (rd = true -> exists ex, snd (first_cut W o x c) = Ok ex) ->
  let s := lived W o cs x in
  let k := if rd then c else stars in
  let y := opened W o k x in
  let r := l_get_variable_psf (live_lib W o x) (Some l) None (fst s, set_zp _ _ _ (Some z) (set_best _ _ _ (Some stars) (snd s))) in
  fst r = (if rd then psf_for (bu_lib y) (stamp_shape (bu_attr x)) l else psf_for (given (bu_lib y) stars) (stamp_shape (bu_attr x)) l) /\
  (forall ab, fst r = Ok ab -> goodG W o x k (fst (snd r))).
Proof.
  intros EL Bx F Bs Hl rd Rex s k y r. destruct (build_catalogue _ _ _ _ _ _ Bx Bs) as [Hsel New].
  destruct (build_lib _ _ _ _ _ Bx) as (Dx & Lx & _).
  assert (LO : lib_ok (bu_lib y)) by (apply opened_ok; rewrite Lx; exact EL).
  assert (V0 : virgin _ _ _ (stamp_shape (bu_attr x)) c (looked_at (bu_attr x)) (bu_attr x)).
  { exists 1. destruct New as [N|(c' & S & N)].
    - rewrite N. reflexivity.
    - rewrite N. cbn. assert (c' = c) by congruence. now subst c'. }
  destruct rd eqn:Rd.
  - (* the stamps were cut in the history *)
    destruct (Rex eq_refl) as (ex & First).
    assert (Ny : new_image (bu_lib y) (stamp_shape (bu_attr x)) (bu_attr y)) by exact New.
    destruct (live_all W o x c ex Hsel New First cs (plain_stamps cs F)) as [A G].
    assert (Ext : exists st p kk, extract (bu_lib y) (stamp_shape (bu_attr x)) c = (st, Ok (p, kk))).
    { destruct (first_dump W o x c ex First) as (del & D & K). unfold y, k, opened. cbn [bu_lib extract]. unfold cut_for.
      rewrite D. cbn [bind]. eauto. }
    destruct Ext as (st & p & kk & Ext).
    pose proof (virgin_all _ _ _ (bu_lib y) (stamp_shape (bu_attr x)) c st p kk Hsel Ext cs (looked_at (bu_attr x)) (bu_attr x) F V0) as P.
    fold rd in P. rewrite Rd in P. change (exec_all (bu_lib y) cs (bu_attr x)) with (bu_attr (after cs y)) in P.
    unfold y, k in P. rewrite <- A in P. fold s in P, A, G.
    destruct G as [G|[_ G]]; [|destruct G as (_ & _ & _ & G & _); contradiction].
    set (s1 := set_zp _ _ _ (Some z) (set_best _ _ _ (Some stars) (snd s))) in r.
    assert (S1 : since _ _ _ _ (ex_pos ex) (goodpic W o x c) (fst s) s1).
    { destruct G as (Q1 & Q2 & Q3 & Q4). repeat split; try assumption; apply Q4. }
    destruct (psf_B _ _ _ _ (live_lib W o x) (untouched x) (pic1 W o x c) c (ex_pos ex) (goodpic W o x c)
      Hsel (Some l) (fst s) s1 S1)
      as (rr & p2 & t2 & E1 & E2 & (_ & _ & _ & G2)).
    unfold r. rewrite E1. cbn [fst snd]. rewrite (still_opened W o x c ex First) in E2.
    split; [|intros _ _; destruct G2 as [G2 G3]; unfold goodG; rewrite (first_gone' W o x c ex First) in G2, G3; now split].
    pose proof (reached_history _ _ _ (bu_lib y) (stamp_shape (bu_attr x)) (bu_attr x) cs LO Ny F) as Re.
    change (exec_all (bu_lib y) cs (bu_attr x)) with (bu_attr (after cs y)) in Re. unfold y, k in Re. rewrite <- A in Re.
    assert (Re' : reached _ _ _ (bu_lib y) (stamp_shape (bu_attr x)) (set_best _ _ _ (Some stars) (snd s)) (history cs)).
    { destruct Re as (J & mode & (Js & I) & H1 & H2 & H3 & H4 & H5 & H6 & H7 & H8 & H9 & H10). exists J, mode.
      split; [split; [now apply H10|exact I]|]. auto 12. }
    apply (reached_all _ _ _ (bu_lib y) (stamp_shape (bu_attr x)) [CSetZp z]) in Re'; [|now repeat constructor].
    pose proof (reached_psf _ _ _ (bu_lib y) (stamp_shape (bu_attr x)) _ _ (Some l) Re' Hl) as Q.
    change (exec_all (bu_lib y) [CSetZp z] (set_best _ _ _ (Some stars) (snd s))) with s1 in Q.
    unfold y, k in Q |- *. rewrite E2 in Q. exact Q.
  - destruct (unread W o x c (stamp_shape (bu_attr x)) cs Hsel (looked_at (bu_attr x)) (untouched x) (bu_attr x) F V0 Rd)
      as (lk & sv & Es & (z0 & Ev)).
    assert (Es' : s = (untouched x, sv)) by exact Es. clearbody s. subst s sv. cbn [fst snd] in r.
    set (s1 := set_zp _ _ _ (Some z) (set_best _ _ _ (Some stars) (set_zp _ _ _ (Some z0) (fresh _ _ _ (stamp_shape (bu_attr x)) (if lk then Some c else None))))) in r.
    assert (Es1 : s1 = exec_all (given (bu_lib y) stars) [CSetZp z] (fresh _ _ _ (stamp_shape (bu_attr x)) (Some stars))) by reflexivity.
    assert (Be : before _ _ _ (stamp_shape (bu_attr x)) stars s1) by (unfold before; rewrite Es1; cbn; repeat split; auto).
    assert (Bst : best s1 = Some stars) by reflexivity. clearbody s1.
    destruct (cut_gone W o x stars) as ([st [[ps kept]|e]] & Cu).
    2:{ destruct (psf_raises _ _ _ _ (live_lib W o x) _ _ _ _ _ _ _ l Be Bst Cu) as (x' & Hr). unfold r. rewrite Hr. cbn [fst snd].
      split; [|discriminate]. unfold psf_for, stamps_of. cbn [given Session.select].
      assert (Ce : extract (given (bu_lib y) stars) (stamp_shape (bu_attr x)) stars = (st, Raise e)).
      { change (extract (bu_lib y) (stamp_shape (bu_attr x)) stars = (st, Raise e)). unfold y, k. rewrite <- (still_gone W o x stars).
        cbn [still extract]. now rewrite Cu. }
      rewrite Ce. reflexivity. }
    assert (Nb : best (snd (untouched x, s1)) <> None) by (cbn [snd]; rewrite Bst; discriminate).
    destruct (s_psf _ _ _ _ (live_lib W o x) (Ok stars) (Some l) None _ Nb) as [Sm _]. unfold r. rewrite Sm.
    destruct (psf_A _ _ _ _ (other _ _ _ _ (live_lib W o x) (Ok stars)) (untouched x) (picG W o x stars) (stamp_shape (bu_attr x)) stars
      st ps kept (goodG W o x stars) eq_refl Cu (goodG1 W o x stars) (Some l) s1 Be)
      as (rr & p2 & t2 & E1 & E2 & (_ & _ & _ & G2)).
    rewrite E1. cbn [fst snd]. split; [|intros _ _; exact G2].
    assert (St : still _ _ _ _ (other _ _ _ _ (live_lib W o x) (Ok stars)) (untouched x) (picG W o x stars) = given (bu_lib y) stars).
    { unfold y, k. rewrite <- (still_gone W o x stars). reflexivity. }
    rewrite St in E2. rewrite Es1 in E2.
    destruct (C39_history_lm _ _ _ (given (bu_lib y) stars) (stamp_shape (bu_attr x)) (fresh _ _ _ (stamp_shape (bu_attr x)) (Some stars)) [CSetZp z]) as (B1 & _).
    + exact LO.
    + right. exists stars. now split.
    + now repeat constructor.
    + rewrite <- (B1 l Hl). now rewrite E2.
Qed.

(** The first element of a PSF. *)
Definition head (r : res (fieldset * list (plane (option R)))) : res (plane R) :=
  bind r (fun ab => match snd ab with [] => Raise IndexError | p :: _ => Ok (numbers p) end).

(** [l_turn] after a look at the sources. *)
Lemma turn_eq W o x l stars z cr s s1 : l_best_sources (live_lib W o x) s = (Ok cr, s1) ->
  let r := l_get_variable_psf (live_lib W o x) (Some l) None (fst s, set_zp _ _ _ (Some z) (set_best _ _ _ (Some stars) (snd s))) in
  l_turn W o x l stars z s1 = (head (fst r), snd r).
Proof.
  intros El r.
  assert (U : l_update_sources _ _ _ _ (live_lib W o x) (Some stars) s1 = (Ok tt, (fst s, set_best _ _ _ (Some stars) (snd s)))).
  { unfold l_best_sources, Session.best_sources in El. unfold l_update_sources. destruct (best (snd s)) as [b|] eqn:B.
    - injection El as _ <-. cbn [fst snd]. rewrite B. reflexivity.
    - destruct (select _) as [b|]; injection El; [intros <- _|discriminate]. reflexivity. }
  unfold l_turn. unfold lbind at 1. rewrite U. unfold lbind at 1. unfold lupd at 1. cbn [fst snd].
  unfold lbind at 1. fold r. destruct r as [[[f [|q b]]|e] s3]; reflexivity.
Qed.

(** The PSF that a subtraction uses. *)
Definition used W o (x : built) c l stars (asked : bool) : res (plane R) :=
  head (if asked then psf_for (bu_lib (opened W o c x)) (stamp_shape (bu_attr x)) l
        else psf_for (given (bu_lib (opened W o stars x)) stars) (stamp_shape (bu_attr x)) l).

Lemma turn_value W fuel o d x cs c l stars z cr s1 : (forall n m, length (fst (l_eigh W n m)) = n) ->
  build W fuel o d = Some (Ok x) -> Forall plain cs -> fst (Session.best_sources (bu_lib x) (bu_attr x)) = Ok c -> 0 <= l ->
  let rd := stamps_read (looked_at (bu_attr x)) cs in
  (rd = true -> exists ex, snd (first_cut W o x c) = Ok ex) ->
  l_best_sources (live_lib W o x) (lived W o cs x) = (Ok cr, s1) ->
  let r := l_turn W o x l stars z s1 in
  let k := if rd then c else stars in
  fst r = used W o x c l stars rd /\
  (forall p, fst r = Ok p -> pic_now (fst (snd r)) = gone W o x k /\ spectral (fst (snd r)) = gone W o x k).
Proof.
  intros EL Bx F Bs Hl rd Rex El r k. unfold r. rewrite (turn_eq W o x l stars z cr _ s1 El). cbn [fst snd].
  destruct (turned W fuel o d x cs c l stars z EL Bx F Bs Hl Rex) as [A B]. fold rd in A, B.
  split.
  - unfold used. rewrite A. now destruct rd.
  - intros p H. destruct (fst (l_get_variable_psf _ _ _ _)) as [ab|] eqn:E; [|discriminate].
    destruct (B ab eq_refl) as [B1 B2]. split; [exact B1|]. unfold spectral. destruct B2 as [->| ->]; [exact B1|reflexivity].
Qed.

(** The result does not depend on what was asked of the images before, as long as they know the
    same sources and stamps had been asked for in the same images. *)
Lemma C140_history_lm : forall W fuel o o' d d' x y c c' l beta shift iterative cs1 cs2 cs1' cs2',
  (forall n a, length (fst (l_eigh W n a)) = n) ->
  build W fuel o d = Some (Ok x) -> build W fuel o' d' = Some (Ok y) -> 0 <= l ->
  fst (Session.best_sources (bu_lib x) (bu_attr x)) = Ok c -> fst (Session.best_sources (bu_lib y) (bu_attr y)) = Ok c' ->
  Forall plain cs1 -> Forall plain cs2 -> Forall plain cs1' -> Forall plain cs2' ->
  let asked := stamps_read (looked_at (bu_attr x)) in
  let asked' := stamps_read (looked_at (bu_attr y)) in
  asked cs1 = asked cs2 -> asked' cs1' = asked' cs2' ->
  (asked cs1 = true -> exists ex, snd (first_cut W o x c) = Ok ex) ->
  (asked' cs1' = true -> exists ex, snd (first_cut W o' y c') = Ok ex) ->
  fst (l_best_sources (live_lib W o x) (lived W o cs1 x)) = fst (l_best_sources (live_lib W o x) (lived W o cs2 x)) ->
  fst (l_best_sources (live_lib W o' y) (lived W o' cs1' y)) = fst (l_best_sources (live_lib W o' y) (lived W o' cs2' y)) ->
  let result r := bind r (fun a : (plane C * plane R * plane (option R) * mask) * (lstate * lstate) => Ok (fst a)) in
  result (subtract_live W o o' l beta shift iterative x y (lived W o cs1 x) (lived W o' cs1' y)) =
  result (subtract_live W o o' l beta shift iterative x y (lived W o cs2 x) (lived W o' cs2' y)).
Proof.
  intros W fuel o o' d d' x y c c' l beta shift it cs1 cs2 cs1' cs2' EL Bx By Hl Bs Bs' F1 F2 F1' F2' asked asked' Ha Ha' Rex Rex' Hb Hb' result.
  assert (Rex2 : asked cs2 = true -> exists ex, snd (first_cut W o x c) = Ok ex) by (rewrite <- Ha; exact Rex).
  assert (Rex2' : asked' cs2' = true -> exists ex, snd (first_cut W o' y c') = Ok ex) by (rewrite <- Ha'; exact Rex').
  unfold subtract_live. destruct (negb _); [reflexivity|].
  destruct (l_best_sources (live_lib W o x) (lived W o cs1 x)) as [cr s1] eqn:E1.
  destruct (l_best_sources (live_lib W o x) (lived W o cs2 x)) as [cr2 s2] eqn:E2.
  destruct (l_best_sources (live_lib W o' y) (lived W o' cs1' y)) as [cn t1] eqn:E1'.
  destruct (l_best_sources (live_lib W o' y) (lived W o' cs2' y)) as [cn2 t2] eqn:E2'.
  cbn [fst] in Hb, Hb'. subst cr2 cn2. destruct cr as [cr|]; [|reflexivity]. destruct cn as [cn|]; [|reflexivity]. cbn [bind].
  destruct (transparency _ _ _ _ _) as [t|]; [|reflexivity]. cbn [bind].
  set (kr := map src_of (rows (mcat t))). set (kn := match cats t with k :: _ => map src_of (rows k) | [] => cn end).
  set (z := nth 0 (zps t) 0). set (z' := nth 1 (zps t) 0).
  destruct (turn_value W fuel o d x cs1 c l kr z cr s1 EL Bx F1 Bs Hl Rex E1) as [A1 B1].
  destruct (turn_value W fuel o d x cs2 c l kr z cr s2 EL Bx F2 Bs Hl Rex2 E2) as [A2 B2].
  destruct (turn_value W fuel o' d' y cs1' c' l kn z' cn t1 EL By F1' Bs' Hl Rex' E1') as [A3 B3].
  destruct (turn_value W fuel o' d' y cs2' c' l kn z' cn t2 EL By F2' Bs' Hl Rex2' E2') as [A4 B4].
  fold (asked cs1) in A1, B1. fold (asked cs2) in A2, B2. fold (asked' cs1') in A3, B3. fold (asked' cs2') in A4, B4.
  rewrite <- Ha in A2, B2. rewrite <- Ha' in A4, B4.
  destruct (l_turn W o x l kr z s1) as [p1 u1]. destruct (l_turn W o x l kr z s2) as [p2 u2].
  destruct (l_turn W o' y l kn z' t1) as [q1 v1]. destruct (l_turn W o' y l kn z' t2) as [q2 v2].
  cbn [fst snd] in *. rewrite A1, A2, A3, A4 in *. clear A1 A2 A3 A4.
  destruct (used W o x c l kr (asked cs1)) as [p|]; [|reflexivity].
  destruct (used W o' y c' l kn (asked' cs1')) as [q|]; [|reflexivity]. cbn [bind].
  assert (S1 : l_seen x (fst u1) p = l_seen x (fst u2) p).
  { unfold l_seen. destruct (B1 p eq_refl) as [_ ->]. destruct (B2 p eq_refl) as [_ ->]. reflexivity. }
  assert (S2 : l_seen y (fst v1) q = l_seen y (fst v2) q).
  { unfold l_seen. destruct (B3 q eq_refl) as [_ ->]. destruct (B4 q eq_refl) as [_ ->]. reflexivity. }
  rewrite S1, S2. unfold result. now destruct (subtract _ _ _ _ _ _ _ _).
Qed.

(** [l_turn] on an image after a history and a look at its sources. *)
Lemma turn_reads W fuel o d x cs c l stars z p cr s1 s2 : (forall n m, length (fst (l_eigh W n m)) = n) ->
  build W fuel o d = Some (Ok x) -> Forall plain cs -> fst (Session.best_sources (bu_lib x) (bu_attr x)) = Ok c -> 0 <= l ->
  let rd := stamps_read (looked_at (bu_attr x)) cs in
  (rd = true -> exists ex, snd (first_cut W o x c) = Ok ex) ->
  l_best_sources (live_lib W o x) (lived W o cs x) = (Ok cr, s1) ->
  l_turn W o x l stars z s1 = (Ok p, s2) ->
  let k := if rd then c else stars in
  reads l (opened W o k x) cs stars (l_seen x (fst s2) p) /\
  pic_now (fst s2) = gone W o x k /\ spectral (fst s2) = gone W o x k.
Proof.
  intros EL Bx F Bs Hl rd Rex El Eq k. set (s := lived W o cs x) in *.
  rewrite (turn_eq W o x l stars z cr s s1 El) in Eq.
  destruct (l_get_variable_psf (live_lib W o x) (Some l) None (fst s, set_zp _ _ _ (Some z) (set_best _ _ _ (Some stars) (snd s)))) as [[[f b]|e] s3] eqn:E;
    [|discriminate].
  unfold head in Eq. cbn [fst snd bind] in Eq. destruct b as [|q b]; [discriminate|]. injection Eq as <- <-.
  destruct (turned W fuel o d x cs c l stars z EL Bx F Bs Hl Rex) as [A B0]. fold rd k s in A, B0. rewrite E in A, B0.
  cbn [fst snd] in A, B0. destruct (B0 _ eq_refl) as [B B']. symmetry in A.
  assert (Sp : spectral (fst s3) = gone W o x k) by (unfold spectral; destruct B' as [->| ->]; [exact B|reflexivity]).
  split; [|now split]. split; [|split; [reflexivity|split; [reflexivity|split; [reflexivity|]]]].
  - exists f, q, b. change (looked_at (bu_attr (opened W o k x))) with (looked_at (bu_attr x)). fold rd. split; [exact A|].
    cbn [l_seen d_stamp]. split; [reflexivity|]. intros i j v V. unfold numbers. cbn [pmap px]. now rewrite V.
  - split; [|split].
    + intros i j. cbn [l_seen d_interped]. rewrite Sp. reflexivity.
    + intros i j M. cbn [l_seen d_data]. change (bu_data (opened W o k x)) with (bu_data x) in M. now rewrite M.
    + intros i j v M V. cbn [l_seen d_data]. change (bu_data (opened W o k x)) with (bu_data x) in M, V. now rewrite M, V.
Qed.

(** What a subtraction of two images uses of each, after any history of plain calls on both, and
    what it leaves of their interpolated images. The stamps are those of the sources found in the
    image if the history has asked for stamps, and otherwise those of the sources that the
    matching left. *)
Lemma C140_uses_lm : forall W fuel o o' d d' x y cs cs' c c' l beta shift iterative D P S m s' t',
  (forall n a, length (fst (l_eigh W n a)) = n) -> (forall r, Permutation (l_sort W r) r) ->
  build W fuel o d = Some (Ok x) -> build W fuel o' d' = Some (Ok y) -> 0 <= l ->
  fst (Session.best_sources (bu_lib x) (bu_attr x)) = Ok c -> fst (Session.best_sources (bu_lib y) (bu_attr y)) = Ok c' ->
  Forall plain cs -> Forall plain cs' ->
  let asked := stamps_read (looked_at (bu_attr x)) cs in
  let asked' := stamps_read (looked_at (bu_attr y)) cs' in
  (asked = true -> exists ex, snd (first_cut W o x c) = Ok ex) ->
  (asked' = true -> exists ex, snd (first_cut W o' y c') = Ok ex) ->
  subtract_live W o o' l beta shift iterative x y (lived W o cs x) (lived W o' cs' y) = Ok ((D, P, S, m), (s', t')) ->
  exists cr cn left left' t e u v,
    fst (l_best_sources (live_lib W o x) (lived W o cs x)) = Ok cr /\
    fst (l_best_sources (live_lib W o' y) (lived W o' cs' y)) = Ok cn /\
    transparency (l_query W) (l_sort W) (l_lsqr W)
      [mkcat false false (map row_of cr); mkcat false false (map row_of cn)] None = Ok t /\
    map spot left = map spot cr /\ Permutation (map spot left') (map spot cn) /\
    (let x1 := opened W o (if asked then c else left) x in
     let y1 := opened W o' (if asked' then c' else left') y in
     reads l x1 cs left u /\ reads l y1 cs' left' v /\
     numbers (pic_now (fst s')) = bu_clean x1 /\ pic_hat (fst s') = Some (pic_now (fst s')) /\
     numbers (pic_now (fst t')) = bu_clean y1 /\ pic_hat (fst t') = Some (pic_now (fst t'))) /\
    e_transp e u v = Ok (nth 0 (zps t) 0, nth 1 (zps t) 0) /\ e_back e = l_back W /\ e_solve e = l_solve W /\
    subtract e (Is u) (Is v) false beta shift iterative false = Ok (D, P, S, m).
Proof.
  intros W fuel o o' d d' x y cs cs' c c' l beta shift it D P S m s' t' EL SP Bx By Hl Bs Bs' F F' asked asked' Rex Rex'.
  unfold subtract_live. destruct (negb _); [discriminate|].
  destruct (l_best_sources (live_lib W o x) (lived W o cs x)) as [[cr|] s1] eqn:Er.
  2:{ destruct (l_best_sources (live_lib W o' y) (lived W o' cs' y)). discriminate. }
  destruct (l_best_sources (live_lib W o' y) (lived W o' cs' y)) as [[cn|] t1] eqn:En; [|discriminate]. cbn [bind].
  destruct (transparency _ _ _ _ _) as [t|] eqn:Et; [|discriminate]. cbn [bind].
  destruct (matched_spots _ _ _ _ _ _ SP Et) as (Sr & k & Ec & Sn). rewrite Ec.
  destruct (l_turn W o x l _ _ s1) as [[pr|] s2] eqn:Pr.
  2:{ destruct (l_turn W o' y l _ _ t1). discriminate. }
  destruct (l_turn W o' y l _ _ t1) as [[pn|] t2] eqn:Pn; [|discriminate]. cbn [bind].
  set (e := mkenv _ _ _ _ _ _).
  destruct (subtract e _ _ _ _ _ _ _) as [r|] eqn:Es; [|discriminate]. cbn [bind]. intros E. injection E as -> <- <-.
  destruct (turn_reads W fuel o d x cs c l _ _ pr cr s1 s2 EL Bx F Bs Hl Rex Er Pr) as (A & A1 & A2).
  destruct (turn_reads W fuel o' d' y cs' c' l _ _ pn cn t1 t2 EL By F' Bs' Hl Rex' En Pn) as (B & B1 & B2).
  fold asked in A, A1, A2. fold asked' in B, B1, B2.
  exists cr, cn, (map src_of (rows (mcat t))), (map src_of (rows k)), t, e, (l_seen x (fst s2) pr), (l_seen y (fst t2) pn).
  split; [reflexivity|]. split; [reflexivity|]. split; [exact Et|].
  assert (Q : forall r, map spot (map src_of r) = map rspot r) by (intros r; rewrite map_map; reflexivity).
  assert (Q' : forall s, map rspot (map row_of s) = map spot s) by (intros s; rewrite map_map; reflexivity).
  split; [now rewrite Q, Sr, Q'|]. split; [now rewrite Q, <- Q'|]. split.
  - cbv zeta. split; [exact A|]. split; [exact B|]. cbn [fst pic_now pic_hat]. rewrite A1, A2, B1, B2. repeat split; reflexivity.
  - split; [|split; [|split; [|exact Es]]]; reflexivity.
Qed.
