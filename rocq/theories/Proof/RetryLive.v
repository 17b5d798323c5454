(** Accesses to the positions of an image some of whose stars have no level. *)
From Coq Require Import ZArith List Bool Arith Reals Lia Lra.
From Flocq Require Import Core.Raux.
From Coquelicot Require Import Complex.
From Verif.Model Require Import Py Plane Ma Interp FindS Sources Stamps Cut KL Session Filter Subtract Chain CutChain Live.
From Verif.Spec Require Import FindS Stamps Chain Session Cut CutCoadd Live Retry.
From Verif.Proof Require Import SourcesMain Stamps StampsLoop StampsMain StampsExample Session SessionLm Chain ChainMain Cut CutIntact CutLoop CutMain CutLeft CutEx CutChain CutChainLeft Live LiveMain Retry StarEx.
Import ListNotations.
Set Bullet Behavior "Strict Subproofs".
Local Open Scope R_scope.

Lemma dump_stops W pk rms sh im pre v mid : turns (l_stats W) (l_label W) pk rms sh im pre v mid -> forall s post last e jj,
  cut_one (l_stats W) (l_label W) pk mid rms sh s = (last, Raise e) ->
  exists stamps, cut_dump W pk im rms sh (pre ++ s :: post) jj = (last, (stamps, Raise e)).
Proof.
  induction 1 as [im|im s0 o im1 l v im2 E F IH]; intros s post last e jj X; cbn [app cut_dump].
  - rewrite X. eauto.
  - rewrite E. destruct (IH s post last e (S jj) X) as (stamps & ->). destruct o as [p|]; cbn [bind]; eauto.
Qed.

Lemma cut_dump_fails W pk im rms sh c last e :
  cut_stamps (l_stats W) (l_label W) pk im rms sh c = (last, Raise e) ->
  exists stamps, cut_dump W pk im rms sh c 0 = (last, (stamps, Raise e)).
Proof.
  intros H. apply cut_raise in H. destruct H as (pre & t & post & v & mid & -> & T & X).
  exact (dump_stops _ _ _ _ _ _ _ _ T _ _ _ _ _ X).
Qed.

Section Asks.
Variables (W : libs) (o : choices) (x : built) (c : list src).
Hypothesis Hsel : Session.select (bu_lib x) = Ok c.
Notation sh := (stamp_shape (bu_attr x)).
Notation rms := (var (bu_back x)).
Notation L := (live_lib W o x).
Notation cut im := (cut_stamps (l_stats W) (l_label W) (mkpicks (o_pick o) None) im rms sh c).

Lemma ask_fails im a last e : before _ _ _ sh c a -> cut im = (last, Raise e) ->
  exists a', l_stamps_pos L (mkpicture im None, a) = (Raise e, (mkpicture last None, a')) /\ before _ _ _ sh c a'.
Proof.
  intros H E. destruct (cut_dump_fails _ _ _ _ _ _ _ _ E) as (stamps & D). cbn [var] in D.
  destruct H as (A & B & Cb & P & R). unfold l_stamps_pos, reshaped. cbn [fst snd]. rewrite A, P.
  unfold lbind, l_best_sources, best_sources, lget, lupd, lret, lraise. cbn [fst snd set_db best].
  assert (S : forall b, stamp_shape (set_best _ _ _ b (set_db _ _ _ (Some []) a)) = sh) by (intros; exact B).
  destruct Cb as [Cb|Cb]; rewrite Cb.
  - cbn [live_lib base]. rewrite Hsel. cbn [fst snd]. rewrite S. cbn [live_lib cutting pic_now pic_hat].
    change (b_rms (bu_back x)) with rms. rewrite D. cbn [fst snd bind].
    eexists. split; [reflexivity|]. unfold before in *. cbn. repeat split; try tauto.
  - cbn [fst snd]. change (stamp_shape (set_db _ _ _ (Some []) a)) with (stamp_shape a). rewrite B.
    cbn [live_lib cutting pic_now pic_hat]. change (b_rms (bu_back x)) with rms. rewrite D. cbn [fst snd bind].
    eexists. split; [reflexivity|]. unfold before in *. cbn. repeat split; try tauto.
Qed.

Lemma ask_returns im a last ex : before _ _ _ sh c a -> cut im = (last, Ok ex) ->
  exists s, l_stamps_pos L (mkpicture im None, a) = (Ok (ex_pos ex), s) /\
    pos (snd s) = Some (ex_pos ex) /\ req_shape (snd s) = None.
Proof.
  intros H E. destruct (cut_dump_stamps _ _ _ _ _ _ _ _ E) as (del & D & _).
  destruct H as (A & B & Cb & P & R). unfold l_stamps_pos, reshaped. cbn [fst snd]. rewrite A, P.
  unfold lbind, l_best_sources, best_sources, lget, lupd, lret, lraise. cbn [fst snd set_db best].
  assert (S : forall b, stamp_shape (set_best _ _ _ b (set_db _ _ _ (Some []) a)) = sh) by (intros; exact B).
  destruct Cb as [Cb|Cb]; rewrite Cb.
  - cbn [live_lib base]. rewrite Hsel. cbn [fst snd]. rewrite S. cbn [live_lib cutting pic_now pic_hat].
    change (b_rms (bu_back x)) with rms. rewrite D. cbn [fst snd bind].
    eexists. split; [reflexivity|]. cbn. split; [reflexivity|exact A].
  - cbn [fst snd]. change (stamp_shape (set_db _ _ _ (Some []) a)) with (stamp_shape a). rewrite B.
    cbn [live_lib cutting pic_now pic_hat]. change (b_rms (bu_back x)) with rms. rewrite D. cbn [fst snd bind].
    eexists. split; [reflexivity|]. cbn. split; [reflexivity|exact A].
Qed.

Lemma ask_cached s p : pos (snd s) = Some p -> req_shape (snd s) = None -> l_stamps_pos L s = (Ok p, s).
Proof. intros A B. unfold l_stamps_pos, reshaped. now rewrite A, B. Qed.
End Asks.

Lemma exec_snoc PIC NI FT IM (L : llib PIC NI FT IM) cs c s :
  l_exec_all L (cs ++ [c]) s = l_exec L c (l_exec_all L cs s).
Proof. unfold l_exec_all. now rewrite fold_left_app. Qed.
Lemma repeat_snoc {A} (a : A) n : repeat a (S n) = repeat a n ++ [a].
Proof. induction n as [|n IH]; [reflexivity|]. cbn [repeat app] in *. now rewrite <- IH. Qed.

(** The same of a new image with strict picking whose positions are asked for again and again. *)
Lemma C138_accesses_lm : forall W fuel o d x c bad,
  build W fuel o d = Some (Ok x) -> fst (Session.best_sources (bu_lib x) (bu_attr x)) = Ok c -> o_pick o = true ->
  let sh := stamp_shape (bu_attr x) in
  let cut im l := cut_stamps (l_stats W) (l_label W) (mkpicks true None) im (var (bu_back x)) sh l in
  (0 < fst sh)%nat -> (0 < snd sh)%nat -> apart sh c ->
  (forall s, In s c -> bad s = true -> inner (bu_clean x) sh s /\ ~ has_level (bu_clean x) (var (bu_back x)) sh s /\
     snd (cut (intact (bu_clean x)) [s]) = Raise IndexError) ->
  (forall s, In s c -> bad s = false -> exists left ex ex',
     cut (intact (bu_clean x)) [s] = (left, Ok ex) /\ snd (cut left [s]) = Ok ex') ->
  let asked k := fst (l_stamps_pos (live_lib W o x) (lived W o (repeat CStampsPos k) x)) in
  let n := length (filter bad c) in
  (forall k, (k < n)%nat -> asked k = Raise IndexError) /\
  exists left ex, cut (intact (bu_clean x)) (filter (fun s => negb (bad s)) c) = (left, Ok ex) /\
    forall k, (n <= k)%nat -> asked k = Ok (ex_pos ex).
Proof.
  intros W fuel o d x c bad Bd Bs Pk sh cut Hr Hc Ap Hb Hf asked n.
  destruct (build_catalogue _ _ _ _ _ _ Bd Bs) as [Sel New].
  destruct (C138_retries_lm (l_stats W) (l_label W) None (bu_clean x) (var (bu_back x)) sh c bad Hr Hc Ap Hb Hf)
    as [R1 (ex & left0 & ex0 & R2 & R3 & _ & R4)]. cbv zeta in R1, R2, R3.
  set (im k := after_tries (l_stats W) (l_label W) (mkpicks true None) (intact (bu_clean x)) (var (bu_back x)) sh c k).
  assert (St : forall k, (k <= n)%nat -> exists a, lived W o (repeat CStampsPos k) x = (mkpicture (im k) None, a) /\ before _ _ _ sh c a).
  { induction k as [|k IH]; intros Hk.
    - exists (bu_attr x). split; [reflexivity|]. destruct New as [N|(c' & S & N)]; unfold before; rewrite N; cbn; repeat split; auto.
      assert (c' = c) by congruence. subst c'. now right.
    - destruct (IH ltac:(lia)) as (a & E & B). rewrite repeat_snoc. unfold lived in *. rewrite exec_snoc, E.
      pose proof (R1 k ltac:(unfold n in Hk; lia)) as X. fold (im k) in X.
      change (im (S k)) with (fst (cut (im k) c)).
      destruct (cut_stamps (l_stats W) (l_label W) (mkpicks true None) (im k) (var (bu_back x)) sh c) as [last r] eqn:Q.
      cbn [snd] in X. subst r. rewrite <- Pk in Q. destruct (ask_fails W o x c Sel _ _ _ _ B Q) as (a' & Y & B').
      exists a'. split; [|exact B']. cbn [l_exec]. unfold lvoid. rewrite Y. cbn [snd]. unfold cut. rewrite <- Pk, Q. reflexivity. }
  split.
  - intros k Hk. unfold asked. destruct (St k ltac:(lia)) as (a & -> & B). pose proof (R1 k Hk) as X. fold (im k) in X.
    destruct (cut_stamps (l_stats W) (l_label W) (mkpicks true None) (im k) (var (bu_back x)) sh c) as [last r] eqn:Q.
    cbn [snd] in X. subst r. rewrite <- Pk in Q. destruct (ask_fails W o x c Sel _ _ _ _ B Q) as (a' & Y & _). now rewrite Y.
  - exists left0, ex0. split; [exact R3|]. rewrite <- R4.
    assert (Q : exists s, l_stamps_pos (live_lib W o x) (lived W o (repeat CStampsPos n) x) = (Ok (ex_pos ex), s) /\
      pos (snd s) = Some (ex_pos ex) /\ req_shape (snd s) = None).
    { destruct (St n (le_n _)) as (a & -> & B). fold n in R2. fold (im n) in R2.
      destruct (cut_stamps (l_stats W) (l_label W) (mkpicks true None) (im n) (var (bu_back x)) sh c) as [last r] eqn:Q.
      cbn [snd] in R2. subst r. rewrite <- Pk in Q. exact (ask_returns W o x c Sel _ _ _ _ B Q). }
    destruct Q as (s & Q & P1 & P2).
    assert (Al : forall m, lived W o (repeat CStampsPos (S m + n)) x = s).
    { induction m as [|m IH].
      - change (1 + n)%nat with (S n). rewrite repeat_snoc. unfold lived in *. rewrite exec_snoc. cbn [l_exec]. unfold lvoid. now rewrite Q.
      - change (S (S m) + n)%nat with (S (S m + n)). rewrite repeat_snoc. unfold lived in *. rewrite exec_snoc, IH. cbn [l_exec]. unfold lvoid.
        now rewrite (ask_cached W o x s _ P1 P2). }
    intros k Hk. unfold asked. destruct (Nat.eq_dec k n) as [->|N]; [now rewrite Q|].
    replace k with (S (k - n - 1) + n)%nat by lia. rewrite Al. now rewrite (ask_cached W o x s _ P1 P2).
Qed.
