(** Calls between two subtractions of the same images. *)
From Coq Require Import ZArith List Bool Arith Reals Lia Lra Permutation.
From Coquelicot Require Import Complex.
From Verif.Model Require Import Py Plane Ma Interp Coadd Subtract FindS Filter Sources Stamps Cut KL Session Transparency Chain Again SubAgain CutChain Live LiveSub LiveRounds.
From Verif.Spec Require Import Stamps Chain Session Again Uses Cut CutCoadd Live LiveMore LiveRounds.
From Verif.Proof Require Import Session SessionBad SessionHist SessionMain SessionLm SessionKeep AgainKept AgainMain Chain ChainMain ChainUnits Uses SubAgain CutMain CutLeft CutChain CutChainLeft CutUses Live LiveSame LiveMain LiveSub LiveMore LiveRounds.
Import ListNotations.
Set Bullet Behavior "Strict Subproofs".
Local Open Scope R_scope.

Section Kept.
Variables (W : libs) (o : choices) (x : built) (c k : list src) (ps : list (R * R)).
Hypothesis Sel : Session.select (bu_lib x) = Ok c.

Definition holds (b : list src) (s : si (plane R) (res (plane C)) (res (plane R))) : Prop :=
  req_shape s = None /\ pos s <> None /\ best s = Some b.

Lemma holds_exec cl s b : plain cl -> no_update cl -> holds b s -> holds b (Session.exec (bu_lib (opened W o k x)) cl s).
Proof.
  apply st_exec.
  - intros a d (A & B & D) E1 _ E2 E3 _. unfold holds. now rewrite E1, E2, E3.
  - intros a (A & B & D). unfold best_sources. rewrite D. now repeat split.
  - intros a (A & B & D). unfold stamps_pos, reshaped. rewrite A. destruct (pos a) eqn:E; [|contradiction]. cbn. unfold holds. rewrite E. now repeat split.
Qed.

Lemma settled_holds cs : forall s b, Forall plain cs -> Forall no_update cs -> settled W o x k ps s -> best (snd s) = Some b ->
  best (snd (l_exec_all (live_lib W o x) cs s)) = Some b.
Proof.
  induction cs as [|cl cs IH]; intros s b F N H B; [exact B|]. inversion_clear F as [|? ? F1 F2]. inversion_clear N as [|? ? N1 N2].
  unfold l_exec_all. cbn [fold_left]. apply IH; [exact F2|exact N2| |].
  - apply (settled_step W o x c k ps Sel); [|exact H]. destruct cl; cbn in *; auto.
  - destruct H as (S & _). destruct s as [p s]. cbn [fst snd] in *.
    assert (N' : no_new_sources cl) by (destruct cl; cbn in *; auto).
    assert (Cl : cl <> CClean) by (intros ->; exact F1).
    assert (O : Verif.Spec.Live.same_stamps cl) by (pose proof (plain_stamps [cl] ltac:(repeat constructor; exact F1)) as F; now inversion F).
    destruct (exec_since W o x c k ps Sel cl p s N' O Cl S) as (p' & s' & E1 & E2 & _). rewrite E1. cbn [snd]. rewrite <- E2.
    apply holds_exec; auto. destruct S as (S1 & S2 & _). repeat split; [exact S1|rewrite S2; discriminate|exact B].
Qed.

(** The catalogue stays as it is. *)
Lemma calls_catalogue cs h : Forall plain cs -> Forall no_update cs -> settled W o x k ps (fst h) -> tied h ->
  fst (l_catalogue W o x (l_calls W o x cs h)) = fst (l_catalogue W o x h).
Proof.
  intros F N H Ti. assert (Er : existsb renews cs = false).
  { clear - N. induction N as [|cl cs P N IH]; [reflexivity|]. cbn. rewrite IH, orb_false_r. destruct cl; cbn in *; auto; contradiction. }
  unfold l_calls. rewrite Er. destruct h as [s [kc|]]; cbn [fst snd option_map] in *.
  - unfold l_catalogue. cbn [fst snd]. unfold l_kept. unfold tied in Ti. cbn [fst snd] in Ti. rewrite (settled_holds cs s _ F N H Ti), keep_self. now destruct kc.
  - pose proof H as (_ & B & _). destruct (best (snd s)) as [b|] eqn:Eb; [|contradiction].
    pose proof (settled_holds cs s b F N H Eb) as E. unfold l_catalogue. cbn [fst snd]. unfold l_best_sources, Session.best_sources. rewrite E, Eb. reflexivity.
Qed.

(** What a turn gives. *)
Lemma settled_value s l stars z : settled W o x k ps s -> 0 <= l ->
  fst (l_turn W o x l stars z s) = bind (psf_for (given (bu_lib (opened W o k x)) k) (stamp_shape (bu_attr x)) l)
    (fun ab => match snd ab with [] => Raise IndexError | p :: _ => Ok (numbers p) end) /\
  forall p, fst (l_turn W o x l stars z s) = Ok p -> spectral (fst (snd (l_turn W o x l stars z s))) = gone W o x k.
Proof.
  intros H Hl. destruct (settled_look W o x k ps (s, None) H) as [_ (cr & El)]. cbn [fst] in El.
  rewrite (turn_eq W o x l stars z cr s s El).
  apply (settled_best W o x k ps stars) in H.
  apply (settled_step W o x c k ps Sel (CSetZp z) _ I) in H. cbn [l_exec fst snd] in H.
  destruct (settled_psf W o x c k ps Sel _ l H Hl) as (A & _ & _ & H2).
  destruct (l_get_variable_psf (live_lib W o x) (Some l) None _) as [r s3]. cbn [fst snd] in *. subst r.
  split; [unfold head; destruct (psf_for _ _ _); reflexivity|].
  intros p _. destruct H2 as ((_ & _ & _ & (B & B')) & _). unfold spectral. destruct B' as [->| ->]; [exact B|reflexivity].
Qed.
End Kept.

Definition returned {A B} (r : res (A * B)) : res A := bind r (fun a => Ok (fst a)).

(** A subtraction of settled images depends on their catalogues only. *)
Lemma both_value W o o' x y c c' k k' ps ps' l beta shift it h1 h2 :
  Session.select (bu_lib x) = Ok c -> Session.select (bu_lib y) = Ok c' ->
  both W o o' x y k k' ps ps' h1 -> both W o o' x y k k' ps ps' h2 -> 0 <= l ->
  fst (l_catalogue W o x (fst h1)) = fst (l_catalogue W o x (fst h2)) ->
  fst (l_catalogue W o' y (snd h1)) = fst (l_catalogue W o' y (snd h2)) ->
  returned (subtract_held W o o' l beta shift it x y h1) = returned (subtract_held W o o' l beta shift it x y h2).
Proof.
  intros Sel Sel' [[A1 _] [B1 _]] [[A2 _] [B2 _]] Hl E E'.
  destruct (settled_look _ _ _ _ _ _ A1) as [L1 _]. destruct (settled_look _ _ _ _ _ _ A2) as [L2 _].
  destruct (settled_look _ _ _ _ _ _ B1) as [M1 _]. destruct (settled_look _ _ _ _ _ _ B2) as [M2 _].
  unfold subtract_held. destruct (negb _); [reflexivity|].
  destruct (l_catalogue W o x (fst h1)) as [r1 s1]. destruct (l_catalogue W o x (fst h2)) as [r2 s2].
  destruct (l_catalogue W o' y (snd h1)) as [q1 t1]. destruct (l_catalogue W o' y (snd h2)) as [q2 t2].
  cbn [fst snd] in *. subst s1 s2 t1 t2 r2 q2. destruct r1 as [cr|]; [|reflexivity]. destruct q1 as [cn|]; [|reflexivity]. cbn [bind].
  destruct (transparency _ _ _ _ _) as [t|]; [|reflexivity]. cbn [bind].
  set (kn := match cats t with a :: _ => a | [] => cn end).
  destruct (settled_value W o x c k ps Sel _ l (map src_of (rows (mcat t))) (nth 0 (zps t) 0) A1 Hl) as [V1 P1].
  destruct (settled_value W o x c k ps Sel _ l (map src_of (rows (mcat t))) (nth 0 (zps t) 0) A2 Hl) as [V2 P2].
  destruct (settled_value W o' y c' k' ps' Sel' _ l (map src_of (rows kn)) (nth 1 (zps t) 0) B1 Hl) as [V3 P3].
  destruct (settled_value W o' y c' k' ps' Sel' _ l (map src_of (rows kn)) (nth 1 (zps t) 0) B2 Hl) as [V4 P4].
  destruct (l_turn W o x l _ _ (fst (fst h1))) as [p1 u1]. destruct (l_turn W o x l _ _ (fst (fst h2))) as [p2 u2].
  destruct (l_turn W o' y l _ _ (fst (snd h1))) as [p3 u3]. destruct (l_turn W o' y l _ _ (fst (snd h2))) as [p4 u4].
  cbn [fst snd] in *. rewrite <- V1 in V2. rewrite <- V3 in V4. clear V1 V3. subst p2 p4.
  destruct p1 as [p|]; [|reflexivity]. cbn [bind]. destruct p3 as [q|]; [|reflexivity]. cbn [bind].
  assert (S1 : l_seen x (fst u1) p = l_seen x (fst u2) p) by (unfold l_seen; now rewrite (P1 p eq_refl), (P2 p eq_refl)).
  assert (S2 : l_seen y (fst u3) q = l_seen y (fst u4) q) by (unfold l_seen; now rewrite (P3 q eq_refl), (P4 q eq_refl)).
  rewrite S1, S2. now destruct (subtract _ _ _ _ _ _ _ _).
Qed.

(** The first subtraction. *)
Lemma first_both W fuel o o' d d' x y pre pre' c c' l0 b0 h0 i0 A hs :
  (forall n a, length (fst (l_eigh W n a)) = n) -> (forall r, Permutation (l_sort W r) r) ->
  build W fuel o d = Some (Ok x) -> build W fuel o' d' = Some (Ok y) -> 0 <= l0 ->
  fst (Session.best_sources (bu_lib x) (bu_attr x)) = Ok c -> fst (Session.best_sources (bu_lib y) (bu_attr y)) = Ok c' ->
  Forall plain pre -> Forall plain pre' ->
  (stamps_read (looked_at (bu_attr x)) pre = true -> exists ex, snd (first_cut W o x c) = Ok ex) ->
  (stamps_read (looked_at (bu_attr y)) pre' = true -> exists ex, snd (first_cut W o' y c') = Ok ex) ->
  subtract_held W o o' l0 b0 h0 i0 x y ((lived W o pre x, None), (lived W o' pre' y, None)) = Ok (A, hs) ->
  exists k k' ps ps', both W o o' x y k k' ps ps' hs.
Proof.
  intros EL SP Bx By Hl0 Bs Bs' F F' Rex Rex' E0.
  destruct (held_steps _ _ _ _ _ _ _ _ _ _ _ _ E0) as (cr & cn & s1 & t1 & t & p & q & s2 & t2 & A1 & A2 & A3 & A4 & A5 & _ & A7).
  cbn [fst snd] in A1, A2. unfold l_catalogue in A1, A2. cbn [fst snd] in A1, A2.
  destruct (l_best_sources (live_lib W o x) (lived W o pre x)) as [[kr|] s1'] eqn:Er; [|discriminate]. cbn [bind] in A1. injection A1 as <- <-.
  destruct (l_best_sources (live_lib W o' y) (lived W o' pre' y)) as [[kn|] t1'] eqn:En; [|discriminate]. cbn [bind] in A2. injection A2 as <- <-.
  destruct (matched_spots _ _ _ _ _ _ SP A3) as (Sr & kc & Ec & Sn). rewrite Ec in A5, A7.
  destruct (settle_turn W fuel o d x pre c _ _ l0 kr s1' p s2 EL Bx F Bs Hl0 Rex Er A4) as (ps & H & T1).
  destruct (settle_turn W fuel o' d' y pre' c' _ _ l0 kn t1' q t2 EL By F' Bs' Hl0 Rex' En A5) as (ps' & H' & T2).
  do 4 eexists. subst hs. split; cbn [fst snd]; (split; [apply settled_keep; eassumption|now apply tied_kept]).
Qed.

(** Between two subtractions of the same two images, plain calls that do not look for the sources
    again change nothing of what the next subtraction returns or raises. *)
Lemma C142_calls_lm : forall W fuel o o' d d' x y pre pre' c c' l0 b0 h0 i0 A hs rs hs1 cs cs' l beta shift iterative,
  (forall n a, length (fst (l_eigh W n a)) = n) -> (forall r, Permutation (l_sort W r) r) ->
  build W fuel o d = Some (Ok x) -> build W fuel o' d' = Some (Ok y) -> 0 <= l0 -> 0 <= l ->
  fst (Session.best_sources (bu_lib x) (bu_attr x)) = Ok c -> fst (Session.best_sources (bu_lib y) (bu_attr y)) = Ok c' ->
  Forall plain pre -> Forall plain pre' ->
  (stamps_read (looked_at (bu_attr x)) pre = true -> exists ex, snd (first_cut W o x c) = Ok ex) ->
  (stamps_read (looked_at (bu_attr y)) pre' = true -> exists ex, snd (first_cut W o' y c') = Ok ex) ->
  subtract_held W o o' l0 b0 h0 i0 x y ((lived W o pre x, None), (lived W o' pre' y, None)) = Ok (A, hs) ->
  Forall usual rs -> play_all W o o' x y rs hs = Ok hs1 ->
  Forall plain cs -> Forall plain cs' -> ~ In (CUpdateSources None) cs -> ~ In (CUpdateSources None) cs' ->
  let again h := bind (subtract_held W o o' l beta shift iterative x y h) (fun a => Ok (fst a)) in
  bind (play_all W o o' x y (rs ++ [Calls cs cs']) hs) again = again hs1.
Proof.
  intros W fuel o o' d d' x y pre pre' c c' l0 b0 h0 i0 A hs rs hs1 cs cs' l beta shift it EL SP Bx By Hl0 Hl Bs Bs' F F' Rex Rex' E0 Fr Ep Fc Fc' Nc Nc' again.
  destruct (build_catalogue _ _ _ _ _ _ Bx Bs) as [Hsel _]. destruct (build_catalogue _ _ _ _ _ _ By Bs') as [Hsel' _].
  destruct (first_both W fuel o o' d d' x y pre pre' c c' l0 b0 h0 i0 A hs EL SP Bx By Hl0 Bs Bs' F F' Rex Rex' E0) as (k & k' & ps & ps' & B).
  pose proof (both_rounds W o o' x y c c' k k' ps ps' Hsel Hsel' rs hs hs1 Fr B Ep) as B1.
  assert (N : forall cs, Forall plain cs -> ~ In (CUpdateSources None) cs -> Forall no_update cs).
  { clear. intros cs F N. apply Forall_forall. intros cl Icl. rewrite Forall_forall in F. specialize (F cl Icl).
    destruct cl; cbn in *; auto. subst. contradiction. }
  set (h2 := (l_calls W o x cs (fst hs1), l_calls W o' y cs' (snd hs1))).
  assert (Pl : play_all W o o' x y (rs ++ [Calls cs cs']) hs = Ok h2).
  { revert hs Ep E0 B. clear - h2. induction rs as [|r rs IH]; intros hs Ep _ _.
    - cbn [play_all] in Ep. injection Ep as ->. reflexivity.
    - cbn [app play_all] in *. destruct (play W o o' x y r hs) as [h|]; [|discriminate]. cbn [bind] in *. revert Ep. generalize I. intros _ Ep.
      assert (Q : forall h, play_all W o o' x y rs h = Ok hs1 -> play_all W o o' x y (rs ++ [Calls cs cs']) h = Ok h2).
      { clear - h2. induction rs as [|r rs IH]; intros h Ep; [cbn [play_all] in Ep; injection Ep as ->; reflexivity|].
        cbn [app play_all] in *. destruct (play W o o' x y r h); [|discriminate]. cbn [bind] in *. now apply IH. }
      now apply Q. }
  assert (Us : usual (Calls cs cs')).
  { assert (X : forall cs, Forall plain cs -> Forall later cs).
    { intros a Fa. eapply Forall_impl; [|exact Fa]. intros z Hz. destruct z; cbn in *; auto. }
    split; now apply X. }
  assert (B2 : both W o o' x y k k' ps ps' h2) by exact (both_round W o o' x y c c' k k' ps ps' Hsel Hsel' (Calls cs cs') hs1 h2 Us B1 eq_refl).
  rewrite Pl. cbn [bind]. unfold again. apply (both_value W o o' x y c c' k k' ps ps'); auto.
  - destruct B1 as [[H T] _]. apply (calls_catalogue W o x c k ps Hsel); auto.
  - destruct B1 as [_ [H T]]. apply (calls_catalogue W o' y c' k' ps' Hsel'); auto.
Qed.
