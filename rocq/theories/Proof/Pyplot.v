(** [plot_S], [plot_R], [imshow]. *)
From Coq Require Import List Bool Arith String Reals Lia Lra.
From Verif.Model Require Import Py Plane Pyplot.
From Verif.Spec Require Import Pyplot.
Import ListNotations.
Set Bullet Behavior "Strict Subproofs".
Local Open Scope R_scope.

Definition pic_S (clip : plane R -> R * R) (a : array) : picture :=
  mkpicture (pmap Some (filled a))
    (Some (fst (clip (filled a)) - 4 * snd (clip (filled a)), fst (clip (filled a)) + 4 * snd (clip (filled a)))) false.

Lemma pic_S_ok clip a : depicts_S clip a (pic_S clip a).
Proof.
  unfold depicts_S, pic_S, hidden, filled. cbn [cells lower limits].
  split; [destruct (mask a); reflexivity|]. split; [reflexivity|]. split; [|split].
  - intros i j. destruct (mask a) as [m|]; [|reflexivity]. cbn. destruct (px m i j); [|reflexivity]. intros H. now destruct H.
  - intros i j. destruct (mask a) as [m|]; [|contradiction]. cbn. now intros ->.
  - eexists. split; reflexivity.
Qed.

Definition realed (a : array) : array := match dt a with Float => a | _ => real_part a end.
Definition pic_R (a : array) : picture := mkpicture (pmap log10 (filled (realed a))) None false.

Lemma ln10_pos : 0 < ln 10.
Proof. rewrite <- ln_1. apply ln_increasing; lra. Qed.

Lemma log10_ok x : shows_log (log10 x) x.
Proof.
  unfold shows_log, log10. destruct (Rlt_dec 0 x) as [H|H]; [|lra]. unfold ten_to.
  replace (ln x / ln 10 * ln 10) with (ln x) by (field; pose proof ln10_pos; lra). now apply exp_ln.
Qed.

Lemma pic_R_ok a : depicts_R a (fill_used a) (pic_R a).
Proof.
  unfold depicts_R, pic_R, hidden, filled, realed, fill_used. cbn [cells lower limits].
  split; [destruct (dt a); cbn; destruct (mask a); reflexivity|]. split; [reflexivity|]. split; [reflexivity|].
  split; intros i j H.
  - replace (px (pmap log10 _) i j) with (log10 (px (re a) i j)); [apply log10_ok|].
    destruct (dt a); cbn; destruct (mask a) as [m|]; cbn; try reflexivity; destruct (px m i j); try reflexivity; now destruct H.
  - destruct (mask a) as [m|] eqn:M; [|contradiction].
    destruct (dt a); cbn; rewrite ?M; cbn; rewrite H; apply log10_ok.
Qed.

(** What one call does, on any state whose current axes are known. *)
Definition tops (s : pyplot) : figure * list figure :=
  match figs s with
  | [] => (mkfigure [blank] 0, [])
  | f :: r => (match axs f with [] => mkfigure [blank] (bars f) | _ => f end, r)
  end.

Definition over (p : picture) (f : figure) : figure :=
  match axs f with
  | [] => f
  | a :: l => mkfigure (mkaxes (p :: pictures a) (title a) :: l) (S (bars f))
  end.

Lemma drawn p s : colorbar (draw p s) = with_figs s (over p (fst (tops s)) :: snd (tops s)).
Proof.
  unfold colorbar, draw, on_current, gca, tops, over. destruct s as [[|[[|a l] b] r] fl sh]; reflexivity.
Qed.

Lemma plot_S_eq clip left a path nbook s :
  plot_S clip left a path nbook s =
  let s1 := save_or_show left path (with_figs s (over (pic_S clip a) (fst (tops s)) :: snd (tops s))) in
  gca (if nbook then s1 else close s1).
Proof.
  unfold plot_S, pic_S. destruct (clip (filled a)) as [med std]. cbn [fst snd].
  rewrite drawn. reflexivity.
Qed.

Lemma plot_R_eq left a path nbook s : plottable a ->
  plot_R left a path nbook s =
  let s1 := save_or_show left path (with_figs s (over (pic_R a) (fst (tops s)) :: snd (tops s))) in
  (Ok tt, if nbook then s1 else close s1).
Proof.
  intros (Hr & Hc & H). unfold plot_R, first_is_complex.
  destruct (Nat.eqb_spec (nr (re a)) 0) as [E|_]; [lia|]. destruct (Nat.eqb_spec (nc (re a)) 0) as [E|_]; [lia|].
  cbn [orb]. unfold pic_R, realed. unfold hidden in H.
  destruct (dt a) eqn:D.
  - rewrite D, drawn. reflexivity.
  - replace (match mask a with Some m => negb (px m 0 0) | None => true end)%nat with true.
    2:{ destruct (mask a) as [m|]; [|reflexivity]. destruct (px m 0%nat 0%nat); [now destruct H|reflexivity]. }
    cbn [dt real_part]. rewrite drawn. reflexivity.
  - contradiction.
Qed.

Lemma tops_tidy s : tidy s -> tops s = (mkfigure [blank] 0, []).
Proof. unfold tidy, tops. intros [-> | ->]; reflexivity. Qed.

Lemma call_tidy clip left s c : tidy s -> can_plot c ->
  exists p, depicts clip c p /\ tidy (do_call clip left false s c) /\
    files (do_call clip left false s c) = (path_of c, page p) :: files s /\
    shows (do_call clip left false s c) = shows s.
Proof.
  intros C H. destruct c as [a path|a path]; cbn [do_call path_of depicts can_plot] in *.
  - exists (pic_S clip a). split; [apply pic_S_ok|]. rewrite plot_S_eq, (tops_tidy s C).
    cbn. unfold tidy. cbn. auto.
  - exists (pic_R a). split; [apply pic_R_ok|]. rewrite plot_R_eq, (tops_tidy s C) by exact H.
    cbn. unfold tidy. cbn. auto.
Qed.

(** Calls one after the other, each with a file: each file holds one page with the image of
    its call, and no page is left over. *)
Lemma C98_files_lm : forall clip left cs s, tidy s -> Forall can_plot cs ->
  let s' := session clip left false cs s in
  tidy s' /\ shows s' = shows s /\
  exists pics, Forall2 (depicts clip) cs pics /\
    files s' = (rev (combine (map path_of cs) (map page pics)) ++ files s)%list.
Proof.
  intros clip left cs. induction cs as [|c cs IH]; intros s C F s'.
  - split; [exact C|]. split; [reflexivity|]. exists []. split; [constructor|reflexivity].
  - inversion F as [|? ? Hc Hcs]; subst. destruct (call_tidy clip left s c C Hc) as (p & D & C1 & F1 & S1).
    destruct (IH _ C1 Hcs) as (C2 & S2 & pics & P2 & F2).
    change (session clip left false cs (do_call clip left false s c)) with s' in *.
    split; [exact C2|]. split; [now rewrite S2|]. exists (p :: pics). split; [now constructor|].
    cbn [map combine rev]. rewrite F2, F1, <- app_assoc. reflexivity.
Qed.

(** A page with the images drawn so far, the last one on top. *)
Definition pile (ps : list picture) : figure := mkfigure [mkaxes ps None] (List.length ps).

Lemma call_pile clip left s c ps r : figs s = pile ps :: r -> can_plot c ->
  exists p, depicts clip c p /\ figs (do_call clip left true s c) = pile (p :: ps) :: r /\
    files (do_call clip left true s c) = (path_of c, pile (p :: ps)) :: files s.
Proof.
  intros E H. assert (T : tops s = (pile ps, r)) by (unfold tops; rewrite E; reflexivity).
  destruct c as [a path|a path]; cbn [do_call path_of depicts can_plot] in *.
  - exists (pic_S clip a). split; [apply pic_S_ok|]. rewrite plot_S_eq, T. cbn. split; reflexivity.
  - exists (pic_R a). split; [apply pic_R_ok|]. rewrite plot_R_eq, T by exact H. cbn. split; reflexivity.
Qed.

Lemma session_pile clip left cs s ps r : figs s = pile ps :: r -> Forall can_plot cs ->
  exists pics, Forall2 (depicts clip) cs pics /\
    figs (session clip left true cs s) = pile (rev pics ++ ps) :: r /\
    files (session clip left true cs s) =
      (rev (combine (map path_of cs) (map (fun k => pile (rev (firstn (S k) pics) ++ ps)) (seq 0 (List.length cs))))
       ++ files s)%list.
Proof.
  revert s ps. induction cs as [|c cs IH]; intros s ps E F.
  - exists []. split; [constructor|]. split; [exact E|reflexivity].
  - inversion F as [|? ? Hc Hcs]; subst. destruct (call_pile clip left s c ps r E Hc) as (p & D & E1 & F1).
    destruct (IH _ (p :: ps) E1 Hcs) as (pics & P2 & E2 & F2). exists (p :: pics). split; [now constructor|].
    change (session clip left true (c :: cs) s) with (session clip left true cs (do_call clip left true s c)).
    split; [rewrite E2; cbn [rev]; rewrite <- app_assoc; reflexivity|].
    assert (M : map (fun k => pile (rev (firstn (S k) (p :: pics)) ++ ps)) (seq 1 (List.length cs)) =
      map (fun k => pile (rev (firstn (S k) pics) ++ p :: ps)) (seq 0 (List.length cs))).
    { rewrite <- seq_shift, map_map. apply map_ext. intros k.
      change (firstn (S (S k)) (p :: pics)) with (p :: firstn (S k) pics). cbn [rev]. now rewrite <- app_assoc. }
    rewrite F2, F1. cbn [List.length seq map combine rev]. rewrite M, <- app_assoc. reflexivity.
Qed.

(** With nbook=True the images pile up on the same axes: the file of the k-th call holds the
    images of the first k calls and k colour bars. *)
Lemma C98_notebook_refuted_lm : forall clip left cs s, tidy s -> Forall can_plot cs ->
  exists pics, Forall2 (depicts clip) cs pics /\
    files (session clip left true cs s) =
      (rev (combine (map path_of cs)
         (map (fun k => mkfigure [mkaxes (rev (firstn (S k) pics)) None] (S k)) (seq 0 (List.length cs))))
       ++ files s)%list.
Proof.
  intros clip left cs s C F.
  destruct cs as [|c cs]; [exists []; split; [constructor|reflexivity]|].
  inversion F as [|? ? Hc Hcs]; subst.
  assert (S1 : exists p, depicts clip c p /\ figs (do_call clip left true s c) = [pile [p]] /\
    files (do_call clip left true s c) = (path_of c, pile [p]) :: files s).
  { destruct c as [a path|a path]; cbn [do_call path_of depicts can_plot] in *.
    - exists (pic_S clip a). split; [apply pic_S_ok|]. rewrite plot_S_eq, (tops_tidy s C). cbn. split; reflexivity.
    - exists (pic_R a). split; [apply pic_R_ok|]. rewrite plot_R_eq, (tops_tidy s C) by exact Hc. cbn. split; reflexivity. }
  destruct S1 as (p & D & E1 & F1).
  destruct (session_pile clip left cs _ [p] [] E1 Hcs) as (pics & P2 & _ & F2).
  exists (p :: pics). split; [now constructor|].
  assert (L : List.length pics = List.length cs) by (clear - P2; induction P2; cbn; congruence).
  change (session clip left true (c :: cs) s) with (session clip left true cs (do_call clip left true s c)).
  assert (M : map (fun k => mkfigure [mkaxes (rev (firstn (S k) (p :: pics))) None] (S k)) (seq 1 (List.length cs)) =
      map (fun k => pile (rev (firstn (S k) pics) ++ [p])) (seq 0 (List.length cs))).
  { rewrite <- seq_shift, map_map. apply map_ext_in. intros k Hk. apply in_seq in Hk.
    change (firstn (S (S k)) (p :: pics)) with (p :: firstn (S k) pics). unfold pile. cbn [rev]. f_equal.
    rewrite app_length, rev_length, firstn_length. cbn [List.length]. lia. }
  rewrite F2, F1. cbn [List.length seq map combine rev]. rewrite M, <- app_assoc. reflexivity.
Qed.

(** The axes that plot_S returns after it closed the figure hold nothing of the plot: they are
    new ones or those of another figure. *)
Lemma C98_returned_refuted_lm : forall clip left a path s,
  figs s = [] \/ (exists f, figs s = [f]) ->
  fst (plot_S clip left a (Some path) false s) = blank /\
  figs (snd (plot_S clip left a (Some path) false s)) = [mkfigure [blank] 0].
Proof.
  intros clip left a path s H. rewrite plot_S_eq.
  assert (T : snd (tops s) = []) by (unfold tops; destruct H as [-> | [f ->]]; reflexivity).
  rewrite T. cbn. split; reflexivity.
Qed.

(** In a notebook they hold the image on top, and nothing else when no figure was open. *)
Lemma C98_returned_lm : forall clip left a path s,
  exists p t rest, fst (plot_S clip left a (Some path) true s) = mkaxes (p :: rest) t /\ depicts_S clip a p /\
    (figs s = [] -> rest = [] /\ t = None).
Proof.
  intros clip left a path s. rewrite plot_S_eq.
  assert (T : exists b l n, fst (tops s) = mkfigure (b :: l) n /\ (figs s = [] -> b = blank)).
  { unfold tops. destruct (figs s) as [|[[|b l] n] r]; cbn; repeat eexists; try discriminate. }
  destruct T as (b & l & n & T & Hb). rewrite T. cbn.
  exists (pic_S clip a), (title b), (pictures b). split; [reflexivity|]. split; [apply pic_S_ok|].
  intros E. now rewrite (Hb E).
Qed.

(** With a figure of the user open, the plot goes onto it, the file holds both, and their
    figure is closed. *)
Lemma C98_users_figure_refuted_lm : forall clip left c s f r b l, can_plot c ->
  figs s = f :: r -> axs f = b :: l ->
  exists p, depicts clip c p /\
    files (do_call clip left false s c) =
      (path_of c, mkfigure (mkaxes (p :: pictures b) (title b) :: l) (S (bars f))) :: files s /\
    (r <> [] -> Forall (fun g => axs g <> []) r -> figs (do_call clip left false s c) = r).
Proof.
  intros clip left c s f r b l Hc E A.
  assert (T : tops s = (f, r)) by (unfold tops; rewrite E, A; reflexivity).
  destruct c as [a path|a path]; cbn [do_call path_of depicts can_plot] in *.
  - exists (pic_S clip a). split; [apply pic_S_ok|]. rewrite plot_S_eq, T. cbn [fst snd].
    unfold over. rewrite A. cbn. unfold gca, close. cbn. destruct r as [|[[|x g] n] r]; cbn; split; try reflexivity.
    + now intros [].
    + intros _ H. inversion H as [|? ? H1 _]. now destruct H1.
  - exists (pic_R a). split; [apply pic_R_ok|]. rewrite plot_R_eq, T by exact Hc. cbn [fst snd].
    unfold over. rewrite A. cbn. split; reflexivity.
Qed.

(** plot_R accepts exactly the plottable arrays. *)
Lemma C99_accepts_lm : forall left a path nbook s,
  fst (plot_R left a path nbook s) = Ok tt <-> plottable a.
Proof.
  intros left a path nbook s. split; [|intros H; now rewrite plot_R_eq].
  unfold plot_R, first_is_complex, plottable, hidden.
  destruct (Nat.eqb_spec (nr (re a)) 0) as [E|N]; [discriminate|].
  destruct (Nat.eqb_spec (nc (re a)) 0) as [E|N']; [discriminate|]. cbn [orb].
  intros H. split; [lia|]. split; [lia|]. destruct (dt a) eqn:D; [exact I| |cbn in H; rewrite D in H; discriminate].
  destruct (mask a) as [m|]; [|tauto]. intros K. rewrite K in H. cbn in H. rewrite D in H. discriminate.
Qed.

Lemma C99_errors_lm : forall left a path nbook s, ~ plottable a ->
  files (snd (plot_R left a path nbook s)) = files s /\
  ((nr (re a) = 0 \/ nc (re a) = 0)%nat -> plot_R left a path nbook s = (Raise IndexError, s)) /\
  ((0 < nr (re a))%nat -> (0 < nc (re a))%nat -> fst (plot_R left a path nbook s) = Raise TypeError /\
     (figs s = [] -> figs (snd (plot_R left a path nbook s)) = [mkfigure [blank] 0])).
Proof.
  intros left a path nbook s NP. unfold plot_R, first_is_complex.
  destruct (Nat.eqb_spec (nr (re a)) 0) as [E|N].
  { cbn [orb]. split; [reflexivity|]. split; [reflexivity|]. lia. }
  destruct (Nat.eqb_spec (nc (re a)) 0) as [E|N'].
  { cbn [orb]. split; [reflexivity|]. split; [reflexivity|]. lia. }
  cbn [orb]. unfold plottable, hidden in NP.
  assert (G : files (snd (gca s)) = files s /\ (figs s = [] -> figs (snd (gca s)) = [mkfigure [blank] 0])).
  { unfold gca. destruct s as [[|[[|x l] n] r] fl sh]; cbn; split; try reflexivity; discriminate. }
  destruct G as [G1 G2].
  destruct (dt a) eqn:D.
  - destruct NP. split; [lia|]. split; [lia|exact I].
  - destruct (mask a) as [m|] eqn:M.
    + destruct (px m 0%nat 0%nat) eqn:X.
      * cbn. rewrite D. split; [exact G1|]. split; [lia|]. intros _ _. split; [reflexivity|exact G2].
      * destruct NP. split; [lia|]. split; [lia|]. discriminate.
    + destruct NP. split; [lia|]. split; [lia|]. tauto.
  - rewrite D. split; [exact G1|]. split; [lia|]. intros _ _. split; [reflexivity|exact G2].
Qed.

(** imshow: the image on top of the axes it returns, the shape in the title. *)
Lemma C99_imshow_lm : forall d lo s, exists rest,
  fst (imshow d lo s) = mkaxes (mkpicture d None lo :: rest) (Some (shape d)) /\
  (figs s = [] -> rest = [] /\ figs (snd (imshow d lo s)) = [mkfigure [fst (imshow d lo s)] 0]) /\
  (forall f r b l, figs s = f :: r -> axs f = b :: l -> rest = pictures b /\
     figs (snd (imshow d lo s)) = mkfigure (fst (imshow d lo s) :: l) (bars f) :: r).
Proof.
  intros d lo [[|[[|b l] n] r] fl sh]; cbn; eexists; (split; [reflexivity|]); (split; [try discriminate|]).
  - intros _. split; reflexivity.
  - intros f r b l H. discriminate.
  - intros f r' b l H. injection H as <- <-. discriminate.
  - intros f r' b' l' H. injection H as <- <-. cbn. intros H. injection H as <- <-. split; reflexivity.
Qed.

(** Without a path the page is shown. *)
Lemma C98_shown_lm : forall clip left nbook a s, tidy s ->
  (exists p, depicts_S clip a p /\ shows (snd (plot_S clip left a None nbook s)) = [page p] :: shows s /\
    files (snd (plot_S clip left a None nbook s)) = files s) /\
  (plottable a ->
   exists p, depicts_R a (fill_used a) p /\ shows (snd (plot_R left a None nbook s)) = [page p] :: shows s /\
    files (snd (plot_R left a None nbook s)) = files s).
Proof.
  intros clip left nbook a s C.
  assert (G : forall s, files (snd (gca s)) = files s /\ shows (snd (gca s)) = shows s).
  { intros [[|[[|x l] n] r] fl sh]; split; reflexivity. }
  split; [exists (pic_S clip a)|intros P; exists (pic_R a)].
  - split; [apply pic_S_ok|]. rewrite plot_S_eq, (tops_tidy s C). cbn [fst snd]. rewrite (proj1 (G _)), (proj2 (G _)).
    destruct nbook; split; reflexivity.
  - split; [apply pic_R_ok|]. rewrite plot_R_eq, (tops_tidy s C) by exact P. destruct nbook; split; reflexivity.
Qed.

(** Examples: a 2x2 array with the cell (0, 1) masked. *)
Definition demo_mask : plane bool := mkplane 2 2 (fun i j => (i =? 0)%nat && (j =? 1)%nat).
Definition demo (d : dtype) : array :=
  mkarray (mkplane 2 2 (fun i j => match j with O => 100 | _ => -3 end)) (pconst (2, 2)%nat 0) (Some demo_mask) 7 d.
Definition empty_state : pyplot := mkpyplot [] [] [].

Lemma demo_ok : plottable (demo Float) /\ plottable (demo Complex128) /\ ~ plottable (demo Complex64) /\
  ~ plottable (mkarray (re (demo Float)) (im (demo Float)) (Some (pconst (2, 2)%nat true)) 7 Complex128).
Proof.
  unfold plottable, hidden. cbn. repeat split; try lia; try discriminate; intros (_ & _ & H); auto.
Qed.

Lemma demo_drawn p : depicts_R (demo Complex128) (fill_used (demo Complex128)) p ->
  px (cells p) 0 0 = Some 2 /\ px (cells p) 0 1 = Some 20 /\ px (cells p) 1 1 = None.
Proof.
  assert (U : forall o y, shows_log o (exp (y * ln 10)) -> o = Some y).
  { intros [z|] y; cbn.
    - unfold ten_to. intros H. apply exp_inv in H. apply Rmult_eq_reg_r in H; [now subst|]. pose proof ln10_pos. lra.
    - intros H. pose proof (exp_pos (y * ln 10)). lra. }
  assert (E : forall n, exp (INR n * ln 10) = 10 ^ n).
  { intros n. rewrite <- Rpower_pow by lra. reflexivity. }
  assert (H20 : exp (20 * ln 10) = default_fill).
  { replace 20 with (INR 20) by (cbn [INR]; lra). rewrite E. unfold default_fill. cbn [pow]. lra. }
  assert (H2 : exp (2 * ln 10) = 100).
  { replace 2 with (INR 2) by (cbn [INR]; lra). rewrite E. cbn [pow]. lra. }
  intros (_ & _ & _ & V & Hf). split; [|split].
  - apply U. rewrite H2. apply (V 0%nat 0%nat). cbn. discriminate.
  - apply U. rewrite H20. apply (Hf 0%nat 1%nat). reflexivity.
  - specialize (V 1%nat 1%nat). cbn in V. destruct (px (cells p) 1%nat 1%nat) as [y|]; [|reflexivity].
    cbn in V. unfold ten_to in V. pose proof (exp_pos (y * ln 10)). assert (exp (y * ln 10) = -3) by (apply V; discriminate). lra.
Qed.

(** What is drawn. *)
Lemma C99_shows_lm : forall left a path nbook s, plottable a -> tidy s ->
  exists p, depicts_R a (fill_used a) p /\
    files (snd (plot_R left a (Some path) nbook s)) = (path, page p) :: files s.
Proof.
  intros left a path nbook s P C. exists (pic_R a). split; [apply pic_R_ok|].
  rewrite plot_R_eq, (tops_tidy s C) by exact P. destruct nbook; reflexivity.
Qed.
