(** Several subtractions of the same two images. *)
From Coq Require Import ZArith List Bool Arith Reals Lia Lra Permutation.
From Coquelicot Require Import Complex.
From Verif.Model Require Import Py Plane Ma Interp Coadd Subtract FindS Filter Sources Stamps Cut KL Session Transparency Chain Again SubAgain CutChain Live LiveSub LiveRounds.
From Verif.Spec Require Import Stamps Chain Session Again Uses Cut CutCoadd Live LiveMore LiveRounds.
From Verif.Proof Require Import Session SessionBad SessionHist SessionMain SessionLm SessionKeep AgainKept Chain ChainMain ChainUnits Uses SubAgain CutMain CutLeft CutChain CutChainLeft CutUses Live LiveSame LiveMain LiveSub LiveMore.
Import ListNotations.
Set Bullet Behavior "Strict Subproofs".
Local Open Scope R_scope.

(** No operation but a matching or the user adds a star. *)
Section Thin.
Variables (W : libs) (o : choices) (x : built) (c k : list src) (ps : list (R * R)).
Hypothesis Sel : Session.select (bu_lib x) = Ok c.

Lemma opened_part sh l st p kept : extract (bu_lib (opened W o k x)) sh l = (st, Ok (p, kept)) -> part l kept.
Proof.
  unfold opened. cbn [bu_lib extract]. unfold cut_for. destruct (cut_dump _ _ _ _ _ _ _) as [now [stm r]].
  destruct r as [[pp dl]|]; [|discriminate]. cbn [bind].
  destruct (Nat.leb 15 (length l - length dl)); intros E; injection E as _ _ <-; [apply part_delete|apply part_refl].
Qed.

Lemma thin_exec cl s l0 : plain cl -> no_update cl -> thinned _ _ _ l0 s -> thinned _ _ _ l0 (Session.exec (bu_lib (opened W o k x)) cl s).
Proof.
  assert (Fr : forall s s' : si (plane R) (res (plane C)) (res (plane R)), thinned _ _ _ l0 s -> req_shape s' = req_shape s -> stamp_shape s' = stamp_shape s ->
    best s' = best s -> pos s' = pos s -> nsrc s' = nsrc s -> thinned _ _ _ l0 s').
  { intros a b (kk & B & P) _ _ E _ _. exists kk. now rewrite E. }
  apply (st_exec _ _ _ (bu_lib (opened W o k x)) (thinned _ _ _ l0) Fr (st_best _ _ _ _ l0) (st_stamps _ _ _ _ opened_part l0)).
Qed.

Lemma settled_thin cl s l0 : plain cl -> no_update cl -> settled W o x k ps s -> thinned _ _ _ l0 (snd s) ->
  thinned _ _ _ l0 (snd (l_exec (live_lib W o x) cl s)).
Proof.
  intros P N (S & _) T. destruct s as [p s]. cbn [fst snd] in *.
  assert (N' : no_new_sources cl) by (destruct cl; cbn in *; auto).
  assert (Cl : cl <> CClean) by (intros ->; exact P).
  assert (O : Verif.Spec.Live.same_stamps cl) by (pose proof (plain_stamps [cl] ltac:(repeat constructor; exact P)) as F; now inversion F).
  destruct (exec_since W o x c k ps Sel cl p s N' O Cl S) as (p' & s' & E1 & E2 & _). rewrite E1. cbn [snd]. rewrite <- E2. now apply thin_exec.
Qed.

Lemma settled_thin_all cs : forall s l0, Forall later cs -> existsb renews cs = false -> settled W o x k ps s -> thinned _ _ _ l0 (snd s) ->
  thinned _ _ _ l0 (snd (l_exec_all (live_lib W o x) cs s)).
Proof.
  induction cs as [|cl cs IH]; intros s l0 F E H T; [exact T|]. inversion_clear F as [|? ? F1 F2]. cbn [existsb] in E.
  apply orb_false_iff in E. destruct E as [E1 E2]. unfold l_exec_all. cbn [fold_left]. apply IH; [exact F2|exact E2| |].
  - now apply (settled_step W o x c k ps Sel).
  - apply settled_thin; [|destruct cl; cbn in *; auto; discriminate|exact H|exact T]. destruct cl; cbn in *; auto; discriminate.
Qed.
End Thin.

(** The rows of a catalogue whose sources were kept. *)
Lemma keep_same l : forall kept, part (map src_of l) kept -> map src_of (keep_rows l kept) = kept.
Proof.
  intros kept H. pose proof (keep_part l kept H) as E. revert E. generalize (keep_rows l kept).
  assert (N : forall s, In s kept -> s_npix s = 0%nat /\ s_flag s = 0%Z).
  { remember (map src_of l) as m eqn:Em. revert l Em. induction H as [|a m kk _ IH|a m kk _ IH]; intros l Em s I.
    - destruct I.
    - destruct l as [|r l]; [discriminate|]. injection Em as -> Em. destruct I as [<-|I]; [split; reflexivity|now apply (IH l)].
    - destruct l as [|r l]; [discriminate|]. injection Em as -> Em. now apply (IH l). }
  clear H. induction kept as [|s kept IH]; intros rr E; destruct rr as [|r rr]; try discriminate; [reflexivity|].
  cbn [map] in *. injection E as Ex Ey Ef E. f_equal.
  - destruct (N s (or_introl eq_refl)) as [N1 N2]. destruct s; cbn in *. subst. unfold src_of. reflexivity.
  - apply IH; [|exact E]. intros; apply N; now right.
Qed.

(** The first subtraction settles the stamps. *)
Lemma settle_turn W fuel o d x pre c left z l0 cr s1 p s2 : (forall n m, length (fst (l_eigh W n m)) = n) ->
  build W fuel o d = Some (Ok x) -> Forall plain pre -> fst (Session.best_sources (bu_lib x) (bu_attr x)) = Ok c -> 0 <= l0 ->
  (stamps_read (looked_at (bu_attr x)) pre = true -> exists ex, snd (first_cut W o x c) = Ok ex) ->
  l_best_sources (live_lib W o x) (lived W o pre x) = (Ok cr, s1) ->
  l_turn W o x l0 left z s1 = (Ok p, s2) ->
  exists ps, settled W o x (if stamps_read (looked_at (bu_attr x)) pre then c else left) ps s2 /\ thinned _ _ _ left (snd s2).
Proof.
  intros EL Bx F Bs Hl Rex El Et. destruct (build_catalogue _ _ _ _ _ _ Bx Bs) as [Hsel New].
  destruct (build_lib _ _ _ _ _ Bx) as (Dx & Lx & _).
  assert (LO : forall c, lib_ok (bu_lib (opened W o c x))) by (intros; apply opened_ok; rewrite Lx; exact EL).
  assert (V0 : virgin _ _ _ (stamp_shape (bu_attr x)) c (looked_at (bu_attr x)) (bu_attr x)).
  { exists 1. destruct New as [N|(c' & S & N)].
    - rewrite N. reflexivity.
    - rewrite N. cbn. assert (c' = c) by congruence. now subst c'. }
  rewrite (turn_eq W o x l0 left z cr _ s1 El) in Et. clear El s1 cr. set (s := lived W o pre x) in *.
  destruct (l_get_variable_psf (live_lib W o x) (Some l0) None (fst s, set_zp _ _ _ (Some z) (set_best _ _ _ (Some left) (snd s)))) as [r s3] eqn:Eg.
  cbn [fst snd] in Et. destruct r as [ab|e]; [|discriminate]. assert (s3 = s2) by congruence. subst s3. clear Et.
  destruct (stamps_read (looked_at (bu_attr x)) pre) eqn:Rd.
  - destruct (Rex eq_refl) as (ex & First). exists (ex_pos ex).
    assert (Ny : new_image (bu_lib (opened W o c x)) (stamp_shape (bu_attr x)) (bu_attr x)) by exact New.
    destruct (live_all W o x c ex Hsel New First pre (plain_stamps pre F)) as [A G]. fold s in A, G.
    assert (Ext : exists st p kk, extract (bu_lib (opened W o c x)) (stamp_shape (bu_attr x)) c = (st, Ok (p, kk))).
    { destruct (first_dump W o x c ex First) as (del & D & K). unfold opened. cbn [bu_lib extract]. unfold cut_for.
      rewrite D. cbn [bind]. eauto. }
    destruct Ext as (st & p1 & kk & Ext).
    pose proof (virgin_all _ _ _ (bu_lib (opened W o c x)) (stamp_shape (bu_attr x)) c st p1 kk Hsel Ext pre (looked_at (bu_attr x)) (bu_attr x) F V0) as P.
    rewrite Rd in P. change (exec_all (bu_lib (opened W o c x)) pre (bu_attr x)) with (bu_attr (after pre (opened W o c x))) in P.
    rewrite <- A in P. destruct G as [G|[_ G]]; [|destruct G as (_ & _ & _ & G & _); contradiction].
    pose proof (reached_history _ _ _ (bu_lib (opened W o c x)) (stamp_shape (bu_attr x)) (bu_attr x) pre (LO c) Ny F) as Re.
    change (exec_all (bu_lib (opened W o c x)) pre (bu_attr x)) with (bu_attr (after pre (opened W o c x))) in Re. rewrite <- A in Re.
    assert (S0 : since _ _ _ _ (ex_pos ex) (goodG W o x c) (fst s) (snd s)).
    { destruct G as (Q1 & Q2 & Q3 & Q4). repeat split; try assumption; destruct Q4 as [Q4 Q5].
      - rewrite (first_gone' W o x _ ex First) in Q4. exact Q4.
      - rewrite (first_gone' W o x _ ex First) in Q5. exact Q5. }
    assert (St : settled W o x c (ex_pos ex) (fst s, set_best _ _ _ (Some left) (snd s))).
    { split; [exact S0|]. split; [discriminate|]. exists (history pre). rewrite (given_same _ _ _ (bu_lib (opened W o c x)) c Hsel). cbn [snd].
      destruct Re as (J & mode & (Js & I) & H1 & H2 & H3 & H4 & H5 & H6 & H7 & H8 & H9 & H10). exists J, mode.
      split; [split; [apply (proj1 H10); [exact Js|destruct S0 as (_ & S0 & _); rewrite S0; discriminate]|exact I]|]. auto 12. }
    apply (settled_step W o x c c (ex_pos ex) Hsel (CSetZp z) _ I) in St. cbn [l_exec fst snd] in St.
    destruct (settled_psf W o x c c (ex_pos ex) Hsel _ l0 St Hl) as (_ & _ & _ & St2). rewrite Eg in St2. split; [exact St2|].
    assert (T : thinned _ _ _ left (snd (fst s, set_zp _ _ _ (Some z) (set_best _ _ _ (Some left) (snd s))))) by (exists left; split; [reflexivity|apply part_refl]).
    apply (settled_thin W o x c c (ex_pos ex) Hsel (CGetPSF (Some l0) None) _ left (conj Hl eq_refl) I St) in T.
    cbn [l_exec] in T. unfold lvoid in T. rewrite Eg in T. exact T.
  - destruct (unread W o x c (stamp_shape (bu_attr x)) pre Hsel (looked_at (bu_attr x)) (untouched x) (bu_attr x) F V0 Rd)
      as (lk & sv & Es & (z0 & Ev)).
    assert (Es' : s = (untouched x, sv)) by exact Es. clearbody s. subst s sv. cbn [fst snd] in Eg.
    set (s1 := exec_all (given (bu_lib (opened W o left x)) left) [CSetZp z] (fresh _ _ _ (stamp_shape (bu_attr x)) (Some left))).
    change (l_get_variable_psf (live_lib W o x) (Some l0) None (untouched x, s1) = (Ok ab, s2)) in Eg.
    assert (Be : before _ _ _ (stamp_shape (bu_attr x)) left s1) by (unfold before; cbn; repeat split; auto).
    assert (Nb : best (snd (untouched x, s1)) <> None) by (cbn; discriminate).
    destruct (cut_gone W o x left) as ([st [[ps kept]|e]] & Cu).
    2:{ destruct (psf_raises _ _ _ _ (live_lib W o x) _ _ _ _ _ _ _ l0 Be eq_refl Cu) as (x' & Hr). rewrite Hr in Eg. discriminate. }
    destruct (s_psf _ _ _ _ (live_lib W o x) (Ok left) (Some l0) None _ Nb) as [Sm Sb].
    rewrite Sm in Sb, Eg.
    destruct (psf_A _ _ _ _ (other _ _ _ _ (live_lib W o x) (Ok left)) (untouched x) (picG W o x left) (stamp_shape (bu_attr x)) left
      _ ps _ (goodG W o x left) eq_refl Cu (goodG1 W o x left) (Some l0) s1 Be)
      as (rr & p2 & t2 & E1 & E2 & G2).
    rewrite E1 in Sb, Eg. cbn [fst snd] in *. injection Eg as -> <-. exists ps.
    assert (St : still _ _ _ _ (other _ _ _ _ (live_lib W o x) (Ok left)) (untouched x) (picG W o x left) = given (bu_lib (opened W o left x)) left).
    { rewrite <- (still_gone W o x left). reflexivity. }
    rewrite St in E2. cbn [fst snd]. split.
    2:{ assert (T : thinned _ _ _ left s1) by (exists left; split; [reflexivity|apply part_refl]).
        assert (E3 : Session.exec (bu_lib (opened W o left x)) (CGetPSF (Some l0) None) s1 = t2).
        { destruct (Verif.Proof.Uses.same_exec _ _ _ (bu_lib (opened W o left x)) left (CGetPSF (Some l0) None) s1 I ltac:(cbn; discriminate)) as [-> _].
          cbn [Session.exec]. unfold void. now rewrite E2. }
        rewrite <- E3. apply thin_exec; [exact (conj Hl eq_refl)|exact I|exact T]. }
    split; [exact G2|]. split; [exact Sb|].
    exists (history [CSetZp z; CGetPSF (Some l0) None]).
    replace t2 with (exec_all (given (bu_lib (opened W o left x)) left) [CSetZp z; CGetPSF (Some l0) None] (fresh _ _ _ (stamp_shape (bu_attr x)) (Some left))).
    + apply reached_history; [exact (LO left)|right; exists left; now split|constructor; [exact I|constructor; [exact (conj Hl eq_refl)|constructor]]].
    + change (void _ _ _ (get_variable_psf (given (bu_lib (opened W o left x)) left) (Some l0) None) s1 = t2). unfold void. now rewrite E2.
Qed.

Section Turn.
Variables (W : libs) (o : choices) (x : built) (c k : list src) (ps : list (R * R)).
Hypothesis Sel : Session.select (bu_lib x) = Ok c.

(** A turn of an image whose stamps are settled. *)
Lemma settled_turn s cr s1 l stars z p s2 : settled W o x k ps s -> 0 <= l ->
  l_best_sources (live_lib W o x) s = (Ok cr, s1) -> l_turn W o x l stars z s1 = (Ok p, s2) ->
  settled W o x k ps s2 /\ thinned _ _ _ stars (snd s2) /\ reads l (opened W o k x) [] k (l_seen x (fst s2) p).
Proof.
  intros H Hl El Et. rewrite (turn_eq W o x l stars z cr s s1 El) in Et.
  apply (settled_best W o x k ps stars) in H.
  apply (settled_step W o x c k ps Sel (CSetZp z) _ I) in H. cbn [l_exec fst snd] in H.
  assert (T : thinned _ _ _ stars (snd (fst s, set_zp _ _ _ (Some z) (set_best _ _ _ (Some stars) (snd s))))) by (exists stars; split; [reflexivity|apply part_refl]).
  apply (settled_thin W o x c k ps Sel (CGetPSF (Some l) None) _ stars (conj Hl eq_refl) I H) in T. cbn [l_exec] in T. unfold lvoid in T.
  destruct (settled_psf W o x c k ps Sel _ l H Hl) as (A & _ & _ & H2).
  destruct (l_get_variable_psf (live_lib W o x) (Some l) None _) as [r s3]. cbn [fst snd] in *. subst r.
  unfold head in Et. destruct (psf_for _ _ l) as [[f b]|e] eqn:Q; [|discriminate]. cbn [bind snd] in Et.
  destruct b as [|q b]; [discriminate|]. injection Et as <- <-. split; [exact H2|]. split; [exact T|].
  destruct H2 as ((_ & _ & _ & (B & B')) & _).
  assert (Sp : spectral (fst s3) = gone W o x k) by (unfold spectral; destruct B' as [->| ->]; [exact B|reflexivity]).
  split; [|split; [reflexivity|split; [reflexivity|split; [reflexivity|]]]].
  - exists f, q, b. cbn [stamps_read]. split; [exact Q|].
    cbn [l_seen d_stamp]. split; [reflexivity|]. intros i j v V. unfold numbers. cbn [pmap px]. now rewrite V.
  - split; [|split].
    + intros i j. cbn [l_seen d_interped]. rewrite Sp. reflexivity.
    + intros i j M. cbn [l_seen d_data]. change (bu_data (opened W o k x)) with (bu_data x) in M. now rewrite M.
    + intros i j v M V. cbn [l_seen d_data]. change (bu_data (opened W o k x)) with (bu_data x) in M, V. now rewrite M, V.
Qed.

Lemma settled_keep s : settled W o x k ps s -> settled W o x k ps (mkpicture (pic_now (fst s)) (Some (spectral (fst s))), snd s).
Proof.
  intros ((A & B & D & (E & G)) & H). split; [|exact H]. split; [exact A|]. split; [exact B|]. split; [exact D|].
  split; [exact E|]. right. cbn [fst pic_hat]. f_equal. unfold spectral. destruct G as [->| ->]; [exact E|reflexivity].
Qed.
End Turn.

(** What a subtraction that returns has done. *)
Lemma held_steps W o o' l beta shift it x y hs D hs' :
  subtract_held W o o' l beta shift it x y hs = Ok (D, hs') ->
  exists cr cn s1 t1 t p q s2 t2,
    let kn := match cats t with c :: _ => c | [] => cn end in
    let e := mkenv (fun _ => Raise TypeError) (fun _ => Raise TypeError) (fun _ _ => Raise ValueError)
      (fun _ _ => Ok (nth 0 (zps t) 0, nth 1 (zps t) 0)) (l_back W) (l_solve W) in
    let keep (u : lstate) : lstate := (mkpicture (pic_now (fst u)) (Some (spectral (fst u))), snd u) in
    l_catalogue W o x (fst hs) = (Ok cr, s1) /\ l_catalogue W o' y (snd hs) = (Ok cn, t1) /\
    transparency (l_query W) (l_sort W) (l_lsqr W) [cr; cn] None = Ok t /\
    l_turn W o x l (map src_of (rows (mcat t))) (nth 0 (zps t) 0) s1 = (Ok p, s2) /\
    l_turn W o' y l (map src_of (rows kn)) (nth 1 (zps t) 0) t1 = (Ok q, t2) /\
    subtract e (Is (l_seen x (fst s2) p)) (Is (l_seen y (fst t2) q)) false beta shift it false = Ok D /\
    hs' = ((keep s2, Some (l_kept (mcat t) s2)), (keep t2, Some (l_kept kn t2))).
Proof.
  unfold subtract_held. destruct (negb _); [discriminate|].
  destruct (l_catalogue W o x (fst hs)) as [[cr|] s1]; [|destruct (l_catalogue W o' y (snd hs)); discriminate].
  destruct (l_catalogue W o' y (snd hs)) as [[cn|] t1]; [|discriminate]. cbn [bind].
  destruct (transparency _ _ _ _ _) as [t|] eqn:Et; [|discriminate]. cbn [bind].
  destruct (l_turn W o x l _ _ s1) as [[pr|] s2] eqn:Pr; [|destruct (l_turn W o' y l _ _ t1); discriminate].
  destruct (l_turn W o' y l _ _ t1) as [[pn|] t2] eqn:Pn; [|discriminate]. cbn [bind].
  destruct (subtract _ _ _ _ _ _ _ _) as [r|] eqn:Es; [|discriminate]. cbn [bind]. intros E. injection E as -> <-.
  exists cr, cn, s1, t1, t, pr, pn, s2, t2. cbv zeta. repeat split; assumption.
Qed.

(** Reading the catalogue of a settled image changes nothing. *)
Lemma settled_look W o x k ps h : settled W o x k ps (fst h) -> snd (l_catalogue W o x h) = fst h /\
  exists l, l_best_sources (live_lib W o x) (fst h) = (Ok l, fst h).
Proof.
  intros (_ & B & _). unfold l_catalogue.
  assert (E : exists l, l_best_sources (live_lib W o x) (fst h) = (Ok l, fst h)).
  { destruct h as [[p s] k0]. cbn [fst snd] in *. unfold l_best_sources, Session.best_sources. cbn [fst snd]. destruct (best s) as [l|]; [|contradiction]. exists l. reflexivity. }
  split; [|exact E]. destruct E as (l & E). rewrite E. now destruct (snd h).
Qed.

(** The catalogue kept beside an image has its sources. *)
Definition tied (h : lheld) : Prop :=
  match snd h with Some c => Session.best (snd (fst h)) = Some (map src_of (rows c)) | None => True end.

Lemma tied_kept (p : picture) k (s : lstate) : thinned _ _ _ (map src_of (rows k)) (snd s) -> tied ((p, snd s), Some (l_kept k s)).
Proof.
  intros (b & B & P). unfold tied, l_kept. cbn [fst snd rows]. rewrite B. f_equal. symmetry. now apply keep_same.
Qed.

(** What a matching reads of a tied image are its sources. *)
Lemma tied_look W o x h cr : tied h -> fst (l_catalogue W o x h) = Ok cr ->
  exists now, fst (l_best_sources (live_lib W o x) (fst h)) = Ok now /\ map place (rows cr) = map (fun s => (s_x s, s_y s, s_flux s)) now.
Proof.
  unfold tied, l_catalogue. destruct h as [[p s] [c|]]; cbn [fst snd].
  - intros B E. injection E as <-. unfold l_best_sources, Session.best_sources. cbn [fst snd]. rewrite B. cbn [fst].
    eexists. split; [reflexivity|]. rewrite map_map. reflexivity.
  - intros _. destruct (l_best_sources (live_lib W o x) (p, s)) as [[l|] s1]; [|discriminate]. cbn [bind fst]. intros E. injection E as <-.
    exists l. split; [reflexivity|]. cbn [rows]. rewrite map_map. reflexivity.
Qed.

Section Rounds.
Variables (W : libs) (o o' : choices) (x y : built) (c c' k k' : list src) (ps ps' : list (R * R)).
Hypothesis Sel : Session.select (bu_lib x) = Ok c.
Hypothesis Sel' : Session.select (bu_lib y) = Ok c'.

Definition both (hs : lheld * lheld) : Prop :=
  (settled W o x k ps (fst (fst hs)) /\ tied (fst hs)) /\ settled W o' y k' ps' (fst (snd hs)) /\ tied (snd hs).

(** A subtraction of settled images. *)
Lemma both_sub l beta shift it hs D hs' : both hs -> 0 <= l -> subtract_held W o o' l beta shift it x y hs = Ok (D, hs') ->
  both hs' /\ exists now now' cr cn t e u v,
    fst (l_best_sources (live_lib W o x) (fst (fst hs))) = Ok now /\ fst (l_best_sources (live_lib W o' y) (fst (snd hs))) = Ok now' /\
    map place (rows cr) = map (fun s => (s_x s, s_y s, s_flux s)) now /\ map place (rows cn) = map (fun s => (s_x s, s_y s, s_flux s)) now' /\
    transparency (l_query W) (l_sort W) (l_lsqr W) [cr; cn] None = Ok t /\
    reads l (opened W o k x) [] k u /\ reads l (opened W o' k' y) [] k' v /\
    e_transp e u v = Ok (nth 0 (zps t) 0, nth 1 (zps t) 0) /\ e_back e = l_back W /\ e_solve e = l_solve W /\
    subtract e (Is u) (Is v) false beta shift it false = Ok D.
Proof.
  intros [[H Ti] [H' Ti']] Hl E. destruct (held_steps _ _ _ _ _ _ _ _ _ _ _ _ E) as (cr & cn & s1 & t1 & t & p & q & s2 & t2 & A1 & A2 & A3 & A4 & A5 & A6 & A7).
  destruct (settled_look _ _ _ _ _ _ H) as [L1 (b & L2)]. destruct (tied_look W o x _ cr Ti ltac:(now rewrite A1)) as (now & N1 & N2). destruct (tied_look W o' y _ cn Ti' ltac:(now rewrite A2)) as (now' & N3 & N4). destruct (settled_look _ _ _ _ _ _ H') as [M1 (b' & M2)].
  rewrite A1 in L1. rewrite A2 in M1. cbn [snd] in L1, M1. subst s1 t1.
  destruct (settled_turn W o x c k ps Sel _ _ _ l _ _ p s2 H Hl L2 A4) as (S1 & T1 & R1).
  destruct (settled_turn W o' y c' k' ps' Sel' _ _ _ l _ _ q t2 H' Hl M2 A5) as (S2 & T2 & R2).
  split.
  - subst hs'. split; cbn [fst snd]; (split; [now apply settled_keep|now apply tied_kept]).
  - exists now, now', cr, cn, t. eexists _, _, _. split; [exact N1|]. split; [exact N3|]. split; [exact N2|]. split; [exact N4|]. split; [exact A3|].
    split; [exact R1|]. split; [exact R2|]. split; [|split; [|split; [|exact A6]]]; reflexivity.
Qed.

Lemma both_round r hs hs' : usual r -> both hs -> play W o o' x y r hs = Ok hs' -> both hs'.
Proof.
  destruct r as [cs cs'|l beta shift it]; cbn [usual play].
  - intros [F F'] [[H Ti] [H' Ti']] E. injection E as <-.
    assert (X : forall o x c k ps cs (h : lheld), Session.select (bu_lib x) = Ok c -> Forall later cs -> settled W o x k ps (fst h) -> tied h ->
      settled W o x k ps (fst (l_calls W o x cs h)) /\ tied (l_calls W o x cs h)).
    { clear. intros o x c k ps cs h Sel F H Ti. split; [apply (settled_all W o x c k ps Sel cs F _ H)|].
      unfold l_calls. destruct (existsb renews cs) eqn:Er; [exact I|]. destruct (snd h) as [kc|] eqn:Eh; [|exact I]. cbn [option_map].
      unfold tied in Ti. rewrite Eh in Ti.
      assert (T : thinned _ _ _ (map src_of (rows kc)) (snd (fst h))) by (eexists; split; [exact Ti|apply part_refl]).
      apply (settled_thin_all W o x c k ps Sel cs _ _ F Er H) in T.
      destruct (l_exec_all (live_lib W o x) cs (fst h)) as [p2 s2]. exact (tied_kept p2 kc (p2, s2) T). }
    split; cbn [fst snd]; eapply X; eauto.
  - intros Hl H E. destruct (subtract_held _ _ _ _ _ _ _ _ _ hs) as [[D h1]|] eqn:Es; [|discriminate]. cbn [bind snd] in E. injection E as <-.
    exact (proj1 (both_sub l beta shift it hs D h1 H Hl Es)).
Qed.

Lemma both_rounds rs : forall hs hs', Forall usual rs -> both hs -> play_all W o o' x y rs hs = Ok hs' -> both hs'.
Proof.
  induction rs as [|r rs IH]; cbn [play_all]; intros hs hs' F H E.
  - congruence.
  - destruct (play W o o' x y r hs) as [h1|] eqn:Ep; [|discriminate]. cbn [bind] in E. inversion_clear F as [|? ? F1 F2].
    exact (IH h1 hs' F2 (both_round r hs h1 F1 H Ep) E).
Qed.
End Rounds.

(** A subtraction after others of the same two images, with any plain calls on each before, and
    any plain calls and other sources in between. Its matching is of the sources that the images have by then. But the PSF and the
    interpolated image it uses of each are those of the stamps that were cut when they were first
    asked for: of the sources found in the image if that was before the first subtraction, and
    otherwise of those that the matching of the first subtraction left. *)
Lemma C142_subtract_lm : forall W fuel o o' d d' x y pre pre' c c' l0 b0 h0 i0 A hs rs hs1 l beta shift iterative D hs2,
  (forall n a, length (fst (l_eigh W n a)) = n) -> (forall r, Permutation (l_sort W r) r) ->
  build W fuel o d = Some (Ok x) -> build W fuel o' d' = Some (Ok y) -> 0 <= l0 -> 0 <= l ->
  fst (Session.best_sources (bu_lib x) (bu_attr x)) = Ok c -> fst (Session.best_sources (bu_lib y) (bu_attr y)) = Ok c' ->
  Forall plain pre -> Forall plain pre' ->
  let asked := stamps_read (looked_at (bu_attr x)) pre in
  let asked' := stamps_read (looked_at (bu_attr y)) pre' in
  (asked = true -> exists ex, snd (first_cut W o x c) = Ok ex) ->
  (asked' = true -> exists ex, snd (first_cut W o' y c') = Ok ex) ->
  subtract_held W o o' l0 b0 h0 i0 x y ((lived W o pre x, None), (lived W o' pre' y, None)) = Ok (A, hs) ->
  Forall usual rs -> play_all W o o' x y rs hs = Ok hs1 ->
  subtract_held W o o' l beta shift iterative x y hs1 = Ok (D, hs2) ->
  exists known known' left left' now now' cr cn t e u v,
    fst (l_best_sources (live_lib W o x) (lived W o pre x)) = Ok known /\
    fst (l_best_sources (live_lib W o' y) (lived W o' pre' y)) = Ok known' /\
    map spot left = map spot known /\ Permutation (map spot left') (map spot known') /\
    fst (l_best_sources (live_lib W o x) (fst (fst hs1))) = Ok now /\ fst (l_best_sources (live_lib W o' y) (fst (snd hs1))) = Ok now' /\
    map place (rows cr) = map (fun s => (s_x s, s_y s, s_flux s)) now /\ map place (rows cn) = map (fun s => (s_x s, s_y s, s_flux s)) now' /\
    transparency (l_query W) (l_sort W) (l_lsqr W) [cr; cn] None = Ok t /\
    (let k := if asked then c else left in
     let k' := if asked' then c' else left' in
     reads l (opened W o k x) [] k u /\ reads l (opened W o' k' y) [] k' v) /\
    e_transp e u v = Ok (nth 0 (zps t) 0, nth 1 (zps t) 0) /\ e_back e = l_back W /\ e_solve e = l_solve W /\
    subtract e (Is u) (Is v) false beta shift iterative false = Ok D.
Proof.
  intros W fuel o o' d d' x y pre pre' c c' l0 b0 h0 i0 A hs rs hs1 l beta shift it D hs2 EL SP Bx By Hl0 Hl Bs Bs' F F' asked asked' Rex Rex' E0 Fr Ep E1.
  destruct (build_catalogue _ _ _ _ _ _ Bx Bs) as [Hsel _]. destruct (build_catalogue _ _ _ _ _ _ By Bs') as [Hsel' _].
  destruct (held_steps _ _ _ _ _ _ _ _ _ _ _ _ E0) as (cr & cn & s1 & t1 & t & p & q & s2 & t2 & A1 & A2 & A3 & A4 & A5 & _ & A7).
  cbn [fst snd] in A1, A2. unfold l_catalogue in A1, A2. cbn [fst snd] in A1, A2.
  destruct (l_best_sources (live_lib W o x) (lived W o pre x)) as [[kr|] s1'] eqn:Er; [|discriminate]. cbn [bind] in A1. injection A1 as <- <-.
  destruct (l_best_sources (live_lib W o' y) (lived W o' pre' y)) as [[kn|] t1'] eqn:En; [|discriminate]. cbn [bind] in A2. injection A2 as <- <-.
  destruct (matched_spots _ _ _ _ _ _ SP A3) as (Sr & kc & Ec & Sn). rewrite Ec in A5, A7.
  destruct (settle_turn W fuel o d x pre c _ _ l0 kr s1' p s2 EL Bx F Bs Hl0 Rex Er A4) as (ps & H & T1).
  destruct (settle_turn W fuel o' d' y pre' c' _ _ l0 kn t1' q t2 EL By F' Bs' Hl0 Rex' En A5) as (ps' & H' & T2).
  fold asked in H. fold asked' in H'.
  assert (B : both W o o' x y (if asked then c else map src_of (rows (mcat t))) (if asked' then c' else map src_of (rows kc)) ps ps' hs).
  { subst hs. split; cbn [fst snd]; (split; [now apply settled_keep|now apply tied_kept]). }
  pose proof (both_rounds W o o' x y c c' _ _ ps ps' Hsel Hsel' rs hs hs1 Fr B Ep) as B1.
  destruct (both_sub W o o' x y c c' _ _ ps ps' Hsel Hsel' l beta shift it hs1 D hs2 B1 Hl E1) as (_ & now & now' & cr1 & cn1 & tt & e & u & v & Q1 & Q2 & Q1' & Q2' & Q3 & Q4 & Q5 & Q6).
  assert (Q : forall r, map spot (map src_of r) = map rspot r) by (intros r; rewrite map_map; reflexivity).
  assert (Q' : forall s, map rspot (map row_of s) = map spot s) by (intros s; rewrite map_map; reflexivity).
  exists kr, kn, (map src_of (rows (mcat t))), (map src_of (rows kc)), now, now', cr1, cn1, tt, e, u, v.
  split; [reflexivity|]. split; [reflexivity|]. split; [now rewrite Q, Sr, Q'|]. split; [now rewrite Q, <- Q'|].
  split; [exact Q1|]. split; [exact Q2|]. split; [exact Q1'|]. split; [exact Q2'|]. split; [exact Q3|]. split; [split; [exact Q4|exact Q5]|exact Q6].
Qed.
