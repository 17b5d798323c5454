(** Extractions that fail at stars without a level, asked for again. *)
From Coq Require Import ZArith List Bool Arith Reals Lia Lra.
From Flocq Require Import Core.Raux.
From Verif.Model Require Import Py Plane Sources FindS Stamps Interp Cut.
From Verif.Spec Require Import FindS Stamps Cut CutNan Retry.
From Verif.Proof Require Import Stamps StampsLoop StampsMain StampsExample Cut CutIntact CutLoop CutMain CutLeft CutEx CutNan.
Import ListNotations.
Set Bullet Behavior "Strict Subproofs".
Local Open Scope R_scope.

Lemma turns_join stats label pk rms sh l1 v1 im mid : turns stats label pk rms sh im l1 v1 mid ->
  forall l2 v2 last, turns stats label pk rms sh mid l2 v2 last -> turns stats label pk rms sh im (l1 ++ l2) (v1 ++ v2) last.
Proof. induction 1; intros; cbn [app]; [assumption|]. econstructor; eauto. Qed.

Lemma loop_stops stats label pk rms sh im pre v mid : turns stats label pk rms sh im pre v mid -> forall s post last e jj pos st del,
  cut_one stats label pk mid rms sh s = (last, Raise e) ->
  Cut.cut_loop stats label pk im rms sh (pre ++ s :: post) jj pos st del = (last, Raise e).
Proof.
  induction 1 as [im|im s0 o im1 l v im2 E F IH]; intros s post last e jj pos st del X; cbn [app Cut.cut_loop].
  - now rewrite X.
  - rewrite E. destruct o as [p|]; now apply IH.
Qed.

Lemma cut_stops stats label pk rms sh im pre v mid s post last e : turns stats label pk rms sh im pre v mid ->
  cut_one stats label pk mid rms sh s = (last, Raise e) ->
  cut_stamps stats label pk im rms sh (pre ++ s :: post) = (last, Raise e).
Proof.
  intros T X. unfold cut_stamps. fold (same_pick (length (pre ++ s :: post)) pk).
  set (pk' := same_pick _ pk). assert (P : private_pick pk = private_pick pk') by (symmetry; apply same_pick_eq).
  rewrite (loop_stops stats label pk' rms sh im pre v mid (turns_pick _ _ _ _ _ _ _ _ _ _ P T) s post last e); [reflexivity|].
  rewrite <- X. apply cut_pick. now rewrite P.
Qed.

Section Retry.
Variables (stats : plane R -> R * R * R) (label : plane bool -> plane nat * nat).
Variables (public : option bool) (image : plane R) (rms : R) (sh : nat * nat).
Hypothesis Hr : (0 < fst sh)%nat.
Hypothesis Hc : (0 < snd sh)%nat.
Let pk := mkpicks true public.
Notation one_of := (cut_one stats label pk).

Definition done (s : src) (im : plane (option R)) : Prop := agree sh s im (fst (one_of (intact image) rms sh s)).
Definition fresh (s : src) (im : plane (option R)) : Prop := agree sh s im (intact image).
Definition out (s : src) : option (plane (option R)) :=
  match snd (one_of (intact image) rms sh s) with Ok o => o | Raise _ => None end.

Definition fine (s : src) : Prop := exists o o', snd (one_of (intact image) rms sh s) = Ok o /\
  snd (one_of (fst (one_of (intact image) rms sh s)) rms sh s) = Ok o'.
Definition spoilt (s : src) : Prop := inner image sh s /\ ~ has_level image rms sh s /\
  snd (one_of (intact image) rms sh s) = Raise IndexError.

Lemma agree_trans s a b c : agree sh s a b -> agree sh s b c -> agree sh s a c.
Proof.
  intros (A1 & A2 & A3) (B1 & B2 & B3). split; [congruence|]. split; [congruence|].
  intros i j Hi Hj I. rewrite A3 by assumption. apply B3; congruence.
Qed.
Lemma agree_sym s a b : agree sh s a b -> agree sh s b a.
Proof. intros (A1 & A2 & A3). split; [congruence|]. split; [congruence|]. intros i j Hi Hj I. symmetry. apply A3; congruence. Qed.

Lemma strict_level s o : snd (one_of (intact image) rms sh s) = Ok o -> has_level image rms sh s.
Proof.
  intros O. destruct (cut_one_ok _ _ _ _ _ _ Hr Hc _ _ O) as (A & B & C & _).
  rewrite cut_normal in O by assumption. cbn [snd pk private_pick] in O.
  destruct (has_level_dec image rms sh s) as [Y|N]; [exact Y|].
  rewrite (proj2 (tlev_level image rms sh s) N) in O. discriminate.
Qed.

Lemma done_fine s im : fine s -> done s im ->
  snd (one_of im rms sh s) = Ok (out s) /\ done s (fst (one_of im rms sh s)).
Proof.
  intros (o & o' & O & O') Dn. unfold out. rewrite O. pose proof (strict_level s o O) as Hl.
  destruct (cut_one_ok _ _ _ _ _ _ Hr Hc _ _ O) as (A & B & C & _).
  destruct (cut_dims stats label pk rms sh Hr Hc (intact image) s) as [D1 D2]. cbn [intact pmap nr nc] in D1, D2.
  destruct (cut_agree stats label pk rms sh Hr Hc s _ _ Dn) as [E1 E2].
  assert (G : o' = o /\ agree sh s (fst (one_of (fst (one_of (intact image) rms sh s)) rms sh s)) (fst (one_of (intact image) rms sh s))).
  { destruct (inner_dec image sh s) as [Y|N].
    - assert (Ag : agree sh s (fst (one_of (intact image) rms sh s)) (intact (pmap (fun x => x - level_of image rms sh s) image))).
      { split; [exact D1|]. split; [exact D2|]. intros i j Hi Hj J. rewrite D1 in Hi. rewrite D2 in Hj.
        destruct (cut_writes stats label pk image rms sh Hr Hc s A B C i j Hi Hj J) as [W _].
        destruct (W Y) as [W1 _]. exact (W1 Hl). }
      destruct (cut_agree stats label pk rms sh Hr Hc s _ _ Ag) as [F1 F2]. rewrite F1 in O'. split.
      + exact (again_one image rms sh s Hr Hc Y Hl _ _ _ _ _ O O').
      + apply (agree_trans s _ _ _ F2). apply agree_sym. apply (agree_trans s _ _ _ Ag).
        destruct (cut_dims stats label pk rms sh Hr Hc (intact (pmap (fun x => x - level_of image rms sh s) image)) s) as [X1 X2].
        split; [now rewrite X1|]. split; [now rewrite X2|]. intros i j Hi Hj J. cbn [intact pmap nr nc] in Hi, Hj.
        rewrite (again_image image rms sh s Hr Hc Y Hl _ _ _ _ i j O' Hi Hj J). reflexivity.
    - assert (Ag : agree sh s (fst (one_of (intact image) rms sh s)) (intact image)).
      { split; [exact D1|]. split; [exact D2|]. intros i j Hi Hj J. rewrite D1 in Hi. rewrite D2 in Hj.
        destruct (cut_writes stats label pk image rms sh Hr Hc s A B C i j Hi Hj J) as [_ W]. exact (W N). }
      destruct (cut_agree stats label pk rms sh Hr Hc s _ _ Ag) as [F1 F2]. split; [congruence|exact F2]. }
  destruct G as [-> G]. split; [now rewrite E1, O'|]. exact (agree_trans s _ _ _ E2 G).
Qed.

Lemma done_spoilt s im : spoilt s -> done s im -> one_of im rms sh s = (im, Ok (out s)).
Proof.
  intros (Y & N & X) Dn. unfold out. rewrite X.
  destruct (cut_cases stats label pk image rms sh Hr Hc s) as [E|[E|(A & B & C)]]; [congruence|congruence|].
  destruct (cut_dims stats label pk rms sh Hr Hc (intact image) s) as [D1 D2]. cbn [intact pmap nr nc] in D1, D2.
  destruct Dn as (N1 & N2 & N3).
  assert (O : overlaps (numb im) sh (s_y s, s_x s)).
  { unfold overlaps in *. cbn [numb pmap nr nc]. rewrite N1, N2, D1, D2. exact A. }
  rewrite (cut_one_some stats label pk rms sh Hr Hc im s O).
  replace (any_nan (owin im rms sh (s_y s, s_x s) 0)) with true; [reflexivity|]. symmetry.
  apply (proj2 (owin_nan im rms sh s 0 ltac:(lia))).
  unfold inner, interior in Y. destruct (Y s (or_introl eq_refl)) as (Y1 & Y2).
  exists (Z.to_nat (start (s_y s) (fst sh))), (Z.to_nat (start (s_x s) (snd sh))).
  assert (Hi : (Z.to_nat (start (s_y s) (fst sh)) < nr image)%nat) by lia.
  assert (Hj : (Z.to_nat (start (s_x s) (snd sh)) < nc image)%nat) by lia.
  split; [lia|]. split; [lia|]. split; [lia|].
  assert (J : in_stamp sh s (Z.of_nat (Z.to_nat (start (s_y s) (fst sh)))) (Z.of_nat (Z.to_nat (start (s_x s) (snd sh))))) by (unfold in_stamp; lia).
  rewrite N3 by (lia || exact J).
  destruct (cut_writes stats label pk image rms sh Hr Hc s A B C _ _ Hi Hj J) as [W _]. destruct (W Y) as [_ W2]. exact (W2 N).
Qed.

Definition known (s : src) (im : plane (option R)) : Prop :=
  (done s im /\ (fine s \/ spoilt s)) \/ (fresh s im /\ fine s).

Lemma known_step s im : known s im -> exists im1, one_of im rms sh s = (im1, Ok (out s)) /\ done s im1.
Proof.
  intros [[Dn [F|S]]|[Fr F]].
  - destruct (done_fine s im F Dn) as [A B]. destruct (one_of im rms sh s) as [im1 r]. cbn in A, B. subst r. eauto.
  - rewrite (done_spoilt s im S Dn). eauto.
  - destruct (cut_agree stats label pk rms sh Hr Hc s _ _ Fr) as [A B]. destruct F as (o & o' & O & _).
    unfold out. rewrite O in *. destruct (one_of im rms sh s) as [im1 r]. cbn in A, B. subst r. eauto.
Qed.

Lemma keep s t im im1 r P : clear_of sh s t -> one_of im rms sh s = (im1, r) -> agree sh t im P -> agree sh t im1 P.
Proof. intros Cl E A. replace im1 with (fst (one_of im rms sh s)) by now rewrite E. now apply agree_after. Qed.

Lemma keep_turns l : forall im v last t P, turns stats label pk rms sh im l v last -> (forall s, In s l -> clear_of sh s t) ->
  agree sh t im P -> agree sh t last P.
Proof.
  intros im v last t P T Cl (A1 & A2 & A3). destruct (turns_out _ _ _ _ _ Hr Hc _ _ _ _ T) as (B1 & B2 & B3).
  split; [congruence|]. split; [congruence|]. intros i j Hi Hj J. rewrite B3; [apply A3; congruence || exact J|].
  intros s I K. exact (Cl s I _ _ K J).
Qed.

Lemma pass : forall l im, apart sh l -> (forall s, In s l -> known s im) ->
  exists last, turns stats label pk rms sh im l (map out l) last /\ forall s, In s l -> done s last.
Proof.
  induction l as [|s l IH]; intros im Ap K; [exists im; split; [constructor|intros s []]|].
  apply apart_cons in Ap. destruct Ap as [Cl Ap].
  destruct (known_step s im (K s (or_introl eq_refl))) as (im1 & E & Dn).
  destruct (IH im1 Ap) as (last & T & Dl).
  { intros t I. destruct (K t (or_intror I)) as [[Dt X]|[Ft X]]; [left|right]; (split; [|exact X]).
    - exact (keep s t im im1 _ _ (Cl t I) E Dt).
    - exact (keep s t im im1 _ _ (Cl t I) E Ft). }
  exists last. split; [econstructor; eauto|]. intros t [<-|I]; [|now apply Dl].
  apply (keep_turns _ _ _ _ _ _ T) in Dn; [exact Dn|]. intros u Iu r c A B. exact (Cl u Iu r c B A).
Qed.

Lemma first_bad (bad : src -> bool) l : (filter bad l = [] /\ forall s, In s l -> bad s = false) \/
  exists g b r, l = g ++ b :: r /\ bad b = true /\ forall s, In s g -> bad s = false.
Proof.
  induction l as [|s l IH]; [left; split; [reflexivity|intros s []]|]. cbn [filter]. destruct (bad s) eqn:B.
  - right. exists [], s, l. split; [reflexivity|]. split; [exact B|intros t []].
  - destruct IH as [[E A]|(g & b & r & -> & Hb & Hg)].
    + left. split; [exact E|]. intros t [<-|I]; auto.
    + right. exists (s :: g), b, r. split; [reflexivity|]. split; [exact Hb|]. intros t [<-|I]; auto.
Qed.

Variables (sources : list src) (bad : src -> bool).
Hypothesis Ap : apart sh sources.
Hypothesis Hbad : forall s, In s sources -> bad s = true -> spoilt s.
Hypothesis Hfine : forall s, In s sources -> bad s = false -> fine s.

Definition reached (k : nat) (im : plane (option R)) : Prop := exists pre rest, sources = pre ++ rest /\
  length (filter bad pre) = k /\ (forall s, In s pre -> done s im) /\ (forall s, In s rest -> fresh s im).

Lemma kind s : In s sources -> fine s \/ spoilt s.
Proof. intros I. destruct (bad s) eqn:B; [right|left]; auto. Qed.

Lemma attempt k im : reached k im ->
  (k < length (filter bad sources) -> exists last, cut_stamps stats label pk im rms sh sources = (last, Raise IndexError) /\ reached (S k) last)%nat /\
  (k = length (filter bad sources) -> exists last, cut_stamps stats label pk im rms sh sources = (last, Ok (result sh pk sources (map out sources)))).
Proof.
  intros (pre & rest & E & <- & Dp & Fr).
  assert (Cnt : length (filter bad sources) = (length (filter bad pre) + length (filter bad rest))%nat)
    by (rewrite E, filter_app, app_length; reflexivity).
  assert (In1 : forall s, In s pre -> In s sources) by (intros; rewrite E; apply in_app_iff; auto).
  assert (In2 : forall s, In s rest -> In s sources) by (intros; rewrite E; apply in_app_iff; auto).
  destruct (first_bad bad rest) as [[Z All]|(g & b & r & Er & Hb & Hg)].
  - rewrite Z in Cnt. cbn [length] in Cnt. split; [lia|]. intros _.
    destruct (pass sources im Ap) as (last & T & _).
    { intros s I. rewrite E in I. apply in_app_iff in I. destruct I as [I|I]; [left|right]; split; auto using kind. }
    exists last. apply cut_ok. exists (map out sources). now split.
  - split; [intros _|intros C; exfalso; rewrite Cnt, Er, filter_app, app_length in C; cbn [filter] in C; rewrite Hb in C; cbn [length] in C; lia].
    assert (E2 : sources = (pre ++ g) ++ b :: r) by (rewrite E, Er, app_assoc; reflexivity).
    pose proof Ap as Ap0. rewrite E2 in Ap0. apply apart_app in Ap0. destruct Ap0 as (Ap1 & Ap2 & Ap3).
    assert (Ig : forall s, In s g -> In s rest) by (intros; rewrite Er; apply in_app_iff; auto).
    assert (Ib : In b rest) by (rewrite Er; apply in_app_iff; right; now left).
    destruct (pass (pre ++ g) im Ap1) as (mid & T & Dm).
    { intros s I. apply in_app_iff in I. destruct I as [I|I]; [left|right]; split; auto using kind. }
    assert (Fb : fresh b mid).
    { apply (keep_turns _ _ _ _ _ _ T); [|exact (Fr b Ib)]. intros s I. exact (Ap3 s b I (or_introl eq_refl)). }
    destruct (Hbad b (In2 b Ib) Hb) as (_ & _ & X).
    destruct (cut_agree stats label pk rms sh Hr Hc b _ _ Fb) as [Y1 Y2]. rewrite X in Y1.
    destruct (one_of mid rms sh b) as [last rr] eqn:Q. cbn [fst snd] in Y1, Y2. subst rr.
    exists last. split; [rewrite E2; exact (cut_stops _ _ _ _ _ _ _ _ _ _ _ _ _ T Q)|].
    exists ((pre ++ g) ++ [b]), r. split; [rewrite E2, <- (app_assoc (pre ++ g) [b] r); reflexivity|].
    apply apart_cons in Ap2. destruct Ap2 as [Ap2 _]. split; [|split].
    + rewrite !filter_app, !app_length. cbn [filter]. rewrite Hb.
      replace (filter bad g) with (@nil src); [cbn [length]; lia|]. symmetry. clear - Hg.
      induction g as [|a g IH]; [reflexivity|]. cbn. rewrite (Hg a (or_introl eq_refl)). apply IH. intros; apply Hg; now right.
    + intros s I. apply in_app_iff in I. destruct I as [I|[<-|[]]]; [|exact Y2].
      apply (keep b s mid last (Raise IndexError) _); [|exact Q|exact (Dm s I)].
      intros u v A B. exact (Ap3 s b I (or_introl eq_refl) u v B A).
    + intros s I. apply (keep b s mid last (Raise IndexError) _); [exact (Ap2 s I)|exact Q|].
      apply (keep_turns _ _ _ _ _ _ T).
      * intros t It. exact (Ap3 t s It (or_intror I)).
      * apply Fr. rewrite Er. apply in_app_iff. right. now right.
Qed.

Lemma tried : forall k, (k <= length (filter bad sources))%nat ->
  reached k (after_tries stats label pk (intact image) rms sh sources k).
Proof.
  induction k as [|k IH]; intros Hk; cbn [after_tries].
  - exists [], sources. split; [reflexivity|]. split; [reflexivity|]. split; [intros s []|]. intros s _. apply agree_refl.
  - destruct (attempt k _ (IH ltac:(lia))) as [A _]. destruct (A ltac:(lia)) as (last & E & Q). now rewrite E.
Qed.

Lemma retries :
  (forall k, (k < length (filter bad sources))%nat ->
     snd (cut_stamps stats label pk (after_tries stats label pk (intact image) rms sh sources k) rms sh sources) = Raise IndexError) /\
  snd (cut_stamps stats label pk (after_tries stats label pk (intact image) rms sh sources (length (filter bad sources))) rms sh sources) =
    Ok (result sh pk sources (map out sources)) /\
  exists left, cut_stamps stats label pk (intact image) rms sh (filter (fun s => negb (bad s)) sources) =
    (left, Ok (result sh pk (filter (fun s => negb (bad s)) sources) (map out (filter (fun s => negb (bad s)) sources)))).
Proof.
  split; [|split].
  - intros k Hk. destruct (attempt k _ (tried k ltac:(lia))) as [A _]. destruct (A Hk) as (last & E & _). now rewrite E.
  - destruct (attempt _ _ (tried _ (le_n _))) as [_ A]. destruct (A eq_refl) as (last & E). now rewrite E.
  - destruct (pass (filter (fun s => negb (bad s)) sources) (intact image)) as (last & T & _).
    + clear - Ap. induction sources as [|s l IH]; [constructor|]. apply apart_cons in Ap. destruct Ap as [A B]. cbn [filter].
      destruct (negb (bad s)); [|auto]. apply apart_cons. split; [|auto]. intros t I. apply filter_In in I. apply A. tauto.
    + intros s I. apply filter_In in I. destruct I as [I B]. right. split; [apply agree_refl|]. apply Hfine; [exact I|]. now destruct (bad s).
    + exists last. apply cut_ok. eexists. split; [exact T|reflexivity].
Qed.

Lemma out_bad s : In s sources -> bad s = true -> out s = None.
Proof. intros I B. destruct (Hbad s I B) as (_ & _ & X). unfold out. now rewrite X. Qed.

Lemma out_filter : somes (map out sources) = somes (map out (filter (fun s => negb (bad s)) sources)) /\
  pick sources (map out sources) = pick (filter (fun s => negb (bad s)) sources) (map out (filter (fun s => negb (bad s)) sources)).
Proof.
  assert (H : forall s, In s sources -> bad s = true -> out s = None) by exact out_bad. revert H. clear.
  induction sources as [|s l IH]; intros H; [split; reflexivity|]. destruct IH as [A B]; [intros; apply H; auto; now right|].
  cbn [filter]. destruct (bad s) eqn:E; cbn [negb].
  - cbn [map]. rewrite (H s (or_introl eq_refl) E). cbn. auto.
  - cbn [map]. destruct (out s); cbn; split; congruence.
Qed.
End Retry.

(** With strict picking, stars whose stamp has no level make the extraction fail once each; asked
    again as often, it returns the stamps of the other stars. *)
Lemma C138_retries_lm : forall stats label public image rms sh sources bad,
  (0 < fst sh)%nat -> (0 < snd sh)%nat -> apart sh sources ->
  let pk := mkpicks true public in
  (forall s, In s sources -> bad s = true -> inner image sh s /\ ~ has_level image rms sh s /\
     snd (cut_stamps stats label pk (intact image) rms sh [s]) = Raise IndexError) ->
  (forall s, In s sources -> bad s = false -> exists left ex ex',
     cut_stamps stats label pk (intact image) rms sh [s] = (left, Ok ex) /\
     snd (cut_stamps stats label pk left rms sh [s]) = Ok ex') ->
  let n := length (filter bad sources) in
  let try k := snd (cut_stamps stats label pk (after_tries stats label pk (intact image) rms sh sources k) rms sh sources) in
  (forall k, (k < n)%nat -> try k = Raise IndexError) /\
  exists ex left0 ex0, try n = Ok ex /\
    cut_stamps stats label pk (intact image) rms sh (filter (fun s => negb (bad s)) sources) = (left0, Ok ex0) /\
    ex_stamps ex = ex_stamps ex0 /\ ex_pos ex = ex_pos ex0.
Proof.
  intros stats label public image rms sh sources bad Hr Hc Ap pk Hb Hf n try.
  assert (B : forall s, In s sources -> bad s = true -> spoilt stats label public image rms sh s).
  { intros s I E. destruct (Hb s I E) as (A & N & X). split; [exact A|]. split; [exact N|]. fold pk.
    destruct (cut_one stats label pk (intact image) rms sh s) as [im [o|e]] eqn:Q.
    - destruct (single_turn _ _ _ _ _ _ _ _ _ Q) as (ex & Y & _). rewrite Y in X. discriminate.
    - rewrite (single_raise _ _ _ _ _ _ _ _ _ Q) in X. injection X as ->. reflexivity. }
  assert (F : forall s, In s sources -> bad s = false -> fine stats label public image rms sh s).
  { intros s I E. destruct (Hf s I E) as (left & ex & ex' & X & Y). unfold fine. fold pk.
    destruct (cut_one stats label pk (intact image) rms sh s) as [im [o|e]] eqn:Q.
    - destruct (single_turn _ _ _ _ _ _ _ _ _ Q) as (ex1 & Y1 & _). rewrite Y1 in X. injection X as <- _. cbn [fst snd].
      destruct (cut_one stats label pk im rms sh s) as [im' [o'|e]] eqn:Q'; [exists o, o'; now split|].
      exfalso. rewrite (single_raise _ _ _ _ _ _ _ _ _ Q') in Y. discriminate.
    - exfalso. rewrite (single_raise _ _ _ _ _ _ _ _ _ Q) in X. discriminate. }
  destruct (retries stats label public image rms sh Hr Hc sources bad Ap B F) as (R1 & R2 & left & R3).
  destruct (out_filter stats label public image rms sh sources bad B) as [S P].
  split; [exact R1|]. do 3 eexists. split; [exact R2|]. split; [exact R3|].
  cbn [result ex_stamps ex_pos]. now rewrite S, P.
Qed.
