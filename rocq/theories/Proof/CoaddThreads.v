(** The worker threads of [coadd], under every schedule. *)
From Coq Require Import Arith ZArith List Bool Reals Lia Lra Permutation.
From Coquelicot Require Import Complex.
From Verif.Model Require Import Py Plane Ma Chunk Coadd.
From Verif.Spec Require Import Coadd.
From Verif.Proof Require Import Chunk ChunkSort Coadd.
Import ListNotations.
Set Bullet Behavior "Strict Subproofs".

Ltac conj := repeat match goal with H : _ /\ _ |- _ => destruct H end.
Ltac splits := repeat match goal with |- _ /\ _ => split end.

Lemma step_local h w j : (forall i, In i (w_todo w) -> i <> j) -> snd (step h w) j = h j.
Proof.
  intros N. unfold step. destruct (w_todo w) as [|i rest]; [now destruct (w_pc w)|].
  destruct (w_pc w); cbn [snd]; try reflexivity;
    apply upd_other; intros ->; exact (N i (or_introl eq_refl) eq_refl).
Qed.

Lemma NoDup_app_disj {A} (l m : list A) : NoDup (l ++ m) ->
  NoDup l /\ NoDup m /\ forall a, In a l -> In a m -> False.
Proof.
  induction l as [|a l IH]; cbn; intros H.
  - repeat split; auto. constructor.
  - inversion H as [|? ? N D]; subst. destruct (IH D) as [N1 [N2 N3]]. repeat split; auto.
    + constructor; auto. intro. apply N. apply in_app_iff; auto.
    + intros b [->|Hb] Hm; [|eauto]. apply N. apply in_app_iff; auto.
Qed.

(** ** An invariant of one worker that looks only at its own chunk holds for all workers
    under every schedule, if no image is in two chunks. *)
Section Invariant.
Variable winv : heap -> list nat -> worker -> Prop.
Hypothesis winv_todo : forall h c w i, winv h c w -> In i (w_todo w) -> In i c.
Hypothesis winv_frame : forall h h' c w,
  (forall i, In i c -> h' i = h i) -> winv h c w -> winv h' c w.
Variable U : list nat.
Hypothesis winv_step : forall h c w, NoDup c -> incl c U -> winv h c w ->
  winv (snd (step h w)) c (fst (step h w)).

Lemma step_all chunks : forall h ws k w, NoDup (concat chunks) -> incl (concat chunks) U ->
  Forall2 (winv h) chunks ws -> nth_error ws k = Some w ->
  Forall2 (winv (snd (step h w))) chunks (set_nth k (fst (step h w)) ws).
Proof.
  induction chunks as [|c chunks IH]; intros h ws k w Nd Hu I Hk;
    inversion I as [|? w0 ? ws0 I0 Is]; subst; [now destruct k|].
  cbn in Nd, Hu. destruct (NoDup_app_disj _ _ Nd) as [Nc [Ncs Dj]].
  assert (incl c U /\ incl (concat chunks) U) as [Hu1 Hu2].
  { split; intros x Hx; apply Hu, in_app_iff; auto. }
  destruct k as [|k]; cbn in Hk |- *.
  - injection Hk as <-. constructor; [now apply winv_step|].
    assert (forall cs vs, Forall2 (winv h) cs vs -> (forall b, In b (concat cs) -> In b (concat chunks)) ->
            Forall2 (winv (snd (step h w0))) cs vs) as G.
    { induction 1 as [|c' v cs vs H1 H2 IH2]; intros Hsub; constructor.
      - apply winv_frame with (2 := H1). intros i Hi. apply step_local. intros j Hj ->.
        apply (Dj i); [now apply winv_todo with (1 := I0)|]. apply Hsub. cbn. apply in_app_iff; auto.
      - apply IH2. intros b Hb. apply Hsub. cbn. apply in_app_iff; auto. }
    apply G; auto.
  - constructor; [|now apply IH].
    apply winv_frame with (2 := I0). intros i Hi. apply step_local. intros j Hj ->.
    apply (Dj i Hi). clear - Is Hk Hj winv_todo. revert ws0 k Is Hk.
    induction chunks as [|c chunks IH]; intros ws k Is Hk; inversion Is as [|? w1 ? ws1 I1 Is1]; subst;
      [now destruct k|]. cbn. apply in_app_iff. destruct k as [|k]; cbn in Hk.
    + injection Hk as ->. left. now apply winv_todo with (1 := I1).
    + right. now apply (IH ws1 k).
Qed.

Lemma run_inv chunks sched : forall h ws, NoDup (concat chunks) -> incl (concat chunks) U ->
  Forall2 (winv h) chunks ws ->
  Forall2 (winv (snd (run sched h ws))) chunks (fst (run sched h ws)).
Proof.
  induction sched as [|k sched IH]; intros h ws Nd Hu I; cbn [run]; [exact I|].
  destruct (nth_error ws k) as [w|] eqn:E; [|now apply IH].
  pose proof (step_all _ _ _ _ _ Nd Hu I E) as I'. destruct (step h w) as [w' h'].
  now apply IH.
Qed.
End Invariant.

(** ** Worker threads *)

Section Threads.
Variable sh : nat * nat.
Variable h0 : heap.

(** The images still to be treated are as they were, up to a coherent cache. *)
Definition img_same (h : heap) (i : nat) : Prop :=
  static (h i) = static (h0 i) /\ cache_ok (h i) /\ cur (h i) = cur (h0 i).

Definition sum_is (p : plane C) (f : nat -> nat -> nat -> C) (l : list nat) : Prop :=
  shape p = sh /\ forall r c, r < fst sh -> c < snd sh -> px p r c = total (fun i => f i r c) l.

Definition uni_is (m : mask) (l : list nat) : Prop :=
  mshape sh m /\ forall r c, r < fst sh -> c < snd sh ->
    masked_at m r c = existsb (fun i => masked_at (si_mask (h0 i)) r c) l.

Definition curc (i r c : nat) := cur (h0 i) r c.
Definition ptc (i r c : nat) := pterm (h0 i) r c.

(** Invariant of one worker: [dn] is what it has finished. The initial mask is that of the
    first image of the chunk, so [dn] counts that image from the start for the mask. *)
Definition winv (h : heap) (chunk : list nat) (w : worker) : Prop :=
  exists dn, chunk = dn ++ w_todo w /\
  let a := w_acc w in
  let first := firstn 1 chunk in
  match w_pc w with
  | WFail e => False
  | WDone => w_todo w = [] /\ sum_is (aS a) curc dn /\ sum_is (aP a) ptc dn /\ uni_is (aM a) (first ++ dn)
             /\ shrunk sh (aM a)
  | WStart => dn = [] /\ chunk <> [] /\ sum_is (aS a) curc [] /\ sum_is (aP a) ptc [] /\
              forall i, In i (w_todo w) -> img_same h i
  | q =>
      chunk <> [] /\ (dn <> [] -> shrunk sh (aM a)) /\
      sum_is (aS a) curc (match q, w_todo w with
                          | WPsf, i :: _ | WMask, i :: _ => dn ++ [i]
                          | _, _ => dn end) /\
      sum_is (aP a) ptc (match q, w_todo w with
                         | WMask, i :: _ => dn ++ [i]
                         | _, _ => dn end) /\
      uni_is (aM a) (first ++ dn) /\
      match w_todo w with
      | [] => True
      | i :: rest =>
          (forall j, In j rest -> img_same h j) /\
          static (h i) = static (h0 i) /\
          match q with
          | WHas => img_same h i
          | WLoss => img_same h i /\ si_shat (h i) <> None
          | WCompute => cur (h0 i) = shat_value (h0 i)
          | WStore v => v = shat_value (h0 i) /\ cur (h0 i) = shat_value (h0 i)
          | WStoreLoss => si_shat (h i) = Some (cur (h0 i))
          | WLoad => si_shat (h i) = Some (cur (h0 i))
          | _ => True
          end
      end
  end.

Variable U : list nat.
Hypothesis fits : forall i, In i U -> si_shape (h0 i) = sh /\ mshape sh (si_mask (h0 i)).

Lemma sum_add p f dn v i : sum_is p f dn -> shape v = sh ->
  (forall r c, r < fst sh -> c < snd sh -> px v r c = f i r c) ->
  exists p', add_out Cplus v p = Ok p' /\ sum_is p' f (dn ++ [i]).
Proof.
  intros [Sp Hp] Sv Hv.
  destruct (add_out_acc sh v p _ _ Sv Sp Hv Hp) as [r [E [Sr Hr]]].
  exists r. split; [exact E|]. split; [exact Sr|]. intros a b Ha Hb. rewrite Hr by assumption.
  rewrite total_app. unfold total at 3. cbn [fold_right]. ring.
Qed.


Lemma step_inv_nil h chunk w : w_todo w = [] -> winv h chunk w ->
  winv (snd (step h w)) chunk (fst (step h w)).
Proof.
  destruct w as [q td a]. cbn [w_todo]. intros ->. unfold step; cbn [w_todo].
  intros [dn [Ec I]].
  assert (chunk <> [] -> dn <> []) as Hd by (intros Hc ->; apply Hc; exact Ec).
  cbn [w_pc w_todo w_acc] in *.
  destruct q; cbn [fst snd]; try (now exists dn); try contradiction.
  1: { exfalso. destruct I as [-> [Hc _]]. now apply Hd. }
  all: exists dn; cbn; conj; splits; auto.
Qed.

Lemma mask_step m dn first i : In i U -> uni_is m (first ++ dn) -> mshape sh m ->
  exists m', mask_or m (si_mask (h0 i)) = Ok m' /\ shrunk sh m' /\ uni_is m' (first ++ dn ++ [i]).
Proof.
  intros Hi [_ Hu] Hm. destruct (fits i Hi) as [_ Mi].
  destruct (mask_or_spec sh m (si_mask (h0 i)) Hm Mi) as [m' [E [S' H]]].
  exists m'. split; [exact E|]. split; [exact S'|]. split; [now apply shrunk_mshape|].
  intros r c Hr Hc. rewrite H, Hu by assumption. rewrite !existsb_app. cbn. rewrite orb_false_r.
  now rewrite orb_assoc.
Qed.

Lemma img_same_upd h i x j : j <> i -> img_same h j -> img_same (upd h i x) j.
Proof. intros N. unfold img_same. now rewrite upd_other by exact N. Qed.

Lemma step_inv_cons h chunk w i rest : NoDup chunk -> incl chunk U -> w_todo w = i :: rest -> winv h chunk w ->
  winv (snd (step h w)) chunk (fst (step h w)).
Proof.
  intros Nd Hu. destruct w as [q td a]. cbn [w_todo]. intros ->. unfold step; cbn [w_todo].
  intros [dn [Ec I]]. cbn [w_todo] in Ec.
  assert (forall j, In j rest -> j <> i) as Nj.
  { intros j Hj ->. rewrite Ec in Nd. apply NoDup_remove_2 in Nd. apply Nd. apply in_app_iff; auto. }
  assert (chunk <> []) as Hc by (rewrite Ec; now destruct dn).
  cbn [w_pc w_todo w_acc] in *. assert (In i U) as Ui by (apply Hu; rewrite Ec; apply in_app_iff; right; now left).
  destruct (fits i Ui) as [Si Mi].
  destruct q; cbn [fst snd w_acc goto]; unfold goto; cbn [w_acc w_todo]; cbn beta iota zeta in I.
  - (* WStart *) destruct I as [-> [K0 [I1 [I2 I3]]]]. exists []. cbn [w_todo w_pc w_acc aS aP aM app].
    destruct (I3 i (or_introl eq_refl)) as [J1 [J2 J3]].
    splits; auto; try congruence.
    + cbn in Ec. rewrite Ec. cbn. split.
      * destruct (static_fields _ _ J1) as [_ [-> _]]. exact Mi.
      * intros r c _ _. destruct (static_fields _ _ J1) as [_ [-> _]]. cbn. now rewrite orb_false_r.
    + intros j Hj. apply I3. now right.
    + now split.
  - (* WHas *) destruct I as [K0 [I1 [I2 [I3 [I4 [I5 [I6 I7]]]]]]].
    destruct I7 as [J1 [J2 J3]].
    exists dn. destruct (si_shat (h i)) as [v|] eqn:Ev; cbn [w_todo w_pc w_acc]; splits; auto.
    + split; auto.
    + congruence.
    + rewrite <- J3. unfold cur. rewrite Ev. now destruct (static_fields _ _ J1) as [_ [_ [_ [-> _]]]].
  - (* WLoss *) destruct I as [K0 [I1 [I2 [I3 [I4 [I5 [I6 [I7 I8]]]]]]]].
    destruct I7 as [J1 [J2 J3]]. specialize (J2 I8).
    destruct (static_fields _ _ J1) as [_ [_ [_ [F1 F2]]]].
    exists dn. destruct (si_shat_loss (h i)) as [l|] eqn:El; [|congruence].
    destruct (si_shat (h i)) as [v|] eqn:Ev; [|congruence].
    assert (cur (h i) = if Req_EM_T l (si_loss (h i)) then v else shat_value (h i)) as J4
      by (unfold cur; now rewrite El, Ev).
    destruct (Req_EM_T l (si_loss (h i))); cbn [w_todo w_pc w_acc]; splits; auto; congruence.
  - (* WCompute *) destruct I as [K0 [I1 [I2 [I3 [I4 [I5 [I6 I7]]]]]]].
    exists dn. cbn [w_todo w_pc w_acc]. splits; auto.
    now destruct (static_fields _ _ I6) as [_ [_ [_ [-> _]]]].
  - (* WStore *) destruct I as [K0 [I1 [I2 [I3 [I4 [I5 [I6 [-> I7]]]]]]]].
    exists dn. cbn [w_todo w_pc w_acc]. splits; auto.
    + intros j Hj. apply img_same_upd; auto.
    + rewrite upd_same. rewrite <- I6. now destruct (h i).
    + rewrite upd_same. cbn. now rewrite I7.
  - (* WStoreLoss *) destruct I as [K0 [I1 [I2 [I3 [I4 [I5 [I6 I7]]]]]]].
    exists dn. cbn [w_todo w_pc w_acc]. splits; auto.
    + intros j Hj. apply img_same_upd; auto.
    + rewrite upd_same. rewrite <- I6. now destruct (h i).
    + now rewrite upd_same.
  - (* WLoad *) destruct I as [K0 [I1 [I2 [I3 [I4 [I5 [I6 I7]]]]]]].
    rewrite I7. destruct (static_fields _ _ I6) as [F1 _]. rewrite F1, Si.
    destruct (sum_add (aS a) curc dn (arr sh (cur (h0 i))) i I2) as [p' [-> Hp]];
      [now destruct sh|reflexivity|].
    exists dn. cbn [w_todo w_pc w_acc aS aP aM]. splits; auto.
  - (* WPsf *) destruct I as [K0 [I1 [I2 [I3 [I4 [I5 [I6 K1]]]]]]].
    destruct (static_fields _ _ I6) as [_ [_ [F1 _]]]. rewrite F1.
    destruct (sum_add (aP a) ptc dn (psf_term (h0 i)) i I3) as [p' [-> Hp]];
      [unfold psf_term; rewrite Si; now destruct sh|reflexivity|].
    exists dn. cbn [w_todo w_pc w_acc aS aP aM]. splits; auto.
  - (* WMask *) destruct I as [K0 [I1 [I2 [I3 [I4 [I5 [I6 K1]]]]]]].
    destruct (static_fields _ _ I6) as [_ [F1 _]]. rewrite F1.
    destruct (mask_step (aM a) dn (firstn 1 chunk) i Ui I4 (proj1 I4)) as [m' [-> [S' U']]].
    exists (dn ++ [i]). cbn [w_todo w_pc w_acc aS aP aM]. splits; auto.
    + rewrite Ec, <- app_assoc. reflexivity.
    + destruct rest as [|k rest]; [exact Logic.I|]. splits.
      * intros j Hj. apply I5. now right.
      * apply I5. now left.
      * apply I5. now left.
  - (* WDone *) exists dn. cbn. destruct I as [I _]. discriminate.
  - contradiction.
Qed.

Lemma step_inv h chunk w : NoDup chunk -> incl chunk U -> winv h chunk w ->
  winv (snd (step h w)) chunk (fst (step h w)).
Proof.
  intros Nd Hu I. destruct (w_todo w) as [|i rest] eqn:E.
  - now apply step_inv_nil.
  - now apply step_inv_cons with i rest.
Qed.

Lemma winv_frame h h' chunk w : (forall i, In i chunk -> h' i = h i) -> winv h chunk w -> winv h' chunk w.
Proof.
  intros E [dn [Ec I]]. exists dn. split; [exact Ec|].
  assert (forall i, In i (w_todo w) -> h' i = h i) as E'.
  { intros i Hi. apply E. rewrite Ec. apply in_app_iff; auto. }
  destruct w as [q td a]. cbn [w_todo w_pc w_acc] in *.
  assert (forall i, In i td -> img_same h i -> img_same h' i) as Es.
  { intros i Hi. unfold img_same. now rewrite E'. }
  destruct td as [|i rest].
  - destruct q; cbn in *; conj; splits; auto.
  - assert (h' i = h i) as Ei by (apply E'; now left).
    destruct q; cbn in I |- *; conj; splits; auto; try contradiction;
      match goal with
      | |- img_same _ i => apply Es; [now left|auto]
      | |- forall j, _ => intros j Hj; apply Es; auto; now right
      | |- _ => rewrite Ei; auto
      end.
Qed.


Lemma winv_todo h chunk w i : winv h chunk w -> In i (w_todo w) -> In i chunk.
Proof. intros [dn [-> _]] H. apply in_app_iff; auto. Qed.

Lemma start_inv chunk : chunk <> [] -> (forall i, In i chunk -> cache_ok (h0 i)) ->
  winv h0 chunk (start sh chunk).
Proof.
  intros Hc Hok. exists []. cbn. splits; auto.
  - split; [now destruct sh|reflexivity].
  - split; [now destruct sh|reflexivity].
  - intros i Hi. unfold img_same. auto.
Qed.

(** What the parent gets when all workers succeed. *)
Definition part_is (c : list nat) (a : acc) : Prop :=
  sum_is (aS a) curc c /\ sum_is (aP a) ptc c /\ uni_is (aM a) c /\ shrunk sh (aM a).

Lemma uni_first m c : uni_is m (firstn 1 c ++ c) -> uni_is m c.
Proof.
  intros [H1 H2]. split; [exact H1|]. intros r k Hr Hk. rewrite H2 by assumption.
  destruct c as [|i c]; [reflexivity|]. cbn. now destruct (masked_at (si_mask (h0 i)) r k).
Qed.

Lemma gather_inv h chunks ws : Forall2 (winv h) chunks ws ->
  gather ws = None \/ exists rs, gather ws = Some (Ok rs) /\ Forall2 part_is chunks rs.
Proof.
  induction 1 as [|c w cs ws I _ IH]; cbn [gather].
  - right. exists []. auto.
  - destruct I as [dn [Ec I]].
    destruct (w_pc w) eqn:Ep; try (destruct IH as [->|[rs [-> _]]]; now left); [|contradiction].
    destruct I as [E0 [I1 [I2 [I3 I4]]]]. rewrite E0, app_nil_r in Ec. subst dn.
    destruct IH as [->|[rs [-> Hr]]]; [now left|right].
    eexists. split; [reflexivity|]. constructor; [|exact Hr].
    split; [exact I1|]. split; [exact I2|]. split; [now apply uni_first|exact I4].
Qed.

(** ** Combining the parts *)

Definition parts_is (l : list nat) (a : parts) : Prop :=
  shape (pSr a) = sh /\ shape (pSi a) = sh /\ shape (pPr a) = sh /\ shape (pPi a) = sh /\
  (forall r c, r < fst sh -> c < snd sh ->
     px (pSr a) r c = fst (total (fun i => curc i r c) l) /\
     px (pSi a) r c = snd (total (fun i => curc i r c) l) /\
     px (pPr a) r c = fst (total (fun i => ptc i r c) l) /\
     px (pPi a) r c = snd (total (fun i => ptc i r c) l)) /\
  uni_is (pM a) l.

Lemma add_part (p : plane R) (g : C -> R) (s : plane R) (q : plane C) (f : nat -> nat -> nat -> C) c l :
  (forall x y, g (Cplus x y) = (g x + g y)%R) -> p = pmap g q -> sum_is q f c -> shape s = sh ->
  (forall i j, i < fst sh -> j < snd sh -> px s i j = g (total (fun k => f k i j) l)) ->
  exists r, add_out Rplus p s = Ok r /\ shape r = sh /\
    forall i j, i < fst sh -> j < snd sh -> px r i j = g (total (fun k => f k i j) (l ++ c)).
Proof.
  intros Hg -> [Sq Hq] Ss Hs.
  destruct (add_out_same Rplus (pmap g q) s) as [r [E [Sr Hr]]].
  - transitivity sh; [exact Sq|now symmetry].
  - exists r. split; [exact E|]. split; [congruence|]. intros i j Hi Hj.
    destruct (shape_fst _ _ Ss) as [E1 E2]. rewrite Hr by lia. cbn.
    rewrite Hq, Hs by assumption. rewrite total_app, Hg. lra.
Qed.

Lemma combine_spec chunks : forall rs a l, Forall2 part_is chunks rs -> parts_is l a ->
  exists a', combine_results rs a = Ok a' /\ parts_is (l ++ concat chunks) a' /\
    (chunks <> [] -> shrunk sh (pM a')).
Proof.
  induction chunks as [|c cs IH]; intros rs a l H Ha; inversion H as [|? r ? rs' Q1 Q2]; subst;
    cbn [combine_results concat].
  - exists a. rewrite app_nil_r. split; [auto|]. split; [auto|congruence].
  - destruct Ha as [S1 [S2 [S3 [S4 [V M]]]]]. destruct Q1 as [P1 [P2 [P3 P4]]].
    destruct (add_part (re (aS r)) fst (pSr a) (aS r) curc c l) as [a1 [-> [A1 V1]]];
      auto; [intros i j Hi Hj; now apply V|]. cbn [bind].
    destruct (add_part (im (aS r)) snd (pSi a) (aS r) curc c l) as [a2 [-> [A2 V2]]];
      auto; [intros i j Hi Hj; now apply V|]. cbn [bind].
    destruct (add_part (re (aP r)) fst (pPr a) (aP r) ptc c l) as [a3 [-> [A3 V3]]];
      auto; [intros i j Hi Hj; now apply V|]. cbn [bind].
    destruct (add_part (im (aP r)) snd (pPi a) (aP r) ptc c l) as [a4 [-> [A4 V4]]];
      auto; [intros i j Hi Hj; now apply V|]. cbn [bind].
    destruct (mask_or_spec sh (pM a) (aM r) (proj1 M) (proj1 P3)) as [m [-> [Sm Hm]]]. cbn [bind].
    destruct (IH rs' (mkparts a1 a2 a3 a4 m) (l ++ c) Q2) as [a' [E' [Q' Sh']]].
    + do 4 (split; [assumption|]). split.
      * intros i j Hi Hj. split; [now apply V1|]. split; [now apply V2|]. split; [now apply V3|now apply V4].
      * split; [now apply shrunk_mshape|]. intros i j Hi Hj. cbn. rewrite Hm by assumption.
        rewrite existsb_app. f_equal; [now apply M|now apply P3].
    + exists a'. split; [exact E'|]. split; [rewrite app_assoc; exact Q'|].
      intros _. destruct cs as [|c' cs]; [|apply Sh'; discriminate].
      inversion Q2; subst. cbn in E'. injection E' as <-. exact Sm.
Qed.

Lemma parts0_is : parts_is [] (parts0 sh).
Proof.
  unfold parts_is. splits; try (now destruct sh); cbn; auto.
  split; [now destruct sh|reflexivity].
Qed.

Lemma acc_of_parts_is l a : parts_is l a ->
  sum_is (aS (acc_of_parts a)) curc l /\ sum_is (aP (acc_of_parts a)) ptc l /\
  uni_is (aM (acc_of_parts a)) l.
Proof.
  intros [S1 [S2 [S3 [S4 [V M]]]]]. split; [|split; [|exact M]].
  - split; [exact S1|]. intros r c Hr Hc. cbn. destruct (V r c Hr Hc) as [-> [-> _]]. now destruct (total _ l).
  - split; [exact S3|]. intros r c Hr Hc. cbn. destruct (V r c Hr Hc) as [_ [_ [-> ->]]]. now destruct (total _ l).
Qed.
End Threads.

(** ** Progress *)

Definition measure (w : worker) : nat :=
  match w_pc w with
  | WDone | WFail _ => 0
  | WStart => 8 * length (w_todo w) + 9
  | WHas => 8 * length (w_todo w) + 8
  | WLoss => 8 * length (w_todo w) + 7
  | WCompute => 8 * length (w_todo w) + 6
  | WStore _ => 8 * length (w_todo w) + 5
  | WStoreLoss => 8 * length (w_todo w) + 4
  | WLoad => 8 * length (w_todo w) + 3
  | WPsf => 8 * length (w_todo w) + 2
  | WMask => 8 * length (w_todo w) + 1
  end.

Lemma step_measure h w : measure (fst (step h w)) <= measure w - 1.
Proof.
  destruct w as [q td a]. unfold step, goto. destruct td as [|i rest]; cbn [w_todo w_pc w_acc].
  - destruct q; cbn; lia.
  - destruct q; cbn [fst].
    all: try (cbn; lia).
    + destruct (si_shat (h i)); cbn; lia.
    + destruct (si_shat_loss (h i)) as [l|]; [destruct (Req_EM_T l (si_loss (h i)))|]; cbn; lia.
    + destruct (si_shat (h i)) as [v|]; [destruct (add_out _ _ _)|]; cbn; lia.
    + destruct (add_out _ _ _); cbn; lia.
    + destruct (mask_or _ _); cbn; lia.
Qed.

Lemma nth_set_same {A} k (x : A) l : k < length l -> nth_error (set_nth k x l) k = Some x.
Proof. revert k. induction l as [|y l IH]; intros [|k] H; cbn in *; try lia; auto. apply IH; lia. Qed.
Lemma nth_set_other {A} k j (x : A) l : j <> k -> nth_error (set_nth k x l) j = nth_error l j.
Proof. revert k j. induction l as [|y l IH]; intros [|k] [|j] H; cbn; auto; try congruence. Qed.
Lemma set_length {A} k (x : A) l : length (set_nth k x l) = length l.
Proof. revert k. induction l as [|y l IH]; intros [|k]; cbn; auto. Qed.

Lemma run_measure sched : forall h ws k w, nth_error ws k = Some w ->
  exists w', nth_error (fst (run sched h ws)) k = Some w' /\
             measure w' <= measure w - count_occ Nat.eq_dec sched k.
Proof.
  induction sched as [|j sched IH]; intros h ws k w Hk; cbn [run].
  - exists w. cbn. split; [exact Hk|lia].
  - destruct (nth_error ws j) as [v|] eqn:Ej.
    + destruct (step h v) as [v' h'] eqn:Es. cbn [count_occ].
      destruct (Nat.eq_dec j k) as [->|N].
      * rewrite Hk in Ej. injection Ej as <-.
        assert (k < length ws) as Hl by (apply nth_error_Some; congruence).
        destruct (IH h' (set_nth k v' ws) k v' (nth_set_same _ _ _ Hl)) as [w' [E M]].
        exists w'. split; [exact E|]. pose proof (step_measure h w) as Hm. rewrite Es in Hm. cbn in Hm. lia.
      * apply IH. rewrite nth_set_other by congruence. exact Hk.
    + cbn [count_occ]. destruct (Nat.eq_dec j k) as [->|N]; [congruence|]. now apply IH.
Qed.

Lemma run_length sched : forall h ws, length (fst (run sched h ws)) = length ws.
Proof.
  induction sched as [|k sched IH]; intros h ws; cbn [run]; [reflexivity|].
  destruct (nth_error ws k) as [w|]; [|apply IH]. destruct (step h w). rewrite IH. apply set_length.
Qed.

Lemma gather_done ws : (forall k w, nth_error ws k = Some w -> measure w = 0) -> gather ws <> None.
Proof.
  induction ws as [|w ws IH]; intros H; cbn [gather]; [discriminate|].
  pose proof (H 0 w eq_refl) as Hw. unfold measure in Hw.
  assert (gather ws <> None) as Hg by (apply IH; intros k v Hk; apply (H (S k)); exact Hk).
  destruct (w_pc w); try lia; [|discriminate].
  destruct (gather ws) as [[l|e]|]; [discriminate|discriminate|contradiction].
Qed.

Lemma run_finishes sched h sh chunks steps : fair sched (length chunks) steps ->
  (forall c, In c chunks -> 8 * length c + 9 <= steps) ->
  gather (fst (run sched h (map (start sh) chunks))) <> None.
Proof.
  intros F Hs. apply gather_done. intros k w Hk.
  assert (k < length chunks) as Hl.
  { rewrite <- (map_length (start sh)), <- (run_length sched h). apply nth_error_Some. congruence. }
  destruct (nth_error chunks k) as [c|] eqn:Ec; [|apply nth_error_None in Ec; lia].
  destruct (run_measure sched h (map (start sh) chunks) k (start sh c)) as [w' [E M]].
  - now apply map_nth_error.
  - rewrite Hk in E. injection E as <-. specialize (F k Hl).
    specialize (Hs c (nth_error_In _ _ Ec)). cbn in M. lia.
Qed.
