(** Proofs about what [_align_for_diff] writes. *)
From Coq Require Import ZArith List Bool Arith Lia Ascii String Permutation.
From Verif.Model Require Import Py Plane Ma Image AlignDiff.
From Verif.Spec Require Import Image AlignDiff.
From Verif.Proof Require Import Image AlignDiff.
Import ListNotations.
Local Open Scope string_scope.
Set Bullet Behavior "Strict Subproofs".

Lemma open_is fs n h : open_primary fs n = Ok h -> exists rest, fs n = Some (h :: rest).
Proof. unfold open_primary. destruct (fs n) as [[|x l]|]; try discriminate. intros X. injection X as <-. eauto. Qed.

Lemma shows_hdus h r : shows (hdus h r) r.
Proof. destruct r as [d|d m]; cbn; [reflexivity|]. split; [reflexivity|]. split; [reflexivity|]. split; [reflexivity|]. reflexivity. Qed.

Lemma hdus_gain h r : exists p rest, hdus h r = p :: rest /\ h_gain p = h_gain h.
Proof. destruct r; cbn; eauto. Qed.

Section Parts.
Variable register : marr -> marr -> res registered.
Variable median : marr -> pix.

Lemma align_parts fs r n m d l : align_for_diff register median fs r n m = Ok (d, l) ->
  exists hr hn ref new x, open_primary fs r = Ok hr /\ open_primary fs n = Ok hn /\
    masked_invalid (mkmarr (h_data hr) Nomask) = Ok ref /\ dat new = h_data hn /\
    registered_with register median ref new = Ok x /\ d = dest_file n /\ l = hdus hn x.
Proof.
  unfold align_for_diff. destruct (open_primary fs r) as [hr|] eqn:Er; [|discriminate]. cbn [bind].
  destruct (masked_invalid (mkmarr (h_data hr) Nomask)) as [ref|] eqn:Ei; [|discriminate]. cbn [bind].
  destruct (open_primary fs n) as [hn|] eqn:En; [|discriminate]. cbn [bind].
  destruct (match m with Some k => _ | None => _ end) as [new|] eqn:Em; [|discriminate]. cbn [bind].
  destruct (registered_with register median ref new) as [x|] eqn:Ex; [|discriminate]. cbn [bind]. intros X. injection X as <- <-.
  exists hr, hn, ref, new, x. repeat split; auto. destruct m as [k|].
  - destruct (open_primary fs k) as [hm|]; [|discriminate]. cbn [bind] in Em. unfold given_mask in Em. destruct (_ || _)%bool; [|discriminate]. now injection Em as <-.
  - revert Em. unfold masked_invalid, masked_test. destruct (mask_or _ _) as [q|]; [|discriminate]. cbn [bind]. intros X. injection X as <-.
    unfold assign_mask. cbn [msk dat]. destruct q; reflexivity.
Qed.
End Parts.

(** An alignment that returns gives the path of one new file; it keeps the gain of the new image.
    Nothing else changes, and an alignment that fails changes nothing. *)
Lemma C129_files_lm : forall register median fs r n m,
  (forall d l, align_for_diff register median fs r n m = Ok (d, l) ->
     d = dest_file n /\ files_after register median fs r n m d = Some l /\
     (forall f, f <> d -> files_after register median fs r n m f = fs f) /\
     (exists h rest p rest', fs n = Some (h :: rest) /\ l = p :: rest' /\ h_gain p = h_gain h)) /\
  (forall e, align_for_diff register median fs r n m = Raise e -> files_after register median fs r n m = fs).
Proof.
  intros register median fs r n m. split.
  - intros d l E. unfold files_after. rewrite E. destruct (align_parts _ _ _ _ _ _ _ _ E) as (hr & hn & ref & new & x & _ & En & _ & _ & _ & -> & ->).
    split; [reflexivity|]. rewrite String.eqb_refl. split; [reflexivity|]. split.
    + intros f H. destruct (String.eqb_spec f (dest_file n)); [contradiction|reflexivity].
    + destruct (open_is _ _ _ En) as [rest F]. destruct (hdus_gain hn x) as (p & rest' & H & G). exists hn, rest, p, rest'. auto.
  - intros e E. unfold files_after. now rewrite E.
Qed.

Lemma invalid_is d a : masked_invalid (mkmarr d Nomask) = Ok a ->
  dat a = d /\ exists q, msk a = Full q /\ shape q = shape d /\
  forall i j, (i < nr d)%nat -> (j < nc d)%nat -> px q i j = negb (finiteb (px d i j)).
Proof.
  intros E. destruct (masked_invalid_spec (mkmarr d Nomask) I) as (b & Eb & D & W & (c & Mc) & V). assert (b = a) as -> by congruence.
  cbn [dat] in D, V. split; [exact D|]. exists c. split; [exact Mc|]. unfold wf in W. rewrite Mc, D in W. split; [exact W|].
  intros i j Hi Hj. specialize (V i j Hi Hj). rewrite Mc in V. cbn [masked_at msk] in V. now rewrite V, Bool.orb_false_r.
Qed.

(** What is written is the reference, moved onto the grid of the new image. *)
Lemma C129_reference_lm : forall T (find : marr -> marr -> res T) resample register median fs r n m d l,
  moves find resample register -> align_for_diff register median fs r n m = Ok (d, l) ->
  exists ref h rest x, masked_file fs r ref /\ fs n = Some (h :: rest) /\ shows l (resample x ref (shape (h_data h))).
Proof.
  intros T find resample register median fs r n m d l M E.
  destruct (align_parts _ _ _ _ _ _ _ _ E) as (hr & hn & ref & new & x & Er & En & Ei & Ed & Ex & -> & ->).
  destruct (open_is _ _ _ Er) as [rest Fr]. destruct (open_is _ _ _ En) as [rest' Fn]. destruct (invalid_is _ _ Ei) as (Da & q & Hq).
  assert (S : exists t, x = resample t ref (shape (h_data hn))).
  { unfold registered_with in Ex. rewrite !M in Ex. cbn [dat filled] in Ex.
    destruct (find ref (filled new (median new))) as [t|e]; [injection Ex as <-; exists t; now rewrite <- Ed|].
    destruct e; try discriminate. destruct (find ref new) as [t|]; [|discriminate]. injection Ex as <-. exists t. now rewrite Ed. }
  destruct S as [t ->]. exists ref, hn, rest', t. split; [|split; [exact Fn|apply shows_hdus]].
  exists hr, rest. split; [exact Fr|]. split; [now rewrite Da; split|]. exists q. exact Hq.
Qed.

Lemma align_same register median fs fs' j : (forall f, In f (reads j) -> fs' f = fs f) ->
  match j with (r, n, m) => align_for_diff register median fs' r n m = align_for_diff register median fs r n m end.
Proof.
  destruct j as [[r n] m]. cbn [reads]. intros H. unfold align_for_diff, open_primary.
  rewrite (H r) by now left. rewrite (H n) by (right; now left). destruct m as [k|]; [|reflexivity]. now rewrite (H k) by (right; right; now left).
Qed.

Lemma job_untouched register median fs j f : f <> writes j ->
  match j with (r, n, m) => files_after register median fs r n m f = fs f end.
Proof.
  destruct j as [[r n] m]. cbn [writes]. intros H. destruct (align_for_diff register median fs r n m) as [[d l]|e] eqn:E.
  - destruct (C129_files_lm register median fs r n m) as [A _]. destruct (A d l E) as (-> & _ & B & _). auto.
  - destruct (C129_files_lm register median fs r n m) as [_ A]. now rewrite (A e E).
Qed.

Lemma all_untouched register median js : forall fs f, (forall j, In j js -> f <> writes j) -> align_all register median fs js f = fs f.
Proof.
  induction js as [|j js IH]; intros fs f H; [reflexivity|]. unfold align_all. cbn [fold_left]. fold (align_all register median).
  change (align_all register median (match j with (r, n, m) => files_after register median fs r n m end) js f = fs f).
  rewrite IH by (intros; apply H; now right). pose proof (job_untouched register median fs j f (H j (or_introl eq_refl))) as A. now destruct j as [[r n] m].
Qed.

(** Files that no alignment writes stay, and every alignment gives what it gives alone as long as
    no later one writes its file. *)
Lemma C129_history_lm : forall register median fs js, apart js ->
  (forall f, (forall j, In j js -> f <> writes j) -> align_all register median fs js f = fs f) /\
  (forall before r n m later d l, js = (before ++ (r, n, m) :: later)%list ->
     align_for_diff register median fs r n m = Ok (d, l) -> (forall j, In j later -> writes j <> d) ->
     align_all register median fs js d = Some l).
Proof.
  intros register median fs js A. split; [intros; now apply all_untouched|].
  intros before r n m later d l -> E H. unfold align_all. rewrite fold_left_app. cbn [fold_left].
  change (align_all register median (files_after register median (align_all register median fs before) r n m) later d = Some l).
  rewrite all_untouched by (intros j Hj X; now apply (H j Hj)).
  assert (S : align_for_diff register median (align_all register median fs before) r n m = Ok (d, l)).
  { rewrite <- E. apply (align_same register median fs _ (r, n, m)). intros f Hf. apply all_untouched. intros j Hj ->.
    apply (A (r, n, m) j); [apply in_or_app; right; now left|apply in_or_app; now left|exact Hf]. }
  destruct (C129_files_lm register median (align_all register median fs before) r n m) as [B _]. now destruct (B d l S) as (_ & B1 & _).
Qed.

(** The order of alignments of different images does not matter. *)
Lemma C129_order_lm : forall register median fs js js', apart js -> NoDup (map writes js) -> Permutation js js' ->
  forall f, align_all register median fs js' f = align_all register median fs js f.
Proof.
  intros register median fs js js' A D P f.
  assert (A' : apart js') by (intros j k Hj Hk; apply A; (eapply Permutation_in; [apply Permutation_sym; exact P|assumption])).
  assert (D' : NoDup (map writes js')) by (eapply Permutation_NoDup; [apply Permutation_map; exact P|exact D]).
  destruct (C129_history_lm register median fs js A) as [H1 H2]. destruct (C129_history_lm register median fs js' A') as [H1' H2'].
  destruct (in_dec string_dec f (map writes js)) as [I|I].
  - apply in_map_iff in I as ([[r n] m] & Ew & Ij). pose proof (Permutation_in _ P Ij) as Ij'.
    apply in_split in Ij as (b & la & ->). apply in_split in Ij' as (b' & la' & ->).
    assert (NL : forall l1 l2, NoDup (map writes (l1 ++ (r, n, m) :: l2)) -> forall j, In j l2 -> writes j <> f).
    { intros l1 l2 N j Hj X. rewrite map_app in N. cbn [map] in N. apply NoDup_remove_2 in N. apply N. rewrite Ew, <- X. apply in_or_app. right. now apply in_map. }
    assert (NB : forall l1 l2, NoDup (map writes (l1 ++ (r, n, m) :: l2)) -> forall j, In j l1 -> writes j <> f).
    { intros l1 l2 N j Hj X. rewrite map_app in N. cbn [map] in N. apply NoDup_remove_2 in N. apply N. rewrite Ew, <- X. apply in_or_app. left. now apply in_map. }
    destruct (align_for_diff register median fs r n m) as [[d l]|e] eqn:E.
    + destruct (align_parts _ _ _ _ _ _ _ _ E) as (_ & _ & _ & _ & _ & _ & _ & _ & _ & _ & Ed & _). cbn [writes] in Ew. assert (d = f) as -> by congruence.
      rewrite (H2 b r n m la f l eq_refl E) by now apply (NL b la). now rewrite (H2' b' r n m la' f l eq_refl E) by now apply (NL b' la').
    + assert (Q : forall l1 l2, apart (l1 ++ (r, n, m) :: l2) -> NoDup (map writes (l1 ++ (r, n, m) :: l2)) -> align_all register median fs (l1 ++ (r, n, m) :: l2)%list f = fs f).
      { intros l1 l2 Ap N. unfold align_all. rewrite fold_left_app. cbn [fold_left].
        change (align_all register median (files_after register median (align_all register median fs l1) r n m) l2 f = fs f).
        rewrite all_untouched by (intros j Hj X; now apply (NL l1 l2 N j)).
        assert (S : align_for_diff register median (align_all register median fs l1) r n m = Raise e).
        { rewrite <- E. apply (align_same register median fs _ (r, n, m)). intros g Hg. apply all_untouched. intros j Hj ->.
          apply (Ap (r, n, m) j); [apply in_or_app; right; now left|apply in_or_app; now left|exact Hg]. }
        destruct (C129_files_lm register median (align_all register median fs l1) r n m) as [_ B]. rewrite (B e S).
        apply all_untouched. intros j Hj X. now apply (NB l1 l2 N j). }
      now rewrite !Q.
  - assert (N : forall j, In j js -> f <> writes j) by (intros j Hj ->; apply I; now apply in_map).
    rewrite H1 by exact N. apply H1'. intros j Hj. apply N. eapply Permutation_in; [apply Permutation_sym; exact P|exact Hj].
Qed.
