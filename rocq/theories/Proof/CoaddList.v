(** The caller's list, alignment, and a race on a shared image. *)
From Coq Require Import Arith ZArith List Bool Reals Lia Lra Permutation.
From Coquelicot Require Import Complex.
From Verif.Model Require Import Py Plane Ma Chunk Coadd.
From Verif.Spec Require Import Coadd.
From Verif.Proof Require Import Chunk ChunkSort Coadd CoaddThreads Fourier CoaddMain CoaddFail CoaddMore.
Import ListNotations.
Set Bullet Behavior "Strict Subproofs".

Lemma after_refl {A} (b : nat -> option A) nxt : list_after b nxt [] [].
Proof.
  split; [reflexivity|]. split; [|split]; intros k; intros; destruct k; discriminate.
Qed.

Lemma after_img {A} (b : nat -> option A) nxt i l l' : list_after b nxt l l' ->
  list_after b nxt (Img i :: l) (Img i :: l').
Proof.
  intros [H1 [H2 [H3 H4]]]. split; [cbn; congruence|]. split; [|split].
  - intros [|k] j; cbn; auto.
  - intros [|k] r; cbn; [discriminate|]. intros Hk Hb. apply (H3 k r Hk).
    intros k' r' Hle Hk'. apply (Hb (S k') r'); [lia|exact Hk'].
  - intros [|k] r k' r'; cbn; [discriminate|]. intros Hk Hle Hk' Hn.
    destruct k' as [|k']; [discriminate|]. apply (H4 k r k' r'); auto. lia.
Qed.

Lemma after_new {A} (b : nat -> option A) nxt nxt' i r l l' : b r <> None -> nxt <= i -> nxt <= nxt' ->
  list_after b nxt' l l' -> list_after b nxt (Other r :: l) (Img i :: l').
Proof.
  intros Hb Hi Hn [H1 [H2 [H3 H4]]]. split; [cbn; congruence|]. split; [|split].
  - intros [|k] j; cbn; [discriminate|auto].
  - intros [|k] r0; cbn; [intros _ _; eauto|]. intros Hk Hb'.
    destruct (H3 k r0 Hk) as [i' [Hi' E]]; [|exists i'; split; [lia|exact E]].
    intros k' r' Hle Hk'. apply (Hb' (S k') r'); [lia|exact Hk'].
  - intros k r0 k' r' Hk Hle Hk' Hnone. destruct k' as [|k'].
    + cbn in Hk'. injection Hk' as ->. contradiction.
    + destruct k as [|k]; [lia|]. cbn in *. apply (H4 k r0 k' r'); auto. lia.
Qed.

Lemma after_stop {A} (b : nat -> option A) nxt r l : b r = None ->
  list_after b nxt (Other r :: l) (Other r :: l).
Proof.
  intros Hb. split; [reflexivity|]. split; [auto|]. split.
  - intros k r0 Hk Hall. exfalso. apply (Hall 0 r); [lia|reflexivity|exact Hb].
  - auto.
Qed.

Lemma convert_after mk l : forall w r l' w', convert mk w l = (r, l', w') ->
  list_after (built mk) (next w) l l' /\ next w <= next w' /\
  (forall i, i < next w -> objs w' i = objs w i) /\
  (forall ids, r = Ok ids -> l' = map Img ids).
Proof.
  induction l as [|x l IH]; intros w r l' w' E; cbn [convert] in E.
  - injection E as <- <- <-. split; [apply after_refl|]. split; [lia|]. split; [auto|].
    intros ids H. now injection H as <-.
  - destruct x as [i|s].
    + destruct (convert mk w l) as [[r1 l1] w1] eqn:E1. injection E as <- <- <-.
      destruct (IH _ _ _ _ E1) as [A1 [A2 [A3 A4]]].
      split; [now apply after_img|]. split; [exact A2|]. split; [exact A3|].
      intros ids H. destruct r1 as [ids1|e]; [|discriminate]. cbn in H. injection H as <-.
      cbn. f_equal. now apply A4.
    + destruct (mk s) as [x|e] eqn:Em.
      * cbn [alloc] in E.
        destruct (convert mk _ l) as [[r1 l1] w1] eqn:E1. injection E as <- <- <-.
        destruct (IH _ _ _ _ E1) as [A1 [A2 [A3 A4]]]. cbn [next objs] in *.
        split; [apply after_new with (S (next w)); auto; unfold built; rewrite Em; discriminate|].
        split; [lia|]. split.
        { intros i Hi. rewrite A3 by lia. apply upd_other. lia. }
        intros ids H. destruct r1 as [ids1|e]; [|discriminate]. cbn in H. injection H as <-.
        cbn. f_equal. now apply A4.
      * injection E as <- <- <-. split; [apply after_stop; unfold built; now rewrite Em|].
        split; [lia|]. split; [auto|]. discriminate.
Qed.

Lemma caller_list mk reg transp fuel sched w l align loss n :
  list_after (built mk) (next w) l (snd (coadd mk reg transp fuel sched w l align loss n)).
Proof.
  unfold coadd, prepare. destruct (convert mk w l) as [[r l'] w1] eqn:E.
  destruct (convert_after mk l w r l' w1 E) as [A _].
  destruct r as [ids|e]; cbn; [|exact A].
  match goal with |- context [match ?x with Ok _ => _ | Raise _ => _ end] => destruct x as [[ids' h]|e] end; exact A.
Qed.

(** Converting does not touch the images already there, and alignment leaves the caller's
    objects unchanged. *)
Lemma align_rest_spec reg ref ids : forall w r w', align_rest reg ref w ids = (r, w') ->
  ref < next w -> (forall i, In i ids -> i < next w) ->
  next w <= next w' /\ (forall i, i < next w -> objs w' i = objs w i) /\
  (forall out, r = Ok out -> length out = length ids /\
     (forall k, In k out -> next w <= k < next w') /\ NoDup out /\
     forall k i o, nth_error ids k = Some i -> nth_error out k = Some o ->
       exists x, reg (objs w i) (objs w ref) = Ok x /\ objs w' o = with_class (si_gauss (objs w i)) x).
Proof.
  induction ids as [|i ids IH]; intros w r w' E Hr Hi; cbn [align_rest] in E.
  - injection E as <- <-. split; [lia|]. split; [auto|]. intros out H. injection H as <-.
    split; [reflexivity|]. split; [intros k []|]. split; [constructor|]. intros [|k]; discriminate.
  - destruct (reg (objs w i) (objs w ref)) as [x|e] eqn:Er.
    + cbn [alloc] in E. set (w1 := mkworld _ _) in E.
      destruct (align_rest reg ref w1 ids) as [r1 w2] eqn:E1. injection E as <- <-.
      destruct (IH w1 r1 w2 E1) as [A1 [A2 A3]]; [cbn; lia|intros j Hj; cbn; specialize (Hi j (or_intror Hj)); lia|].
      cbn [next w1] in A1. split; [lia|]. split.
      { intros j Hj. rewrite A2 by (cbn; lia). cbn. apply upd_other. lia. }
      intros out H. destruct r1 as [l1|e]; [|discriminate]. cbn in H. injection H as <-.
      destruct (A3 l1 eq_refl) as [L [B [N V]]]. split; [cbn; congruence|]. split; [|split].
      * intros k [<-|Hk]; [lia|]. specialize (B k Hk). cbn in B. lia.
      * constructor; [|exact N]. intros Hin. specialize (B _ Hin). cbn in B. lia.
      * intros [|k] j o Hj Ho; cbn in Hj, Ho.
        -- injection Hj as <-. injection Ho as <-. exists x. split; [exact Er|].
           rewrite A2 by (cbn; lia). cbn. apply upd_same.
        -- destruct (V k j o Hj Ho) as [y [Ey Oy]]. cbn [objs w1] in Ey, Oy.
           assert (j < next w) as Hjn by (apply Hi; right; exact (nth_error_In _ _ Hj)).
           rewrite (upd_other _ _ _ j) in Ey, Oy by lia. rewrite (upd_other _ _ _ ref) in Ey by lia.
           exists y. auto.
    + injection E as <- <-. split; [lia|]. split; [auto|]. discriminate.
Qed.

Lemma align_spec reg w i ids r w' : align_for_coadd reg w (i :: ids) = (r, w') ->
  (forall k, In k (i :: ids) -> k < next w) ->
  (forall k, k < next w -> objs w' k = objs w k) /\
  (forall out, r = Ok out -> exists rest, out = i :: rest /\ length rest = length ids /\
     NoDup out /\ (forall k, In k rest -> next w <= k) /\
     forall k j o, nth_error ids k = Some j -> nth_error rest k = Some o ->
       exists x, reg (objs w j) (objs w i) = Ok x /\ objs w' o = with_class (si_gauss (objs w j)) x).
Proof.
  cbn [align_for_coadd]. destruct (align_rest reg i w ids) as [r1 w1] eqn:E1. intros E Hi.
  injection E as <- <-.
  destruct (align_rest_spec reg i ids w r1 w1 E1) as [A1 [A2 A3]].
  - apply Hi. now left.
  - intros k Hk. apply Hi. now right.
  - split; [exact A2|]. intros out H. destruct r1 as [l1|e]; [|discriminate]. cbn in H. injection H as <-.
    destruct (A3 l1 eq_refl) as [L [B [N V]]]. exists l1. split; [reflexivity|]. split; [exact L|].
    split; [|split; [intros k Hk; apply B; exact Hk|exact V]].
    constructor; [|exact N]. intros Hin. specialize (B _ Hin). specialize (Hi i (or_introl eq_refl)). lia.
Qed.

(** ** The same image twice in the list *)
Lemma two_chunks : chunk_it Nat.eqb img_lt 11 [0; 0] 2 = Some (Ok [[0]; [0]]).
Proof. vm_compute. reflexivity. Qed.

Lemma race h : si_shat (h 0) = None -> si_shat_loss (h 0) = None ->
  coadd_core 11 [0; 0; 0; 0; 1; 1; 1] h [0; 0] 2 = Some (Raise AttributeError).
Proof.
  intros H1 H2. unfold coadd_core. rewrite two_chunks. cbn - [chunk_it].
  rewrite H1. cbn. rewrite H2. reflexivity.
Qed.

(** The same exception whatever the number of workers, when the images cannot be
    prepared; otherwise the rest is [coadd_core]. *)
Lemma coadd_prepared mk reg transp fuel sched w l align loss n ids h l' :
  prepare mk reg transp w l align loss = (Ok (ids, h), l') ->
  coadd mk reg transp fuel sched w l align loss n = (coadd_core fuel sched h ids n, l').
Proof. intros E. unfold coadd. now rewrite E. Qed.

Lemma prepare_nonempty mk reg transp w l align loss ids h l' :
  prepare mk reg transp w l align loss = (Ok (ids, h), l') -> ids <> [].
Proof.
  unfold prepare. destruct (convert mk w l) as [[[ids1|e] l1] w1]; [|discriminate].
  set (al := if align then _ else _). destruct al as [[[|i ids2] w2]|e]; intros E; injection E as E _; try discriminate.
  destruct (transp (objs w2) (i :: ids2)) as [zps|e]; [|discriminate]. cbn [bind] in E.
  match type of E with bind ?x _ = _ => destruct x as [h2|e]; [|discriminate] end.
  cbn [bind] in E. injection E as <- _. discriminate.
Qed.

(** ** Statements about the whole of coadd *)
Lemma coadd_parallel mk reg transp fuel sched fuel1 sched1 w l align loss n ids h l' sh :
  prepare mk reg transp w l align loss = (Ok (ids, h), l') -> NoDup ids -> images_fit h ids sh ->
  (2 <= n <= Z.of_nat (length ids))%Z -> (Z.of_nat (length ids) < 2 ^ 52)%Z -> 5 * Z.to_nat n + 1 <= fuel ->
  exists r1, fst (coadd mk reg transp fuel1 sched1 w l align loss 1) = Some (Ok r1) /\
  (fst (coadd mk reg transp fuel sched w l align loss n) = None \/
   exists r2, fst (coadd mk reg transp fuel sched w l align loss n) = Some (Ok r2) /\ result_eq r1 r2) /\
  (fair sched (length ids) (8 * length ids + 9) ->
   fst (coadd mk reg transp fuel sched w l align loss n) <> None).
Proof.
  intros E Nd Hf Hn Hl Hfu.
  rewrite (coadd_prepared _ _ _ fuel sched _ _ _ _ n _ _ _ E).
  rewrite (coadd_prepared _ _ _ fuel1 sched1 _ _ _ _ 1 _ _ _ E). cbn [fst].
  apply (parallel_same fuel sched fuel1 sched1 h ids sh n); assumption.
Qed.

Lemma coadd_unprepared mk reg transp fuel sched w l align loss n e l' :
  prepare mk reg transp w l align loss = (Raise e, l') ->
  coadd mk reg transp fuel sched w l align loss n = (Some (Raise e), l').
Proof. intros E. unfold coadd. now rewrite E. Qed.

Lemma workers_iff mk reg transp fuel sched w l align loss n ids h l' sh :
  prepare mk reg transp w l align loss = (Ok (ids, h), l') -> NoDup ids -> images_fit h ids sh ->
  (2 <= n <= 2 ^ 52)%Z -> (Z.of_nat (length ids) < 2 ^ 52)%Z -> 5 * Z.to_nat n + 1 <= fuel ->
  let out := fst (coadd mk reg transp fuel sched w l align loss n) in
  exists chunks, chunk_it Nat.eqb img_lt fuel ids n = Some (Ok chunks) /\
  ((Z.of_nat (length ids) < n)%Z -> In [] chunks /\ (out = None \/ out = Some (Raise IndexError))) /\
  ((n <= Z.of_nat (length ids))%Z -> ~ In [] chunks /\ (out = None \/ exists r, out = Some (Ok r))) /\
  (fair sched (length chunks) (8 * length ids + 9) -> out <> None).
Proof.
  intros E Nd Hf Hn Hl Hfu. cbn zeta.
  rewrite (coadd_prepared _ _ _ fuel sched _ _ _ _ n _ _ _ E). cbn [fst].
  assert (ids <> []) as Hne by (eapply prepare_nonempty; exact E).
  destruct (made_all ids n fuel) as [made [Em [Ec [Ne [Ee _]]]]]; auto; try lia.
  destruct (partition_all Nat.eqb img_lt ids n fuel) as [made' [chunks [Em' [_ [Et P]]]]]; auto; try lia.
  rewrite Em in Em'. injection Em' as <-.
  exists chunks. split; [exact Et|].
  destruct (Z_lt_ge_dec (Z.of_nat (length ids)) n) as [Hlt|Hge].
  - destruct (too_many_workers fuel sched h ids sh n) as [ch2 [Et2 [H F]]]; auto.
    rewrite Et in Et2. injection Et2 as <-.
    split; [|split; [lia|exact F]]. intros _. split; [|exact H].
    apply (Permutation_in _ (Permutation_sym P)). apply nth_error_In with 0. auto.
  - destruct (par_spec fuel sched h ids sh n) as [ch2 [Et2 [H F]]]; auto; [lia|].
    rewrite Et in Et2. injection Et2 as <-. split; [lia|]. split.
    + intros Hle. split.
      * intros Hin. apply (Permutation_in _ P) in Hin. now apply (Ne Hle []).
      * destruct H as [H|[ps [a [H _]]]]; eauto.
    + exact (proj1 F).
Qed.

Lemma coadd_mask mk reg transp fuel sched w l align loss n ids h l' sh Rr P m :
  prepare mk reg transp w l align loss = (Ok (ids, h), l') -> images_fit h ids sh -> run_limits fuel ids n ->
  fst (coadd mk reg transp fuel sched w l align loss n) = Some (Ok (Rr, P, m)) ->
  is_union (fun i => si_mask (h i)) ids sh m.
Proof.
  intros E Hf Hr H. rewrite (coadd_prepared _ _ _ fuel sched _ _ _ _ n _ _ _ E) in H.
  apply (mask_is_union fuel sched h ids sh n Rr P m); auto. eapply prepare_nonempty; exact E.
Qed.

Lemma coadd_shapes mk reg transp fuel sched w l align loss n ids h l' sh Rr P m :
  prepare mk reg transp w l align loss = (Ok (ids, h), l') -> images_fit h ids sh -> run_limits fuel ids n ->
  fst (coadd mk reg transp fuel sched w l align loss n) = Some (Ok (Rr, P, m)) -> shape Rr = sh /\ shape P = sh.
Proof.
  intros E Hf Hr H. rewrite (coadd_prepared _ _ _ fuel sched _ _ _ _ n _ _ _ E) in H.
  apply (result_shapes fuel sched h ids sh n Rr P m); auto. eapply prepare_nonempty; exact E.
Qed.

Lemma coadd_mismatch mk reg transp w l align loss ids h l' i j :
  prepare mk reg transp w l align loss = (Ok (ids, h), l') ->
  In i ids -> In j ids -> si_shape (h i) <> si_shape (h j) ->
  (forall k, In k ids -> 0 < fst (si_shape (h k)) /\ 0 < snd (si_shape (h k))) ->
  (forall k, In k ids -> si_shat (h k) <> None -> si_shat_loss (h k) <> None) ->
  (forall fuel sched n, (n <= 1)%Z ->
     fst (coadd mk reg transp fuel sched w l align loss n) = Some (Raise ValueError)) /\
  (forall fuel sched n, NoDup ids -> (2 <= n <= Z.of_nat (length ids))%Z ->
     (Z.of_nat (length ids) < 2 ^ 52)%Z -> 5 * Z.to_nat n + 1 <= fuel ->
     let out := fst (coadd mk reg transp fuel sched w l align loss n) in
     (out = None \/ out = Some (Raise ValueError)) /\
     (fair sched (length ids) (8 * length ids + 9) -> out <> None)).
Proof.
  intros E Hi Hj D Pos Co. destruct (shape_mismatch h ids i j Hi Hj D Pos Co) as [H1 H2]. split.
  - intros fuel sched n Hn. rewrite (coadd_prepared _ _ _ fuel sched _ _ _ _ n _ _ _ E). now apply H1.
  - intros fuel sched n Nd Hn Hl Hfu. cbn zeta.
    rewrite (coadd_prepared _ _ _ fuel sched _ _ _ _ n _ _ _ E). now apply H2.
Qed.

Lemma coadd_empty mk reg transp fuel sched w align loss n :
  coadd mk reg transp fuel sched w [] align loss n =
  (Some (Raise (if align then IndexError else ValueError)), []).
Proof. now destruct align. Qed.

Lemma coadd_psf_sum mk reg transp fuel sched w l align loss n ids h l' sh Rr P m :
  prepare mk reg transp w l align loss = (Ok (ids, h), l') -> images_fit h ids sh -> run_limits fuel ids n ->
  0 < fst sh -> 0 < snd sh ->
  total (fun i => (RtoC ((si_zp (h i) / si_var (h i)) ^ 2) * si_sq (h i) (si_loss (h i)) 0%nat 0%nat)%C) ids <> RtoC 0 ->
  fst (coadd mk reg transp fuel sched w l align loss n) = Some (Ok (Rr, P, m)) -> psum P = RtoC 1.
Proof.
  intros E Hf Hr D1 D2 Ht H. rewrite (coadd_prepared _ _ _ fuel sched _ _ _ _ n _ _ _ E) in H.
  apply (psf_sum_one fuel sched h ids sh n Rr P m); auto. eapply prepare_nonempty; exact E.
Qed.

(** When alignment has to re-detect the sources of an image that never had any. *)
Lemma update_all_fails h ids : update_all h ids = Raise AttributeError <->
  exists i, In i ids /\ si_has_sources (h i) = false.
Proof.
  induction ids as [|i ids IH]; cbn.
  - split; [discriminate|]. intros [i [[] _]].
  - destruct (si_has_sources (h i)) eqn:E.
    + rewrite IH. split; intros [k [Hk Ek]]; exists k; split; auto. destruct Hk as [->|Hk]; [congruence|auto].
    + split; [eauto|auto].
Qed.

Lemma align_needs_sources mk reg transp fuel sched w i l loss n : i < next w ->
  si_has_sources (objs w i) = false ->
  (forall k, In (Img k) l -> k < next w) ->
  (forall r, In (Other r) l -> exists x, mk r = Ok x) ->
  (forall x r, exists y, reg x r = Ok y) ->
  fst (coadd mk reg transp fuel sched w (Img i :: l) true loss n) = Some (Raise AttributeError).
Proof.
  intros Hi Hs Hl Hmk Hreg. unfold coadd, prepare. cbn [convert].
  assert (forall l w, (forall k, In (Img k) l -> k < next w) ->
    (forall r, In (Other r) l -> exists x, mk r = Ok x) ->
    exists ids l' w', convert mk w l = (Ok ids, l', w') /\ forall k, In k ids -> k < next w') as C.
  { clear - mk. induction l as [|[k|r] l IH]; intros w Hl Hmk; cbn [convert].
    - exists [], [], w. split; [reflexivity|intros k []].
    - destruct (IH w) as [ids [l' [w' [E B]]]]; [intros j Hj; apply Hl; now right|intros r Hr; apply Hmk; now right|].
      rewrite E. exists (k :: ids), (Img k :: l'), w'. split; [reflexivity|].
      intros j [<-|Hj]; [|auto]. destruct (convert_after mk l w _ _ _ E) as [_ [Hn _]].
      specialize (Hl k (or_introl eq_refl)). lia.
    - destruct (Hmk r (or_introl eq_refl)) as [x Ex]. rewrite Ex. cbn [alloc].
      destruct (IH (mkworld (upd (objs w) (next w) x) (S (next w)))) as [ids [l' [w' [E B]]]].
      { intros j Hj. cbn. specialize (Hl j (or_intror Hj)). lia. }
      { intros r0 Hr. apply Hmk. now right. }
      rewrite E. exists (next w :: ids), (Img (next w) :: l'), w'. split; [reflexivity|].
      intros j [<-|Hj]; [|auto]. destruct (convert_after mk l _ _ _ _ E) as [_ [Hn _]]. cbn in Hn. lia. }
  destruct (C l w Hl Hmk) as [ids [l' [w1 [E B]]]]. rewrite E. cbn [bind].
  destruct (convert_after mk l w _ _ _ E) as [_ [Hn [Hu _]]].
  assert (forall ids w ref, exists r w', align_rest reg ref w ids = (Ok r, w')) as AR.
  { clear - Hreg. induction ids as [|k ids IH]; intros w ref; cbn [align_rest]; [eauto|].
    destruct (Hreg (objs w k) (objs w ref)) as [y ->]. cbn [alloc].
    destruct (IH (mkworld (upd (objs w) (next w) (with_class (si_gauss (objs w k)) y)) (S (next w))) ref)
      as [r [w' ->]]. cbn. eauto. }
  cbn [align_for_coadd]. destruct (AR ids w1 i) as [r [w2 Ea]]. rewrite Ea. cbn [bind].
  destruct (align_rest_spec reg i ids w1 _ _ Ea) as [_ [A2 _]]; [lia|exact B|].
  replace (update_all (objs w2) (i :: r)) with (@Raise unit AttributeError); [reflexivity|].
  symmetry. apply update_all_fails. exists i. split; [now left|].
  rewrite A2 by lia. rewrite Hu by exact Hi. exact Hs.
Qed.

Lemma shared_race h sh : images_fit h [0; 0] sh ->
  si_shat (h 0) = None -> si_shat_loss (h 0) = None ->
  (exists r, coadd_core 11 [] h [0; 0] 1 = Some (Ok r)) /\
  exists sched, coadd_core 11 sched h [0; 0] 2 = Some (Raise AttributeError).
Proof.
  intros F H1 H2. split.
  - destruct (seq_spec 11 [] h [0; 0] sh 1) as [ps [a [E _]]]; [lia|discriminate|exact F|eauto].
  - eexists. now apply race.
Qed.

Lemma align_shapes reg w i ids out w' : align_for_coadd reg w (i :: ids) = (Ok out, w') ->
  (forall k, In k (i :: ids) -> k < next w) ->
  (forall x r y, reg x r = Ok y -> si_shape y = si_shape r) ->
  forall o, In o out -> si_shape (objs w' o) = si_shape (objs w i).
Proof.
  intros E L HR o Ho. destruct (align_spec _ _ _ _ _ _ E L) as [K A].
  destruct (A out eq_refl) as [rest [-> [Len [_ [_ H]]]]]. destruct Ho as [<-|Ho].
  - rewrite K; [reflexivity|]. apply L. now left.
  - destruct (In_nth_error _ _ Ho) as [k Hk].
    assert (k < length ids) as Lk by (rewrite <- Len; apply nth_error_Some; congruence).
    destruct (nth_error ids k) as [j|] eqn:Ej; [|apply nth_error_None in Ej; lia].
    destruct (H k j o Ej Hk) as [x [Ex ->]]. unfold with_class. cbn [si_shape]. now apply HR in Ex.
Qed.
