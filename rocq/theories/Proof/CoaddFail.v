(** When [coadd] raises. *)
From Coq Require Import Arith ZArith List Bool Reals Lia Lra Permutation.
From Coquelicot Require Import Complex.
From Verif.Model Require Import Py Plane Ma Chunk Coadd.
From Verif.Spec Require Import Coadd.
From Verif.Proof Require Import Chunk ChunkSort Coadd CoaddThreads Fourier CoaddMain.
Import ListNotations.
Set Bullet Behavior "Strict Subproofs".

(** ** More workers than images *)
Section Empty.
Variable sh : nat * nat.
Variable h0 : heap.

Definition einv (h : heap) (c : list nat) (w : worker) : Prop :=
  match c with
  | [] => w_todo w = [] /\ (w_pc w = WStart \/ w_pc w = WFail IndexError)
  | _ => winv sh h0 h c w
  end.

Lemma einv_todo h c w i : einv h c w -> In i (w_todo w) -> In i c.
Proof.
  destruct c as [|k c].
  - intros [-> _]. auto.
  - apply (winv_todo sh h0).
Qed.

Lemma einv_frame h h' c w : (forall i, In i c -> h' i = h i) -> einv h c w -> einv h' c w.
Proof. destruct c as [|k c]; [auto|]. apply (winv_frame sh h0). Qed.

Variable U : list nat.
Hypothesis fits : forall i, In i U -> si_shape (h0 i) = sh /\ mshape sh (si_mask (h0 i)).

Lemma einv_step h c w : NoDup c -> incl c U -> einv h c w -> einv (snd (step h w)) c (fst (step h w)).
Proof.
  destruct c as [|k c].
  - intros _ _ [E [P|P]]; unfold step; rewrite E, P; cbn; auto.
  - apply (step_inv sh h0 U fits).
Qed.

Lemma gather_einv h chunks ws : Forall2 (einv h) chunks ws -> In [] chunks ->
  gather ws = None \/ gather ws = Some (Raise IndexError).
Proof.
  assert (forall cs vs, Forall2 (einv h) cs vs ->
    gather vs = None \/ gather vs = Some (Raise IndexError) \/
    (~ In [] cs /\ exists rs, gather vs = Some (Ok rs))) as G.
  { induction 1 as [|c w cs vs I _ IH]; cbn [gather].
    - right; right. split; [auto|]. now exists [].
    - destruct c as [|k c].
      + destruct I as [_ [->| ->]]; [|auto].
        destruct IH as [->|[->|[_ [rs ->]]]]; auto.
      + destruct I as [dn [_ I]]. destruct (w_pc w); try contradiction;
          destruct IH as [->|[->|[Hn [rs ->]]]]; auto.
        right; right. split; [|eauto]. intros [H|H]; [discriminate|auto]. }
  intros H Hin. destruct (G _ _ H) as [E|[E|[N _]]]; auto. contradiction.
Qed.
End Empty.

Lemma too_many_workers fuel sched h ids sh n : ids <> [] ->
  (2 <= n <= 2 ^ 52)%Z -> (Z.of_nat (length ids) < n)%Z ->
  (Z.of_nat (length ids) < 2 ^ 52)%Z -> 5 * Z.to_nat n + 1 <= fuel ->
  NoDup ids -> images_fit h ids sh ->
  exists chunks, chunk_it Nat.eqb img_lt fuel ids n = Some (Ok chunks) /\
  (coadd_core fuel sched h ids n = None \/ coadd_core fuel sched h ids n = Some (Raise IndexError)) /\
  (fair sched (length chunks) (8 * length ids + 9) -> coadd_core fuel sched h ids n <> None).
Proof.
  intros Hne Hn Hlt Hl Hfu Nd Hf.
  destruct (core_dims h ids sh Hne Hf) as [ps [E1 [E2 E3]]].
  destruct (partition_all Nat.eqb img_lt ids n fuel) as [made [chunks [Em [Ec [Et P]]]]]; auto; try lia.
  exists chunks. split; [exact Et|].
  destruct (made_all ids n fuel) as [cs [Em' [_ [_ [Ne _]]]]]; auto; try lia.
  rewrite Em in Em'. injection Em' as <-. specialize (Ne Hlt). apply nth_error_In in Ne.
  apply (Permutation_in _ (Permutation_sym P)) in Ne.
  pose proof (concat_perm _ _ P) as Pc. rewrite Ec in Pc.
  unfold coadd_core. rewrite E1, E2, E3, Et.
  destruct (Z.ltb_spec 1 n) as [_|Hlt']; [|lia].
  replace (fst sh, snd sh) with sh by (now destruct sh).
  assert (forall i, In i ids -> si_shape (h i) = sh /\ mshape sh (si_mask (h i))) as Hfit.
  { intros i Hi. destruct (Hf i Hi) as [F1 [F2 _]]. auto. }
  assert (forall i, In i (concat chunks) -> In i ids) as Hsub by (intros i; now apply Permutation_in).
  assert (Forall2 (einv sh h h) chunks (map (start sh) chunks)) as I0.
  { assert (forall cs, incl (concat cs) ids -> Forall2 (einv sh h h) cs (map (start sh) cs)) as G.
    { induction cs as [|c cs IH]; cbn [concat map]; intros Hi; constructor.
      - destruct c as [|k c]; [cbn; auto|]. apply (start_inv sh h ids Hfit); [discriminate|].
        intros i Hin. refine (proj2 (proj2 (Hf i (Hi i _)))). apply in_app_iff; auto.
      - apply IH; auto. intros i Hin. apply Hi. apply in_app_iff; auto. }
    apply G. exact Hsub. }
  pose proof (run_inv (einv sh h) (einv_todo sh h) (einv_frame sh h) ids
                (einv_step sh h ids Hfit) chunks sched h (map (start sh) chunks)) as Hrun.
  specialize (Hrun (Permutation_NoDup (Permutation_sym Pc) Nd) Hsub I0).
  destruct (run sched h (map (start sh) chunks)) as [ws h'] eqn:Er. cbn [fst snd] in *.
  split.
  - destruct (gather_einv sh h h' chunks ws Hrun Ne) as [->| ->]; auto.
  - intros F.
    assert (gather ws <> None) as Hg.
    { replace ws with (fst (run sched h (map (start sh) chunks))) by now rewrite Er.
      apply run_finishes with (steps := 8 * length ids + 9); [exact F|].
      intros c Hc. apply in_concat_len in Hc. apply Permutation_length in Pc. rewrite Pc in Hc. lia. }
    destruct (gather ws) as [[rs|e]|]; [discriminate|discriminate|contradiction].
Qed.

(** ** Images of different shapes *)
Lemma mask_or_err m1 m2 e : mask_or m1 m2 = Raise e -> e = ValueError.
Proof.
  destruct m1, m2; cbn; try discriminate. unfold ufunc2.
  destruct (bshape _ _) as [[a b]|]; [discriminate|]. congruence.
Qed.

Section Shapes.
Variable sh : nat * nat.
Variable h0 : heap.
Hypothesis sh_pos : 0 < fst sh /\ 0 < snd sh.

Definition big (i : nat) : Prop := fst sh <= fst (si_shape (h0 i)) /\ snd sh <= snd (si_shape (h0 i)).

Lemma add_big (x : simg) i f s : si_shape x = si_shape (h0 i) -> big i -> shape s = sh ->
  (si_shape (h0 i) = sh /\ exists r, add_out Cplus (arr (si_shape x) f) s = Ok r /\ shape r = sh) \/
  (si_shape (h0 i) <> sh /\ add_out Cplus (arr (si_shape x) f) s = Raise ValueError).
Proof.
  intros E [B1 B2] Ss. destruct (shape_fst _ _ Ss) as [N1 N2]. rewrite E.
  assert ({si_shape (h0 i) = sh} + {si_shape (h0 i) <> sh}) as [D|D].
  { decide equality; apply Nat.eq_dec. }
  - left. split; [exact D|]. destruct (add_out_same Cplus (arr (si_shape (h0 i)) f) s) as [r [Er [Sr _]]].
    + rewrite Ss, <- D. now destruct (si_shape (h0 i)).
    + exists r. split; [exact Er|congruence].
  - right. split; [exact D|]. apply add_out_bigger; try (cbn; lia).
    rewrite Ss. intros H. apply D. rewrite <- H. cbn. now destruct (si_shape (h0 i)).
Qed.

Definition same (h : heap) (i : nat) : Prop := static (h i) = static (h0 i) /\ cache_ok (h i).

Definition vinv (h : heap) (c : list nat) (w : worker) : Prop :=
  exists dn, c = dn ++ w_todo w /\ c <> [] /\
  match w_pc w with
  | WFail e => e = ValueError
  | WDone => w_todo w = [] /\ forall i, In i dn -> si_shape (h0 i) = sh
  | q => (forall i, In i dn -> si_shape (h0 i) = sh) /\
      shape (aS (w_acc w)) = sh /\ shape (aP (w_acc w)) = sh /\
      (q = WStart -> w_todo w <> []) /\
      match w_todo w with
      | [] => True
      | i :: rest =>
          (forall j, In j rest -> same h j) /\ static (h i) = static (h0 i) /\
          match q with
          | WStart | WHas => cache_ok (h i)
          | WLoss => si_shat_loss (h i) <> None /\ si_shat (h i) <> None
          | WStoreLoss | WLoad => si_shat (h i) <> None
          | WPsf | WMask => si_shape (h0 i) = sh
          | _ => True
          end
      end
  end.

Lemma vinv_todo h c w i : vinv h c w -> In i (w_todo w) -> In i c.
Proof. intros [dn [-> _]] H. apply in_app_iff; auto. Qed.

Lemma vinv_frame h h' c w : (forall i, In i c -> h' i = h i) -> vinv h c w -> vinv h' c w.
Proof.
  intros E [dn [Ec [Hn I]]]. exists dn. split; [exact Ec|]. split; [exact Hn|].
  assert (forall i, In i (w_todo w) -> h' i = h i) as E'.
  { intros i Hi. apply E. rewrite Ec. apply in_app_iff; auto. }
  destruct w as [q td a]. cbn [w_todo w_pc w_acc] in *.
  assert (forall i, In i td -> same h i -> same h' i) as Es.
  { intros i Hi. unfold same. now rewrite E'. }
  destruct td as [|i rest].
  - destruct q; auto.
  - assert (h' i = h i) as Ei by (apply E'; now left). clear E E'.
    destruct q; auto; destruct I as [I1 [I2 [I3 [I4 [I5 [I6 I7]]]]]]; rewrite Ei;
      (split; [exact I1|split; [exact I2|split; [exact I3|split; [exact I4|split; [|split; auto]]]]]);
      intros j Hj; apply Es; auto; now right.
Qed.

Variable U : list nat.
Hypothesis U_big : forall i, In i U -> big i.

Lemma vinv_step h c w : NoDup c -> incl c U -> vinv h c w -> vinv (snd (step h w)) c (fst (step h w)).
Proof.
  intros Nd Hu. destruct w as [q td a]. intros [dn [Ec [Hc I]]]. cbn [w_todo w_pc w_acc] in *.
  unfold step, goto. cbn [w_todo w_pc w_acc]. destruct td as [|i rest].
  - destruct q; cbn [fst snd]; exists dn; cbn [w_todo w_pc w_acc]; (split; [exact Ec|split; [exact Hc|]]);
      auto; try (split; [reflexivity|apply I]).
    exfalso. destruct I as [_ [_ [_ [I _]]]]. now apply I.
  - assert (forall j, In j rest -> j <> i) as Nj.
    { intros j Hj ->. rewrite Ec in Nd. apply NoDup_remove_2 in Nd. apply Nd. apply in_app_iff; auto. }
    assert (big i) as Bi by (apply U_big, Hu; rewrite Ec; apply in_app_iff; right; now left).
    assert (forall x j, In j rest -> same h j -> same (upd h i x) j) as Sj.
    { intros x j Hj. unfold same. rewrite upd_other by auto. auto. }
    destruct q; cbn [fst snd].
    10:{ exists dn. cbn. destruct I as [I _]. discriminate. }
    10:{ exists dn. cbn. auto. }
    all: destruct I as [I1 [I2 [I3 [I4 [I5 [I6 I7]]]]]]; pose proof (static_fields _ _ I6) as [F1 [F2 [F3 [F4 F5]]]].
    + exists dn. cbn [w_todo w_pc w_acc aS aP].
      repeat (split; [solve [auto|discriminate]|]). exact I7.
    + destruct (si_shat (h i)) as [v|] eqn:Ev; exists dn; cbn [w_todo w_pc w_acc];
        repeat (split; [solve [auto|discriminate]|]); [|exact Logic.I].
      split; [apply I7|]; congruence.
    + destruct I7 as [I7 I8]. destruct (si_shat_loss (h i)) as [l|]; [|congruence].
      destruct (Req_EM_T l (si_loss (h i))); exists dn; cbn [w_todo w_pc w_acc];
        repeat (split; [solve [auto|discriminate]|]); auto.
    + exists dn; cbn [w_todo w_pc w_acc]. repeat (split; [solve [auto|discriminate]|]). auto.
    + exists dn; cbn [w_todo w_pc w_acc]. repeat (split; [solve [auto|discriminate]|]).
      rewrite upd_same. split; [|discriminate]. rewrite <- I6. now destruct (h i).
    + exists dn; cbn [w_todo w_pc w_acc]. repeat (split; [solve [auto|discriminate]|]).
      rewrite upd_same. split; [|exact I7]. rewrite <- I6. now destruct (h i).
    + destruct (si_shat (h i)) as [v|]; [|congruence].
      destruct (add_big (h i) i v (aS a) F1 Bi I2) as [[D [r [-> Sr]]]|[D ->]];
        exists dn; cbn [w_todo w_pc w_acc aS aP]; repeat (split; [solve [auto|discriminate]|]); auto.
    + destruct (add_big (h i) i (fun k j => (RtoC ((si_zp (h i) / si_var (h i)) ^ 2) * si_sq (h i) (si_loss (h i)) k j)%C)
                        (aP a) F1 Bi I3) as [[D [r [E Sr]]]|[D E]];
        unfold psf_term; rewrite E;
        exists dn; cbn [w_todo w_pc w_acc aS aP]; repeat (split; [solve [auto|discriminate]|]); auto.
    + destruct (mask_or (aM a) (si_mask (h i))) as [m|e] eqn:Em.
      * exists (dn ++ [i]). cbn [w_todo w_pc w_acc aS aP]. rewrite <- app_assoc.
        split; [exact Ec|]. split; [exact Hc|]. split.
        { intros j Hj. apply in_app_iff in Hj as [Hj|[<-|[]]]; auto. }
        repeat (split; [solve [auto|discriminate]|]).
        destruct rest as [|k rest]; [exact Logic.I|]. split; [|split].
        -- intros j Hj. apply I5. now right.
        -- apply I5. now left.
        -- apply (I5 k). now left.
      * exists dn. cbn. apply mask_or_err in Em. auto.
Qed.

Lemma gather_vinv h chunks ws : Forall2 (vinv h) chunks ws ->
  gather ws = None \/ gather ws = Some (Raise ValueError) \/
  (exists rs, gather ws = Some (Ok rs)) /\ forall i, In i (concat chunks) -> si_shape (h0 i) = sh.
Proof.
  induction 1 as [|c w cs ws I _ IH]; cbn [gather concat].
  - right; right. split; [now exists []|]. intros i [].
  - destruct I as [dn [Ec [_ I]]].
    destruct (w_pc w); try (destruct IH as [->|[->|[[rs ->] _]]]; auto; fail).
    + destruct I as [E I]. rewrite E, app_nil_r in Ec. subst dn.
      destruct IH as [->|[->|[[rs ->] Hs]]]; auto. right; right. split; [eauto|].
      intros i Hi. apply in_app_iff in Hi as [Hi|Hi]; auto.
    + subst. auto.
Qed.

Lemma seq_shapes ids : forall h a, (forall i, In i ids -> same h i /\ big i) ->
  shape (aS a) = sh -> shape (aP a) = sh ->
  fst (seq_loop h ids a) = Raise ValueError \/ forall i, In i ids -> si_shape (h0 i) = sh.
Proof.
  induction ids as [|i ids IH]; intros h a Hs S1 S2; [right; intros i []|].
  cbn [seq_loop]. destruct (Hs i (or_introl eq_refl)) as [[St Co] Bi].
  pose proof (static_fields _ _ St) as [F1 _].
  destruct (s_hat_comp_spec (h i) Co) as [E [_ [Eo Es]]].
  destruct (s_hat_comp (h i)) as [rr x'] eqn:Ei. cbn in E, Eo, Es. subst rr.
  unfold accumulate.
  destruct (add_big (h i) i (cur (h i)) (aS a) F1 Bi S1) as [[D [r [-> Sr]]]|[D ->]]; [|left; reflexivity].
  cbn [bind]. unfold psf_term.
  destruct (add_big (h i) i (fun k j => (RtoC ((si_zp (h i) / si_var (h i)) ^ 2) * si_sq (h i) (si_loss (h i)) k j)%C)
                        (aP a) F1 Bi S2) as [[D' [r2 [-> Sr2]]]|[D' ->]]; [|left; reflexivity].
  cbn [bind]. destruct (mask_or (aM a) (si_mask (h i))) as [m|e] eqn:Em.
  - cbn [bind]. destruct (IH (upd h i x') (mkacc r r2 m)) as [H|H]; auto.
    + intros j Hj. destruct (Hs j (or_intror Hj)) as [[Sj Cj] Bj]. split; [|exact Bj].
      unfold same, upd. destruct (Nat.eqb_spec j i) as [->|N]; [split; [congruence|exact Eo]|split; auto].
    + right. intros j [<-|Hj]; auto.
  - left. cbn. apply mask_or_err in Em. now subst.
Qed.
End Shapes.

Lemma np_min_ok l : l <> [] -> exists m, np_min l = Ok m /\ In m l /\ forall x, In x l -> m <= x.
Proof.
  destruct l as [|a l]; [congruence|]. intros _. cbn [np_min]. eexists. split; [reflexivity|].
  revert a. induction l as [|b l IH]; cbn [fold_left]; intros a.
  - split; [now left|]. intros x [<-|[]]. lia.
  - destruct (IH (Nat.min a b)) as [H1 H2]. split.
    + destruct H1 as [H1|H1]; [|now right; right]. rewrite <- H1.
      destruct (Nat.min_spec a b) as [[_ E]|[_ E]]; rewrite E; cbn; auto.
    + intros x [<-|[<-|Hx]].
      * transitivity (Nat.min a b); [apply H2; now left|lia].
      * transitivity (Nat.min a b); [apply H2; now left|lia].
      * apply H2. now right.
Qed.

Lemma map_nil {A B} (f : A -> B) l : l <> [] -> map f l <> [].
Proof. destruct l; [congruence|discriminate]. Qed.

Lemma shape_mismatch h ids i j : In i ids -> In j ids -> si_shape (h i) <> si_shape (h j) ->
  (forall k, In k ids -> 0 < fst (si_shape (h k)) /\ 0 < snd (si_shape (h k))) ->
  (forall k, In k ids -> si_shat (h k) <> None -> si_shat_loss (h k) <> None) ->
  (forall fuel sched n, (n <= 1)%Z -> coadd_core fuel sched h ids n = Some (Raise ValueError)) /\
  (forall fuel sched n, NoDup ids -> (2 <= n <= Z.of_nat (length ids))%Z ->
     (Z.of_nat (length ids) < 2 ^ 52)%Z -> 5 * Z.to_nat n + 1 <= fuel ->
     (coadd_core fuel sched h ids n = None \/ coadd_core fuel sched h ids n = Some (Raise ValueError)) /\
     (fair sched (length ids) (8 * length ids + 9) -> coadd_core fuel sched h ids n <> None)).
Proof.
  intros Hi Hj D Pos Co.
  assert (ids <> []) as Hne by (intros ->; contradiction).
  destruct (np_min_ok _ (map_nil (fun i => fst (si_shape (h i))) ids Hne)) as [sx [E1 [I1 U1]]].
  destruct (np_min_ok _ (map_nil (fun i => snd (si_shape (h i))) ids Hne)) as [sy [E2 [I2 U2]]].
  destruct (np_max_ok _ (map_nil (fun i => si_stamp (h i)) ids Hne)) as [ps [E3 _]].
  set (sh := (sx, sy)).
  assert (0 < fst sh /\ 0 < snd sh) as Hp.
  { apply in_map_iff in I1 as [a [<- Ha]]. apply in_map_iff in I2 as [b [<- Hb]].
    split; [apply (Pos a Ha)|apply (Pos b Hb)]. }
  assert (forall k, In k ids -> big sh h k) as HB.
  { intros k Hk. split; [apply U1|apply U2]; apply in_map_iff; eauto. }
  assert (~ forall k, In k ids -> si_shape (h k) = sh) as ND.
  { intros H. apply D. rewrite (H i Hi), (H j Hj). reflexivity. }
  split.
  - intros fuel sched n Hn. unfold coadd_core. rewrite E1, E2, E3.
    destruct (Z.ltb_spec 1 n) as [Hlt|_]; [lia|]. destruct ids as [|i0 rest] eqn:Ei; [congruence|].
    rewrite <- Ei in *.
    destruct (seq_shapes sh h Hp ids h (mkacc (zeros sh) (zeros sh) (si_mask (h i0)))) as [H|H];
      [|reflexivity|reflexivity|fold sh; rewrite H; reflexivity|contradiction].
    intros k Hk. split; [|now apply HB]. split; [reflexivity|exact (Co k Hk)].
  - intros fuel sched n Nd Hn Hl Hfu.
    destruct (unsorted_order Nat.eqb img_lt ids n fuel) as [chunks [Em [Ec Et]]]; auto; try lia.
    { intros a b E. now apply Nat.eqb_eq. }
    destruct (made_all ids n fuel) as [cs [Em' [_ [Ne _]]]]; auto; try lia.
    rewrite Em in Em'. injection Em' as <-. specialize (Ne (proj2 Hn)).
    unfold coadd_core. rewrite E1, E2, E3, Et. fold sh.
    destruct (Z.ltb_spec 1 n) as [_|Hlt]; [|lia].
    assert (Forall2 (vinv sh h h) chunks (map (start sh) chunks)) as I0.
    { assert (forall cs, (forall c, In c cs -> c <> []) -> incl (concat cs) ids ->
              Forall2 (vinv sh h h) cs (map (start sh) cs)) as G.
      { induction cs as [|c cs IH]; cbn [concat map]; intros Hc Hin; constructor.
        - exists []. split; [reflexivity|]. split; [apply Hc; now left|]. cbn [start w_pc w_todo w_acc aS aP].
          split; [intros k []|]. split; [reflexivity|]. split; [reflexivity|].
          split; [intros _; apply Hc; now left|].
          assert (forall k, In k c -> same h h k) as Hs.
          { intros k Hk. split; [reflexivity|]. refine (Co k (Hin k _)). apply in_app_iff; auto. }
          destruct c as [|k c]; [exact Logic.I|].
          split; [|split; [reflexivity|]].
          + intros m Hm. apply Hs. now right.
          + apply (Hs k). now left.
        - apply IH; [intros d Hd; apply Hc; now right|]. intros k Hk. apply Hin. apply in_app_iff; auto. }
      apply G; auto. rewrite Ec. apply incl_refl. }
    pose proof (run_inv (vinv sh h) (vinv_todo sh h) (vinv_frame sh h) ids
                  (vinv_step sh h Hp ids HB) chunks sched h (map (start sh) chunks)) as Hrun.
    rewrite Ec in Hrun. specialize (Hrun Nd (incl_refl _) I0).
    destruct (run sched h (map (start sh) chunks)) as [ws h'] eqn:Er. cbn [fst snd] in *.
    split.
    + destruct (gather_vinv sh h h' chunks ws Hrun) as [->|[->|[[rs ->] H]]]; auto.
      rewrite Ec in H. contradiction.
    + intros F.
      assert (gather ws <> None) as Hg.
      { replace ws with (fst (run sched h (map (start sh) chunks))) by now rewrite Er.
        apply run_finishes with (steps := 8 * length ids + 9).
        - intros k Hk. apply F. pose proof (concat_nonempty_len chunks Ne) as Hc. rewrite Ec in Hc. lia.
        - intros c Hc. apply in_concat_len in Hc. rewrite Ec in Hc. lia. }
      destruct (gather ws) as [[rs|e]|]; [discriminate|discriminate|contradiction].
Qed.
