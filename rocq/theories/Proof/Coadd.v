(** Lemmas about [coadd]. *)
From Coq Require Import Arith ZArith List Bool Reals Lia Lra Permutation FunctionalExtensionality.
From Coquelicot Require Import Complex.
From Verif.Model Require Import Py Plane Ma Chunk Coadd.
From Verif.Spec Require Import Coadd.
From Verif.Proof Require Import Chunk ChunkSort.
Import ListNotations.
Set Bullet Behavior "Strict Subproofs".

(** ** Planes *)

Lemma plane_eq_refl {A} (p : plane A) : plane_eq p p.
Proof. split; auto. Qed.

Lemma plane_eq_sym {A} (p q : plane A) : plane_eq p q -> plane_eq q p.
Proof.
  intros [S H]. unfold shape in S. injection S as S1 S2. split; [unfold shape; congruence|].
  intros i j Hi Hj. symmetry. apply H; lia.
Qed.

Lemma plane_eq_trans {A} (p q r : plane A) : plane_eq p q -> plane_eq q r -> plane_eq p r.
Proof.
  intros [S H] [S' H']. split; [congruence|]. unfold shape in S. injection S as S1 S2.
  intros i j Hi Hj. rewrite H by assumption. apply H'; lia.
Qed.

Lemma bidx_in d i : i < d -> bidx d i = i.
Proof. unfold bidx. destruct (Nat.eqb_spec d 1); lia. Qed.

Lemma bdim_same d : bdim d d = Some d.
Proof. unfold bdim. now rewrite Nat.eqb_refl. Qed.

Lemma ufunc2_same {A B D} (f : A -> B -> D) p q : shape p = shape q ->
  exists r, ufunc2 f p q = Ok r /\ shape r = shape p /\
    forall i j, i < nr p -> j < nc p -> px r i j = f (px p i j) (px q i j).
Proof.
  intros S. unfold ufunc2. rewrite <- S. unfold bshape. rewrite !bdim_same.
  eexists. split; [reflexivity|]. split; [reflexivity|].
  unfold shape in S. injection S as S1 S2. cbn. intros i j Hi Hj.
  rewrite !bidx_in by lia. reflexivity.
Qed.

Lemma add_out_same {A} (f : A -> A -> A) p s : shape p = shape s ->
  exists r, add_out f p s = Ok r /\ shape r = shape s /\
    forall i j, i < nr s -> j < nc s -> px r i j = f (px p i j) (px s i j).
Proof.
  intros S. unfold add_out. destruct (ufunc2_same f p s S) as [r [-> [Sr H]]].
  exists r. pose proof Sr as Sr'. rewrite S in Sr'. unfold shape in Sr', S.
  injection Sr' as R1 R2. injection S as S1 S2.
  rewrite R1, R2, !Nat.eqb_refl. cbn. split; auto. split; [unfold shape; congruence|].
  intros i j Hi Hj. apply H; lia.
Qed.

(** [add_out] with a first operand at least as large fails unless the shapes agree. *)
Lemma add_out_bigger {A} (f : A -> A -> A) p s :
  nr s <= nr p -> nc s <= nc p -> shape p <> shape s -> 0 < nr s -> 0 < nc s ->
  add_out f p s = Raise ValueError.
Proof.
  intros H1 H2 N P1 P2. unfold add_out, ufunc2, bshape, shape in *. cbn [fst snd].
  unfold bdim.
  destruct (Nat.eqb_spec (nr p) (nr s)) as [E1|E1].
  - destruct (Nat.eqb_spec (nc p) (nc s)) as [E2|E2]; [exfalso; apply N; congruence|].
    destruct (Nat.eqb_spec (nc p) 1); [lia|].
    destruct (Nat.eqb_spec (nc s) 1); [|reflexivity]. cbn.
    destruct (Nat.eqb_spec (nc p) (nc s)); [lia|]. now rewrite andb_false_r.
  - destruct (Nat.eqb_spec (nr p) 1); [lia|].
    destruct (Nat.eqb_spec (nr s) 1); [|reflexivity].
    destruct (nc p =? nc s), (nc p =? 1), (nc s =? 1); cbn; try reflexivity;
      destruct (Nat.eqb_spec (nr p) (nr s)); try lia; reflexivity.
Qed.

(** ** Masks *)

Definition mshape (sh : nat * nat) (m : mask) : Prop :=
  match m with Nomask => True | Full p => shape p = sh end.

Lemma anyb_spec m : anyb m = true <-> exists i j, i < nr m /\ j < nc m /\ px m i j = true.
Proof.
  unfold anyb. rewrite existsb_exists. split.
  - intros [i [Hi H]]. apply existsb_exists in H as [j [Hj H]].
    apply in_seq in Hi, Hj. exists i, j. repeat split; auto; lia.
  - intros [i [j [Hi [Hj H]]]]. exists i. split; [apply in_seq; lia|].
    apply existsb_exists. exists j. split; [apply in_seq; lia|auto].
Qed.

(** Masks as [mask_or] leaves them. *)
Definition shrunk (sh : nat * nat) (m : mask) : Prop :=
  match m with
  | Nomask => True
  | Full p => shape p = sh /\ exists i j, i < fst sh /\ j < snd sh /\ px p i j = true
  end.

Lemma shrunk_mshape sh m : shrunk sh m -> mshape sh m.
Proof. destruct m; cbn; tauto. Qed.

Lemma shrink_spec p : shrunk (shape p) (shrink p) /\
  forall i j, i < nr p -> j < nc p -> masked_at (shrink p) i j = px p i j.
Proof.
  unfold shrink. destruct (anyb p) eqn:E.
  - split; [|auto]. split; [reflexivity|]. now apply anyb_spec.
  - split; [exact Logic.I|]. intros i j Hi Hj. cbn. destruct (px p i j) eqn:Ep; [|reflexivity].
    assert (anyb p = true) by (apply anyb_spec; eauto). congruence.
Qed.

Lemma mask_or_spec sh m1 m2 : mshape sh m1 -> mshape sh m2 ->
  exists m, mask_or m1 m2 = Ok m /\ shrunk sh m /\
    forall i j, i < fst sh -> j < snd sh -> masked_at m i j = masked_at m1 i j || masked_at m2 i j.
Proof.
  intros H1 H2. destruct m1 as [|p], m2 as [|q]; cbn [mask_or].
  - exists Nomask. repeat split; auto.
  - destruct (shrink_spec q) as [S H]. cbn in H2. subst sh.
    exists (shrink q). split; [reflexivity|]. split; [exact S|]. cbn. intros i j Hi Hj. now apply H.
  - destruct (shrink_spec p) as [S H]. cbn in H1. subst sh.
    exists (shrink p). split; [reflexivity|]. split; [exact S|]. cbn. intros i j Hi Hj. rewrite orb_false_r. now apply H.
  - cbn in H1, H2. destruct (ufunc2_same orb p q) as [r [-> [Sr Hr]]]; [congruence|].
    destruct (shrink_spec r) as [S H]. exists (shrink r). split; auto.
    rewrite Sr, H1 in S. split; auto. intros i j Hi Hj.
    assert (nr p = fst sh /\ nc p = snd sh) as [E1 E2] by (rewrite <- H1; auto).
    assert (nr r = fst sh /\ nc r = snd sh) as [E3 E4] by (rewrite <- H1, <- Sr; auto).
    rewrite H by lia. cbn. apply Hr; lia.
Qed.

Lemma shrunk_eq sh m1 m2 : shrunk sh m1 -> shrunk sh m2 ->
  (forall i j, i < fst sh -> j < snd sh -> masked_at m1 i j = masked_at m2 i j) -> mask_eq m1 m2.
Proof.
  destruct m1 as [|p], m2 as [|q]; cbn; auto.
  - intros _ [_ [i [j [Hi [Hj H]]]]] G. rewrite <- G in H; auto; discriminate.
  - intros [_ [i [j [Hi [Hj H]]]]] _ G. rewrite G in H; auto; discriminate.
  - intros [S1 _] [S2 _] G. split; [congruence|]. intros i j Hi Hj.
    apply G; rewrite <- S1; assumption.
Qed.

(** ** Sums *)
Local Open Scope C_scope.

Lemma total_app {A} (f : A -> C) l m : total f (l ++ m) = total f l + total f m.
Proof.
  unfold total. induction l as [|a l IH]; cbn.
  - now rewrite Cplus_0_l.
  - rewrite IH. ring.
Qed.

Lemma total_cons {A} (f : A -> C) a l : total f (a :: l) = f a + total f l.
Proof. reflexivity. Qed.

Lemma total_perm {A} (f : A -> C) l m : Permutation l m -> total f l = total f m.
Proof. unfold total. induction 1; cbn; try congruence; ring. Qed.

Lemma total_ext {A} (f g : A -> C) l : (forall a, In a l -> f a = g a) -> total f l = total g l.
Proof.
  unfold total. induction l as [|a l IH]; cbn; intros H; [reflexivity|].
  rewrite H by auto. f_equal. apply IH. auto.
Qed.

Lemma total_concat {A} (f : A -> C) ll : total (total f) ll = total f (concat ll).
Proof.
  induction ll as [|l ll IH]; [reflexivity|]. cbn [concat]. rewrite total_app, <- IH. reflexivity.
Qed.
Local Close Scope C_scope.

(** ** What reading s_hat_comp gives *)

Definition cur (x : simg) : nat -> nat -> C :=
  match si_shat x, si_shat_loss x with
  | Some v, Some l => if Req_EM_T l (si_loss x) then v else shat_value x
  | _, _ => shat_value x
  end.

Definition cache_ok (x : simg) : Prop := si_shat x <> None -> si_shat_loss x <> None.

(** Everything but the cache. *)
Definition static (x : simg) : simg := with_shat_loss None (with_shat None x).

Lemma static_fields x y : static x = static y ->
  si_shape x = si_shape y /\ si_mask x = si_mask y /\ psf_term x = psf_term y /\
  shat_value x = shat_value y /\ si_loss x = si_loss y.
Proof.
  destruct x, y. unfold static. cbn. intros H. injection H. intros; subst.
  repeat split; reflexivity.
Qed.

Lemma s_hat_comp_spec x : cache_ok x ->
  fst (s_hat_comp x) = Ok (arr (si_shape x) (cur x)) /\
  cur (snd (s_hat_comp x)) = cur x /\ cache_ok (snd (s_hat_comp x)) /\
  static (snd (s_hat_comp x)) = static x.
Proof.
  unfold cache_ok, s_hat_comp, cur. destruct x as [? ? ? ? ? ? ? ? sh sl ? ?]. cbn.
  destruct sh as [v|]; cbn.
  - intros H. destruct sl as [l|]; [|exfalso; now apply H].
    destruct (Req_EM_T l si_loss) as [E|E]; cbn.
    + destruct (Req_EM_T l si_loss); [|contradiction]. repeat split; auto. 
    + destruct (Req_EM_T si_loss si_loss); [|congruence].
      repeat split; auto; discriminate.
  - intros _. destruct (Req_EM_T si_loss si_loss); [|congruence].
    repeat split; auto; discriminate.
Qed.

(** ** The accumulators hold given sums *)

Definition acc_is (sh : nat * nat) (a : acc) (fS fP : nat -> nat -> C) : Prop :=
  shape (aS a) = sh /\ shape (aP a) = sh /\
  forall i j, i < fst sh -> j < snd sh -> px (aS a) i j = fS i j /\ px (aP a) i j = fP i j.

Definition img_fits (sh : nat * nat) (x : simg) : Prop :=
  si_shape x = sh /\ mshape sh (si_mask x) /\ cache_ok x.

Definition pterm (x : simg) (r c : nat) : C := px (psf_term x) r c.

Lemma upd_same h i x : upd h i x i = x.
Proof. unfold upd. now rewrite Nat.eqb_refl. Qed.

Lemma upd_other h i x j : j <> i -> upd h i x j = h j.
Proof. unfold upd. intros H. destruct (Nat.eqb_spec j i); [contradiction|reflexivity]. Qed.

Lemma shape_fst {A} (p : plane A) sh : shape p = sh -> nr p = fst sh /\ nc p = snd sh.
Proof. intros <-. auto. Qed.

Lemma add_out_acc sh (v p : plane C) f g :
  shape v = sh -> shape p = sh ->
  (forall i j, i < fst sh -> j < snd sh -> px v i j = f i j) ->
  (forall i j, i < fst sh -> j < snd sh -> px p i j = g i j) ->
  exists r, add_out Cplus v p = Ok r /\ shape r = sh /\
    forall i j, i < fst sh -> j < snd sh -> px r i j = Cplus (f i j) (g i j).
Proof.
  intros Sv Sp Hv Hp. destruct (add_out_same Cplus v p) as [r [E [Sr Hr]]]; [congruence|].
  exists r. split; [exact E|]. split; [congruence|]. intros i j Hi Hj.
  destruct (shape_fst p sh Sp) as [E1 E2].
  rewrite Hr by lia. now rewrite Hv, Hp.
Qed.

Lemma accumulate_spec sh x v a fS fP : si_shape x = sh -> mshape sh (si_mask x) ->
  acc_is sh a fS fP -> mshape sh (aM a) ->
  exists a', accumulate x (arr sh v) a = Ok a' /\
    acc_is sh a' (fun r c => Cplus (v r c) (fS r c)) (fun r c => Cplus (pterm x r c) (fP r c)) /\
    shrunk sh (aM a') /\
    forall i j, i < fst sh -> j < snd sh -> masked_at (aM a') i j = masked_at (aM a) i j || masked_at (si_mask x) i j.
Proof.
  intros Sx Mx [S1 [S2 H]] Ma. unfold accumulate.
  destruct (add_out_acc sh (arr sh v) (aS a) v fS) as [r1 [-> [R1 H1]]];
    [now destruct sh|exact S1|reflexivity|intros; now apply H|].
  cbn [bind].
  destruct (add_out_acc sh (psf_term x) (aP a) (pterm x) fP) as [r2 [-> [R2 H2]]];
    [unfold psf_term; rewrite Sx; now destruct sh|exact S2|reflexivity|intros; now apply H|].
  cbn [bind].
  destruct (mask_or_spec sh (aM a) (si_mask x) Ma Mx) as [m [-> [Sm Hm]]].
  cbn [bind]. eexists. split; [reflexivity|]. cbn. split; [|split; assumption].
  split; [exact R1|]. split; [exact R2|]. cbn. intros i j Hi Hj. split; [now apply H1|now apply H2].
Qed.

Lemma existsb_ext {A} (f g : A -> bool) l : (forall a, In a l -> f a = g a) -> existsb f l = existsb g l.
Proof. induction l as [|a l IH]; cbn; intros H; [reflexivity|]. rewrite H, IH; auto. Qed.

Lemma seq_loop_spec sh ids : forall h a fS fP,
  (forall i, In i ids -> img_fits sh (h i)) -> acc_is sh a fS fP -> mshape sh (aM a) ->
  exists a', fst (seq_loop h ids a) = Ok a' /\
    acc_is sh a' (fun r c => Cplus (total (fun i => cur (h i) r c) ids) (fS r c))
                 (fun r c => Cplus (total (fun i => pterm (h i) r c) ids) (fP r c)) /\
    mshape sh (aM a') /\ (ids <> [] -> shrunk sh (aM a')) /\
    forall r c, r < fst sh -> c < snd sh ->
      masked_at (aM a') r c = masked_at (aM a) r c || existsb (fun i => masked_at (si_mask (h i)) r c) ids.
Proof.
  induction ids as [|i ids IH]; intros h a fS fP Hf Ha Hm; cbn [seq_loop].
  - exists a. split; [reflexivity|]. split; [|split; [exact Hm|split; [congruence|]]].
    + destruct Ha as [S1 [S2 H]]. split; [exact S1|]. split; [exact S2|]. intros r c Hr Hc.
      destruct (H r c Hr Hc) as [-> ->]. unfold total; cbn [fold_right]. rewrite !Cplus_0_l. auto.
    + intros. cbn. now rewrite orb_false_r.
  - destruct (Hf i (or_introl eq_refl)) as [Sx [Mx Cx]].
    destruct (s_hat_comp_spec (h i) Cx) as [E [Ec [Eo Es]]].
    destruct (s_hat_comp (h i)) as [rr x'] eqn:Ei. cbn in E, Ec, Eo, Es. rewrite E.
    rewrite Sx. destruct (accumulate_spec sh (h i) (cur (h i)) a fS fP Sx Mx Ha Hm)
      as [a1 [-> [A1 [M1 U1]]]].
    assert (forall j, static (upd h i x' j) = static (h j)) as Hst.
    { intros j. unfold upd. destruct (Nat.eqb_spec j i); [subst; exact Es|reflexivity]. }
    assert (forall j, cur (upd h i x' j) = cur (h j)) as Hcur.
    { intros j. unfold upd. destruct (Nat.eqb_spec j i); [subst; exact Ec|reflexivity]. }
    assert (forall j, In j ids -> img_fits sh (upd h i x' j)) as Hf'.
    { intros j Hj. destruct (Hf j (or_intror Hj)) as [Sj [Mj Cj]].
      destruct (static_fields _ _ (Hst j)) as [F1 [F2 _]]. split; [congruence|].
      split; [rewrite F2; exact Mj|]. unfold upd. destruct (Nat.eqb_spec j i); [exact Eo|exact Cj]. }
    destruct (IH (upd h i x') a1 _ _ Hf' A1 (shrunk_mshape _ _ M1)) as [a' [E' [A' [M' [Sh' U']]]]].
    exists a'. split; [exact E'|]. split; [|split; [exact M'|split]].
    + destruct A' as [S1 [S2 H]]. split; [exact S1|]. split; [exact S2|]. intros r c Hr Hc.
        destruct (H r c Hr Hc) as [-> ->]. rewrite !total_cons. split.
        -- rewrite (total_ext (fun j => cur (upd h i x' j) r c) (fun j => cur (h j) r c))
             by (intros; now rewrite Hcur). ring.
        -- rewrite (total_ext (fun j => pterm (upd h i x' j) r c) (fun j => pterm (h j) r c)).
           ** ring.
           ** intros j _. unfold pterm. destruct (static_fields _ _ (Hst j)) as [_ [_ [-> _]]]. reflexivity.
    + intros _. destruct ids; [|apply Sh'; discriminate]. cbn in E'. injection E' as <-. exact M1.
    + intros r c Hr Hc. rewrite U' by assumption. rewrite U1 by assumption. cbn [existsb].
        rewrite <- orb_assoc. f_equal. f_equal. apply existsb_ext. intros j _.
        destruct (static_fields _ _ (Hst j)) as [_ [-> _]]. reflexivity.
Qed.

