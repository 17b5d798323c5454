(** Masks: comparison of pixels, flat assignment, thresholds, enlargement. *)
From Coq Require Import ZArith List Bool Arith String Reals Lia Lra.
From Coq Require Import SpecFloat.
From Flocq Require Import Core.Core IEEE754.BinarySingleNaN.
From Verif.Model Require Import Py Plane Ma Image.
From Verif.Spec Require Import Image.
Import ListNotations.
Set Bullet Behavior "Strict Subproofs".

(* ------------------------------------------------------------------ *)
(** ** Comparisons *)

Lemma SF2R_fnum x e0 : finiteb x = true -> (e0 <= fexp x)%Z ->
  SF2R radix2 x = (IZR (fnum x e0) * bpow radix2 e0)%R.
Proof.
  destruct x as [s| | |s m e]; cbn [finiteb fexp fnum SF2R]; intros F L; try discriminate.
  - now rewrite Rmult_0_l.
  - unfold F2R. cbn [Fnum Fexp].
    replace e with ((e - e0) + e0)%Z at 1 by lia. rewrite bpow_plus, <- Rmult_assoc.
    f_equal. rewrite <- (IZR_Zpower radix2) by lia. rewrite <- mult_IZR. f_equal.
    cbn [radix_val radix2]. now destruct s; cbn [cond_Zopp]; [rewrite Z.mul_opp_l|].
Qed.

Lemma fcmp_finite x y : finiteb x = true -> finiteb y = true ->
  fcmp x y = Some (Rcompare (SF2R radix2 x) (SF2R radix2 y)).
Proof.
  intros Fx Fy.
  assert (E : fcmp x y = let e0 := Z.min (fexp x) (fexp y) in Some (fnum x e0 ?= fnum y e0)%Z).
  { destruct x, y; try discriminate; reflexivity. }
  rewrite E. cbv zeta. f_equal.
  rewrite (SF2R_fnum x (Z.min (fexp x) (fexp y))), (SF2R_fnum y (Z.min (fexp x) (fexp y))); try lia; trivial.
  set (e0 := Z.min _ _).
  rewrite Rcompare_mult_r by apply bpow_gt_0. now rewrite Rcompare_IZR.
Qed.

Lemma fltb_finite x y : finiteb x = true -> finiteb y = true ->
  (fltb x y = true <-> (SF2R radix2 x < SF2R radix2 y)%R).
Proof.
  intros Fx Fy. unfold fltb. rewrite fcmp_finite by trivial.
  destruct (Rcompare_spec (SF2R radix2 x) (SF2R radix2 y)); split; intros; try easy; lra.
Qed.

Lemma feqb_finite x y : finiteb x = true -> finiteb y = true ->
  (feqb x y = true <-> (SF2R radix2 x = SF2R radix2 y)%R).
Proof.
  intros Fx Fy. unfold feqb. rewrite fcmp_finite by trivial.
  destruct (Rcompare_spec (SF2R radix2 x) (SF2R radix2 y)); split; intros; try easy; lra.
Qed.

Lemma fleb_finite x y : finiteb x = true -> finiteb y = true ->
  (fleb x y = true <-> (SF2R radix2 x <= SF2R radix2 y)%R).
Proof.
  intros Fx Fy. unfold fleb. rewrite fcmp_finite by trivial.
  destruct (Rcompare_spec (SF2R radix2 x) (SF2R radix2 y)); split; intros; try easy; lra.
Qed.

Lemma low_val : finiteb low_thresh = true /\ SF2R radix2 low_thresh = (-50)%R.
Proof.
  assert (E : low_thresh = S754_finite true 7036874417766400 (-47)) by (vm_compute; reflexivity).
  rewrite E. split; [reflexivity|]. cbn [SF2R]. unfold F2R. simpl. lra.
Qed.

Lemma high_val : finiteb high_thresh = true /\ SF2R radix2 high_thresh = 65000%R.
Proof.
  assert (E : high_thresh = S754_finite false 8933531975680000 (-37)) by (vm_compute; reflexivity).
  rewrite E. split; [reflexivity|]. cbn [SF2R]. unfold F2R. simpl. lra.
Qed.

Definition oobb (v : pix) : bool := fltb v low_thresh || fltb high_thresh v.

Lemma oobb_spec v : oobb v = true <-> out_of_range v.
Proof.
  unfold oobb. rewrite orb_true_iff.
  destruct low_val as [Fl Vl]. destruct high_val as [Fh Vh].
  destruct (finiteb v) eqn:Fv.
  - rewrite !fltb_finite by trivial. rewrite Vl, Vh.
    destruct v; try discriminate; cbn [out_of_range]; tauto.
  - destruct v as [s|s| |s m e]; try discriminate.
    + destruct s; cbn [out_of_range]; split; trivial; intros _.
      * left. unfold fltb. destruct low_thresh; try discriminate; reflexivity.
      * right. unfold fltb. destruct high_thresh; try discriminate; reflexivity.
    + cbn [out_of_range]. split; [|easy]. intros [H|H]; revert H; unfold fltb;
        [destruct low_thresh|destruct high_thresh]; easy.
Qed.

Lemma nonfinite_spec v : negb (finiteb v) = true <-> non_finite v.
Proof. destruct v; cbn; split; easy. Qed.

(* ------------------------------------------------------------------ *)
(** ** Flat assignment, mask_or, assignment *)

Lemma divmod_cell w i j : j < w -> (i * w + j) / w = i /\ (i * w + j) mod w = j.
Proof.
  intros H. split.
  - rewrite Nat.add_comm, Nat.div_add by lia. now rewrite Nat.div_small.
  - rewrite Nat.add_comm, Nat.mod_add by lia. now rewrite Nat.mod_small.
Qed.

Lemma cell_lt h w i j : i < h -> j < w -> i * w + j < h * w.
Proof. intros; nia. Qed.

Lemma cyclic_same {A} (m : plane A) w i j :
  nc m = w -> i < nr m -> j < w -> cyclic m (i * w + j) = px m i j.
Proof.
  intros W Hi Hj. subst w. unfold cyclic.
  rewrite Nat.mod_small by now apply cell_lt.
  destruct (divmod_cell (nc m) i j Hj) as [-> ->]. reflexivity.
Qed.

Lemma set_flat_shape c m : shape (set_flat c m) = shape c.
Proof. unfold set_flat. destruct (_ =? 0); reflexivity. Qed.

Lemma set_flat_px c m i j : nr m * nc m <> 0 ->
  px (set_flat c m) i j = cyclic m (i * nc c + j).
Proof. unfold set_flat. intros H. now destruct (Nat.eqb_spec (nr m * nc m) 0). Qed.

Lemma set_flat_same c m i j : shape m = shape c -> i < nr c -> j < nc c ->
  px (set_flat c m) i j = px m i j.
Proof.
  intros S Hi Hj. injection S as Sr Sc.
  rewrite set_flat_px; [|rewrite Sr, Sc; nia].
  apply cyclic_same; lia.
Qed.

Lemma dat_assign a m : dat (assign_mask a m) = dat a.
Proof. unfold assign_mask. destruct (msk a), m; try reflexivity. Qed.

Lemma wf_assign a m : wf a -> wf (assign_mask a m).
Proof.
  unfold assign_mask, wf. destruct (msk a) as [|c] eqn:E, m as [|q]; cbn [msk dat]; intros W.
  - now rewrite E.
  - now rewrite set_flat_shape.
  - exact W.
  - now rewrite set_flat_shape.
Qed.

(** Assigning a mask of the shape of the data (or [nomask]). *)
Lemma at_assign a m i j : wf a -> (match m with Nomask => True | Full q => shape q = shape (dat a) end) ->
  i < nr (dat a) -> j < nc (dat a) ->
  masked_at (msk (assign_mask a m)) i j = masked_at m i j.
Proof.
  unfold wf, assign_mask. intros W M Hi Hj.
  destruct (msk a) as [|c] eqn:E, m as [|q]; cbn [msk dat masked_at].
  - now rewrite E.
  - rewrite set_flat_same; trivial.
  - reflexivity.
  - injection W as W1 W2. rewrite set_flat_same; trivial; try lia. rewrite M. unfold shape. congruence.
Qed.

Lemma full_assign a m : (exists c, msk a = Full c) \/ (exists q, m = Full q) ->
  exists c', msk (assign_mask a m) = Full c'.
Proof.
  intros H. unfold assign_mask. destruct (msk a) as [|c], m as [|q]; cbn [msk]; try (eexists; reflexivity).
  destruct H as [[? H]|[? H]]; discriminate.
Qed.

Lemma ufunc2_same {A B D} (f : A -> B -> D) p q : shape p = shape q ->
  exists r, ufunc2 f p q = Ok r /\ shape r = shape p /\
    forall i j, i < nr p -> j < nc p -> px r i j = f (px p i j) (px q i j).
Proof.
  intros S. unfold ufunc2. rewrite <- S. unfold bshape, bdim. cbn [fst snd shape].
  rewrite !Nat.eqb_refl. eexists; split; [reflexivity|]. split; [reflexivity|].
  injection S as Sr Sc. intros i j Hi Hj. cbn [px]. unfold bidx. rewrite <- Sr, <- Sc.
  destruct (Nat.eqb_spec (nr p) 1), (Nat.eqb_spec (nc p) 1); repeat f_equal; try lia.
Qed.

Lemma anyb_spec m : anyb m = true <-> exists i j, i < nr m /\ j < nc m /\ px m i j = true.
Proof.
  unfold anyb. rewrite existsb_exists. split.
  - intros (i & Hi & H). apply existsb_exists in H as (j & Hj & H).
    apply in_seq in Hi, Hj. exists i, j. repeat split; trivial; lia.
  - intros (i & j & Hi & Hj & H). exists i. split; [apply in_seq; lia|].
    apply existsb_exists. exists j. split; [apply in_seq; lia|trivial].
Qed.

Lemma shrink_at m i j : i < nr m -> j < nc m -> masked_at (shrink m) i j = px m i j.
Proof.
  intros Hi Hj. unfold shrink. destruct (anyb m) eqn:E; [reflexivity|].
  cbn [masked_at]. destruct (px m i j) eqn:P; trivial.
  rewrite <- E. apply anyb_spec. now exists i, j.
Qed.

Definition mask_fits (sh : nat * nat) (m : mask) : Prop :=
  match m with Nomask => True | Full q => shape q = sh end.

Lemma shrink_fits m : mask_fits (shape m) (shrink m).
Proof. unfold shrink. now destruct (anyb m). Qed.

Lemma mask_or_fits sh m1 m2 : mask_fits sh m1 -> mask_fits sh m2 ->
  exists m, mask_or m1 m2 = Ok m /\ mask_fits sh m /\
    forall i j, i < fst sh -> j < snd sh -> masked_at m i j = masked_at m1 i j || masked_at m2 i j.
Proof.
  destruct m1 as [|a], m2 as [|b]; cbn [mask_fits mask_or]; intros H1 H2.
  - exists Nomask. repeat split.
  - exists (shrink b). split; [reflexivity|]. subst sh. split; [apply shrink_fits|].
    intros. now rewrite shrink_at.
  - exists (shrink a). split; [reflexivity|]. subst sh. split; [apply shrink_fits|].
    intros. rewrite shrink_at by trivial. cbn [masked_at]. now rewrite orb_false_r.
  - destruct (ufunc2_same orb a b) as (r & -> & S & V); [congruence|].
    exists (shrink r). split; [reflexivity|]. rewrite H1 in S. split; [rewrite <- S; apply shrink_fits|].
    intros i j Hi Hj. destruct sh as [sr sc]. injection S as Sr Sc. injection H1 as Ar Ac. cbn [fst snd] in *.
    rewrite shrink_at by lia. rewrite V by lia. reflexivity.
Qed.

Lemma masked_test_spec test a : wf a ->
  exists b, masked_test test a = Ok b /\ dat b = dat a /\ wf b /\
    ((exists c, msk a = Full c) -> exists c', msk b = Full c') /\
    forall i j, i < nr (dat a) -> j < nc (dat a) ->
      masked_at (msk b) i j = test (px (dat a) i j) || masked_at (msk a) i j.
Proof.
  intros W. unfold masked_test. cbv zeta. set (cond := mkplane _ _ _).
  destruct (mask_or_fits (shape (dat a)) (Full cond) (msk a)) as (m & E & F & V); [reflexivity|exact W|].
  rewrite E. cbn [bind]. eexists; split; [reflexivity|].
  split; [apply dat_assign|]. split; [now apply wf_assign|]. split.
  { intros Hc. apply full_assign. now left. }
  intros i j Hi Hj. rewrite at_assign by trivial. rewrite V by trivial.
  cbn [masked_at cond px]. destruct (test _), (masked_at (msk a) i j); reflexivity.
Qed.

Lemma masked_invalid_spec a : wf a ->
  exists b, masked_invalid a = Ok b /\ dat b = dat a /\ wf b /\ (exists c', msk b = Full c') /\
    forall i j, i < nr (dat a) -> j < nc (dat a) ->
      masked_at (msk b) i j = negb (finiteb (px (dat a) i j)) || masked_at (msk a) i j.
Proof.
  intros W. unfold masked_invalid.
  destruct (masked_test_spec (fun x => negb (finiteb x)) a W) as (b & E & D & W' & _ & V).
  rewrite E. cbn [bind]. destruct (msk b) as [|c] eqn:Mb.
  - eexists; split; [reflexivity|]. cbn [dat msk]. split; [exact D|]. split; [reflexivity|].
    split; [eexists; reflexivity|]. intros i j Hi Hj. rewrite <- V by trivial. reflexivity.
  - eexists; split; [reflexivity|]. split; [exact D|]. split; [exact W'|]. split; [now exists c|].
    intros i j Hi Hj. rewrite <- V by trivial. now rewrite Mb.
Qed.

(* ------------------------------------------------------------------ *)
(** ** Out-of-range pixels *)

Lemma add_oor_spec a : wf a ->
  exists b, add_out_of_range a = Ok b /\ dat b = dat a /\ wf b /\
    forall i j, i < nr (dat a) -> j < nc (dat a) ->
      masked_at (msk b) i j = masked_at (msk a) i j || oobb (px (dat a) i j).
Proof.
  intros W. unfold add_out_of_range, masked_less, masked_greater.
  destruct (masked_test_spec (fun x => fltb x low_thresh) a W) as (lo & -> & Dl & Wl & _ & Vl).
  destruct (masked_test_spec (fun x => fltb high_thresh x) a W) as (hi & -> & Dh & Wh & _ & Vh).
  cbn [bind].
  destruct (mask_or_fits (shape (dat a)) (msk a) (msk lo)) as (m & -> & F & V); [exact W| |].
  { unfold wf in Wl. rewrite Dl in Wl. exact Wl. }
  cbn [bind]. cbv zeta. set (a1 := assign_mask a m).
  assert (W1 : wf a1) by now apply wf_assign.
  assert (D1 : dat a1 = dat a) by apply dat_assign.
  destruct (mask_or_fits (shape (dat a)) (msk a1) (msk hi)) as (m' & -> & F' & V').
  { unfold wf in W1. now rewrite D1 in W1. }
  { unfold wf in Wh. rewrite Dh in Wh. exact Wh. }
  cbn [bind]. eexists; split; [reflexivity|]. rewrite dat_assign. split; [exact D1|].
  split; [now apply wf_assign|]. intros i j Hi Hj.
  rewrite at_assign by (trivial; now rewrite D1). rewrite V' by trivial.
  unfold a1. rewrite at_assign by trivial. rewrite V, Vl, Vh by trivial.
  unfold oobb. destruct (masked_at (msk a) i j), (fltb (px (dat a) i j) low_thresh), (fltb high_thresh (px (dat a) i j)); reflexivity.
Qed.

(* ------------------------------------------------------------------ *)
(** ** Enlargement *)

Lemma mirror_reflect n i o : i < n -> (o = 0 \/ o = 1 \/ o = 2) ->
  Z.to_nat (mirror (Z.of_nat n) (Z.of_nat i + (Z.of_nat o - 1))) = reflect1 n (i + o).
Proof.
  intros Hi Ho. unfold mirror, reflect1.
  destruct (Z.ltb_spec (Z.of_nat i + (Z.of_nat o - 1)) 0).
  - assert (i = 0 /\ o = 0) as [-> ->] by lia. cbn. lia.
  - destruct (Z.leb_spec (Z.of_nat n) (Z.of_nat i + (Z.of_nat o - 1))).
    + assert (i = n - 1 /\ o = 2) as [-> ->] by lia. lia.
    + lia.
Qed.

Lemma conv_near m i j : i < nr m -> j < nc m -> px (convolve3 m) i j = near (shape m) (px m) i j.
Proof.
  intros Hi Hj. unfold convolve3, near. cbn [px shape fst snd].
  assert (R : forall o, In o [0;1;2] -> reflect1 (nr m) (i + o) = Z.to_nat (mirror (Z.of_nat (nr m)) (Z.of_nat i + (Z.of_nat o - 1)))).
  { intros o Ho. symmetry. apply mirror_reflect; trivial. cbn in Ho. intuition. }
  assert (R' : forall o, In o [0;1;2] -> reflect1 (nc m) (j + o) = Z.to_nat (mirror (Z.of_nat (nc m)) (Z.of_nat j + (Z.of_nat o - 1)))).
  { intros o Ho. symmetry. apply mirror_reflect; trivial. cbn in Ho. intuition. }
  cbn [flat_map map app].
  rewrite (R 0), (R 1), (R 2), (R' 0), (R' 1), (R' 2) by (cbn; tauto).
  change (Z.of_nat 0 - 1)%Z with (-1)%Z. change (Z.of_nat 1 - 1)%Z with 0%Z. change (Z.of_nat 2 - 1)%Z with 1%Z.
  cbn [filter fst snd list_sum fold_right].
  repeat match goal with |- context [if ?b then _ else _] => destruct b end; reflexivity.
Qed.

Lemma near_ext sh f g i j : (forall x y, x < fst sh -> y < snd sh -> f x y = g x y) ->
  i < fst sh -> j < snd sh -> near sh f i j = near sh g i j.
Proof.
  intros H Hi Hj. unfold near. f_equal. apply filter_ext_in. intros [a b] Hin.
  assert (B : (-1 <= a <= 1)%Z /\ (-1 <= b <= 1)%Z).
  { cbn in Hin. repeat destruct Hin as [Hin|Hin]; try (injection Hin as <- <-; lia). easy. }
  cbn [fst snd]. apply H; unfold mirror; repeat match goal with |- context [Z.ltb ?x ?y] => destruct (Z.ltb_spec x y)
    | |- context [Z.leb ?x ?y] => destruct (Z.leb_spec x y) end; lia.
Qed.

Lemma grown_ext sh k f g : (forall x y, x < fst sh -> y < snd sh -> f x y = g x y) ->
  forall x y, x < fst sh -> y < snd sh -> grown sh k f x y = grown sh k g x y.
Proof.
  intros H. induction k as [|k IH]; cbn [grown]; [exact H|].
  intros x y Hx Hy. cbv zeta. rewrite IH by trivial. f_equal. f_equal. now apply near_ext.
Qed.

Lemma grown_S sh k f : grown sh (S k) f = grown sh k (grown sh 1 f).
Proof.
  induction k as [|k IH]; [reflexivity|].
  change (grown sh (S (S k)) f) with (let g := grown sh (S k) f in fun i j => g i j || (3 <=? near sh g i j)).
  rewrite IH. reflexivity.
Qed.

Lemma freeze_px {A} (p : plane A) i j : px (freeze p) i j = px p i j.
Proof.
  unfold freeze. cbn [px]. rewrite nth_error_map. destruct (nth_error (seq 0 (nr p)) i) as [x|] eqn:E; [|reflexivity].
  cbn [option_map]. rewrite nth_error_map. destruct (nth_error (seq 0 (nc p)) j) as [y|] eqn:E'; [|reflexivity].
  cbn [option_map].
  assert (Hi : i < nr p) by (rewrite <- (seq_length (nr p) 0); apply nth_error_Some; now rewrite E).
  assert (Hj : j < nc p) by (rewrite <- (seq_length (nc p) 0); apply nth_error_Some; now rewrite E').
  apply (nth_error_nth _ _ 0) in E, E'. rewrite seq_nth in E, E' by trivial. now subst.
Qed.

Lemma enlarge1_spec a m : msk a = Full m -> shape m = shape (dat a) ->
  exists b m', enlarge1 a = Ok b /\ dat b = dat a /\ msk b = Full m' /\ shape m' = shape (dat a) /\
    forall i j, i < nr (dat a) -> j < nc (dat a) -> px m' i j = grown (shape (dat a)) 1 (px m) i j.
Proof.
  intros E0 S. unfold enlarge1. rewrite E0. cbv zeta.
  assert (G : forall i j, i < nr (dat a) -> j < nc (dat a) ->
     grown (shape (dat a)) 1 (px (freeze m)) i j = grown (shape (dat a)) 1 (px m) i j).
  { intros i j Hi Hj. apply grown_ext; trivial. intros. apply freeze_px. }
  assert (W : wf a) by (unfold wf; now rewrite E0).
  assert (FA : forall x, exists m', msk (assign_mask a x) = Full m') by (intros; apply full_assign; left; now exists m).
  cut (exists b m', bind (mask_or (Full (freeze m)) (Full (pmap (fun c => 2 <? c) (convolve3 (freeze m)))))
                      (fun m' => Ok (assign_mask a m')) = Ok b /\ dat b = dat a /\ msk b = Full m' /\ shape m' = shape (dat a) /\
    forall i j, i < nr (dat a) -> j < nc (dat a) -> px m' i j = grown (shape (dat a)) 1 (px (freeze m)) i j).
  { intros (b & m' & H1 & H2 & H3 & H4 & H5). exists b, m'. repeat (split; [assumption|]).
    intros i j Hi Hj. now rewrite H5, G. }
  clear G. change (shape (freeze m) = shape (dat a)) in S. clear E0.
  set (f := freeze m) in *. clearbody f. clear m. rename f into m.
  destruct (mask_or_fits (shape (dat a)) (Full m) (Full (pmap (fun c => 2 <? c) (convolve3 m)))) as (x & -> & F & V).
  { exact S. } { exact S. }
  cbn [bind]. destruct (FA x) as (m' & Em).
  exists (assign_mask a x), m'. split; [reflexivity|]. split; [apply dat_assign|]. split; [exact Em|].
  pose proof (wf_assign a x W) as W'. unfold wf in W'. rewrite Em, dat_assign in W'. split; [exact W'|].
  intros i j Hi Hj.
  assert (P : px m' i j = masked_at (msk (assign_mask a x)) i j) by now rewrite Em.
  rewrite P, at_assign by trivial. rewrite V by trivial. cbn [masked_at grown pmap px].
  injection S as Sr Sc. rewrite conv_near by lia. f_equal. unfold shape. rewrite Sr, Sc. reflexivity.
Qed.

Lemma enlarge_spec k : forall a m, msk a = Full m -> shape m = shape (dat a) ->
  exists b m', enlarge k a = Ok b /\ dat b = dat a /\ msk b = Full m' /\ shape m' = shape (dat a) /\
    forall i j, i < nr (dat a) -> j < nc (dat a) -> px m' i j = grown (shape (dat a)) k (px m) i j.
Proof.
  induction k as [|k IH]; intros a m E S; cbn [enlarge].
  - exists a, m. repeat split; trivial.
  - destruct (enlarge1_spec a m E S) as (b & m' & -> & D & Em & Sm & V). cbn [bind].
    destruct (IH b m' Em) as (c & m2 & -> & D2 & Em2 & Sm2 & V2); [now rewrite Sm, D|].
    exists c, m2. split; [reflexivity|]. split; [now rewrite D2, D|]. split; [exact Em2|].
    rewrite D in *. split; [exact Sm2|]. intros i j Hi Hj. rewrite V2 by trivial.
    rewrite grown_S. apply grown_ext; trivial.
Qed.

Lemma near_false sh i j : near sh (fun _ _ => false) i j = 0.
Proof. reflexivity. Qed.

Lemma grown_false sh k : forall i j, grown sh k (fun _ _ => false) i j = false.
Proof.
  induction k as [|k IH]; intros i j; cbn [grown]; [reflexivity|]. rewrite IH. cbn [orb].
  assert (E : near sh (grown sh k (fun _ _ => false)) i j = 0).
  { unfold near. replace (filter _ _) with (@nil (Z * Z)); [reflexivity|]. symmetry.
    cbn [filter]. now rewrite !IH. }
  now rewrite E.
Qed.

Lemma grow_mask_spec a : wf a ->
  exists b q, grow_mask a = Ok b /\ dat b = dat a /\ msk b = Full q /\ shape q = shape (dat a) /\
    forall i j, i < nr (dat a) -> j < nc (dat a) ->
      px q i j = grown (shape (dat a)) 7 (fun i j => masked_at (msk a) i j) i j.
Proof.
  intros W. unfold grow_mask. destruct (msk a) as [|m] eqn:E.
  - unfold assign_mask. rewrite E. eexists; eexists; split; [reflexivity|]. cbn [dat msk].
    split; [reflexivity|]. split; [reflexivity|].
    split; [now rewrite set_flat_shape|]. intros i j Hi Hj.
    rewrite set_flat_same by trivial. cbn [masked_at]. now rewrite grown_false.
  - unfold wf in W. rewrite E in W.
    destruct (enlarge_spec rounds a m E W) as (b & q & -> & D & Eb & S & V).
    exists b, q. repeat split; trivial.
Qed.
