(** [get_psf_xy]. *)
From Coq Require Import ZArith List Bool Arith Reals Lia Lra.
From Flocq Require Import Core.Raux Core.Round_NE Core.Generic_fmt.
From Verif.Model Require Import Py Plane KL.
From Verif.Spec Require Import KL.
From Verif.Proof Require Import KL KLMain.
Import ListNotations.
Local Open Scope R_scope.

Lemma bidx_lt d i : (i < d)%nat -> bidx d i = i.
Proof. unfold bidx. destruct (Nat.eqb_spec d 1); lia. Qed.

Lemma ufunc2_same {A B D} (f : A -> B -> D) p q : shape p = shape q ->
  exists r, ufunc2 f p q = Ok r /\ shape r = shape p /\
    forall i j, (i < nr p)%nat -> (j < nc p)%nat -> px r i j = f (px p i j) (px q i j).
Proof.
  intros S. unfold ufunc2. rewrite <- S. unfold bshape, bdim. rewrite !Nat.eqb_refl.
  eexists. split; [reflexivity|]. split; [reflexivity|]. intros i j Hi Hj. cbn [px].
  unfold shape in S. injection S as Sr Sc.
  now rewrite <- Sr, <- Sc, !bidx_lt.
Qed.

Lemma add_out_same (p s : plane R) : shape p = shape s ->
  exists r, add_out Rplus p s = Ok r /\ shape r = shape s /\
    forall i j, (i < nr s)%nat -> (j < nc s)%nat -> px r i j = px p i j + px s i j.
Proof.
  intros S. unfold add_out. destruct (ufunc2_same Rplus p s S) as (r & E & Sr & V).
  rewrite E. assert (Q : shape r = shape s) by congruence. unfold shape in Q, S.
  injection Q as Q1 Q2. injection S as S1 S2. rewrite Q1, Q2, !Nat.eqb_refl. cbn [andb].
  exists r. split; [reflexivity|]. split; [unfold shape; congruence|].
  intros i j Hi Hj. apply V; lia.
Qed.

Lemma ufunc2_rows {A B D} (f : A -> B -> D) p q :
  nr p <> nr q -> nr p <> 1%nat -> nr q <> 1%nat -> ufunc2 f p q = Raise ValueError.
Proof.
  intros H1 H2 H3. unfold ufunc2, bshape, bdim, shape. cbn [fst snd].
  rewrite (proj2 (Nat.eqb_neq _ _) H1), (proj2 (Nat.eqb_neq _ _) H2), (proj2 (Nat.eqb_neq _ _) H3).
  reflexivity.
Qed.

Lemma ufunc2_cols {A B D} (f : A -> B -> D) p q :
  nc p <> nc q -> nc p <> 1%nat -> nc q <> 1%nat -> ufunc2 f p q = Raise ValueError.
Proof.
  intros H1 H2 H3. unfold ufunc2, bshape, shape. cbn [fst snd].
  assert (E : bdim (nc p) (nc q) = None).
  { unfold bdim.
    now rewrite (proj2 (Nat.eqb_neq _ _) H1), (proj2 (Nat.eqb_neq _ _) H2), (proj2 (Nat.eqb_neq _ _) H3). }
  rewrite E. now destruct (bdim (nr p) (nr q)).
Qed.

Lemma fold_raise normal a b c d ts e :
  fold_left (add_component normal a b c d) ts (Raise e) = Raise e.
Proof. induction ts as [|t ts IH]; [reflexivity|]. exact IH. Qed.

(** The loop, when every window has the shape of the stamps; the visible part of [normal]
    starts at (a, b). *)
Lemma loop_ok s a b xm ym normal ts acc :
  Forall (fun t : plane R * (R -> R -> R) => shape (fst t) = (s, s)) ts ->
  shape acc = (s, s) ->
  slice_bound (Z.of_nat (nr normal)) xm = Z.of_nat a ->
  slice_bound (Z.of_nat (nr normal)) (xm + Z.of_nat s) = Z.of_nat (a + s) ->
  slice_bound (Z.of_nat (nc normal)) ym = Z.of_nat b ->
  slice_bound (Z.of_nat (nc normal)) (ym + Z.of_nat s) = Z.of_nat (b + s) ->
  exists r, fold_left (add_component normal xm (xm + Z.of_nat s) ym (ym + Z.of_nat s)) ts (Ok acc) = Ok r /\
    shape r = (s, s) /\
    forall i j, (i < s)%nat -> (j < s)%nat ->
      px r i j = px acc i j + sumn (length ts) (fun k =>
        px (fst (nth k ts (pconst (0, 0)%nat 0, fun _ _ => 0))) i j *
        snd (nth k ts (pconst (0, 0)%nat 0, fun _ _ => 0)) (IZR (xm + Z.of_nat i)) (IZR (ym + Z.of_nat j)) /
        px normal (a + i) (b + j)).
Proof.
  intros F Sa B1 B2 B3 B4. revert acc Sa. induction F as [|t ts Ht F IH]; intros acc Sa.
  - exists acc. split; [reflexivity|]. split; [exact Sa|]. intros. cbn. ring.
  - cbn [fold_left]. unfold add_component at 2. cbn [bind].
    set (fld := field_on (snd t) _ _ _ _).
    assert (Sf : shape (fst t) = shape fld).
    { rewrite Ht. unfold fld, field_on, shape. cbn [nr nc]. f_equal; lia. }
    destruct (ufunc2_same Rmult (fst t) fld Sf) as (pr & E1 & S1 & V1). rewrite E1. cbn [bind].
    set (sl := slice2 normal _ _ _ _).
    assert (Ssl : shape pr = shape sl).
    { rewrite S1, Ht. unfold sl, slice2, shape. rewrite B1, B2, B3, B4. cbn [nr nc]. f_equal; lia. }
    destruct (ufunc2_same Rdiv pr sl Ssl) as (qu & E2 & S2 & V2). rewrite E2. cbn [bind].
    destruct (add_out_same qu acc) as (r & E3 & S3 & V3); [congruence|]. rewrite E3.
    destruct (IH r) as (r' & E & Sr & V); [congruence|]. exists r'. split; [exact E|]. split; [exact Sr|].
    intros i j Hi Hj. rewrite V by assumption.
    assert (Q1 : nr acc = s /\ nc acc = s) by (unfold shape in Sa; injection Sa; auto).
    assert (Q2 : nr pr = s /\ nc pr = s) by (rewrite Ht in S1; unfold shape in S1; injection S1; auto).
    assert (Q3 : nr (fst t) = s /\ nc (fst t) = s) by (unfold shape in Ht; injection Ht; auto).
    rewrite V3, V2, V1 by lia.
    assert (Vs : px sl i j = px normal (a + i) (b + j)).
    { unfold sl, slice2. rewrite B1, B3. cbn [px]. now rewrite !Nat2Z.id. }
    rewrite Vs. change (px fld i j) with (snd t (IZR (xm + Z.of_nat i)) (IZR (ym + Z.of_nat j))).
    cbn [length]. change (S (length ts)) with (1 + length ts)%nat. rewrite sumn_app. cbn. ring.
Qed.

Lemma half_odd h : Z.quot (Z.of_nat (2 * h + 1) - 1) 2 = Z.of_nat h.
Proof. replace (Z.of_nat (2 * h + 1) - 1)%Z with (Z.of_nat h * 2)%Z by lia. apply Z.quot_mul. lia. Qed.

Lemma half_even h : Z.quot (Z.of_nat (2 * h + 2) - 1) 2 = Z.of_nat h.
Proof.
  replace (Z.of_nat (2 * h + 2) - 1)%Z with (1 + Z.of_nat h * 2)%Z by lia.
  rewrite Z.quot_div_nonneg, Z.div_add by lia. reflexivity.
Qed.

Lemma combine_nth_k {A B} (l : list A) (m : list B) k d d' : length l = length m ->
  nth k (combine l m) (d, d') = (nth k l d, nth k m d').
Proof. intros H. now apply combine_nth. Qed.

(** The value, whenever the four ends of the window fall inside the normalisation image
    after Python's treatment of negative indices. *)
Lemma psf_xy_value basis fs normal x y h a b :
  let s := (2 * h + 1)%nat in
  let xm := (ZnearestE x - Z.of_nat h)%Z in
  let ym := (ZnearestE y - Z.of_nat h)%Z in
  basis <> [] -> length fs = length basis ->
  Forall (fun p => shape p = (s, s)) basis ->
  slice_bound (Z.of_nat (nr normal)) xm = Z.of_nat a ->
  slice_bound (Z.of_nat (nr normal)) (xm + Z.of_nat s) = Z.of_nat (a + s) ->
  slice_bound (Z.of_nat (nc normal)) ym = Z.of_nat b ->
  slice_bound (Z.of_nat (nc normal)) (ym + Z.of_nat s) = Z.of_nat (b + s) ->
  let raw i j := sumn (length basis) (fun k =>
     px (nth k basis (pconst (0, 0)%nat 0)) i j *
     nth k fs (fun _ _ => 0) (IZR (xm + Z.of_nat i)) (IZR (ym + Z.of_nat j)) /
     px normal (a + i) (b + j)) in
  let t := sum2 (s, s) raw in
  exists psf, get_psf_xy basis (Some fs) normal x y = Ok psf /\ shape psf = (s, s) /\
    (t <> 0 -> sums_to psf 1 /\
       forall i j, (i < s)%nat -> (j < s)%nat -> px psf i j = Some (raw i j / t)) /\
    (t = 0 -> no_number psf).
Proof.
  intros s xm ym N Lf F B1 B2 B3 B4 raw t. unfold get_psf_xy.
  destruct basis as [|b0 basis']; [congruence|]. set (basis := b0 :: basis') in *.
  assert (S0 : nr b0 = s /\ nc b0 = s).
  { apply Forall_inv in F. unfold shape in F. injection F. auto. }
  destruct S0 as [S0 S0']. rewrite S0. unfold s at 1 2 3 4. rewrite half_odd. fold s. fold xm ym.
  assert (E1 : (ZnearestE x + Z.of_nat h + 1 = xm + Z.of_nat s)%Z) by (unfold xm, s; lia).
  assert (E2 : (ZnearestE y + Z.of_nat h + 1 = ym + Z.of_nat s)%Z) by (unfold ym, s; lia).
  rewrite E1, E2.
  destruct (loop_ok s a b xm ym normal (combine basis fs) (pconst (shape b0) 0)) as (r & E & Sr & V);
    try assumption.
  { apply Forall_forall. intros [p f] Hin. apply in_combine_l in Hin. cbn [fst].
    rewrite Forall_forall in F. exact (F p Hin). }
  { unfold shape, pconst. cbn [nr nc fst snd]. congruence. }
  rewrite E. cbn [bind]. exists (unit_total (pmap Some r)). split; [reflexivity|].
  assert (Qr : nr r = s /\ nc r = s) by (unfold shape in Sr; injection Sr; auto).
  assert (Raw : forall i j, (i < s)%nat -> (j < s)%nat -> px r i j = raw i j).
  { intros i j Hi Hj. rewrite V by assumption. cbn [pconst px]. rewrite combine_length, Lf, Nat.min_id.
    rewrite Rplus_0_l. unfold raw. apply sumn_ext. intros k Hk.
    rewrite combine_nth_k by congruence. reflexivity. }
  assert (T : total_opt (pmap Some r) = Some t).
  { apply total_opt_some. exists r. split; [split; [reflexivity|intros; reflexivity]|].
    unfold t, sum2. rewrite Sr. cbn [fst snd]. apply sumn_ext; intros i Hi. apply sumn_ext; intros j Hj.
    now apply Raw. }
  split.
  { unfold unit_total. rewrite T. destruct (Req_EM_T t 0); unfold shape; cbn [nr nc pmap];
      destruct Qr as [-> ->]; reflexivity. }
  split.
  - intros Nt. split.
    + destruct (unit_total_spec (pmap Some r)) as [U|U]; [exact U|]. exfalso.
      specialize (U 0%nat 0%nat). unfold unit_total in U. rewrite T in U.
      destruct (Req_EM_T t 0); [contradiction|]. cbn [nr nc pmap px option_map] in U.
      destruct Qr as [-> ->] in U. discriminate U; unfold s; lia.
    + intros i j Hi Hj. unfold unit_total. rewrite T. destruct (Req_EM_T t 0); [contradiction|].
      cbn [pmap px option_map]. now rewrite Raw.
  - intros Zt i j _ _. unfold unit_total. rewrite T. destruct (Req_EM_T t 0); [reflexivity|contradiction].
Qed.

(** Odd stamps and a position whose window lies inside: [a], [b] are the first row and column
    of the window. *)
Lemma C43_inside_lm : forall basis fs normal x y h a b,
  let s := (2 * h + 1)%nat in
  basis <> [] -> length fs = length basis ->
  Forall (fun p => shape p = (s, s)) basis ->
  ZnearestE x = Z.of_nat (a + h) -> ZnearestE y = Z.of_nat (b + h) ->
  (a + s <= nr normal)%nat -> (b + s <= nc normal)%nat ->
  (forall i j, (i < s)%nat -> (j < s)%nat -> px normal (a + i) (b + j) <> 0) ->
  let raw i j := sumn (length basis) (fun k =>
     px (nth k basis (pconst (0, 0)%nat 0)) i j * nth k fs (fun _ _ => 0) (INR (a + i)) (INR (b + j)) /
     px normal (a + i) (b + j)) in
  let t := sum2 (s, s) raw in
  exists psf, get_psf_xy basis (Some fs) normal x y = Ok psf /\ shape psf = (s, s) /\
    (t <> 0 -> sums_to psf 1 /\
       forall i j, (i < s)%nat -> (j < s)%nat -> px psf i j = Some (raw i j / t)) /\
    (t = 0 -> no_number psf).
Proof.
  intros basis fs normal x y h a b s N Lf F Hx Hy Ha Hb _ raw t.
  assert (SB : forall n k, (k <= n)%nat -> slice_bound (Z.of_nat n) (Z.of_nat k) = Z.of_nat k).
  { intros n k H. unfold slice_bound. destruct (Z.ltb_spec (Z.of_nat k) 0); lia. }
  destruct (psf_xy_value basis fs normal x y h a b N Lf F) as (psf & E & S & V & Z);
    try (rewrite ?Hx, ?Hy;
         match goal with |- slice_bound _ ?z = Z.of_nat ?k => replace z with (Z.of_nat k) by lia end;
         apply SB; lia).
  assert (Raw : forall i j, sumn (length basis) (fun k =>
     px (nth k basis (pconst (0, 0)%nat 0)) i j *
     nth k fs (fun _ _ => 0) (IZR (ZnearestE x - Z.of_nat h + Z.of_nat i)) (IZR (ZnearestE y - Z.of_nat h + Z.of_nat j)) /
     px normal (a + i) (b + j)) = raw i j).
  { intros i j. unfold raw. apply sumn_ext0. intros k. rewrite Hx, Hy, !INR_IZR_INZ.
    repeat f_equal; lia. }
  assert (T : sum2 (s, s) (fun i j => sumn (length basis) (fun k =>
     px (nth k basis (pconst (0, 0)%nat 0)) i j *
     nth k fs (fun _ _ => 0) (IZR (ZnearestE x - Z.of_nat h + Z.of_nat i)) (IZR (ZnearestE y - Z.of_nat h + Z.of_nat j)) /
     px normal (a + i) (b + j))) = t).
  { unfold t, sum2. apply sumn_ext0; intros i. apply sumn_ext0; intros j. apply Raw. }
  cbn zeta in V, Z. fold s in V, Z, S. rewrite T in V, Z.
  exists psf. split; [exact E|]. split; [exact S|]. split; [|exact Z].
  intros Nt. destruct (V Nt) as [V1 V2]. split; [exact V1|]. intros i j Hi Hj.
  rewrite V2 by assumption. now rewrite Raw.
Qed.

(** A single element is returned as it is, at every position. *)
Lemma C43_single_lm : forall b0 normal x y,
  get_psf_xy [b0] None normal x y = Ok (pmap Some b0).
Proof. reflexivity. Qed.

(** Even stamps never work. *)
Lemma C43_even_fails_lm : forall b0 basis f fs normal x y h,
  (1 <= h)%nat -> shape b0 = (2 * h + 2, 2 * h + 2)%nat ->
  get_psf_xy (b0 :: basis) (Some (f :: fs)) normal x y = Raise ValueError.
Proof.
  intros b0 basis f fs normal x y h Hh S. unfold get_psf_xy.
  assert (S0 : nr b0 = (2 * h + 2)%nat) by (unfold shape in S; injection S; auto).
  rewrite S0, half_even. cbn [combine fold_left]. unfold add_component at 2. cbn [bind fst snd].
  rewrite (ufunc2_rows Rmult b0).
  - cbn [bind]. now rewrite fold_raise.
  - rewrite S0. cbn [nr field_on]. lia.
  - lia.
  - cbn [nr field_on]. lia.
Qed.

Lemma cut_off_length n s m : (s <= n)%nat -> (2 <= s)%nat -> cut_off n s m ->
  let d := Z.to_nat (slice_bound (Z.of_nat n) (m + Z.of_nat s) - slice_bound (Z.of_nat n) m) in
  d <> s /\ d <> 1%nat.
Proof.
  intros H2 Hs [[A B]|[A B]]; unfold slice_bound; cbn zeta;
    repeat match goal with |- context [(?a <? 0)%Z] => destruct (Z.ltb_spec a 0) end; lia.
Qed.

(** A window that sticks out of the frame fails. *)
Lemma C43_edge_fails_lm : forall b0 basis f fs normal x y h,
  let s := (2 * h + 1)%nat in
  (1 <= h)%nat -> shape b0 = (s, s) -> (s <= nr normal)%nat -> (s <= nc normal)%nat ->
  cut_off (nr normal) s (ZnearestE x - Z.of_nat h) \/ cut_off (nc normal) s (ZnearestE y - Z.of_nat h) ->
  get_psf_xy (b0 :: basis) (Some (f :: fs)) normal x y = Raise ValueError.
Proof.
  intros b0 basis f fs normal x y h s Hh S Hr Hc C. unfold get_psf_xy.
  assert (S0 : nr b0 = s) by (unfold shape in S; injection S; auto).
  rewrite S0. unfold s at 1 2 3 4. rewrite half_odd. fold s.
  assert (E1 : (ZnearestE x + Z.of_nat h + 1 = ZnearestE x - Z.of_nat h + Z.of_nat s)%Z) by (unfold s; lia).
  assert (E2 : (ZnearestE y + Z.of_nat h + 1 = ZnearestE y - Z.of_nat h + Z.of_nat s)%Z) by (unfold s; lia).
  rewrite E1, E2. set (xm := (ZnearestE x - Z.of_nat h)%Z) in *. set (ym := (ZnearestE y - Z.of_nat h)%Z) in *.
  cbn [combine fold_left]. unfold add_component at 2. cbn [bind fst snd].
  destruct (ufunc2_same Rmult b0 (field_on f xm (xm + Z.of_nat s) ym (ym + Z.of_nat s))) as (pr & E & Sp & _).
  { rewrite S. unfold shape, field_on. cbn [nr nc]. f_equal; lia. }
  rewrite E. cbn [bind].
  assert (Q : nr pr = s /\ nc pr = s) by (rewrite S in Sp; unfold shape in Sp; injection Sp; auto).
  destruct Q as [Q1 Q2].
  destruct C as [C|C].
  - destruct (cut_off_length _ _ _ Hr ltac:(unfold s; lia) C) as [D1 D2].
    rewrite ufunc2_rows.
    + cbn [bind]. now rewrite fold_raise.
    + rewrite Q1. cbn [nr slice2]. auto.
    + rewrite Q1. unfold s. lia.
    + exact D2.
  - destruct (cut_off_length _ _ _ Hc ltac:(unfold s; lia) C) as [D1 D2].
    rewrite ufunc2_cols.
    + cbn [bind]. now rewrite fold_raise.
    + rewrite Q2. cbn [nc slice2]. auto.
    + rewrite Q2. unfold s. lia.
    + exact D2.
Qed.

(** Above the frame by more than a stamp: Python counts the negative indices from the end, and
    the pixels of the opposite side are used without notice. *)
Lemma C43_wraps_refuted_lm : forall basis fs normal x y h a b,
  let s := (2 * h + 1)%nat in
  basis <> [] -> length fs = length basis ->
  Forall (fun p => shape p = (s, s)) basis ->
  ZnearestE x = (Z.of_nat (a + h) - Z.of_nat (nr normal))%Z -> (a + s < nr normal)%nat ->
  ZnearestE y = Z.of_nat (b + h) -> (b + s <= nc normal)%nat ->
  exists psf, get_psf_xy basis (Some fs) normal x y = Ok psf /\ shape psf = (s, s).
Proof.
  intros basis fs normal x y h a b s N Lf F Hx Ha Hy Hb.
  destruct (psf_xy_value basis fs normal x y h a b N Lf F) as (psf & E & S & _);
    try (rewrite ?Hx, ?Hy; unfold slice_bound;
         match goal with |- context [(?z <? 0)%Z] => destruct (Z.ltb_spec z 0) end; lia).
  exists psf. split; assumption.
Qed.

Lemma ufunc2_onerow {A B D} (f : A -> B -> D) p q s : shape p = (s, s) -> shape q = (1, s)%nat ->
  exists r, ufunc2 f p q = Ok r /\ shape r = (s, s).
Proof.
  intros Sp Sq. unfold ufunc2. rewrite Sp, Sq. unfold bshape, bdim. cbn [fst snd]. rewrite Nat.eqb_refl.
  destruct (Nat.eqb_spec s 1) as [->|].
  - eexists. split; reflexivity.
  - cbn [Nat.eqb]. rewrite Nat.eqb_refl. eexists. split; reflexivity.
Qed.

(** Below the frame with only the last row in view: that row is used for all the rows of the
    stamp, without notice. *)
Lemma C43_last_row_refuted_lm : forall basis fs normal x y h b,
  let s := (2 * h + 1)%nat in
  basis <> [] ->
  Forall (fun p => shape p = (s, s)) basis ->
  (1 <= nr normal)%nat -> ZnearestE x = Z.of_nat (nr normal - 1 + h) ->
  ZnearestE y = Z.of_nat (b + h) -> (b + s <= nc normal)%nat ->
  exists psf, get_psf_xy basis (Some fs) normal x y = Ok psf /\ shape psf = (s, s).
Proof.
  intros basis fs normal x y h b s N F Hn Hx Hy Hb. unfold get_psf_xy.
  destruct basis as [|b0 basis']; [congruence|]. set (basis := b0 :: basis') in *.
  assert (S0 : shape b0 = (s, s)) by (now apply Forall_inv in F).
  assert (S1 : nr b0 = s) by (unfold shape in S0; injection S0; auto).
  rewrite S1. unfold s at 1 2 3 4. rewrite half_odd. fold s.
  set (xm := (ZnearestE x - Z.of_nat h)%Z). set (ym := (ZnearestE y - Z.of_nat h)%Z).
  assert (E1 : (ZnearestE x + Z.of_nat h + 1 = xm + Z.of_nat s)%Z) by (unfold s, xm; lia).
  assert (E2 : (ZnearestE y + Z.of_nat h + 1 = ym + Z.of_nat s)%Z) by (unfold s, ym; lia).
  rewrite E1, E2.
  assert (Ssl : shape (slice2 normal xm (xm + Z.of_nat s) ym (ym + Z.of_nat s)) = (1, s)%nat).
  { unfold shape, slice2. cbn [nr nc]. unfold slice_bound, xm, ym, s. rewrite Hx, Hy.
    repeat match goal with |- context [(?a <? 0)%Z] => destruct (Z.ltb_spec a 0) end; f_equal; lia. }
  assert (L : forall ts acc, Forall (fun t : plane R * (R -> R -> R) => shape (fst t) = (s, s)) ts ->
    shape acc = (s, s) ->
    exists r, fold_left (add_component normal xm (xm + Z.of_nat s) ym (ym + Z.of_nat s)) ts (Ok acc) = Ok r /\
      shape r = (s, s)).
  { clear - Ssl. intros ts acc Ft. revert acc. induction Ft as [|t ts Ht Ft IH]; intros acc Sa.
    - exists acc. now split.
    - cbn [fold_left]. unfold add_component at 2. cbn [bind].
      destruct (ufunc2_same Rmult (fst t) (field_on (snd t) xm (xm + Z.of_nat s) ym (ym + Z.of_nat s)))
        as (pr & Ep & Sp & _).
      { rewrite Ht. unfold field_on, shape. cbn [nr nc]. f_equal; lia. }
      rewrite Ep. cbn [bind].
      destruct (ufunc2_onerow Rdiv pr (slice2 normal xm (xm + Z.of_nat s) ym (ym + Z.of_nat s)) s)
        as (qu & Eq & Sq); [congruence|exact Ssl|]. rewrite Eq. cbn [bind].
      destruct (add_out_same qu acc) as (r & Er & Sr & _); [congruence|]. rewrite Er.
      apply IH. congruence. }
  destruct (L (combine basis fs) (pconst (shape b0) 0)) as (r & E & Sr).
  { apply Forall_forall. intros [p f] Hin. apply in_combine_l in Hin. cbn [fst].
    rewrite Forall_forall in F. exact (F p Hin). }
  { exact S0. }
  rewrite E. cbn [bind]. eexists. split; [reflexivity|].
  unfold unit_total. destruct (total_opt (pmap Some r)) as [t|]; [destruct (Req_EM_T t 0)|]; exact Sr.
Qed.
