(** C114: masks read from FITS images. *)
From Coq Require Import ZArith List Bool Arith String Reals Lia Lra.
From Coq Require Import SpecFloat.
From Flocq Require Import Core.Core IEEE754.BinarySingleNaN.
From Verif.Model Require Import Py Plane Ma Image.
From Verif.Spec Require Import Image ImageExample Float32 FitsMask.
From Verif.Proof Require Import Image ImageMask ImageGrow ImageBorder ImageBuild ImageStore ImageSum ImageMain Float32.
Import ListNotations.
Set Bullet Behavior "Strict Subproofs".

Lemma aux_equiv64 s m e l :
  SpecFloat.binary_round_aux 53 1024 s m e l = BinarySingleNaN.binary_round_aux 53 1024 mode_NE s m e l.
Proof.
  unfold SpecFloat.binary_round_aux, BinarySingleNaN.binary_round_aux.
  destruct (shr_fexp 53 1024 m e l) as [mrs e'].
  replace (round_nearest_even (shr_m mrs) (loc_of_shr_record mrs))
    with (choice_mode mode_NE s (shr_m mrs) (loc_of_shr_record mrs)); [reflexivity|].
  destruct (loc_of_shr_record mrs) as [|[]]; try reflexivity.
  cbn. unfold Round.cond_incr. now destruct (Z.even (shr_m mrs)).
Qed.

Lemma q1 : FLX.Prec_gt_0 53. Proof. unfold FLX.Prec_gt_0; lia. Qed.
Lemma q2 : Prec_lt_emax 53 1024. Proof. unfold Prec_lt_emax; lia. Qed.

Lemma round_equiv64 s m e :
  SpecFloat.binary_round 53 1024 s m e = BinarySingleNaN.binary_round 53 1024 mode_NE s m e.
Proof.
  unfold SpecFloat.binary_round, BinarySingleNaN.binary_round, BinarySingleNaN.shl_align_fexp.
  destruct (shl_align m e _) as [mz ez]. apply aux_equiv64.
Qed.

Lemma normalize_equiv64 m e z :
  SpecFloat.binary_normalize 53 1024 m e z = B2SF (BinarySingleNaN.binary_normalize 53 1024 q1 q2 mode_NE m e z).
Proof.
  destruct m as [|p|p]; [reflexivity| |]; cbn [SpecFloat.binary_normalize BinarySingleNaN.binary_normalize];
    rewrite B2SF_SF2B; apply round_equiv64.
Qed.

Lemma add_equiv64 x y : SFadd 53 1024 (B2SF x) (B2SF y) = B2SF (@Bplus 53 1024 q1 q2 mode_NE x y).
Proof.
  destruct x as [sx|sx| |sx mx ex Bx], y as [sy|sy| |sy my ey By];
    [now (trivial || simpl; case Bool.eqb).. | ].
  apply normalize_equiv64.
Qed.

Lemma div_equiv64 x y : SFdiv 53 1024 (B2SF x) (B2SF y) = B2SF (@Bdiv 53 1024 q1 q2 mode_NE x y).
Proof.
  destruct x as [sx|sx| |sx mx ex Bx], y as [sy|sy| |sy my ey By];
    [now (trivial || simpl; case Bool.eqb).. | ].
  cbn [SFdiv B2SF Bdiv]. rewrite B2SF_SF2B. destruct (SFdiv_core_binary _ _ _ _ _ _) as [[mz ez] lz].
  apply aux_equiv64.
Qed.

Local Instance v53 : Valid_exp (SpecFloat.fexp 53 1024) := @fexp_correct 53 1024 q1.

Lemma fmt_bpow e : (-1000 <= e <= 0)%Z -> generic_format radix2 (SpecFloat.fexp 53 1024) (bpow radix2 e).
Proof. intros H. apply generic_format_bpow. unfold SpecFloat.fexp, SpecFloat.emin. lia. Qed.

Local Open Scope R_scope.

Definition good (v : pix) : Prop := valid_binary 53 1024 v = true /\ finiteb v = true.

(** A sum that is at least 1. *)
Lemma add_big x y : good x -> good y -> 1 <= value x + value y ->
  let z := SFadd 53 1024 x y in
  valid_binary 53 1024 z = true /\ (z = S754_infinity false \/ z = S754_infinity true \/ finiteb z = true /\ 1 <= value z).
Proof.
  intros [Vx Fx] [Vy Fy] H z.
  pose (bx := SF2B x Vx). pose (by_ := SF2B y Vy).
  assert (Ex : B2SF bx = x) by apply B2SF_SF2B. assert (Ey : B2SF by_ = y) by apply B2SF_SF2B.
  assert (Ez : z = B2SF (@Bplus 53 1024 q1 q2 mode_NE bx by_)) by (unfold z; rewrite <- Ex, <- Ey; apply add_equiv64).
  assert (Rx : B2R bx = value x) by (unfold bx; rewrite B2R_SF2B, value_SF2R; reflexivity).
  assert (Ry : B2R by_ = value y) by (unfold by_; rewrite B2R_SF2B, value_SF2R; reflexivity).
  assert (fx : is_finite bx = true) by (unfold bx; rewrite is_finite_SF2B; now destruct x).
  assert (fy : is_finite by_ = true) by (unfold by_; rewrite is_finite_SF2B; now destruct y).
  split. { rewrite Ez. apply valid_binary_B2SF. }
  pose proof (@Bplus_correct 53 1024 q1 q2 mode_NE bx by_ fx fy) as P. rewrite Rx, Ry in P.
  set (r := round radix2 (SpecFloat.fexp 53 1024) (round_mode mode_NE) (value x + value y)) in *.
  assert (R1 : 1 <= r).
  { unfold r. apply round_ge_generic; try typeclasses eauto; trivial. apply (fmt_bpow 0). lia. }
  destruct (Rlt_bool _ _).
  - destruct P as (V & F & _). right. right. rewrite Ez. split.
    + now destruct (Bplus mode_NE bx by_).
    + rewrite value_SF2R. rewrite <- (SF2R_B2SF 53 1024) in V. rewrite V. exact R1.
  - destruct P as (V & _). rewrite Ez, V. destruct (Bsign bx); [right; left|left]; reflexivity.
Qed.

Lemma half_big z : valid_binary 53 1024 z = true -> (z = S754_infinity false \/ z = S754_infinity true \/ finiteb z = true /\ 1 <= value z) ->
  feqb (SFdiv 53 1024 z (pix_of_Z 2)) fzero = false.
Proof.
  intros V [->|[->|[F H]]]; try reflexivity.
  assert (V2 : valid_binary 53 1024 (pix_of_Z 2) = true) by reflexivity.
  pose (bz := SF2B z V). pose (b2 := SF2B (pix_of_Z 2) V2).
  assert (Ez : B2SF bz = z) by apply B2SF_SF2B. assert (E2 : B2SF b2 = pix_of_Z 2) by apply B2SF_SF2B.
  rewrite <- Ez, <- E2, div_equiv64.
  assert (Rz : B2R bz = value z) by (unfold bz; rewrite B2R_SF2B, value_SF2R; reflexivity).
  assert (R2 : B2R b2 = 2).
  { unfold b2. rewrite B2R_SF2B. change (pix_of_Z 2) with (S754_finite false 4503599627370496 (-51)).
    rewrite <- value_SF2R. cbn [value]. rewrite pw. cbn -[IZR]. lra. }
  assert (fz : is_finite bz = true) by (unfold bz; rewrite is_finite_SF2B; now destruct z).
  pose proof (@Bdiv_correct 53 1024 q1 q2 mode_NE bz b2) as P. rewrite Rz, R2 in P.
  specialize (P ltac:(lra)).
  set (r := round radix2 (SpecFloat.fexp 53 1024) (round_mode mode_NE) (value z / 2)) in *.
  assert (R1 : / 2 <= r).
  { unfold r. apply round_ge_generic; try typeclasses eauto; [|lra]. apply (fmt_bpow (-1)). lia. }
  destruct (Rlt_bool _ _).
  - destruct P as (Vq & Fq & _). rewrite fz in Fq. apply not_true_is_false. intros E.
    apply feqb_finite in E.
    + rewrite SF2R_B2SF, Vq in E. cbn [SF2R fzero] in E. lra.
    + now destruct (Bdiv mode_NE bz b2).
    + reflexivity.
  - rewrite P. now destruct (xorb _ _).
Qed.

(** The sorted cells: the zeros, then the others. *)
Definition zb (v : pix) : bool := match v with S754_zero _ => true | _ => false end.
Definition cnt (v : pix) : Prop := good v /\ (value v = 0 \/ 1 <= value v).

Lemma zb_value v : finiteb v = true -> (zb v = true <-> value v = 0).
Proof.
  destruct v as [s|s| |s m e]; try discriminate; intros _; cbn [zb value]; split; trivial; try discriminate.
  intros H. exfalso. rewrite pw in H. pose proof (bpow_gt_0 radix2 e).
  assert (0 < IZR (Zpos m)) by (apply IZR_lt; lia). destruct s; nra.
Qed.

Lemma insert_split x z r : cnt x -> (forall v, In v z -> zb v = true) -> (forall v, In v r -> cnt v /\ zb v = false) ->
  exists z' r', insert_pix x (z ++ r) = z' ++ r' /\ (forall v, In v z' -> zb v = true) /\
    (forall v, In v r' -> cnt v /\ zb v = false) /\
    List.length z' = (if zb x then S (List.length z) else List.length z) /\
    List.length r' = (if zb x then List.length r else S (List.length r)).
Proof.
  intros Cx Hz Hr. destruct (zb x) eqn:Zx.
  - exists (x :: z), r. split; [|repeat split; trivial; try (intros v [<-|Hv]; auto); now apply Hr].
    cbn [app]. destruct (z ++ r) as [|y t] eqn:E; [reflexivity|]. cbn [insert_pix].
    assert (L : fleb x y = true); [|now rewrite L].
    assert (Iy : In y (z ++ r)) by (rewrite E; now left).
    assert (Fx : finiteb x = true) by apply Cx.
    assert (Vx : value x = 0) by now apply zb_value.
    apply in_app_or in Iy as [Iy|Iy].
    + specialize (Hz y Iy). assert (Fy : finiteb y = true) by now destruct y.
      apply fleb_finite; trivial. rewrite <- !value_SF2R. apply zb_value in Hz; trivial. lra.
    + destruct (Hr y Iy) as ((Gy & [Ny|Ny]) & Zy); assert (Fy : finiteb y = true) by apply Gy;
        apply fleb_finite; trivial; rewrite <- !value_SF2R; lra.
  - assert (Px : 1 <= value x).
    { destruct Cx as (G & [N|N]); trivial. apply zb_value in N; [congruence|apply G]. }
    induction z as [|y z IH].
    + cbn [app]. exists [], (insert_pix x r). split; [reflexivity|]. split; [easy|].
      assert (Q : (forall v, In v (insert_pix x r) -> cnt v /\ zb v = false) /\ List.length (insert_pix x r) = S (List.length r)).
      { clear Hz. induction r as [|y r IH].
        - cbn. split; trivial. intros v [<-|[]]; now split.
        - cbn [insert_pix]. destruct (fleb x y).
          + split; trivial. intros v [<-|Hv]; [now split|now apply Hr].
          + destruct IH as [A B]. { intros v Hv. apply Hr. now right. }
            split; [|cbn [List.length]; now rewrite B]. intros v [<-|Hv]; [apply Hr; now left|now apply A]. }
      destruct Q. split; [assumption|]. split; [reflexivity|assumption].
    + cbn [app insert_pix]. assert (L : fleb x y = false).
      { specialize (Hz y (or_introl eq_refl)). assert (Fy : finiteb y = true) by now destruct y.
        apply not_true_is_false. intros L. apply fleb_finite in L; trivial; [|apply Cx].
        rewrite <- !value_SF2R in L. apply zb_value in Hz; trivial. lra. }
      rewrite L. destruct IH as (z' & r' & E & A & B & Lz & Lr). { intros v Hv. apply Hz. now right. }
      rewrite E. exists (y :: z'), r'. split; [reflexivity|]. split.
      * intros v [<-|Hv]; [apply Hz; now left|now apply A].
      * split; [exact B|]. split; [cbn [List.length]; now rewrite Lz|exact Lr].
Qed.

Lemma sort_split l : (forall v, In v l -> cnt v) ->
  exists z r, sort_pix l = z ++ r /\ (forall v, In v z -> zb v = true) /\
    (forall v, In v r -> cnt v /\ zb v = false) /\
    List.length z = List.length (filter zb l) /\ (List.length z + List.length r = List.length l)%nat.
Proof.
  induction l as [|x l IH]; intros H.
  - exists [], []. repeat split; easy.
  - destruct IH as (z & r & E & A & B & Lz & Ll). { intros v Hv. apply H. now right. }
    unfold sort_pix in *. cbn [fold_right]. rewrite E.
    destruct (insert_split x z r (H x (or_introl eq_refl)) A B) as (z' & r' & E' & A' & B' & Lz' & Lr').
    exists z', r'. split; [exact E'|]. split; [exact A'|]. split; [exact B'|].
    cbn [filter List.length]. destruct (zb x); cbn [List.length]; lia.
Qed.

Lemma nth_zb z r k : (forall v, In v z -> zb v = true) -> (forall v, In v r -> cnt v /\ zb v = false) ->
  (k < List.length z + List.length r)%nat ->
  if (k <? List.length z)%nat then zb (nth k (z ++ r) S754_nan) = true
  else cnt (nth k (z ++ r) S754_nan) /\ zb (nth k (z ++ r) S754_nan) = false.
Proof.
  intros A B K. destruct (Nat.ltb_spec k (List.length z)) as [L|L].
  - rewrite app_nth1 by exact L. apply A. now apply nth_In.
  - rewrite app_nth2 by exact L. apply B. apply nth_In. lia.
Qed.

Lemma cnt_pos v : cnt v -> zb v = false -> 1 <= value v.
Proof. intros (G & [N|N]) Z; trivial. apply zb_value in N; [congruence|apply G]. Qed.

Lemma median_counts l n : (forall v, In v l -> cnt v) -> n = List.length l ->
  feqb (let s := sort_pix l in
        if Nat.odd n then nth (n / 2) s S754_nan
        else SFdiv 53 1024 (SFadd 53 1024 (nth (n / 2 - 1) s S754_nan) (nth (n / 2) s S754_nan)) (pix_of_Z 2)) fzero
  = (0 <? n)%nat && (n <? 2 * List.length (filter zb l))%nat.
Proof.
  intros H ->. destruct (sort_split l H) as (z & r & E & A & B & Lz & Ll). cbv zeta. rewrite E, <- Lz, <- Ll.
  set (N := (List.length z + List.length r)%nat).
  destruct (Nat.odd N) eqn:Od.
  - apply Nat.odd_spec in Od as [k K]. replace (N / 2)%nat with k.
    2:{ rewrite K, Nat.add_comm, Nat.mul_comm, Nat.div_add by lia. reflexivity. }
    pose proof (nth_zb z r k A B ltac:(lia)) as Q.
    replace (0 <? N)%nat with true by (symmetry; apply Nat.ltb_lt; lia). cbn [andb].
    destruct (Nat.ltb_spec k (List.length z)) as [L|L].
    + replace (N <? 2 * List.length z)%nat with true by (symmetry; apply Nat.ltb_lt; lia).
      destruct (nth k (z ++ r) S754_nan); try discriminate. reflexivity.
    + replace (N <? 2 * List.length z)%nat with false by (symmetry; apply Nat.ltb_ge; lia).
      destruct Q as [C Z]. pose proof (cnt_pos _ C Z) as P. destruct C as [[_ F] _].
      apply not_true_is_false. intros T. apply feqb_finite in T; trivial. rewrite <- !value_SF2R in T. cbn [value fzero] in T. lra.
  - rewrite <- Nat.negb_even in Od. apply negb_false_iff, Nat.even_spec in Od as [k K].
    replace (N / 2)%nat with k by (rewrite K, Nat.mul_comm, Nat.div_mul by lia; reflexivity).
    destruct (Nat.eq_dec N 0) as [N0|N0].
    { assert (z = []) by (destruct z; trivial; cbn in N; lia). assert (r = []) by (destruct r; trivial; subst z; cbn in N; lia).
      subst z r. replace k with 0%nat by lia. reflexivity. }
    replace (0 <? N)%nat with true by (symmetry; apply Nat.ltb_lt; lia). cbn [andb].
    pose proof (nth_zb z r k A B ltac:(lia)) as Q. pose proof (nth_zb z r (k - 1) A B ltac:(lia)) as Q'.
    set (a := nth (k - 1) (z ++ r) S754_nan) in *. set (b := nth k (z ++ r) S754_nan) in *.
    destruct (Nat.ltb_spec k (List.length z)) as [L|L].
    + replace (N <? 2 * List.length z)%nat with true by (symmetry; apply Nat.ltb_lt; lia).
      replace (k - 1 <? List.length z)%nat with true in Q' by (symmetry; apply Nat.ltb_lt; lia).
      destruct a as [sa| | |]; try discriminate. destruct b as [sb| | |]; try discriminate.
      destruct sa, sb; reflexivity.
    + replace (N <? 2 * List.length z)%nat with false by (symmetry; apply Nat.ltb_ge; lia).
      destruct Q as [C Z]. pose proof (cnt_pos _ C Z) as P.
      assert (Pa : 0 <= value a /\ good a).
      { destruct (Nat.ltb_spec (k - 1) (List.length z)).
        - destruct a as [sa| | |]; try discriminate. cbn [value]. split; [lra|]. split; reflexivity.
        - destruct Q' as [C' Z']. pose proof (cnt_pos _ C' Z'). split; [lra|apply C']. }
      destruct (add_big a b) as [Vz Hz]; [apply Pa|apply C|lra|]. now apply half_big.
Qed.

Lemma filter_map_zb (l : list pix) : List.length (filter zb l) = List.length (filter idb (map zb l)).
Proof.
  induction l as [|v l IH]; [reflexivity|]. cbn [filter map]. change (idb (zb v)) with (zb v).
  destruct (zb v); cbn [List.length]; now rewrite IH.
Qed.

Lemma zero_cells_count m : List.length (filter zb (cells m)) = zero_cells m.
Proof.
  unfold zero_cells. change (fun v : spec_float => match v with S754_zero _ => true | _ => false end) with zb.
  rewrite <- cells_count, cells_pmap. apply filter_map_zb.
Qed.

Lemma in_cells {A} (m : plane A) v : In v (cells m) -> exists i j, (i < nr m)%nat /\ (j < nc m)%nat /\ v = px m i j.
Proof.
  unfold cells. intros H. apply in_flat_map in H as (i & Hi & H). apply in_map_iff in H as (j & <- & Hj).
  apply in_seq in Hi, Hj. exists i, j. split; [lia|]. split; [lia|reflexivity].
Qed.

Lemma median_zero m : counts m -> (0 < nr m * nc m)%nat ->
  feqb (median m) fzero = (nr m * nc m <? 2 * zero_cells m)%nat.
Proof.
  intros C P. unfold median. cbv zeta.
  assert (Cl : forall v, In v (cells m) -> cnt v).
  { intros v Hv. apply in_cells in Hv as (i & j & Hi & Hj & ->). destruct (C i j Hi Hj) as (V & F & N). now split. }
  replace (existsb is_nanb (cells m)) with false.
  2:{ symmetry. apply not_true_is_false. intros H. apply existsb_exists in H as (x & Hx & N).
      destruct (Cl x Hx) as [[_ F] _]. destruct x; discriminate. }
  rewrite cells_length. replace (nr m * nc m =? 0)%nat with false by (symmetry; apply Nat.eqb_neq; lia).
  pose proof (median_counts (cells m) (nr m * nc m) Cl (eq_sym (cells_length m))) as M. cbv zeta in M. rewrite M.
  rewrite zero_cells_count. replace (0 <? nr m * nc m)%nat with true by (symmetry; apply Nat.ltb_lt; lia). reflexivity.
Qed.

(** The threshold of the mask images: the argument, or 16. *)
Lemma thresh_value t : value (thresh_of t) = match t with Some v => value v | None => 16 end.
Proof.
  destruct t; [reflexivity|]. cbn [thresh_of]. change (pix_of_Z 16) with (S754_finite false 4503599627370496 (-48)).
  cbn [value]. rewrite pw. cbn -[IZR]. lra.
Qed.

Lemma mask_chosen fs c e a0 d flag ext : mask_image fs c e ->
  (forall h rest, a_img c = HduList (h :: rest) -> ext = h_extend h) ->
  chosen fs (a_img c) ext (a_guess c) (thresh_of (a_thresh c)) a0 (a_mask c) d flag ->
  d = dat a0 /\ flag = set_by (fits_flags e (thresh_of (a_thresh c))) a0.
Proof.
  intros [(n & h & rest & M & Fn & ->)|(M & G & h & k & rest & I & X & ->)] Hx K.
  - rewrite M in K. inversion K; subst. match goal with H : fs n = Some _ |- _ => rewrite Fn in H; injection H as <- <- end.
    split; reflexivity.
  - rewrite M, G in K. destruct I as [I|(n & I & Fn)]; rewrite I in K.
    + specialize (Hx _ _ I). rewrite X in Hx. subst ext.
      inversion K; subst; try discriminate; try easy;
        try (match goal with H : _ \/ _ |- _ => destruct H as [[? [H _]]|[[? H]|H]]; discriminate end).
      match goal with H : HduList _ = HduList _ |- _ => injection H as <- <- <- end. split; reflexivity.
    + inversion K; subst; try discriminate; try easy; cbn [attached_to] in *.
      * match goal with H : fs n = None \/ _ |- _ => rewrite Fn in H; destruct H; discriminate end.
      * match goal with H : fs n = Some _, H' : h_extend _ = _ |- _ => rewrite Fn in H; injection H as <- <- end.
        split; reflexivity.
      * match goal with H : fs n = Some [_] |- _ => rewrite Fn in H; discriminate end.
      * exfalso. match goal with H : fs n = Some (?q :: _), H' : h_extend ?q <> _ |- _ => rewrite Fn in H; injection H as <- _; apply H'; exact X end.
Qed.

(** C114: without border search and crop, the flags read from a mask image of the shape of the
    pixels, whose values are 0 or at least 1, are the values at or above the threshold (the
    argument, or 16) when more than half of the cells are 0, and the values at or below the
    threshold otherwise. *)
Lemma C114_flags_lm : forall fs nsum c im o e, wf_source (a_img c) -> original fs (a_img c) = Some o ->
  a_borders c = false -> a_crop c = ((0, 0), (0, 0))%Z ->
  construct fs nsum c = Ok im ->
  mask_image fs c e -> shape e = shape o -> counts e ->
  match a_thresh c with Some v => finiteb v = true | None => True end ->
  let t := match a_thresh c with Some v => value v | None => 16 end in
  shape (pixels im) = shape o /\
  final_mask (pixels im)
    (fun i j => if (nr e * nc e <? 2 * zero_cells e)%nat
                then t <= value (px e i j) else value (px e i j) <= t)
    (im_data im).
Proof.
  intros fs nsum c im o e W O B C K Me Se Ce Ft t.
  destruct (construct_inv fs nsum c im W K) as (hd & a0 & H1 & _ & H3 & Wa & H5 & _).
  rewrite B, C in H3. destruct (set_data_plain fs nsum _ _ _ W H3) as (o' & O' & P). rewrite O in O'. injection O' as <-.
  destruct (set_mask_spec fs _ _ _ _ _ _ _ _ Wa H5) as (_ & d & flag & Kc & F).
  destruct (mask_chosen fs c e a0 d flag (extend_of hd) Me) with (2 := Kc) as [-> ->].
  { intros h rest I. rewrite I in H1. cbn in H1. injection H1 as <-. reflexivity. }
  assert (Sa : shape (dat a0) = shape o) by (rewrite (proj1 P); reflexivity).
  destruct F as ([Sp V] & q & init & Eq & Sq & Ii & G).
  pose proof (f_equal fst Sp : nr (pixels im) = nr (dat a0)) as Pr.
  pose proof (f_equal snd Sp : nc (pixels im) = nc (dat a0)) as Pc.
  split. { now rewrite <- Sa. }
  split; [apply plane_eq_refl|]. exists q, init. split; [exact Eq|].
  unfold pixels in *. split; [congruence|]. rewrite Sp. split; [|intros i j Hi Hj; apply G; lia].
  intros i j Hi Hj. rewrite Ii by lia. rewrite <- V by trivial.
  apply or_iff_compat_r. unfold set_by.
  set (fl := fits_flags e (thresh_of (a_thresh c))).
  assert (Sf : shape fl = shape (dat a0)) by (rewrite Sa, <- Se; reflexivity).
  pose proof (f_equal fst Sf : nr fl = nr (dat a0)) as Fr. pose proof (f_equal snd Sf : nc fl = nc (dat a0)) as Fc.
  destruct (Nat.eqb_spec (nr fl * nc fl) 0) as [Z|Z]; [apply Nat.eq_mul_0 in Z; lia|].
  rewrite cyclic_same by (trivial; lia). unfold fl, fits_flags. cbn [pmap px].
  change (nr fl) with (nr e) in *. change (nc fl) with (nc e) in *.
  rewrite median_zero by (trivial; lia).
  destruct (Ce i j) as (_ & Fe & _); [lia|lia|].
  assert (Ftt : finiteb (thresh_of (a_thresh c)) = true) by (destruct (a_thresh c); [exact Ft|reflexivity]).
  unfold t. rewrite <- thresh_value.
  destruct (_ <? _)%nat; rewrite fleb_finite, <- !value_SF2R by trivial; reflexivity.
Qed.

(** C114: a mask that marks fewer than half of the cells, with values at or above the
    threshold, is read as it is meant: the flags are the cells that are not 0. *)
Lemma C114_minority_lm : forall fs nsum c im o e, wf_source (a_img c) -> original fs (a_img c) = Some o ->
  a_borders c = false -> a_crop c = ((0, 0), (0, 0))%Z ->
  construct fs nsum c = Ok im ->
  mask_image fs c e -> shape e = shape o -> counts e ->
  match a_thresh c with Some v => finiteb v = true | None => True end ->
  let t := match a_thresh c with Some v => value v | None => 16 end in
  (nr e * nc e < 2 * zero_cells e)%nat -> 0 < t ->
  (forall i j, (i < nr e)%nat -> (j < nc e)%nat -> value (px e i j) <> 0 -> t <= value (px e i j)) ->
  final_mask (pixels im) (fun i j => value (px e i j) <> 0) (im_data im).
Proof.
  intros fs nsum c im o e W O B C K Me Se Ce Ft t N T H.
  destruct (C114_flags_lm fs nsum c im o e W O B C K Me Se Ce Ft) as [Sp F]. fold t in F.
  eapply final_weaken; [|exact F]. intros i j Hi Hj. apply or_iff_compat_r.
  apply Nat.ltb_lt in N. rewrite N.
  pose proof (f_equal fst Sp : nr (pixels im) = nr o) as Pr. pose proof (f_equal snd Sp : nc (pixels im) = nc o) as Pc.
  pose proof (f_equal fst Se : nr e = nr o) as Er. pose proof (f_equal snd Se : nc e = nc o) as Ec.
  split; [intros L Z; lra|]. apply H; lia.
Qed.

(** C114: a mask that marks half or more of the cells, with values above the threshold, is
    read the other way round: the flags are the cells that are 0. *)
Lemma C114_majority_lm : forall fs nsum c im o e, wf_source (a_img c) -> original fs (a_img c) = Some o ->
  a_borders c = false -> a_crop c = ((0, 0), (0, 0))%Z ->
  construct fs nsum c = Ok im ->
  mask_image fs c e -> shape e = shape o -> counts e ->
  match a_thresh c with Some v => finiteb v = true | None => True end ->
  let t := match a_thresh c with Some v => value v | None => 16 end in
  (2 * zero_cells e <= nr e * nc e)%nat -> 0 <= t ->
  (forall i j, (i < nr e)%nat -> (j < nc e)%nat -> value (px e i j) <> 0 -> t < value (px e i j)) ->
  final_mask (pixels im) (fun i j => value (px e i j) = 0) (im_data im).
Proof.
  intros fs nsum c im o e W O B C K Me Se Ce Ft t N T H.
  destruct (C114_flags_lm fs nsum c im o e W O B C K Me Se Ce Ft) as [Sp F]. fold t in F.
  eapply final_weaken; [|exact F]. intros i j Hi Hj. apply or_iff_compat_r.
  apply Nat.ltb_ge in N. rewrite N.
  pose proof (f_equal fst Sp : nr (pixels im) = nr o) as Pr. pose proof (f_equal snd Sp : nc (pixels im) = nc o) as Pc.
  pose proof (f_equal fst Se : nr e = nr o) as Er. pose proof (f_equal snd Se : nc e = nc o) as Ec.
  split; [|intros ->; exact T]. intros L. destruct (Req_dec (value (px e i j)) 0) as [|Z]; trivial.
  specialize (H i j ltac:(lia) ltac:(lia) Z). lra.
Qed.

Lemma value_0 : value (pix_of_Z 0) = 0. Proof. reflexivity. Qed.
Lemma value_32 : value (pix_of_Z 32) = 32.
Proof. change (pix_of_Z 32) with (S754_finite false 4503599627370496 (-47)). cbn [value]. rewrite pw. cbn -[IZR]. lra. Qed.

(** The mask file says 32 for one cell of three, and then for two cells of three. *)
Lemma C114_case_lm :
  let e1 := zplane [[0; 32; 0]]%Z in
  let e2 := zplane [[32; 32; 0]]%Z in
  let fs e := onefile [mkhdu None None e] in
  let d := zplane [[1; 2; 3]]%Z in
  let c := mkargs (Ndarray d) (MPath "a.fits") None true false nocrop None in
  counts e1 /\ counts e2 /\ mask_image (fs e1) c e1 /\ mask_image (fs e2) c e2 /\
  zero_cells e1 = 2%nat /\ zero_cells e2 = 1%nat /\
  mask_cells (construct (fs e1) seq_sum c) = [true; true; true] /\
  mask_cells (construct (fs e2) seq_sum c) = [true; true; true] /\
  mask_cells (construct (fs (zplane [[32; 32; 32]; [32; 32; 32]; [32; 32; 0]]%Z)) seq_sum
    (mkargs (Ndarray (zplane [[1; 2; 3]; [1; 2; 3]; [1; 2; 3]]%Z)) (MPath "a.fits") None true false nocrop None))
  = [false; false; false; false; false; false; false; false; true].
Proof.
  cbv zeta.
  assert (Q : forall z, (z = 0 \/ z = 32)%Z -> valid_binary 53 1024 (pix_of_Z z) = true /\ finiteb (pix_of_Z z) = true /\
    (value (pix_of_Z z) = 0 \/ 1 <= value (pix_of_Z z))).
  { intros z [->| ->]; (split; [reflexivity|]; split; [reflexivity|]).
    - left. apply value_0.
    - right. rewrite value_32. lra. }
  split; [|split].
  1,2: intros i j Hi Hj; cbn [zplane nr nc List.length hd] in Hi, Hj;
       destruct i as [|i]; [|lia]; destruct j as [|[|[|j]]]; [| | |lia]; apply Q; cbn; auto.
  split; [left; now eexists _, _, _|]. split; [left; now eexists _, _, _|].
  split; [reflexivity|]. split; [reflexivity|]. split; [vm_compute; reflexivity|].
  split; [vm_compute; reflexivity|]. vm_compute. reflexivity.
Qed.
