(** The properties of image construction and masking. *)
From Coq Require Import ZArith List Bool Arith String Reals Lia Lra.
From Coq Require Import SpecFloat.
From Flocq Require Import Core.Core IEEE754.BinarySingleNaN.
From Verif.Model Require Import Py Plane Ma Image.
From Verif.Spec Require Import Image.
From Verif.Proof Require Import Image ImageMask ImageGrow ImageBorder ImageBuild ImageStore.
Import ListNotations.
Set Bullet Behavior "Strict Subproofs".

(** C20: the gain is the argument, else the GAIN card, else 1. *)
Lemma C20_gain_lm : forall fs nsum c im, wf_source (a_img c) -> construct fs nsum c = Ok im ->
  im_gain im = match a_gain c with
               | Some g => g
               | None => match header_gain fs (a_img c) with Some g => g | None => fone end
               end.
Proof.
  intros fs nsum c im W E. destruct (construct_inv fs nsum c im W E) as (hd & a0 & H & G & _).
  destruct (a_gain c) as [g|]; cbn [get_gain] in G; [now injection G as <-|].
  destruct (a_img c) as [n|d|m|[|h l]|h|]; cbn [get_header header_gain] in *.
  - unfold open_primary in H. destruct (fs n) as [[|h l]|]; try discriminate. cbn in H. injection H as <-.
    destruct (h_gain h); now injection G as <-.
  - injection H as <-. now injection G as <-.
  - injection H as <-. now injection G as <-.
  - discriminate.
  - injection H as <-. destruct (h_gain h); now injection G as <-.
  - injection H as <-. destruct (h_gain h); now injection G as <-.
  - injection H as <-. discriminate.
Qed.

(** C20: without border search and crop, the pixels kept are the float32 pixels of the
    source times the gain, except for the sources whose automatic masking starts again
    from the original pixels. *)
Lemma C20_pixels_lm : forall fs nsum c im o, wf_source (a_img c) -> original fs (a_img c) = Some o ->
  a_borders c = false -> a_crop c = ((0, 0), (0, 0))%Z ->
  construct fs nsum c = Ok im ->
  plane_eq (pixels im)
    (if reloads (a_img c) (extend_card im) (a_guess c) (a_mask c) then o
     else scaled (a_img c) (im_gain im) o).
Proof.
  intros fs nsum c im o W O B C E. pose proof (construct_pixels fs nsum c im W E) as P.
  destruct (reloads _ _ _ _).
  - destruct P as (o' & O' & P). rewrite O in O'. now injection O' as <-.
  - destruct P as (a0 & S & P). rewrite B, C in S.
    destruct (set_data_plain fs nsum _ _ _ W S) as (o' & O' & Q). rewrite O in O'. injection O' as <-.
    eapply plane_eq_trans; eassumption.
Qed.

(** C21: four positive margins that fit keep exactly the inner window. *)
Lemma C21_crop_window_lm : forall fs nsum c im o x0 x1 y0 y1, wf_source (a_img c) -> original fs (a_img c) = Some o ->
  reloads (a_img c) (extend_card im) (a_guess c) (a_mask c) = false ->
  a_borders c = false -> a_crop c = ((Z.of_nat x0, Z.of_nat x1), (Z.of_nat y0, Z.of_nat y1)) ->
  0 < x0 -> 0 < x1 -> 0 < y0 -> 0 < y1 -> x0 + x1 <= nr o -> y0 + y1 <= nc o ->
  construct fs nsum c = Ok im ->
  plane_eq (pixels im)
    (window (scaled (a_img c) (im_gain im) o) x0 y0 (nr o - x0 - x1) (nc o - y0 - y1)).
Proof.
  intros fs nsum c im o x0 x1 y0 y1 W O R B C P1 P2 P3 P4 F1 F2 E.
  pose proof (construct_pixels fs nsum c im W E) as P. rewrite R in P. destruct P as (a0 & S & P).
  rewrite B, C in S. eapply plane_eq_trans; [exact P|]. now apply (set_data_crop fs nsum).
Qed.

(** C21: a trailing margin of 0, when some margin is not 0, empties its axis. *)
Lemma C21_crop_empty_lm : forall fs nsum c im x0 x1 y0 y1, wf_source (a_img c) ->
  reloads (a_img c) (extend_card im) (a_guess c) (a_mask c) = false ->
  a_borders c = false -> a_crop c = ((x0, x1), (y0, y1)) ->
  (0 <= x0)%Z -> (0 <= x1)%Z -> (0 <= y0)%Z -> (0 <= y1)%Z -> (x0 + x1 + y0 + y1 <> 0)%Z ->
  construct fs nsum c = Ok im ->
  (x1 = 0%Z -> nr (pixels im) = 0) /\ (y1 = 0%Z -> nc (pixels im) = 0).
Proof.
  intros fs nsum c im x0 x1 y0 y1 W R B C P1 P2 P3 P4 N E.
  pose proof (construct_pixels fs nsum c im W E) as P. rewrite R in P. destruct P as (a0 & S & [P _]).
  rewrite B, C in S. destruct (set_data_crop_empty fs nsum _ _ _ _ _ _ _ W P1 P2 P3 P4 N S) as [A1 A2].
  injection P as Pr Pc. split; intros H; [rewrite Pr|rewrite Pc]; auto.
Qed.

(** C21, C22: for a plain array, a PrimaryHDU or an HDUList without extensions, automatic
    masking discards crop and border removal. *)
Lemma C21_crop_discarded_lm : forall fs nsum c im o, wf_source (a_img c) -> original fs (a_img c) = Some o ->
  reloads (a_img c) (extend_card im) (a_guess c) (a_mask c) = true ->
  construct fs nsum c = Ok im -> plane_eq (pixels im) o.
Proof.
  intros fs nsum c im o W O R E. pose proof (construct_pixels fs nsum c im W E) as P. rewrite R in P.
  destruct P as (o' & O' & P). rewrite O in O'. now injection O' as <-.
Qed.

(** C22: zero frame of t, b, l, r cells around positive pixels, the middle row and column
    meeting the pixels: the window returned. *)
Lemma C22_border_window_lm : forall fs nsum c im o t b l r, sum_like nsum ->
  wf_source (a_img c) -> original fs (a_img c) = Some o ->
  reloads (a_img c) (extend_card im) (a_guess c) (a_mask c) = false ->
  a_borders c = true -> a_crop c = ((0, 0), (0, 0))%Z ->
  framed (pmap to_f4 o) t b l r -> t <= nr o / 2 < nr o - b -> l <= nc o / 2 < nc o - r ->
  construct fs nsum c = Ok im ->
  let r0 := if t + 1 <? l then t + 1 else l in
  let c0 := if l + 1 <? t then l + 1 else t in
  plane_eq (pixels im)
    (window (scaled (a_img c) (im_gain im) o) r0 c0 (nr o - Nat.min b r - r0) (nc o - r - c0)).
Proof.
  intros fs nsum c im o t b l r SL W O R B C F M1 M2 E. cbv zeta.
  pose proof (construct_pixels fs nsum c im W E) as P. rewrite R in P. destruct P as (a0 & S & P).
  rewrite B, C in S. eapply plane_eq_trans; [exact P|].
  exact (set_data_framed fs nsum _ _ _ o t b l r W O SL F M1 M2 S).
Qed.

(** C22: a frame of one common width is removed exactly. *)
Lemma C22_uniform_frame_lm : forall fs nsum c im o k, sum_like nsum ->
  wf_source (a_img c) -> original fs (a_img c) = Some o ->
  reloads (a_img c) (extend_card im) (a_guess c) (a_mask c) = false ->
  a_borders c = true -> a_crop c = ((0, 0), (0, 0))%Z ->
  framed (pmap to_f4 o) k k k k ->
  construct fs nsum c = Ok im ->
  plane_eq (pixels im)
    (window (scaled (a_img c) (im_gain im) o) k k (nr o - 2 * k) (nc o - 2 * k)).
Proof.
  intros fs nsum c im o k SL W O R B C F E.
  pose proof F as (F1 & F2 & _). cbn [pmap nr nc] in F1, F2.
  pose proof (C22_border_window_lm fs nsum c im o k k k k SL W O R B C F) as H.
  cbv zeta in H. replace (k + 1 <? k) with false in H by (symmetry; apply Nat.ltb_ge; lia).
  rewrite Nat.min_id in H. replace (nr o - 2 * k) with (nr o - k - k) by lia. replace (nc o - 2 * k) with (nc o - k - k) by lia.
  apply H; trivial.
  - pose proof (Nat.div_mod (nr o) 2). pose proof (Nat.mod_upper_bound (nr o) 2). lia.
  - pose proof (Nat.div_mod (nc o) 2). pose proof (Nat.mod_upper_bound (nc o) 2). lia.
Qed.

(** C22: the window returned has the size of the data window if and only if the left
    frame is as wide as the upper one and the right one at least as wide as the lower
    one. *)
Lemma C22_uneven_frame_lm : forall fs nsum c im o t b l r, sum_like nsum ->
  wf_source (a_img c) -> original fs (a_img c) = Some o ->
  reloads (a_img c) (extend_card im) (a_guess c) (a_mask c) = false ->
  a_borders c = true -> a_crop c = ((0, 0), (0, 0))%Z ->
  framed (pmap to_f4 o) t b l r -> t <= nr o / 2 < nr o - b -> l <= nc o / 2 < nc o - r ->
  construct fs nsum c = Ok im ->
  (shape (pixels im) = (nr o - t - b, nc o - l - r) <-> t = l /\ b <= r).
Proof.
  intros fs nsum c im o t b l r SL W O R B C F M1 M2 E.
  pose proof (C22_border_window_lm fs nsum c im o t b l r SL W O R B C F M1 M2 E) as [S' _].
  pose proof F as (F1 & F2 & _). cbn [pmap nr nc] in F1, F2.
  rewrite S'. unfold shape. cbn [window nr nc].
  split.
  - intros S. injection S as Sr Sc. destruct (Nat.ltb_spec (t + 1) l), (Nat.ltb_spec (l + 1) t); lia.
  - intros [-> H]. destruct (Nat.ltb_spec (l + 1) l); f_equal; lia.
Qed.

(** C22: if no pixel of the middle row is positive, the border search raises
    UnboundLocalError. *)
Lemma C22_unbound_lm : forall fs nsum c o, original fs (a_img c) = Some o -> a_borders c = true ->
  (forall j, j < nc o -> fltb fzero (to_f4 (px o (nr o / 2) j)) = false) ->
  wf_source (a_img c) ->
  construct fs nsum c = Raise UnboundLocalError.
Proof.
  intros fs nsum c o O B H W. destruct c as [s arg th guess bo cr ga]. cbn [a_img a_borders] in *. subst bo.
  assert (X : exists hd, get_header fs s = Ok (Some hd)).
  { destruct s as [n|d|m|[|h l]|h|]; cbn [original get_header] in *; try discriminate; try (eexists; reflexivity).
    unfold open_primary. destruct (fs n) as [[|h l]|]; try discriminate. eexists; reflexivity. }
  destruct X as [hd X].
  assert (L : exists x, load_data fs s = Ok x).
  { destruct s as [n|d|m|[|h l]|h|]; cbn [original load_data] in *; try discriminate; try (eexists; reflexivity).
    unfold open_primary. destruct (fs n) as [[|h l]|]; try discriminate. eexists; reflexivity. }
  destruct L as [x L]. destruct (load_spec fs s x W L) as (o' & O' & D & _). rewrite O in O'. injection O' as <-.
  assert (G : exists g, get_gain (Some hd) ga = Ok g).
  { destruct hd as [[g|] e], ga; cbn; eexists; reflexivity. }
  destruct G as [g G]. unfold construct. cbn [a_img a_mask a_thresh a_guess a_borders a_crop a_gain].
  rewrite X. cbn [bind]. rewrite G. cbn [bind]. cbv zeta. unfold set_data. rewrite L. cbn [bind cut_borders].
  rewrite D, border_unbound; [reflexivity|]. intros j Hj. cbn [pmap nr nc px] in *. now apply H.
Qed.

(** C23: after construction the mask is a full array of the shape of the pixels, and it is
    the result of seven rounds of enlargement from the flags of the source (see [chosen])
    and the out-of-range pixels. *)
Lemma C23_construct_mask_lm : forall fs nsum c im, wf_source (a_img c) -> construct fs nsum c = Ok im ->
  wf (im_data im) /\
  exists a0 d flag,
    set_data fs nsum (a_img c) (a_borders c) (a_crop c) (im_gain im) = Ok a0 /\
    chosen fs (a_img c) (extend_card im) (a_guess c) (thresh_of (a_thresh c)) a0 (a_mask c) d flag /\
    final_mask d flag (im_data im).
Proof.
  intros fs nsum c im W E. destruct (construct_final fs nsum c im W E) as (Wi & a0 & d & flag & S & _ & K & F).
  split; [exact Wi|]. exists a0, d, flag. now repeat split; try apply F.
Qed.

(** C23: the same after any later assignment to the mask. *)
Lemma C23_assign_mask_lm : forall fs im arg im', wf (im_data im) -> assign fs im arg = Ok im' ->
  wf (im_data im') /\
  exists d flag,
    chosen fs (im_src im) (extend_card im) (im_guess im) (im_thresh im) (im_data im) arg d flag /\
    final_mask d flag (im_data im').
Proof. exact assign_final. Qed.

Lemma final_oor d flag b i j : final_mask d flag b -> i < nr (dat b) -> j < nc (dat b) ->
  out_of_range (px (dat b) i j) -> masked_at (msk b) i j = true.
Proof.
  intros ([S V] & q & init & Eq & _ & I & G) Hi Hj O. rewrite Eq. cbn [masked_at].
  injection S as Sr Sc. rewrite G by lia. apply grown_incl. apply I; [lia|lia|]. right. now rewrite <- V.
Qed.

Lemma final_flag d (flag : nat -> nat -> Prop) b i j : final_mask d flag b -> i < nr (dat b) -> j < nc (dat b) ->
  flag i j -> masked_at (msk b) i j = true.
Proof.
  intros ([S V] & q & init & Eq & _ & I & G) Hi Hj O. rewrite Eq. cbn [masked_at].
  injection S as Sr Sc. rewrite G by lia. apply grown_incl. apply I; [lia|lia|]. now left.
Qed.

(** C23: every pixel below -50 or above 65000 is masked. *)
Lemma C23_out_of_range_lm : forall fs nsum c im im' arg i j, wf_source (a_img c) ->
  construct fs nsum c = Ok im ->
  im' = im \/ assign fs im arg = Ok im' ->
  i < nr (pixels im') -> j < nc (pixels im') -> out_of_range (px (pixels im') i j) ->
  is_masked im' i j.
Proof.
  intros fs nsum c im im' arg i j W E [->|A] Hi Hj O.
  - destruct (construct_final fs nsum c im W E) as (_ & a0 & d & flag & _ & _ & _ & F). eapply final_oor; eassumption.
  - destruct (construct_final fs nsum c im W E) as (Wi & _).
    destruct (assign_final fs im arg im' Wi A) as (_ & d & flag & _ & F). eapply final_oor; eassumption.
Qed.

(** C23: with automatic masking of a plain array, a PrimaryHDU, an HDUList without
    extensions, a masked array (no file of that name existing) or a file that announces
    extensions but has none, every non-finite pixel is masked. *)
Lemma C23_non_finite_lm : forall fs nsum c im i j, wf_source (a_img c) ->
  a_mask c = MNone -> a_guess c = true ->
  match a_img c with
  | Ndarray _ | Primary _ => True
  | HduList _ => extend_card im = Some false
  | MaskedArr _ => fs "MaskedArray"%string = None
  | Path n => exists h, fs n = Some [h] /\ h_extend h = Some true
  | Other => False
  end ->
  construct fs nsum c = Ok im ->
  i < nr (pixels im) -> j < nc (pixels im) -> non_finite (px (pixels im) i j) ->
  is_masked im i j.
Proof.
  intros fs nsum c im i j W A G S E Hi Hj N.
  destruct (construct_final fs nsum c im W E) as (_ & a0 & d & flag & _ & _ & K & F).
  eapply final_flag; [exact F|exact Hi|exact Hj|].
  destruct F as [[Sh V] _]. unfold pixels in *. rewrite V in N by trivial.
  rewrite A, G in K. revert K N S. generalize (a_img c) as s. intros s K N S.
  inversion K; subst; trivial; try discriminate; try (now right).
  - match goal with H : extend_card im = Some true |- _ => rewrite S in H; discriminate end.
  - destruct H0 as [[n [-> _]]|[[b ->]| ->]]; cbn [attached_to] in *.
    + destruct S as (h' & Fh & _). rewrite Fh in *. discriminate.
    + rewrite S in *. discriminate.
    + easy.
  - destruct H0 as [[n [-> _]]|[[b ->]| ->]]; cbn [attached_to] in *.
    + destruct S as (h' & Fh & Xh). rewrite Fh in *. match goal with H : Some _ = Some _ |- _ => injection H as <- <- end. congruence.
    + rewrite S in *. discriminate.
    + easy.
Qed.

(** C23: for a file whose header says EXTEND = False or nothing, a NaN is not masked by
    itself: if the other pixels are in range the mask is empty. *)
Lemma C23_nan_unmasked_lm : forall fs nsum c im n h rest, a_img c = Path n -> fs n = Some (h :: rest) ->
  h_extend h <> Some true -> a_mask c = MNone -> construct fs nsum c = Ok im ->
  (forall i j, i < nr (pixels im) -> j < nc (pixels im) -> ~ out_of_range (px (pixels im) i j)) ->
  forall i j, i < nr (pixels im) -> j < nc (pixels im) -> ~ is_masked im i j.
Proof.
  intros fs nsum c im n h rest S Fn X A E R i j Hi Hj M.
  assert (W : wf_source (a_img c)) by (rewrite S; exact I).
  destruct (construct_final fs nsum c im W E) as (_ & a0 & d & flag & SD & _ & K & F).
  destruct (set_data_gen fs nsum _ _ _ _ _ W SD) as (o & x & y & O & L & D & B & Ea & V).
  assert (N0 : msk a0 = Nomask).
  { rewrite S in L. cbn [load_data] in L. unfold open_primary in L. rewrite Fn in L. cbn in L. injection L as <-.
    assert (Ny : msk y = Nomask).
    { unfold cut_borders in B. destruct (a_borders c); [|injection B as <-; reflexivity].
      destruct (border_window nsum _) as [[[[? ?] ?] ?]|]; [|discriminate]. cbn in B. injection B as <-. reflexivity. }
    rewrite Ea. unfold mul_gain, apply_crop. destruct (a_crop c) as [[x0 x1] [y0 y1]]. cbn [msk].
    destruct (_ =? 0)%Z; cbn [slice_marr msk slice_mask]; rewrite Ny; reflexivity. }
  assert (NF : forall i j, ~ flag i j).
  { rewrite A, S in K. intros i' j'.
    inversion K; subst; try discriminate; try (rewrite N0; cbn; discriminate);
      cbn [attached_to] in *; try congruence.
    match goal with H : _ \/ _ |- _ => destruct H; congruence end. }
  destruct F as ([Sh V'] & q & init & Eq & Sq & I & G). unfold is_masked, pixels in *. rewrite Eq in M. cbn [masked_at] in M.
  injection Sh as Sr Sc. rewrite G in M by lia.
  apply grown_local in M as (i' & j' & Hi' & Hj' & M & _); [|cbn; lia|cbn; lia]. cbn [shape fst snd] in *.
  apply I in M; trivial. destruct M as [M|M]; [now apply NF in M|].
  rewrite <- V' in M by lia. revert M. apply R; lia.
Qed.

(** C24, C25: assigning a mask array of the shape of the pixels: the flags are the given
    ones and the out-of-range pixels; seven rounds of enlargement follow. *)
Lemma C24_rounds_lm : forall fs im m im', wf (im_data im) -> shape m = shape (pixels im) ->
  assign fs im (MArray m) = Ok im' ->
  plane_eq (pixels im') (pixels im) /\
  exists init,
    (forall i j, i < nr m -> j < nc m -> (init i j = true <-> px m i j = true \/ out_of_range (px (pixels im) i j))) /\
    (forall i j, i < nr m -> j < nc m -> (is_masked im' i j <-> grown (shape m) 7 init i j = true)).
Proof.
  intros fs im m im' W S E. destruct (assign_final fs im _ im' W E) as (_ & d & flag & K & F).
  inversion K; subst. destruct F as (P & q & init & Eq & Sq & I & G). split; [exact P|]. exists init.
  fold (pixels im) in *. pose proof (f_equal fst S : nr m = nr (pixels im)) as Sr. pose proof (f_equal snd S : nc m = nc (pixels im)) as Sc.
  split.
  - intros i j Hi Hj. rewrite I by lia. unfold set_by.
    destruct (Nat.eqb_spec (nr m * nc m) 0) as [Z|Z]; [apply Nat.eq_mul_0 in Z; lia|].
    rewrite cyclic_same; [reflexivity|exact Sc|exact Hi|]. fold (pixels im). lia.
  - intros i j Hi Hj. unfold is_masked. rewrite Eq. cbn [masked_at]. rewrite G, S by lia. reflexivity.
Qed.

(** C24: the enlargement keeps the given flags and stays within 7 pixels of a flagged or
    out-of-range pixel. *)
Lemma C24_local_lm : forall fs im m im', wf (im_data im) -> shape m = shape (pixels im) ->
  assign fs im (MArray m) = Ok im' ->
  forall i j, i < nr m -> j < nc m ->
    (px m i j = true -> is_masked im' i j) /\
    (is_masked im' i j -> exists i' j', i' < nr m /\ j' < nc m /\
       (px m i' j' = true \/ out_of_range (px (pixels im) i' j')) /\
       i' <= i + 7 /\ i <= i' + 7 /\ j' <= j + 7 /\ j <= j' + 7).
Proof.
  intros fs im m im' W S E i j Hi Hj. destruct (C24_rounds_lm fs im m im' W S E) as (_ & init & I & G). split.
  - intros H. apply G; trivial. apply grown_incl. apply I; auto.
  - intros H. apply G in H; trivial. apply grown_local in H as (i' & j' & A & B & M & D); trivial.
    exists i', j'. repeat split; try apply D; trivial. now apply I.
Qed.

(** C24: a larger mask gives a larger result. *)
Lemma C24_monotone_lm : forall fs im m1 m2 im1 im2, wf (im_data im) ->
  shape m1 = shape (pixels im) -> shape m2 = shape (pixels im) ->
  (forall i j, i < nr m1 -> j < nc m1 -> px m1 i j = true -> px m2 i j = true) ->
  assign fs im (MArray m1) = Ok im1 -> assign fs im (MArray m2) = Ok im2 ->
  forall i j, i < nr m1 -> j < nc m1 -> is_masked im1 i j -> is_masked im2 i j.
Proof.
  intros fs im m1 m2 im1 im2 W S1 S2 L E1 E2 i j Hi Hj.
  destruct (C24_rounds_lm fs im m1 im1 W S1 E1) as (_ & init1 & I1 & G1).
  destruct (C24_rounds_lm fs im m2 im2 W S2 E2) as (_ & init2 & I2 & G2).
  assert (Q : shape m1 = shape m2) by congruence. pose proof Q as Q'. injection Q' as Qr Qc.
  rewrite G1, G2 by lia. rewrite Q. apply grown_mono; try (cbn; lia).
  intros x y Hx Hy H. cbn in Hx, Hy. apply I2; try lia. apply I1 in H; try lia. destruct H as [H|H]; [left; apply L; trivial; lia|now right].
Qed.

(** C24: when all pixels are in range and the given flags are at least 3 pixels apart, the
    mask does not grow (at least two rows and two columns). *)
Lemma C24_isolated_lm : forall fs im m im', wf (im_data im) -> shape m = shape (pixels im) ->
  2 <= nr m -> 2 <= nc m -> isolated (shape m) (px m) ->
  (forall i j, i < nr m -> j < nc m -> ~ out_of_range (px (pixels im) i j)) ->
  assign fs im (MArray m) = Ok im' ->
  forall i j, i < nr m -> j < nc m -> (is_masked im' i j <-> px m i j = true).
Proof.
  intros fs im m im' W S N M Is R E i j Hi Hj.
  destruct (C24_rounds_lm fs im m im' W S E) as (_ & init & I & G).
  rewrite G by trivial.
  assert (Q : forall x y, x < nr m -> y < nc m -> init x y = px m x y).
  { intros x y Hx Hy. apply eq_true_iff_eq. rewrite I by trivial. split; [intros [H|H]; trivial; now apply R in H|auto]. }
  rewrite (grown_ext (shape m) 7 init (px m)) by trivial. now rewrite grown_isolated.
Qed.

(** C25: a mask array of any shape is accepted, and its cells are used in row-major order,
    cyclically. *)
Lemma C25_flat_cyclic_lm : forall fs im m, wf (im_data im) -> nr m * nc m <> 0 ->
  exists im' init, assign fs im (MArray m) = Ok im' /\
    (forall i j, i < nr (pixels im) -> j < nc (pixels im) ->
       (init i j = true <->
        cyclic m (i * nc (pixels im) + j) = true \/ out_of_range (px (pixels im) i j))) /\
    (forall i j, i < nr (pixels im) -> j < nc (pixels im) ->
       (is_masked im' i j <-> grown (shape (pixels im)) 7 init i j = true)).
Proof.
  intros fs im m W N.
  destruct (choose_total fs (im_src im) (im_hdr im) (im_guess im) (im_thresh im) (MArray m) (im_data im) code_guard W I) as [b Cb].
  destruct (set_mask_ok fs _ _ _ _ _ _ _ _ W Cb) as [x Sx].
  assert (E : exists im', assign fs im (MArray m) = Ok im').
  { unfold assign, set_mask. rewrite Sx. eexists; reflexivity. }
  destruct E as [im' E]. destruct (assign_final fs im _ im' W E) as (_ & d & flag & K & F).
  inversion K; subst. destruct F as (P & q & init & Eq & Sq & Ii & G). exists im', init. split; [exact E|].
  fold (pixels im) in *. split.
  - intros i j Hi Hj. rewrite Ii by trivial. unfold set_by. apply Nat.eqb_neq in N. rewrite N. reflexivity.
  - intros i j Hi Hj. unfold is_masked. rewrite Eq. cbn [masked_at]. rewrite G by trivial. reflexivity.
Qed.

(** C26: a mask stored by store_img and read back (from the HDUList or from a file):
    threshold in (0,1] and fewer than half of the pixels masked: the stored flags. *)
Lemma C26_round_trip_lm : forall fs nsum src d m t g im,
  (src = HduList (store_img d m) \/ exists n, src = Path n /\ fs n = Some (store_img d m)) ->
  shape m = shape d -> 2 * set_cells m < nr m * nc m ->
  finiteb t = true -> (0 < SF2R radix2 t <= 1)%R ->
  construct fs nsum (mkargs src MNone (Some t) true false ((0,0),(0,0))%Z g) = Ok im ->
  shape (pixels im) = shape d /\
  final_mask (pixels im) (fun i j => px m i j = true) (im_data im).
Proof.
  intros fs nsum src d m t g im Hs S C Ft T E.
  destruct (stored_build fs nsum src d m (Some t) g im Hs S E) as (d' & Sd & P & F).
  split; [now rewrite (proj1 P)|].
  destruct P as [Sp V]. destruct F as (_ & q & init & Eq & Sq & Ii & G).
  pose proof (f_equal fst Sp : nr (pixels im) = nr d') as Pr. pose proof (f_equal snd Sp : nc (pixels im) = nc d') as Pc.
  split; [apply plane_eq_refl|]. exists q, init. split; [exact Eq|]. split; [congruence|]. rewrite Sp. split.
  - intros i j Hi Hj. rewrite Ii by lia. rewrite V by trivial. cbn [thresh_of].
    rewrite flags_small by trivial. reflexivity.
  - intros i j Hi Hj. apply G; lia.
Qed.

(** C26: threshold above 1 (the default is 16), fewer than half masked: no stored flag
    survives. *)
Lemma C26_lost_lm : forall fs nsum src d m t g im,
  (src = HduList (store_img d m) \/ exists n, src = Path n /\ fs n = Some (store_img d m)) ->
  shape m = shape d -> 2 * set_cells m < nr m * nc m ->
  (t = None \/ exists v, t = Some v /\ finiteb v = true /\ (1 < SF2R radix2 v)%R) ->
  construct fs nsum (mkargs src MNone t true false ((0,0),(0,0))%Z g) = Ok im ->
  final_mask (pixels im) (fun i j => False) (im_data im).
Proof.
  intros fs nsum src d m t g im Hs S C T E.
  destruct (stored_build fs nsum src d m t g im Hs S E) as (d' & Sd & P & F).
  assert (T' : finiteb (thresh_of t) = true /\ (1 < SF2R radix2 (thresh_of t))%R).
  { destruct T as [->|(v & -> & H)]; [|exact H].
    cbn [thresh_of]. replace (pix_of_Z 16) with (S754_finite false 4503599627370496 (-48)) by (vm_compute; reflexivity).
    split; [reflexivity|]. cbn [SF2R]. unfold F2R. simpl. lra. }
  destruct T' as [T1 T2].
  destruct P as [Sp V]. destruct F as (_ & q & init & Eq & Sq & Ii & G).
  pose proof (f_equal fst Sp : nr (pixels im) = nr d') as Pr. pose proof (f_equal snd Sp : nc (pixels im) = nc d') as Pc.
  split; [apply plane_eq_refl|]. exists q, init. split; [exact Eq|]. split; [congruence|]. rewrite Sp. split.
  - intros i j Hi Hj. rewrite Ii by lia. rewrite V by trivial.
    rewrite flags_none by trivial. split; intros [H|H]; auto; discriminate.
  - intros i j Hi Hj. apply G; lia.
Qed.

(** C26: half or more of the pixels masked and a threshold of at least 1: everything is
    masked. *)
Lemma C26_all_masked_lm : forall fs nsum src d m t g im,
  (src = HduList (store_img d m) \/ exists n, src = Path n /\ fs n = Some (store_img d m)) ->
  shape m = shape d -> nr m * nc m <= 2 * set_cells m ->
  (t = None \/ exists v, t = Some v /\ finiteb v = true /\ (1 <= SF2R radix2 v)%R) ->
  construct fs nsum (mkargs src MNone t true false ((0,0),(0,0))%Z g) = Ok im ->
  forall i j, i < nr (pixels im) -> j < nc (pixels im) -> is_masked im i j.
Proof.
  intros fs nsum src d m t g im Hs S C T E i j Hi Hj.
  destruct (stored_build fs nsum src d m t g im Hs S E) as (d' & Sd & P & F).
  assert (T' : finiteb (thresh_of t) = true /\ (1 <= SF2R radix2 (thresh_of t))%R).
  { destruct T as [->|(v & -> & H)]; [|exact H].
    cbn [thresh_of]. replace (pix_of_Z 16) with (S754_finite false 4503599627370496 (-48)) by (vm_compute; reflexivity).
    split; [reflexivity|]. cbn [SF2R]. unfold F2R. simpl. lra. }
  eapply final_flag; [exact F|exact Hi|exact Hj|]. cbn beta. now apply flags_all.
Qed.

(** C27: the number of unmasked pixels at which the saturation branch gives up (1000 in the
    code) has no influence on the result. *)
Lemma C27_guard_moot_lm : forall fs g s hd guess th arg a, wf a ->
  match set_mask_with fs g s hd guess th arg a, set_mask fs s hd guess th arg a with
  | Ok b, Ok b' => plane_eq (dat b) (dat b') /\
      exists q q', msk b = Full q /\ msk b' = Full q' /\ plane_eq q q'
  | Raise e, Raise e' => e = e'
  | _, _ => False
  end.
Proof. intros. unfold set_mask. now apply guard_moot. Qed.

(** C73: without border search, the exception the constructor raises, or none. *)
Lemma C73_outcome_lm : forall fs nsum c, wf_source (a_img c) -> a_borders c = false ->
  match build_error fs c with
  | None => exists im, construct fs nsum c = Ok im
  | Some e => construct fs nsum c = Raise e
  end.
Proof. exact construct_outcome. Qed.

(** C73: a readable file named like one of the three classes the mask setter tests for cannot be
    loaded with automatic masking; it can be with a mask array or without guessing, and
    under any other name. *)
Lemma C73_names_lm : forall fs nsum c n h rest, a_img c = Path n -> fs n = Some (h :: rest) -> a_borders c = false ->
  ((exists m, a_mask c = MArray m) \/ (a_mask c = MNone /\ a_guess c = false) \/
   (a_mask c = MNone /\ a_guess c = true /\ ~ class_name n) -> exists im, construct fs nsum c = Ok im) /\
  (a_mask c = MNone /\ a_guess c = true /\ class_name n ->
     exists e, construct fs nsum c = Raise e /\ In e [AttributeError; TypeError; KeyError]).
Proof.
  intros fs nsum c n h rest S F B. assert (W : wf_source (a_img c)) by (rewrite S; exact I).
  pose proof (C73_outcome_lm fs nsum c W B) as O. unfold build_error in O. rewrite S, F in O. cbv zeta in O.
  split.
  - intros [[m M]|[[M G]|(M & G & N)]]; rewrite M in O; try rewrite G in O; try exact O.
    unfold class_name in N.
    destruct (string_dec n "PrimaryHDU"); [tauto|]. destruct (string_dec n "ndarray"); [tauto|].
    destruct (string_dec n "HDUList"); [tauto|]. exact O.
  - intros (M & G & N). rewrite M, G in O.
    destruct N as [-> | [-> | ->]]; cbn -[construct] in O; [eexists; split; [exact O|cbn; tauto]..|].
    destruct (h_extend h); eexists; (split; [exact O|cbn; tauto]).
Qed.

(** C74: giving an image its own mask again enlarges it by seven more rounds. *)
Lemma C74_reassign_lm : forall fs im m im1 q im2, wf (im_data im) -> shape m = shape (pixels im) ->
  assign fs im (MArray m) = Ok im1 -> msk (im_data im1) = Full q -> assign fs im1 (MArray q) = Ok im2 ->
  exists init,
    (forall i j, i < nr m -> j < nc m -> (init i j = true <-> px m i j = true \/ out_of_range (px (pixels im) i j))) /\
    (forall i j, i < nr m -> j < nc m -> (is_masked im2 i j <-> grown (shape m) 14 init i j = true)).
Proof.
  intros fs im m im1 q im2 W S E1 Q E2.
  destruct (C24_rounds_lm fs im m im1 W S E1) as (P & init & I & G). exists init. split; [exact I|].
  destruct (assign_final fs im _ im1 W E1) as (W1 & _).
  assert (Sq : shape q = shape (pixels im1)) by (unfold wf in W1; now rewrite Q in W1).
  destruct (C24_rounds_lm fs im1 q im2 W1 Sq E2) as (P2 & init2 & I2 & G2).
  assert (Sm : shape q = shape m) by (rewrite Sq, (proj1 P), S; reflexivity).
  pose proof Sm as Sm'. injection Sm' as Mr Mc.
  intros i j Hi Hj. rewrite G2 by lia. rewrite Sm.
  replace (grown (shape m) 14 init) with (grown (shape m) 7 (grown (shape m) 7 init)).
  2:{ reflexivity. }
  rewrite (grown_ext (shape m) 7 init2 (grown (shape m) 7 init)); [reflexivity| |exact Hi|exact Hj].
  intros x y Hx Hy. cbn in Hx, Hy. apply eq_true_iff_eq. rewrite I2 by lia.
  rewrite <- G by trivial. unfold is_masked. rewrite Q. cbn [masked_at]. split; [|auto].
  intros [H|H]; [exact H|].
  enough (is_masked im1 x y) by (unfold is_masked in *; now rewrite Q in *).
  destruct P as [Ps Pv]. pose proof (f_equal fst Ps : nr (pixels im1) = nr (pixels im)). pose proof (f_equal snd Ps : nc (pixels im1) = nc (pixels im)).
  pose proof (f_equal fst S : nr m = nr (pixels im)). pose proof (f_equal snd S : nc m = nc (pixels im)).
  rewrite Pv in H by lia.
  apply G; trivial. apply grown_incl. apply I; auto.
Qed.
