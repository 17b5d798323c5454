(** The constructor. *)
From Coq Require Import ZArith List Bool Arith String Reals Lia Lra.
From Coq Require Import SpecFloat.
From Flocq Require Import Core.Core IEEE754.BinarySingleNaN.
From Verif.Model Require Import Py Plane Ma Image.
From Verif.Spec Require Import Image.
From Verif.Proof Require Import Image ImageMask ImageGrow ImageBorder.
Import ListNotations.
Set Bullet Behavior "Strict Subproofs".

(** Values rounded to float32 are float32 values. *)
Lemma round_equiv s m e :
  SpecFloat.binary_round 24 128 s m e = BinarySingleNaN.binary_round 24 128 mode_NE s m e.
Proof.
  unfold SpecFloat.binary_round, BinarySingleNaN.binary_round, BinarySingleNaN.shl_align_fexp.
  destruct (shl_align m e _) as [mz ez].
  unfold SpecFloat.binary_round_aux, BinarySingleNaN.binary_round_aux.
  destruct (shr_fexp 24 128 (Zpos mz) ez loc_Exact) as [mrs e'].
  replace (round_nearest_even (shr_m mrs) (loc_of_shr_record mrs))
    with (choice_mode mode_NE s (shr_m mrs) (loc_of_shr_record mrs)); [reflexivity|].
  destruct (loc_of_shr_record mrs) as [|[]]; try reflexivity.
  cbn. unfold Round.cond_incr. now destruct (Z.even (shr_m mrs)).
Qed.

Lemma round_valid s m e : valid_binary 24 128 (SpecFloat.binary_round 24 128 s m e) = true.
Proof.
  rewrite round_equiv.
  assert (P1 : FLX.Prec_gt_0 24) by (unfold FLX.Prec_gt_0; lia).
  assert (P2 : Prec_lt_emax 24 128) by (unfold Prec_lt_emax; lia).
  apply (binary_round_correct 24 128 P1 P2).
Qed.

Lemma to_f4_valid v : float32 (to_f4 v).
Proof.
  unfold float32. destruct v as [s|s| |s m e]; try reflexivity. cbn [to_f4].
  destruct s; cbn [cond_Zopp SpecFloat.binary_normalize Z.opp]; apply round_valid.
Qed.

Lemma plane_eq_refl {A} (p : plane A) : plane_eq p p.
Proof. split; [reflexivity|reflexivity]. Qed.

Lemma plane_eq_trans {A} (p q r : plane A) : plane_eq p q -> plane_eq q r -> plane_eq p r.
Proof.
  intros [S V] [S' V']. split; [congruence|]. intros i j Hi Hj. injection S as Sr Sc.
  rewrite V by trivial. apply V'; lia.
Qed.

Section Build.
Variable fs : string -> option (list hdu).
Variable nsum : list pix -> pix.

Lemma load_spec s a : wf_source s -> load_data fs s = Ok a ->
  exists o, original fs s = Some o /\ dat a = pmap to_f4 o /\ wf a /\
    forall i j, masked_at (msk a) i j = user_masked s i j.
Proof.
  intros W E. destruct s as [n|d|m|[|h l]|h|]; cbn [load_data original] in *.
  - unfold open_primary in E. destruct (fs n) as [[|h l]|]; try discriminate. injection E as <-.
    exists (h_data h). repeat split.
  - injection E as <-. exists d. repeat split.
  - injection E as <-. exists (dat m). repeat split.
  - discriminate.
  - injection E as <-. exists (h_data h). repeat split.
  - injection E as <-. exists (h_data h). repeat split.
  - discriminate.
Qed.

Lemma slice_wf a r0 r1 c0 c1 : wf a -> wf (slice_marr a r0 r1 c0 c1).
Proof.
  unfold wf, slice_marr, slice_mask. cbn [msk dat]. destruct (msk a) as [|q]; trivial.
  intros S. injection S as Sr Sc. unfold slice_plane, shape. cbn [nr nc]. now rewrite Sr, Sc.
Qed.

Lemma mul_wf a g : wf a -> wf (mul_gain a g).
Proof. unfold wf, mul_gain. cbn [msk dat]. destruct (msk a); trivial. Qed.

Lemma set_data_wf s bo cr g a : wf_source s -> set_data fs nsum s bo cr g = Ok a -> wf a.
Proof.
  intros W E. unfold set_data in E. destruct (load_data fs s) as [x|] eqn:L; [|discriminate]. cbn [bind] in E.
  destruct (load_spec s x W L) as (o & _ & _ & Wx & _).
  destruct (cut_borders nsum bo x) as [y|] eqn:B; [|discriminate]. cbn [bind] in E. injection E as <-.
  assert (Wy : wf y).
  { unfold cut_borders in B. destruct bo; [|now injection B as <-].
    destruct (border_window nsum (dat x)) as [[[[? ?] ?] ?]|]; [|discriminate]. cbn [bind] in B.
    injection B as <-. now apply slice_wf. }
  apply mul_wf. unfold apply_crop. destruct cr as [[x0 x1] [y0 y1]]. destruct (_ =? 0)%Z; trivial. now apply slice_wf.
Qed.

Lemma chosen_reloads s ext guess th a arg d flag : chosen fs s ext guess th a arg d flag ->
  if reloads s ext guess arg then original fs s = Some d else d = dat a.
Proof.
  assert (VF : viafile s -> reloads s ext guess MNone = false).
  { intros [[? [-> _]]|[[? ->]| ->]]; reflexivity. }
  intros H. destruct H; try (rewrite VF by trivial); try reflexivity; subst; try reflexivity.
  destruct s; try reflexivity. destruct ext as [[|]|]; reflexivity.
Qed.

Lemma get_header_ext s hd : get_header fs s = Ok (Some hd) ->
  match s with HduList (h :: _) => snd hd = h_extend h | _ => True end.
Proof. destruct s as [n|d|m|[|h l]|h|]; cbn [get_header]; trivial. intros E. injection E as <-. reflexivity. Qed.

(** Inversion of the constructor. *)
Lemma construct_inv c im : wf_source (a_img c) -> construct fs nsum c = Ok im ->
  exists hd a0,
    get_header fs (a_img c) = Ok hd /\ get_gain hd (a_gain c) = Ok (im_gain im) /\
    set_data fs nsum (a_img c) (a_borders c) (a_crop c) (im_gain im) = Ok a0 /\ wf a0 /\
    set_mask fs (a_img c) hd (a_guess c) (thresh_of (a_thresh c)) (a_mask c) a0 = Ok (im_data im) /\
    im_src im = a_img c /\ im_hdr im = hd /\ im_guess im = a_guess c /\ im_thresh im = thresh_of (a_thresh c).
Proof.
  intros W E. unfold construct in E. destruct (get_header fs (a_img c)) as [hd|]; [|discriminate]. cbn [bind] in E.
  destruct (get_gain hd (a_gain c)) as [g|] eqn:G; [|discriminate]. cbn [bind] in E. cbv zeta in E.
  destruct (set_data fs nsum (a_img c) (a_borders c) (a_crop c) g) as [a0|] eqn:D; [|discriminate]. cbn [bind] in E.
  destruct (set_mask fs (a_img c) hd (a_guess c) (thresh_of (a_thresh c)) (a_mask c) a0) as [b|] eqn:M; [|discriminate].
  cbn [bind] in E. injection E as <-. cbn. exists hd, a0. repeat split; trivial.
  eapply set_data_wf; eassumption.
Qed.

Lemma construct_final c im : wf_source (a_img c) -> construct fs nsum c = Ok im ->
  wf (im_data im) /\
  exists a0 d flag,
    set_data fs nsum (a_img c) (a_borders c) (a_crop c) (im_gain im) = Ok a0 /\ wf a0 /\
    chosen fs (a_img c) (extend_card im) (a_guess c) (thresh_of (a_thresh c)) a0 (a_mask c) d flag /\
    final_mask d flag (im_data im).
Proof.
  intros W E. destruct (construct_inv c im W E) as (hd & a0 & H1 & H2 & H3 & H4 & H5 & H6 & H7 & H8 & H9).
  destruct (set_mask_spec fs _ _ _ _ _ _ _ _ H4 H5) as (Wb & d & flag & K & F).
  split; [exact Wb|]. exists a0, d, flag. repeat split; trivial; try apply F.
  unfold extend_card. rewrite H7. exact K.
Qed.

Lemma construct_pixels c im : wf_source (a_img c) -> construct fs nsum c = Ok im ->
  if reloads (a_img c) (extend_card im) (a_guess c) (a_mask c)
  then exists o, original fs (a_img c) = Some o /\ plane_eq (pixels im) o
  else exists a0, set_data fs nsum (a_img c) (a_borders c) (a_crop c) (im_gain im) = Ok a0 /\
                  plane_eq (pixels im) (dat a0).
Proof.
  intros W E. destruct (construct_final c im W E) as (_ & a0 & d & flag & S & _ & K & F & _).
  apply chosen_reloads in K. destruct (reloads _ _ _ _).
  - exists d. now split.
  - subst d. now exists a0.
Qed.

(** The data before masking. *)
Lemma set_data_plain s g a : wf_source s -> set_data fs nsum s false ((0, 0), (0, 0))%Z g = Ok a ->
  exists o, original fs s = Some o /\ plane_eq (dat a) (scaled s g o).
Proof.
  intros W E. unfold set_data in E. destruct (load_data fs s) as [x|] eqn:L; [|discriminate]. cbn [bind cut_borders apply_crop] in E.
  destruct (load_spec s x W L) as (o & O & D & Wx & V). injection E as <-. exists o. split; [exact O|].
  unfold mul_gain, scaled. cbn [dat]. rewrite D. cbn. split; [reflexivity|]. cbn [px nr nc].
  intros i j Hi Hj. now rewrite V.
Qed.

Lemma set_data_gen s bo cr g a : wf_source s -> set_data fs nsum s bo cr g = Ok a ->
  exists o x y, original fs s = Some o /\ load_data fs s = Ok x /\ dat x = pmap to_f4 o /\
    cut_borders nsum bo x = Ok y /\ a = mul_gain (apply_crop cr y) g /\
    forall i j, masked_at (msk x) i j = user_masked s i j.
Proof.
  intros W E. unfold set_data in E. destruct (load_data fs s) as [x|] eqn:L; [|discriminate]. cbn [bind] in E.
  destruct (load_spec s x W L) as (o & O & D & Wx & V).
  destruct (cut_borders nsum bo x) as [y|] eqn:B; [|discriminate]. cbn [bind] in E. injection E as <-.
  exists o, x, y. repeat split; trivial.
Qed.

Lemma slice_mask_at m r0 r1 c0 c1 n w i j : match m with Nomask => True | Full q => nr q = n /\ nc q = w end ->
  masked_at (slice_mask m r0 r1 c0 c1) i j =
  masked_at m (Z.to_nat (slice_bound (Z.of_nat n) r0) + i) (Z.to_nat (slice_bound (Z.of_nat w) c0) + j).
Proof. destruct m as [|q]; cbn; [reflexivity|]. intros [<- <-]. reflexivity. Qed.

Lemma set_data_crop s g a x0 x1 y0 y1 o : wf_source s -> original fs s = Some o ->
  0 < x0 -> 0 < x1 -> 0 < y0 -> 0 < y1 -> x0 + x1 <= nr o -> y0 + y1 <= nc o ->
  set_data fs nsum s false ((Z.of_nat x0, Z.of_nat x1), (Z.of_nat y0, Z.of_nat y1)) g = Ok a ->
  plane_eq (dat a) (window (scaled s g o) x0 y0 (nr o - x0 - x1) (nc o - y0 - y1)).
Proof.
  intros W O P1 P2 P3 P4 F1 F2 E. destruct (set_data_gen _ _ _ _ _ W E) as (o' & x & y & O' & L & D & B & -> & V).
  rewrite O in O'. injection O' as <-. cbn [cut_borders] in B. injection B as <-.
  unfold apply_crop.
  destruct (Z.eqb_spec (Z.of_nat x0 + Z.of_nat x1 + Z.of_nat y0 + Z.of_nat y1) 0) as [Z0|_]; [lia|].
  destruct (load_spec s x W L) as (_ & _ & _ & Wx & _).
  unfold mul_gain, slice_marr. cbn [dat msk].
  assert (B1 : slice_bound (Z.of_nat (nr o)) (Z.of_nat x0) = Z.of_nat x0) by (unfold slice_bound; destruct (Z.ltb_spec (Z.of_nat x0) 0); lia).
  assert (B2 : slice_bound (Z.of_nat (nc o)) (Z.of_nat y0) = Z.of_nat y0) by (unfold slice_bound; destruct (Z.ltb_spec (Z.of_nat y0) 0); lia).
  assert (B3 : slice_bound (Z.of_nat (nr o)) (- Z.of_nat x1) = (Z.of_nat (nr o) - Z.of_nat x1)%Z) by (unfold slice_bound; destruct (Z.ltb_spec (- Z.of_nat x1) 0); lia).
  assert (B4 : slice_bound (Z.of_nat (nc o)) (- Z.of_nat y1) = (Z.of_nat (nc o) - Z.of_nat y1)%Z) by (unfold slice_bound; destruct (Z.ltb_spec (- Z.of_nat y1) 0); lia).
  unfold wf in Wx. rewrite D in Wx |- *. unfold plane_eq, shape. cbn [slice_plane nr nc px window pmap].
  rewrite B1, B2, B3, B4. split; [f_equal; lia|]. intros i j Hi Hj.
  rewrite (slice_mask_at (msk x) _ _ _ _ (nr o) (nc o)).
  2:{ destruct (msk x); trivial. injection Wx as Wr Wc. now split. }
  rewrite V, B1, B2, !Nat2Z.id. reflexivity.
Qed.

Lemma set_data_crop_empty s g a x0 x1 y0 y1 : wf_source s -> (0 <= x0)%Z -> (0 <= x1)%Z -> (0 <= y0)%Z -> (0 <= y1)%Z ->
  (x0 + x1 + y0 + y1 <> 0)%Z ->
  set_data fs nsum s false ((x0, x1), (y0, y1)) g = Ok a ->
  (x1 = 0%Z -> nr (dat a) = 0) /\ (y1 = 0%Z -> nc (dat a) = 0).
Proof.
  intros W P1 P2 P3 P4 N E. destruct (set_data_gen _ _ _ _ _ W E) as (o & x & y & O & L & D & B & -> & V).
  cbn [cut_borders] in B. injection B as <-.
  unfold apply_crop.
  destruct (Z.eqb_spec (x0 + x1 + y0 + y1) 0) as [Z0|_]; [lia|].
  unfold mul_gain, slice_marr. cbn [dat msk nr nc slice_plane].
  split; intros ->; cbn [Z.opp]; unfold slice_bound at 1; cbn [Z.ltb Z.compare];
    unfold slice_bound.
  - destruct (Z.ltb_spec x0 0); lia.
  - destruct (Z.ltb_spec y0 0); lia.
Qed.

Lemma set_data_framed s g a o t b l r : wf_source s -> original fs s = Some o -> sum_like nsum ->
  framed (pmap to_f4 o) t b l r -> t <= nr o / 2 < nr o - b -> l <= nc o / 2 < nc o - r ->
  set_data fs nsum s true ((0, 0), (0, 0))%Z g = Ok a ->
  let r0 := if t + 1 <? l then t + 1 else l in
  let c0 := if l + 1 <? t then l + 1 else t in
  plane_eq (dat a) (window (scaled s g o) r0 c0 (nr o - Nat.min b r - r0) (nc o - r - c0)).
Proof.
  intros W O SL F Mr Mc E. cbv zeta.
  destruct (set_data_gen _ _ _ _ _ W E) as (o' & x & y & O' & L & D & B & -> & V).
  rewrite O in O'. injection O' as <-. cbn [cut_borders] in B. rewrite D in B.
  rewrite (border_framed nsum SL (pmap to_f4 o) (fun i j => to_f4_valid (px o i j)) t b l r F Mr Mc) in B. cbn [bind] in B. injection B as <-.
  cbn [apply_crop Z.add Z.eqb].
  destruct (load_spec s x W L) as (_ & _ & _ & Wx & _).
  destruct F as (F1 & F2 & _). cbn [nr nc pmap] in F1, F2 |- *.
  set (r0 := if t + 1 <? l then t + 1 else l). set (c0 := if l + 1 <? t then l + 1 else t).
  assert (R0 : r0 <= nr o \/ nr o < r0) by lia.
  unfold mul_gain, slice_marr. cbn [dat msk]. unfold wf in Wx. rewrite D in Wx |- *.
  unfold plane_eq, shape. cbn [slice_plane nr nc px window pmap].
  rewrite !sb_nat.
  replace (slice_bound (Z.of_nat (nr o)) (Z.of_nat (nr o) - Z.of_nat (Nat.min b r)))
    with (Z.of_nat (nr o - Nat.min b r)).
  2:{ unfold slice_bound. destruct (Z.ltb_spec (Z.of_nat (nr o) - Z.of_nat (Nat.min b r)) 0); lia. }
  replace (slice_bound (Z.of_nat (nc o)) (Z.of_nat (nc o) - Z.of_nat r))
    with (Z.of_nat (nc o - r)).
  2:{ unfold slice_bound. destruct (Z.ltb_spec (Z.of_nat (nc o) - Z.of_nat r) 0); lia. }
  assert (Cm : c0 <= nc o \/ nc o < c0) by lia.
  split; [f_equal; lia|]. intros i j Hi Hj.
  rewrite (slice_mask_at (msk x) _ _ _ _ (nr o) (nc o)).
  2:{ destruct (msk x); trivial. injection Wx as Wr Wc. now split. }
  rewrite V, !sb_nat, !Nat2Z.id.
  replace (Nat.min r0 (nr o)) with r0 by lia. replace (Nat.min c0 (nc o)) with c0 by lia. reflexivity.
Qed.

(** When the constructor succeeds. *)
Lemma choose_total (s : source) (hd : option header) (guess : bool) (th : pix) (arg : maskarg) (a : marr) (guard : nat) : wf a ->
  match arg, s with
  | MPath n, _ => match fs n with Some (_ :: _) => True | _ => False end
  | MNone, Path n => if guess then ~ class_name n else True
  | MNone, HduList l => if guess then
      match extend_of hd, l with
      | Some true, _ :: _ :: _ => True
      | Some false, _ :: _ => True
      | _, _ => False
      end else True
  | _, _ => True
  end -> exists b, choose_mask fs guard s hd guess th arg a = Ok b.
Proof.
  intros W H. destruct arg as [n|m| |]; cbn [choose_mask].
  - unfold open_primary. destruct (fs n) as [[|h l]|]; try easy. eexists; reflexivity.
  - eexists; reflexivity.
  - destruct guess.
    2:{ destruct (saturation_spec guard a W) as (b & -> & _). now exists b. }
    assert (MI : forall d, exists b, masked_invalid (mkmarr d Nomask) = Ok b).
    { intros d. destruct (masked_invalid_spec (mkmarr d Nomask) I) as (b & -> & _). now exists b. }
    assert (MA : exists b, masked_invalid a = Ok b).
    { destruct (masked_invalid_spec a W) as (b & -> & _). now exists b. }
    destruct s as [n|d|m|l|h|]; trivial.
    + rewrite (no_mistake fs n hd H). destruct (fs _) as [[|h l]|]; trivial. destruct (h_extend h) as [[|]|].
      * destruct l; trivial. eexists; reflexivity.
      * eexists; reflexivity.
      * destruct (saturation_spec guard a W) as (b & -> & _). now exists b.
    + cbn [mistaken]. destruct (fs _) as [[|h l]|]; trivial. destruct (h_extend h) as [[|]|].
      * destruct l; trivial. eexists; reflexivity.
      * eexists; reflexivity.
      * destruct (saturation_spec guard a W) as (b & -> & _). now exists b.
    + destruct hd as [[g [[|]|]]|]; cbn [extend_of] in H; try easy.
      * destruct l as [|h [|e l]]; try easy. eexists; reflexivity.
      * destruct l as [|h l]; try easy.
    + cbn [mistaken]. destruct (fs _) as [[|h l]|]; trivial. destruct (h_extend h) as [[|]|].
      * destruct l; trivial. eexists; reflexivity.
      * eexists; reflexivity.
      * destruct (saturation_spec guard a W) as (b & -> & _). now exists b.
  - destruct (saturation_spec guard a W) as (b & -> & _). now exists b.
Qed.

Theorem construct_outcome c : wf_source (a_img c) -> a_borders c = false ->
  match build_error fs c with
  | None => exists im, construct fs nsum c = Ok im
  | Some e => construct fs nsum c = Raise e
  end.
Proof.
  intros W B. destruct c as [s arg th guess bo cr ga]. cbn [a_img a_mask a_thresh a_guess a_borders a_crop a_gain] in *. subst bo.
  assert (G : forall hd, exists g, get_gain (Some hd) ga = Ok g).
  { intros [[g|] e]; destruct ga; cbn; eexists; reflexivity. }
  assert (SD : forall x g, load_data fs s = Ok x -> exists a, set_data fs nsum s false cr g = Ok a /\ wf a).
  { intros x g L. unfold set_data. rewrite L. cbn [bind cut_borders]. eexists; split; [reflexivity|].
    eapply (set_data_wf s false cr g); trivial. unfold set_data. rewrite L. reflexivity. }
  (* the mask part *)
  assert (K : forall hd x, get_header fs s = Ok (Some hd) -> load_data fs s = Ok x ->
     exists g a, get_gain (Some hd) ga = Ok g /\ set_data fs nsum s false cr g = Ok a /\ wf a /\
       construct fs nsum (mkargs s arg th guess false cr ga) =
       bind (set_mask fs s (Some hd) guess (thresh_of th) arg a) (fun d' => Ok (mkimage s (Some hd) g guess (thresh_of th) d'))).
  { intros hd x Hh L. destruct (G hd) as [g Gg]. destruct (SD x g L) as (a & Sa & Wa).
    exists g, a. split; [exact Gg|]. split; [exact Sa|]. split; [exact Wa|].
    unfold construct. cbn [a_img a_mask a_thresh a_guess a_borders a_crop a_gain]. rewrite Hh. cbn [bind]. rewrite Gg. cbn [bind].
    cbv zeta. rewrite Sa. reflexivity. }
  assert (OKM : forall hd g a, wf a ->
     (match arg, s with
      | MPath n, _ => match fs n with Some (_ :: _) => True | _ => False end
      | MNone, Path n => if guess then ~ class_name n else True
      | MNone, HduList l => if guess then
          match extend_of (Some hd), l with
          | Some true, _ :: _ :: _ => True
          | Some false, _ :: _ => True
          | _, _ => False
          end else True
      | _, _ => True
      end) -> exists im, bind (set_mask fs s (Some hd) guess (thresh_of th) arg a) (fun d' => Ok (mkimage s (Some hd) g guess (thresh_of th) d')) = Ok im).
  { intros hd g a Wa H. destruct (choose_total s (Some hd) guess (thresh_of th) arg a code_guard Wa H) as [b Cb].
    destruct (set_mask_ok fs _ _ _ _ _ _ _ _ Wa Cb) as [x Sx]. unfold set_mask. rewrite Sx. eexists; reflexivity. }
  assert (IOE : forall hd g a n, arg = MPath n -> match fs n with Some (_ :: _) => False | _ => True end ->
     bind (set_mask fs s (Some hd) guess (thresh_of th) arg a) (fun d' => Ok (mkimage s (Some hd) g guess (thresh_of th) d')) = Raise IOError).
  { intros hd g a n -> H. unfold set_mask, set_mask_with. cbn [choose_mask]. unfold open_primary.
    destruct (fs n) as [[|h l]|]; try easy. }
  unfold build_error. cbn [a_img a_mask a_thresh a_guess a_borders a_crop a_gain]. cbv zeta.
  destruct s as [n|d|m|[|h l]|h|].
  - destruct (fs n) as [[|h l]|] eqn:F;
      [unfold construct; cbn [a_img get_header]; unfold open_primary; rewrite F; reflexivity| |
       unfold construct; cbn [a_img get_header]; unfold open_primary; rewrite F; reflexivity].
    destruct (K (h_gain h, h_extend h) (astype_f4 (mkmarr (h_data h) Nomask))) as (g & a & Gg & Sa & Wa & E).
    { cbn [get_header]. unfold open_primary. rewrite F. reflexivity. }
    { cbn [load_data]. unfold open_primary. rewrite F. reflexivity. }
    rewrite E. destruct arg as [n'|m'| |].
    + destruct (fs n') as [[|h' l']|] eqn:F'.
      * eapply IOE; [reflexivity|]; try (now rewrite F').
      * apply OKM; trivial; now rewrite F'.
      * eapply IOE; [reflexivity|]; try (now rewrite F').
    + apply OKM; trivial.
    + destruct guess; [|apply OKM; trivial].
      unfold set_mask, set_mask_with. destruct (string_dec n "PrimaryHDU") as [->|N1]; [reflexivity|].
      destruct (string_dec n "ndarray") as [->|N2]; [reflexivity|].
      destruct (string_dec n "HDUList") as [->|N3]; [cbn [choose_mask mistaken]; destruct (h_extend h) as [e|]; reflexivity|].
      apply OKM; trivial. intros [X|[X|X]]; contradiction.
    + apply OKM; trivial.
  - edestruct K as (g & a & Gg & Sa & Wa & E); [reflexivity|reflexivity|].
    rewrite E. destruct arg as [n'|m'| |]; try (apply OKM; trivial).
    destruct (fs n') as [[|h' l']|] eqn:F'.
    + eapply IOE; [reflexivity|]; try (now rewrite F').
    + apply OKM; trivial; now rewrite F'.
    + eapply IOE; [reflexivity|]; try (now rewrite F').
  - edestruct K as (g & a & Gg & Sa & Wa & E); [reflexivity|reflexivity|].
    rewrite E. destruct arg as [n'|m'| |]; try (apply OKM; trivial).
    destruct (fs n') as [[|h' l']|] eqn:F'.
    + eapply IOE; [reflexivity|]; try (now rewrite F').
    + apply OKM; trivial; now rewrite F'.
    + eapply IOE; [reflexivity|]; try (now rewrite F').
  - reflexivity.
  - edestruct K as (g & a & Gg & Sa & Wa & E); [reflexivity|reflexivity|].
    rewrite E. destruct arg as [n'|m'| |]; try (apply OKM; trivial).
    + destruct (fs n') as [[|h' l']|] eqn:F'.
      * eapply IOE; [reflexivity|]; try (now rewrite F').
      * apply OKM; trivial; now rewrite F'.
      * eapply IOE; [reflexivity|]; try (now rewrite F').
    + destruct guess; [|apply OKM; trivial].
      destruct (h_extend h) as [[|]|] eqn:X.
      * destruct l as [|e l].
        -- unfold set_mask, set_mask_with. cbn [choose_mask]. reflexivity.
        -- apply OKM; trivial.
      * apply OKM; trivial.
      * reflexivity.
  - edestruct K as (g & a & Gg & Sa & Wa & E); [reflexivity|reflexivity|].
    rewrite E. destruct arg as [n'|m'| |]; try (apply OKM; trivial).
    destruct (fs n') as [[|h' l']|] eqn:F'.
    + eapply IOE; [reflexivity|]; try (now rewrite F').
    + apply OKM; trivial; now rewrite F'.
    + eapply IOE; [reflexivity|]; try (now rewrite F').
  - unfold construct. cbn [a_img get_header bind a_gain get_gain]. destruct ga as [g|]; reflexivity.
Qed.

(** Assignment to an existing image. *)
Lemma assign_final im arg im' : wf (im_data im) -> assign fs im arg = Ok im' ->
  wf (im_data im') /\
  exists d flag, chosen fs (im_src im) (extend_card im) (im_guess im) (im_thresh im) (im_data im) arg d flag /\
    final_mask d flag (im_data im').
Proof.
  intros W E. unfold assign in E.
  destruct (set_mask fs (im_src im) (im_hdr im) (im_guess im) (im_thresh im) arg (im_data im)) as [b|] eqn:M; [|discriminate].
  cbn [bind] in E. injection E as <-. cbn [im_data].
  destruct (set_mask_spec fs _ _ _ _ _ _ _ _ W M) as (Wb & d & flag & K & F).
  split; [exact Wb|]. now exists d, flag.
Qed.

End Build.
