(** Proofs about [subtract]. *)
From Coq Require Import Arith ZArith List Bool Reals Lia Lra Psatz.
From Coquelicot Require Import Complex.
From Verif.Model Require Import Py Plane Ma Subtract.
From Verif.Spec Require Import Coadd Subtract.
From Verif.Proof Require Import Coadd Fourier CoaddMore.
Import ListNotations.
Set Bullet Behavior "Strict Subproofs".
Local Open Scope R_scope.

(** ** Arrays *)
Lemma plane_refl {A} (p : plane A) : plane_eq p p.
Proof. split; auto. Qed.
Lemma plane_sym {A} (p q : plane A) : plane_eq p q -> plane_eq q p.
Proof.
  intros [S H]. split; [auto|]. unfold shape in S. injection S as S1 S2.
  intros i j Hi Hj. symmetry. apply H; lia.
Qed.

Lemma frame_ext {A} sh (f g : nat -> nat -> A) :
  (forall i j, (i < fst sh)%nat -> (j < snd sh)%nat -> f i j = g i j) -> plane_eq (frame sh f) (frame sh g).
Proof. intros H. split; [reflexivity|]. cbn. auto. Qed.

Lemma dft_ext F G : plane_eq F G -> plane_eq (dft_raw F) (dft_raw G).
Proof.
  intros [S H]. unfold shape in S. injection S as S1 S2. split.
  - unfold shape. cbn. congruence.
  - intros x y _ _. unfold dft_raw. cbn. rewrite <- S1, <- S2. apply csum_ext. intros u Hu.
    apply csum_ext. intros v Hv. now rewrite H.
Qed.

Lemma fft2_ortho_ext F G : plane_eq F G -> plane_eq (fft2_ortho F) (fft2_ortho G).
Proof.
  intros E. unfold fft2_ortho. destruct (dft_ext F G E) as [S H]. destruct E as [S0 _].
  unfold shape in S0. injection S0 as -> ->. split; [exact S|].
  intros i j Hi Hj. unfold pmap. cbn [px]. f_equal. apply H; assumption.
Qed.

Lemma ifft2_ortho_ext F G : plane_eq F G -> plane_eq (ifft2_ortho F) (ifft2_ortho G).
Proof.
  intros E. unfold ifft2_ortho. destruct (idft_ext F G E) as [S H]. destruct E as [S0 _].
  unfold shape in S0. injection S0 as -> ->. split; [exact S|].
  intros i j Hi Hj. unfold pmap. cbn [px]. f_equal. apply H; assumption.
Qed.

Lemma ifft2_ortho_scale k F :
  plane_eq (ifft2_ortho (pmap (fun z => (k * z)%C) F)) (pmap (fun z => (k * z)%C) (ifft2_ortho F)).
Proof.
  split; [reflexivity|]. intros i j _ _. unfold ifft2_ortho, idft_raw, pmap. cbn [px nr nc].
  set (s := RtoC _). transitivity (s * (k * csum (nr F) (fun u => csum (nc F) (fun v =>
      (px F u v * cis (2 * PI * (INR u * INR i / INR (nr F) + INR v * INR j / INR (nc F))))%C))))%C; [|ring].
  f_equal. rewrite <- csum_scale. apply csum_ext. intros u _. rewrite <- csum_scale. apply csum_ext.
  intros v _. ring.
Qed.

Lemma ifft2_ortho_zero F : (forall i j, (i < nr F)%nat -> (j < nc F)%nat -> px F i j = RtoC 0) ->
  forall i j, px (ifft2_ortho F) i j = RtoC 0.
Proof.
  intros H i j. unfold ifft2_ortho, idft_raw. cbn.
  rewrite (csum_ext _ _ (fun _ => RtoC 0)); [rewrite csum_0; ring|].
  intros u Hu. rewrite (csum_ext _ _ (fun _ => RtoC 0)); [apply csum_0|].
  intros v Hv. rewrite H by assumption. ring.
Qed.

Lemma pad_ext sh p q : plane_eq p q -> plane_eq (pad_to sh p) (pad_to sh q).
Proof.
  intros [S H]. unfold shape in S. injection S as S1 S2. split; [reflexivity|].
  intros i j _ _. unfold pad_to. cbn [px]. rewrite <- S1, <- S2.
  destruct (Nat.ltb_spec i (nr p)), (Nat.ltb_spec j (nc p)); cbn; auto.
Qed.

Lemma psf_hat_ext sh p q : plane_eq p q -> plane_eq (psf_hat sh p) (psf_hat sh q).
Proof. intros H. unfold psf_hat. apply pmap_ext, fft2_ortho_ext, pad_ext, pmap_ext, H. Qed.

Lemma rsum_ext n f g : (forall i, (i < n)%nat -> f i = g i) -> rsum n f = rsum n g.
Proof. induction n as [|n IH]; cbn; intros H; [reflexivity|]. rewrite IH, H; auto. Qed.

Lemma psumR_ext p q : plane_eq p q -> psumR p = psumR q.
Proof.
  intros [S H]. unfold psumR. unfold shape in S. injection S as S1 S2. rewrite <- S1, <- S2.
  apply rsum_ext. intros i Hi. apply rsum_ext. auto.
Qed.

Lemma com_ext p q : plane_eq p q -> center_of_mass p = center_of_mass q.
Proof.
  intros E. unfold center_of_mass. rewrite (psumR_ext p q E). destruct E as [S H].
  unfold shape in S. injection S as S1 S2. f_equal; f_equal; apply psumR_ext; (split;
    [unfold shape; cbn; congruence|]); cbn; intros i j Hi Hj; now rewrite H.
Qed.

Lemma fold_left_ext_in {A B} (f g : A -> B -> A) l a (P : A -> Prop) : P a ->
  (forall a b, P a -> In b l -> f a b = g a b /\ P (f a b)) -> fold_left f l a = fold_left g l a.
Proof.
  revert a. induction l as [|b l IH]; intros a Pa H; [reflexivity|]. cbn.
  destruct (H a b Pa) as [E Pf]; [now left|]. rewrite <- E. apply IH; [exact Pf|].
  intros a' b' Pa' Hb'. apply H; [exact Pa'|now right].
Qed.

Lemma peak_ext p q : plane_eq p q -> peak p = peak q.
Proof.
  intros [S H]. unfold shape in S. injection S as S1 S2. unfold peak. rewrite <- S1, <- S2.
  destruct (le_lt_dec (nr p) 0) as [Z|Z]; [now replace (nr p) with 0%nat by lia|].
  destruct (le_lt_dec (nc p) 0) as [Y|Y].
  { replace (nc p) with 0%nat by lia. cbn. induction (seq 0 (nr p)) as [|a l IH]; [reflexivity|exact IH]. }
  apply fold_left_ext_in with (P := fun ij => (fst ij < nr p)%nat /\ (snd ij < nc p)%nat).
  - cbn. lia.
  - intros [i j] [i' j'] [Hi Hj] Hin. cbn [fst snd] in *. apply in_prod_iff in Hin.
    rewrite !in_seq in Hin. rewrite !H by lia. split; [reflexivity|].
    destruct (Rlt_dec _ _); cbn; lia.
Qed.

(** ** Norms *)
Lemma eps_pos : 0 < eps.
Proof. unfold eps. apply Rinv_0_lt_compat, pow_lt. lra. Qed.

Lemma no_zero_re z : fst (no_zero z) <> 0.
Proof.
  unfold no_zero. destruct (Req_EM_T (fst z) 0) as [E|N]; [|exact N].
  cbn. pose proof eps_pos. lra.
Qed.

Lemma sq_pos z : fst z <> 0 -> 0 < fst z ^ 2 + snd z ^ 2.
Proof. intros H. assert (0 < fst z ^ 2) by (cbn; nra). assert (0 <= snd z ^ 2) by (cbn; nra). lra. Qed.

Lemma mul_conj v z : (RtoC v * z * Cconj z)%C = RtoC (v * (fst z ^ 2 + snd z ^ 2)).
Proof. destruct z as [a b]. unfold Cmult, Cconj, RtoC. cbn. f_equal; ring. Qed.

Lemma csqrt_pos r : 0 < r -> csqrt (RtoC r) = RtoC (sqrt r).
Proof.
  intros H. unfold csqrt. rewrite Cmod_R, Rabs_pos_eq by lra. cbn [fst snd RtoC].
  destruct (Rle_dec 0 0) as [_|N]; [|lra]. unfold RtoC. f_equal.
  - f_equal. field.
  - replace ((r - r) / 2) with 0 by field. apply sqrt_0.
Qed.

(** What [prepare] builds, for two images of one shape. *)
Record wf (c : ctx) : Prop := mkwf {
  wf_pr : shape (c_pr c) = c_shape c;
  wf_pn : shape (c_pn c) = c_shape c;
  wf_dr : shape (c_dr c) = c_shape c;
  wf_dn : shape (c_dn c) = c_shape c;
  wf_na : shape (c_na c) = c_shape c;
  wf_nb : shape (c_nb c) = c_shape c;
  wf_nac : forall i j, px (c_na c) i j = RtoC (c_nvar c ^ 2 * (fst (px (c_pr c) i j) ^ 2 + snd (px (c_pr c) i j) ^ 2));
  wf_nbc : forall i j, px (c_nb c) i j = RtoC (c_rvar c ^ 2 * (fst (px (c_pn c) i j) ^ 2 + snd (px (c_pn c) i j) ^ 2));
  wf_pr0 : forall i j, fst (px (c_pr c) i j) <> 0;
  wf_pn0 : forall i j, fst (px (c_pn c) i j) <> 0 }.

Lemma prepare_wf back fitted ref new mix zr zn c : d_shape new = d_shape ref ->
  prepare back fitted ref new mix zr zn = Ok c ->
  wf c /\ c_shape c = d_shape ref /\ c_rvar c = d_var ref /\ c_nvar c = d_var new /\
  c_ratio c = zn / zr /\ c_nzp c = zn /\ c_mask c = mix.
Proof.
  intros Sh. unfold prepare.
  destruct (center_of_mass (if fitted then frame (d_shape ref) (d_render ref) else d_stamp ref)) as [dxr dyr].
  destruct (center_of_mass (if fitted then frame (d_shape new) (d_render new) else d_stamp new)) as [dxn dyn].
  destruct (negb fitted && _); [discriminate|]. intros E. injection E as <-.
  split; [|cbn; auto 8].
  assert (forall sh : nat * nat, (fst sh, snd sh) = sh) as Pr by (intros []; reflexivity).
  constructor; unfold shape; cbn; try (rewrite ?Sh; apply Pr).
  - intros i j. apply mul_conj.
  - intros i j. apply mul_conj.
  - intros i j. apply no_zero_re.
  - intros i j. apply no_zero_re.
Qed.

Definition nrm (c : ctx) (b : R) (i j : nat) : R :=
  c_nvar c ^ 2 * (fst (px (c_pr c) i j) ^ 2 + snd (px (c_pr c) i j) ^ 2) +
  c_rvar c ^ 2 * (fst (px (c_pn c) i j) ^ 2 + snd (px (c_pn c) i j) ^ 2) * b ^ 2.

Lemma norm2_cell c b i j : wf c -> px (norm2 c b) i j = RtoC (nrm c b i j).
Proof.
  intros W. unfold norm2, pmap2. cbn [px]. rewrite (wf_nac c W), (wf_nbc c W).
  rewrite <- RtoC_mult, <- RtoC_plus. reflexivity.
Qed.

Lemma nrm_pos c b i j : wf c -> 0 < c_nvar c -> 0 < nrm c b i j.
Proof.
  intros W H. unfold nrm. pose proof (sq_pos _ (wf_pr0 c W i j)) as A.
  pose proof (sq_pos _ (wf_pn0 c W i j)) as B.
  assert (0 < c_nvar c ^ 2) by (apply pow_lt; exact H).
  assert (0 <= c_rvar c ^ 2) by (apply pow2_ge_0). assert (0 <= b ^ 2) by (apply pow2_ge_0).
  assert (0 < c_nvar c ^ 2 * (fst (px (c_pr c) i j) ^ 2 + snd (px (c_pr c) i j) ^ 2)) by (now apply Rmult_lt_0_compat).
  assert (0 <= c_rvar c ^ 2 * (fst (px (c_pn c) i j) ^ 2 + snd (px (c_pn c) i j) ^ 2) * b ^ 2).
  { apply Rmult_le_pos; [|assumption]. apply Rmult_le_pos; lra. }
  lra.
Qed.

(** ** setup *)
Lemma setup_inv e ref new align fitted c : setup e ref new align fitted = Ok c ->
  exists x y zr zn mix, as_image (e_mk e) (e_mkdata e) ref = Ok x /\
    (exists y0, as_image (e_mk e) (e_mkdata e) new = Ok y0 /\ (if align then e_reg e y0 x else Ok y0) = Ok y) /\
    d_shape y = d_shape x /\ mask_or (d_mask y) (d_mask x) = Ok mix /\ e_transp e x y = Ok (zr, zn) /\
    prepare (e_back e) fitted x y mix zr zn = Ok c.
Proof.
  unfold setup. intros H.
  destruct (as_image _ _ ref) as [x|]; [cbn [bind] in H|discriminate].
  destruct (as_image _ _ new) as [y0|]; [cbn [bind] in H|discriminate].
  destruct (if align then e_reg e y0 x else Ok y0) as [y|] eqn:Ey; [cbn [bind] in H|discriminate].
  destruct (_ && _)%bool eqn:Es; [|discriminate].
  apply andb_true_iff in Es. destruct Es as [E1 E2]. apply Nat.eqb_eq in E1, E2.
  destruct (mask_or _ _) as [mix|] eqn:Em; [cbn [bind] in H|discriminate].
  destruct (e_transp e x y) as [[zr zn]|] eqn:Et; [cbn [bind] in H|discriminate].
  exists x, y, zr, zn, mix. split; [reflexivity|]. split; [now exists y0|]. split.
  - destruct (d_shape y), (d_shape x). cbn in *. congruence.
  - auto.
Qed.

Lemma setup_images e x y fitted c : setup e (Is x) (Is y) false fitted = Ok c ->
  exists zr zn mix, d_shape y = d_shape x /\ mask_or (d_mask y) (d_mask x) = Ok mix /\
    e_transp e x y = Ok (zr, zn) /\ prepare (e_back e) fitted x y mix zr zn = Ok c.
Proof.
  intros H. destruct (setup_inv _ _ _ _ _ _ H) as (x' & y' & zr & zn & mix & E1 & [y0 [E2 E3]] & R).
  cbn in E1, E2. injection E1 as <-. injection E2 as <-. injection E3 as <-.
  exists zr, zn, mix. exact R.
Qed.

Lemma subtract_inv e ref new align beta shift it fitted r :
  subtract e ref new align beta shift it fitted = Ok r ->
  exists c b dx dy, setup e ref new align fitted = Ok c /\
    fit (e_solve e) c beta shift it = Ok (b, dx, dy) /\
    ratio_and_shift e ref new align beta shift it fitted = Ok (b, dx, dy) /\ r = difference c b dx dy.
Proof.
  unfold subtract, ratio_and_shift. destruct (setup _ _ _ _ _) as [c|]; [cbn [bind]|discriminate].
  destruct (fit _ _ _ _ _) as [[[b dx] dy]|] eqn:F; [cbn [bind]|discriminate].
  intros E. injection E as <-. exists c, b, dx, dy. auto.
Qed.

(** ** Contexts up to equality of cells *)
Definition zero_shift (c : ctx) (b : R) : plane C :=
  frame (c_shape c) (fun i j =>
    ((px (c_dn c) i j - RtoC b * px (c_dr c) i j) / RtoC (sqrt (nrm c b i j)))%C).

Lemma diff_hat_0 c b : wf c -> 0 < c_nvar c -> plane_eq (diff_hat c b 0 0) (zero_shift c b).
Proof.
  intros W Hv. unfold diff_hat. destruct (Req_EM_T 0 0) as [_|N]; [|congruence].
  split; [transitivity (shape (c_dn c)); [reflexivity|]|].
  { rewrite (wf_dn c W). unfold zero_shift, frame, shape. cbn. now destruct (c_shape c). }
  intros i j _ _. unfold zero_shift, frame.
  unfold pmap2 at 1. cbn [px]. rewrite norm2_cell by exact W.
  rewrite csqrt_pos by (now apply nrm_pos). reflexivity.
Qed.

(** ** C16 *)
Lemma norm_positive e ref new align fitted c b i j : setup e ref new align fitted = Ok c ->
  0 < c_nvar c -> exists r, 0 < r /\ px (norm2 c b) i j = RtoC r /\ csqrt (px (norm2 c b) i j) <> RtoC 0.
Proof.
  intros H Hv. destruct (setup_inv _ _ _ _ _ _ H) as (x & y & zr & zn & mix & _ & _ & Sh & _ & _ & Ep).
  destruct (prepare_wf _ _ _ _ _ _ _ _ Sh Ep) as [W _].
  exists (nrm c b i j). pose proof (nrm_pos c b i j W Hv) as P. split; [exact P|].
  rewrite norm2_cell by exact W. split; [reflexivity|]. rewrite csqrt_pos by exact P.
  intros E. apply RtoC_inj' in E. pose proof (sqrt_lt_R0 _ P). lra.
Qed.
