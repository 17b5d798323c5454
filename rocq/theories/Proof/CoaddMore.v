(** Further facts about the result of [coadd]. *)
From Coq Require Import Arith ZArith List Bool Reals Lia Lra Permutation.
From Coquelicot Require Import Complex.
From Verif.Model Require Import Py Plane Ma Chunk Coadd.
From Verif.Spec Require Import Coadd.
From Verif.Proof Require Import Chunk ChunkSort Coadd CoaddThreads Fourier CoaddMain CoaddFail.
Import ListNotations.
Set Bullet Behavior "Strict Subproofs".

(** The three cases of a run of the core of coadd on images that fit together. *)
Lemma core_cases fuel sched h ids sh n : ids <> [] -> (n <= 2 ^ 52)%Z ->
  (Z.of_nat (length ids) < 2 ^ 52)%Z -> 5 * Z.to_nat n + 1 <= fuel ->
  NoDup ids -> images_fit h ids sh ->
  coadd_core fuel sched h ids n = None \/
  ((Z.max 1 (Z.of_nat (length ids)) < n)%Z /\ coadd_core fuel sched h ids n = Some (Raise IndexError)) \/
  ((n <= Z.max 1 (Z.of_nat (length ids)))%Z /\
   exists ps a, coadd_core fuel sched h ids n = Some (Ok (finish ps a)) /\
    np_max (map (fun i => si_stamp (h i)) ids) = Ok ps /\
    sum_is sh (aS a) (curc h) ids /\ sum_is sh (aP a) (ptc h) ids /\ uni_is sh h (aM a) ids /\
    shrunk sh (aM a)).
Proof.
  intros Hne Hn Hl Hfu Nd Hf.
  destruct (Z_le_gt_dec n 1) as [H1|H1].
  - right; right. split; [lia|]. now apply seq_spec.
  - destruct (Z_le_gt_dec n (Z.of_nat (length ids))) as [H2|H2].
    + destruct (par_spec fuel sched h ids sh n) as [chunks [_ [[H|H] _]]]; auto; try lia.
      right; right. split; [lia|exact H].
    + destruct (too_many_workers fuel sched h ids sh n) as [chunks [_ [[H|H] _]]]; auto; try lia.
      right; left. split; [|exact H]. destruct ids; [congruence|]. cbn [length] in *. lia.
Qed.

Lemma core_result fuel sched h ids sh n r : ids <> [] -> run_limits fuel ids n -> images_fit h ids sh ->
  coadd_core fuel sched h ids n = Some (Ok r) ->
  exists ps a, r = finish ps a /\
    np_max (map (fun i => si_stamp (h i)) ids) = Ok ps /\
    sum_is sh (aS a) (curc h) ids /\ sum_is sh (aP a) (ptc h) ids /\ uni_is sh h (aM a) ids /\
    shrunk sh (aM a).
Proof.
  intros Hne Hc Hf E.
  assert (exists ps a, coadd_core fuel sched h ids n = Some (Ok (finish ps a)) /\
    np_max (map (fun i => si_stamp (h i)) ids) = Ok ps /\
    sum_is sh (aS a) (curc h) ids /\ sum_is sh (aP a) (ptc h) ids /\ uni_is sh h (aM a) ids /\
    shrunk sh (aM a)) as [ps [a [E' R]]].
  { destruct Hc as [Hc|[H1 [H2 [H3 H4]]]]; [now apply seq_spec|].
    destruct (core_cases fuel sched h ids sh n) as [H|[[_ H]|[_ H]]]; auto; congruence. }
  rewrite E in E'. injection E' as ->. exists ps, a. auto.
Qed.

Lemma uni_union sh h m ids : uni_is sh h m ids -> shrunk sh m ->
  is_union (fun i => si_mask (h i)) ids sh m.
Proof.
  intros [_ U] Sm. split; [|split].
  - intros i j Hi Hj. rewrite U by assumption. rewrite existsb_exists. reflexivity.
  - split.
    + intros -> a i j Ha Hi Hj. specialize (U i j Hi Hj). cbn in U. symmetry in U.
      destruct (masked_at (si_mask (h a)) i j) eqn:E; [|reflexivity].
      assert (existsb (fun k => masked_at (si_mask (h k)) i j) ids = true) by (apply existsb_exists; eauto).
      congruence.
    + intros H. destruct m as [|p]; [reflexivity|]. exfalso.
      destruct Sm as [_ [i [j [Hi [Hj E]]]]]. specialize (U i j Hi Hj). cbn in U. rewrite E in U.
      symmetry in U. apply existsb_exists in U as [a [Ha Em]]. rewrite (H a i j Ha Hi Hj) in Em. discriminate.
  - destruct m; [exact Logic.I|apply Sm].
Qed.

Lemma mask_is_union fuel sched h ids sh n Rr P m : ids <> [] -> run_limits fuel ids n -> images_fit h ids sh ->
  coadd_core fuel sched h ids n = Some (Ok (Rr, P, m)) -> is_union (fun i => si_mask (h i)) ids sh m.
Proof.
  intros Hne Hc Hf E. destruct (core_result _ _ _ _ _ _ _ Hne Hc Hf E) as [ps [a [Er [_ [_ [_ [U Sm]]]]]]].
  unfold finish in Er. injection Er as _ _ ->. now apply uni_union.
Qed.

Lemma result_shapes fuel sched h ids sh n Rr P m : ids <> [] -> run_limits fuel ids n -> images_fit h ids sh ->
  coadd_core fuel sched h ids n = Some (Ok (Rr, P, m)) -> shape Rr = sh /\ shape P = sh.
Proof.
  intros Hne Hc Hf E. destruct (core_result _ _ _ _ _ _ _ Hne Hc Hf E) as [ps [a [Er [_ [[S1 _] [[S2 _] _]]]]]].
  unfold finish in Er. injection Er as -> -> _. auto.
Qed.

(** Order of the images, number of workers and schedule do not matter. *)
Lemma order_irrelevant fuel sched fuel' sched' h ids ids' sh n n' r r' :
  ids <> [] -> Permutation ids ids' -> run_limits fuel ids n -> run_limits fuel' ids' n' ->
  images_fit h ids sh ->
  coadd_core fuel sched h ids n = Some (Ok r) -> coadd_core fuel' sched' h ids' n' = Some (Ok r') ->
  result_eq r r'.
Proof.
  intros Hne P Hc Hc' Hf E E'.
  assert (ids' <> []) as Hne' by (intros ->; apply Permutation_sym, Permutation_nil in P; contradiction).
  assert (images_fit h ids' sh) as Hf'.
  { intros i Hi. apply Hf. now apply (Permutation_in _ (Permutation_sym P)). }
  destruct (core_result _ _ _ _ _ _ _ Hne Hc Hf E) as [ps [a [-> [Ep [A1 [A2 [A3 A4]]]]]]].
  destruct (core_result _ _ _ _ _ _ _ Hne' Hc' Hf' E') as [ps' [a' [-> [Ep' [B1 [B2 [B3 B4]]]]]]].
  assert (ps = ps') as <-.
  { apply (np_max_perm _ _ _ _ Ep Ep'). intros x. rewrite !in_map_iff.
    split; intros [y [Ey Hy]]; exists y; split; auto.
    - now apply (Permutation_in _ P).
    - now apply (Permutation_in _ (Permutation_sym P)). }
  apply finish_ext. split; [|split; [|split]].
  - apply (sum_is_eq sh _ _ (curc h) ids ids'); auto. intros. now apply total_perm.
  - apply (sum_is_eq sh _ _ (ptc h) ids ids'); auto. intros. now apply total_perm.
  - apply shrunk_eq with sh; auto. intros i j Hi Hj. rewrite (proj2 A3), (proj2 B3) by assumption.
    apply eq_true_iff_eq. rewrite !existsb_exists.
    split; intros [y [Hy Ey]]; exists y; split; auto.
    + now apply (Permutation_in _ P).
    + now apply (Permutation_in _ (Permutation_sym P)).
  - rewrite (proj1 A1), (proj1 A2). reflexivity.
Qed.

(** ** Square roots *)
Local Open Scope R_scope.
Lemma abs_between a m : Rabs a <= m -> - m <= a <= m.
Proof. intros H. pose proof (Rle_abs a). pose proof (Rle_abs (- a)) as H1. rewrite Rabs_Ropp in H1. lra. Qed.

Lemma csqrt_sq z : (csqrt z * csqrt z)%C = z.
Proof.
  destruct z as [a b]. unfold csqrt, Cmult. cbn [fst snd].
  assert (Rabs a <= Cmod (a, b)) as Ha.
  { pose proof (Rmax_Cmod (a, b)) as H. cbn in H. eapply Rle_trans; [apply Rmax_l|exact H]. }
  set (m := Cmod (a, b)) in *.
  assert (m * m = a * a + b * b) as Hm.
  { unfold m, Cmod. cbn [fst snd]. rewrite sqrt_sqrt; [ring|]. nra. }
  assert (0 <= (m + a) / 2 /\ 0 <= (m - a) / 2) as [P1 P2].
  { apply abs_between in Ha. lra. }
  assert (sqrt ((m + a) / 2) * sqrt ((m - a) / 2) = Rabs b / 2) as E.
  { rewrite <- sqrt_mult by assumption.
    replace ((m + a) / 2 * ((m - a) / 2)) with ((b / 2) * (b / 2)) by (field_simplify; nra).
    rewrite sqrt_Rsqr_abs || (replace (b / 2 * (b / 2)) with (Rsqr (b / 2)) by reflexivity; rewrite sqrt_Rsqr_abs).
    unfold Rdiv. rewrite Rabs_mult. f_equal. apply Rabs_pos_eq. lra. }
  pose proof (sqrt_sqrt _ P1) as Q1. pose proof (sqrt_sqrt _ P2) as Q2.
  destruct (Rle_dec 0 b) as [Hb|Hb].
  - rewrite Rabs_pos_eq in E by exact Hb. f_equal; nra.
  - rewrite Rabs_left in E by lra. f_equal; nra.
Qed.

Lemma csqrt_neq0 z : z <> RtoC 0 -> csqrt z <> RtoC 0.
Proof. intros H E. apply H. rewrite <- (csqrt_sq z), E. ring. Qed.

Lemma Cmod_scale k z : 0 <= k -> Cmod (RtoC k * z)%C = k * Cmod z.
Proof. intros H. rewrite Cmod_mult, Cmod_R, Rabs_pos_eq; auto. Qed.

Lemma csqrt_scale k z : 0 < k -> csqrt (RtoC k * z)%C = (RtoC (sqrt k) * csqrt z)%C.
Proof.
  intros Hk. destruct z as [a b]. unfold csqrt. rewrite Cmod_scale by lra.
  set (m := Cmod (a, b)).
  assert (Rabs a <= m) as Ha.
  { pose proof (Rmax_Cmod (a, b)) as H. cbn in H. eapply Rle_trans; [apply Rmax_l|exact H]. }
  apply abs_between in Ha.
  unfold Cmult, RtoC. cbn [fst snd].
  replace ((k * m + (k * a - 0 * b)) / 2) with (k * ((m + a) / 2)) by field.
  replace ((k * m - (k * a - 0 * b)) / 2) with (k * ((m - a) / 2)) by field.
  rewrite !sqrt_mult by lra.
  replace (k * b + 0 * a) with (k * b) by ring.
  destruct (Rle_dec 0 (k * b)) as [H|H]; destruct (Rle_dec 0 b) as [H'|H'].
  - f_equal; ring.
  - exfalso. nra.
  - exfalso. apply H. nra.
  - f_equal; ring.
Qed.

(** ** Linearity of the end of coadd *)
Lemma idft_scale k F : plane_eq (idft_raw (pmap (fun z => (k * z)%C) F)) (pmap (fun z => (k * z)%C) (idft_raw F)).
Proof.
  split; [reflexivity|]. intros x y _ _. unfold idft_raw, pmap. cbn [px nr nc].
  rewrite <- csum_scale. apply csum_ext. intros u _. rewrite <- csum_scale. apply csum_ext.
  intros v _. ring.
Qed.

Lemma ifft2_scale k F : plane_eq (ifft2 (pmap (fun z => (k * z)%C) F)) (pmap (fun z => (k * z)%C) (ifft2 F)).
Proof.
  destruct (idft_scale k F) as [S H]. split; [exact S|]. intros i j Hi Hj. unfold ifft2, pmap at 1 3 4.
  cbn [px]. rewrite H by assumption. cbn [px pmap nr nc]. ring.
Qed.

Lemma total_const {A} (f : A -> C) v l : (forall a, In a l -> f a = v) -> total f l = (RtoC (INR (length l)) * v)%C.
Proof.
  induction l as [|a l IH]; intros H.
  - cbn. ring.
  - rewrite total_cons, IH, H by (auto using in_eq, in_cons). cbn [length]. rewrite S_INR, RtoC_plus. ring.
Qed.

Lemma Cmult_neq0 a b : a <> RtoC 0 -> b <> RtoC 0 -> (a * b)%C <> RtoC 0.
Proof. apply Cmult_neq_0. Qed.

Lemma RtoC_neq0 x : x <> 0 -> RtoC x <> RtoC 0.
Proof. intros H E. apply H. now apply RtoC_inj'. Qed.

(** ** n copies of one image *)
Lemma copies fuel sched fuel1 sched1 h ids i0 x sh n R1 P1 m1 Rn Pn mn :
  ids <> [] -> run_limits fuel ids n -> (forall i, In i ids -> h i = x) -> h i0 = x ->
  images_fit h [i0] sh -> (0 < fst sh)%nat -> (0 < snd sh)%nat ->
  si_zp x <> 0 -> si_var x <> 0 ->
  (forall r c, (r < fst sh)%nat -> (c < snd sh)%nat -> si_sq x (si_loss x) r c <> RtoC 0) ->
  coadd_core fuel1 sched1 h [i0] 1 = Some (Ok (R1, P1, m1)) ->
  coadd_core fuel sched h ids n = Some (Ok (Rn, Pn, mn)) ->
  plane_eq Rn (pmap (fun z => (RtoC (sqrt (INR (length ids))) * z)%C) R1) /\
  plane_eq Pn P1 /\ mask_eq mn m1.
Proof.
  intros Hne Hc Hx Hi0 Hf0 D1 D2 Hz Hv Hsq E1 En.
  assert (images_fit h ids sh) as Hf.
  { intros i Hi. rewrite (Hx i Hi), <- Hi0. apply Hf0. now left. }
  assert (run_limits fuel1 [i0] 1) as Hc1 by (left; lia).
  assert ([i0] <> []) as Hne1 by discriminate.
  destruct (core_result _ _ _ _ _ _ _ Hne Hc Hf En) as [ps [a [Ea [Ep [A1 [A2 [A3 A4]]]]]]].
  destruct (core_result _ _ _ _ _ _ _ Hne1 Hc1 Hf0 E1) as [ps' [b [Eb [Ep' [B1 [B2 [B3 B4]]]]]]].
  assert (ps = ps') as <-.
  { apply (np_max_perm _ _ _ _ Ep Ep'). intros y. cbn. rewrite in_map_iff. split.
    - intros [i [<- Hi]]. left. now rewrite (Hx i Hi), Hi0.
    - intros [<-|[]]. destruct ids as [|i ids]; [congruence|]. exists i. split; [|now left].
      rewrite (Hx i) by (now left). now rewrite Hi0. }
  set (k := INR (length ids)).
  assert (0 < k) as Hk.
  { unfold k. apply INR_pos. destruct ids; [congruence|cbn; lia]. }
  assert (RtoC (sqrt k) <> RtoC 0) as Hsk by (apply RtoC_neq0; apply Rgt_not_eq, sqrt_lt_R0; exact Hk).
  assert (forall i r c, In i ids -> curc h i r c = curc h i0 r c /\ ptc h i r c = ptc h i0 r c) as Hsame.
  { intros i r c Hi. unfold curc, ptc. rewrite (Hx i Hi), Hi0. auto. }
  destruct (shape_fst _ _ (proj1 A1)) as [NA1 NA2]. destruct (shape_fst _ _ (proj1 A2)) as [NP1 NP2].
  destruct (shape_fst _ _ (proj1 B1)) as [NB1 NB2]. destruct (shape_fst _ _ (proj1 B2)) as [NQ1 NQ2].
  assert (plane_eq (aS a) (pmap (fun z => (RtoC k * z)%C) (aS b))) as ES.
  { split; [transitivity sh; [apply A1|symmetry; apply B1]|]. intros r c Hr Hcc. cbn.
    rewrite (proj2 A1), (proj2 B1) by lia.
    rewrite (total_const _ (curc h i0 r c)) by (intros i Hi; now apply Hsame).
    unfold total. cbn. fold k. ring. }
  assert (plane_eq (aP a) (pmap (fun z => (RtoC k * z)%C) (aP b))) as EP.
  { split; [transitivity sh; [apply A2|symmetry; apply B2]|]. intros r c Hr Hcc. cbn.
    rewrite (proj2 A2), (proj2 B2) by lia.
    rewrite (total_const _ (ptc h i0 r c)) by (intros i Hi; now apply Hsame).
    unfold total. cbn. fold k. ring. }
  assert (forall r c, (r < fst sh)%nat -> (c < snd sh)%nat -> px (aP b) r c <> RtoC 0) as HP.
  { intros r c Hr Hcc. rewrite (proj2 B2) by assumption. unfold total. cbn. rewrite Cplus_0_r.
    unfold ptc, pterm, psf_term, arr. cbn [px]. rewrite Hi0. apply Cmult_neq0.
    - apply RtoC_neq0. unfold Rdiv. cbn. rewrite Rmult_1_r. apply Rmult_integral_contrapositive_currified.
      all: apply Rmult_integral_contrapositive_currified; auto; now apply Rinv_neq_0_compat.
    - now apply Hsq. }
  assert (plane_eq (pmap csqrt (aP a)) (pmap (fun z => (RtoC (sqrt k) * z)%C) (pmap csqrt (aP b)))) as EQ.
  { split; [exact (proj1 EP)|]. intros r c Hr Hcc. cbn in Hr, Hcc |- *. rewrite (proj2 EP) by assumption. cbn.
    now apply csqrt_scale. }
  unfold finish in Ea, Eb. injection Ea as -> -> ->. injection Eb as -> -> ->.
  split; [|split].
  - eapply plane_eq_trans; [|apply ifft2_scale]. apply ifft2_ext. split; [exact (proj1 ES)|].
    intros r c Hr Hcc. cbn in Hr, Hcc |- *.
    rewrite (proj2 ES) by assumption. rewrite (proj2 EP) by lia. cbn. rewrite csqrt_scale by exact Hk.
    assert (csqrt (px (aP b) r c) <> RtoC 0) as Hn by (apply csqrt_neq0, HP; lia).
    replace (RtoC k) with (RtoC (sqrt k) * RtoC (sqrt k))%C by (rewrite <- RtoC_mult, sqrt_sqrt; [reflexivity|lra]).
    field. auto.
  - set (F := pmap csqrt (aP b)) in *.
    set (G := ifft2 (fourier_shift F (INR ps) (INR ps))).
    assert (plane_eq (ifft2 (fourier_shift (pmap csqrt (aP a)) (INR ps) (INR ps)))
              (pmap (fun z => (RtoC (sqrt k) * z)%C) G)) as EG.
    { eapply plane_eq_trans; [apply ifft2_ext, fourier_shift_ext, EQ|].
      eapply plane_eq_trans; [|apply ifft2_scale]. apply ifft2_ext. split; [reflexivity|].
      intros u v _ _. cbn. ring. }
    rewrite (psum_ext _ _ EG), psum_scale.
    assert (psum G <> RtoC 0) as HG.
    { unfold G. rewrite psum_ifft2.
      - cbn. apply Cmult_neq0; [apply csqrt_neq0, HP; assumption|apply cis_neq0].
      - cbn. lia.
      - cbn. lia. }
    destruct EG as [SG VG]. split; [exact SG|]. intros r c Hr Hcc. cbn in Hr, Hcc. cbn [pmap px].
    rewrite VG by assumption. cbn [pmap px]. field. auto.
  - apply shrunk_eq with sh; auto. intros r c Hr Hcc. rewrite (proj2 A3), (proj2 B3) by assumption.
    cbn. rewrite orb_false_r, Hi0. apply eq_true_iff_eq. rewrite existsb_exists. split.
    + intros [i [Hi H]]. now rewrite (Hx i Hi) in H.
    + intros H. destruct ids as [|i ids]; [congruence|]. exists i. split; [now left|].
      now rewrite (Hx i) by (now left).
Qed.

(** ** The PSF sums to one *)
Lemma psf_sum_one fuel sched h ids sh n Rr P m : ids <> [] -> run_limits fuel ids n -> images_fit h ids sh ->
  (0 < fst sh)%nat -> (0 < snd sh)%nat ->
  total (fun i => (RtoC ((si_zp (h i) / si_var (h i)) ^ 2) * si_sq (h i) (si_loss (h i)) 0%nat 0%nat)%C) ids <> RtoC 0 ->
  coadd_core fuel sched h ids n = Some (Ok (Rr, P, m)) -> psum P = RtoC 1.
Proof.
  intros Hne Hc Hf D1 D2 Ht E.
  destruct (core_result _ _ _ _ _ _ _ Hne Hc Hf E) as [ps [a [Ea [Ep [A1 [A2 _]]]]]].
  unfold finish in Ea. injection Ea as _ -> _.
  destruct (shape_fst _ _ (proj1 A2)) as [NP1 NP2].
  set (G := ifft2 (fourier_shift (pmap csqrt (aP a)) (INR ps) (INR ps))).
  assert (psum G <> RtoC 0) as HG.
  { unfold G. rewrite psum_ifft2 by (cbn; lia). cbn.
    apply Cmult_neq0; [apply csqrt_neq0|apply cis_neq0].
    rewrite (proj2 A2) by assumption. exact Ht. }
  transitivity (psum (pmap (fun z => (/ psum G * z)%C) G)).
  - apply psum_ext. split; [reflexivity|]. intros i j _ _. cbn [pmap px]. unfold Cdiv. ring.
  - rewrite psum_scale. now apply Cinv_l.
Qed.
