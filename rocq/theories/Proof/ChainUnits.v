(** The unit of the pixels: main lemmas. *)
From Coq Require Import ZArith List Bool Arith Reals Lia Lra FunctionalExtensionality SpecFloat.
From Flocq Require Import Core.Core IEEE754.BinarySingleNaN.
From Coquelicot Require Import Complex.
From Verif.Model Require Import Py Plane Ma Image Interp FindS Sources Stamps KL Session Filter Transparency Subtract Chain.
From Verif.Spec Require Import Image Chain Session.
From Verif.Proof Require Import Fourier Dft Chain ChainScale SessionLm.
Import ListNotations.
Set Bullet Behavior "Strict Subproofs".
Local Open Scope R_scope.

Lemma multiplied_tied k im im' : multiplied_by k im im' -> tied (fun x => k * x) (mdata im) (mdata im').
Proof. intros [S H]. apply mdata_tied; [exact S|exact H]. Qed.

Section Units.
Variable W : libs.
Variable k : R.
Hypothesis Kp : 0 < k.
Hypothesis blind : sep_skips_masked W.
Hypothesis free : unit_free W.

Notation ktimes := (pmap (fun x => k * x)).

(** The attributes of the second image, whose catalogue may have been read. *)
Definition kattr (s : si (plane R) (res (plane C)) (res (plane R))) :
  si (plane R) (res (plane C)) (res (plane R)) :=
  set_best _ _ _ (option_map (map (brighter k)) (best s)) s.

Definition klib (o : choices) (d' : mimg) (x : built) : built :=
  mkbuilt d' (kback k (bu_back x)) (ktimes (bu_clean x))
    (lib_of W (o_stack o) (o_min o) (mkpicks (o_pick o) None) d' (kback k (bu_back x)) (ktimes (bu_clean x)))
    (kattr (bu_attr x)).

Lemma build_scale fuel o d d' : sane d -> sane d' -> tied (fun x => k * x) d d' ->
  build W fuel o d' = match build W fuel o d with
                      | Some (Ok x) => Some (Ok (klib o d' x))
                      | r => r
                      end.
Proof.
  intros I I' T. unfold build. rewrite (set_bkg_scale k Kp W blind free (o_thresh o) d d' I I' T).
  destruct (set_bkg W (o_thresh o) d) as [b|e]; [|reflexivity]. cbn [rmap].
  rewrite (clean_scale k Kp W free fuel d d' b T).
  destruct (clean W fuel d b) as [img|]; [|reflexivity]. cbn [option_map].
  destruct (o_stamp o); [reflexivity|].
  change (Session.select (lib_of W ?st ?mn ?pk d b img)) with (catalogue W st mn d b).
  change (Session.select (lib_of W ?st ?mn ?pk d' ?b' ?i')) with (catalogue W st mn d' b').
  rewrite (catalogue_scale k Kp W blind free _ _ d d' b T).
  destruct (catalogue W (o_stack o) (o_min o) d b) as [srcs|e]; [|reflexivity].
  cbn [rmap bind]. rewrite default_side_scale. reflexivity.
Qed.

Lemma build_lib fuel o d x : build W fuel o d = Some (Ok x) ->
  bu_data x = d /\
  bu_lib x = lib_of W (o_stack o) (o_min o) (mkpicks (o_pick o) None) d (bu_back x) (bu_clean x) /\
  exists sh, new_image (bu_lib x) sh (bu_attr x) /\ sh = stamp_shape (bu_attr x).
Proof.
  unfold build. destruct (set_bkg W (o_thresh o) d) as [b|]; [|discriminate].
  destruct (clean W fuel d b) as [img|]; [|discriminate].
  destruct (o_stamp o) as [sh|].
  - intros [= <-]. cbn. repeat split. exists sh. split; [now left|reflexivity].
  - destruct (Session.select _) as [srcs|] eqn:E; cbn [bind]; [|discriminate]. intros [= <-]. cbn.
    repeat split. eexists. split; [|reflexivity]. right. exists srcs. split; [exact E|reflexivity].
Qed.

Lemma stamps_scale st mn pk d d' b img sh : tied (fun x => k * x) d d' ->
  stamps_of _ _ _ (lib_of W st mn pk d' (kback k b) (ktimes img)) sh =
  stamps_of _ _ _ (lib_of W st mn pk d b img) sh.
Proof.
  intros T. unfold stamps_of, lib_of. cbn [Session.select extract].
  rewrite (catalogue_scale k Kp W blind free st mn d d' b T).
  destruct (catalogue W st mn d b) as [srcs|]; [|reflexivity]. cbn [rmap].
  change (b_rms (kback k b)) with (k * b_rms b). rewrite (extract_for_scale k Kp).
  destruct (extract_for W pk img (b_rms b) sh srcs) as [stamps [[p c]|e]]; reflexivity.
Qed.

Lemma psf_scale st mn pk d d' b img sh l : tied (fun x => k * x) d d' ->
  psf_for (lib_of W st mn pk d' (kback k b) (ktimes img)) sh l =
  psf_for (lib_of W st mn pk d b img) sh l.
Proof. intros T. unfold psf_for. rewrite (stamps_scale _ _ _ _ _ _ _ _ T). reflexivity. Qed.
End Units.

(** The extraction returns one position for each stamp it kept. *)
Lemma dump_loop_length W pk img rms sh srcs jj : forall stamps p del,
  dump_loop W pk img rms sh srcs jj = (stamps, Ok (p, del)) -> length stamps = length p.
Proof.
  revert jj. induction srcs as [|s t IH]; intros jj stamps p del; cbn [dump_loop].
  - intros [= <- <- <-]. reflexivity.
  - destruct (one_stamp _ _ _ _ _ _ _) as [o|]; [|discriminate].
    destruct (dump_loop W pk img rms sh t (S jj)) as [st [[p' d']|e]] eqn:E; specialize (IH (S jj));
      rewrite E in IH; destruct o; cbn [bind fst snd]; intros [= <- <- <-]; cbn [length];
      rewrite (IH _ _ _ eq_refl); reflexivity.
Qed.

Lemma lib_of_ok W st mn pk d b img : (forall n c, length (fst (l_eigh W n c)) = n) ->
  lib_ok (lib_of W st mn pk d b img).
Proof.
  intros E. split; [|exact E]. intros sh cat stamps positions kept. cbn [lib_of extract]. unfold extract_for.
  destruct (dump_loop W pk img (b_rms b) sh cat 0) as [s [[p d']|e]] eqn:D; cbn [bind]; [|discriminate].
  intros [= <- <- <-]. rewrite map_length. exact (dump_loop_length _ _ _ _ _ _ _ _ _ _ D).
Qed.

(** The second image has [k] times the background, the noise and the interpolated image of the
    first; the same sources, with fluxes [k] times as large; the same stamp_shape. It cannot be
    built exactly when the first cannot, for the same reason. *)
Lemma C95_construct_lm : forall W k fuel o im im', 0 < k -> sep_skips_masked W -> unit_free W ->
  multiplied_by k im im' ->
  match build W fuel o (mdata im), build W fuel o (mdata im') with
  | Some (Ok x), Some (Ok x') =>
      (forall i j, px (background (bu_back x')) i j = k * px (background (bu_back x)) i j) /\
      var (bu_back x') = k * var (bu_back x) /\
      (forall i j, px (bu_clean x') i j = k * px (bu_clean x) i j) /\
      fst (Session.best_sources (bu_lib x') (bu_attr x')) =
        match fst (Session.best_sources (bu_lib x) (bu_attr x)) with
        | Ok l => Ok (map (brighter k) l)
        | Raise e => Raise e
        end /\
      stamp_shape (bu_attr x') = stamp_shape (bu_attr x)
  | Some (Raise e), Some (Raise e') => e = e'
  | None, None => True
  | _, _ => False
  end.
Proof.
  intros W k fuel o im im' Kp B F M. apply multiplied_tied in M.
  rewrite (build_scale W k Kp B F fuel o _ _ (mdata_sane im) (mdata_sane im') M).
  destruct (build W fuel o (mdata im)) as [[x|e]|] eqn:E; [|reflexivity|exact I].
  split; [reflexivity|]. split; [reflexivity|]. split; [reflexivity|]. split; [|reflexivity].
  destruct (build_lib _ _ _ _ _ E) as (D & L & sh & N & _). rewrite L. cbn [klib bu_lib bu_attr].
  unfold Session.best_sources, kattr. cbn [best set_best].
  destruct (best (bu_attr x)) as [c|]; [reflexivity|]. cbn [option_map].
  cbn [lib_of Session.select]. rewrite (catalogue_scale k Kp W B F _ _ _ _ (bu_back x) M).
  now destruct (catalogue W (o_stack o) (o_min o) (mdata im) (bu_back x)).
Qed.

(** The PSF and its stamps are the same, for every history of calls. *)
Lemma C95_psf_lm : forall W k fuel o im im' x x', 0 < k -> sep_skips_masked W -> unit_free W ->
  (forall n c, length (fst (l_eigh W n c)) = n) -> multiplied_by k im im' ->
  build W fuel o (mdata im) = Some (Ok x) -> build W fuel o (mdata im') = Some (Ok x') ->
  (forall sh, stamps_of _ _ _ (bu_lib x') sh = stamps_of _ _ _ (bu_lib x) sh) /\
  forall cs, Forall plain cs -> forall l, match l with Some l => 0 <= l | None => True end ->
    fst (get_variable_psf (bu_lib x') l None (bu_attr (after cs x'))) =
    fst (get_variable_psf (bu_lib x) l None (bu_attr (after cs x))).
Proof.
  intros W k fuel o im im' x x' Kp B F EL M E E'. apply multiplied_tied in M.
  rewrite (build_scale W k Kp B F fuel o _ _ (mdata_sane im) (mdata_sane im') M), E in E'. injection E' as <-.
  destruct (build_lib _ _ _ _ _ E) as (D & L & sh & N & Sh).
  assert (N' : new_image (bu_lib (klib W k o (mdata im') x)) sh (bu_attr (klib W k o (mdata im') x))).
  { cbn [klib bu_lib bu_attr]. unfold kattr. destruct N as [->|(c & Ec & ->)].
    - left. reflexivity.
    - right. exists (map (brighter k) c). rewrite L in Ec. cbn [lib_of Session.select] in Ec |- *.
      rewrite (catalogue_scale k Kp W B F _ _ _ _ (bu_back x) M), Ec. split; reflexivity. }
  split.
  - intros s. rewrite L. cbn [klib bu_lib]. apply (stamps_scale W k Kp B F). exact M.
  - intros cs P l Hl. cbn [after bu_attr].
    assert (O : lib_ok (bu_lib x)) by (rewrite L; now apply lib_of_ok).
    assert (O' : lib_ok (bu_lib (klib W k o (mdata im') x))) by (now apply lib_of_ok).
    destruct (C39_history_lm _ _ _ _ _ _ cs O N P) as (A & A2 & _).
    destruct (C39_history_lm _ _ _ _ _ _ cs O' N' P) as (A' & A2' & _).
    assert (G : forall l, psf_for (bu_lib (klib W k o (mdata im') x)) sh l = psf_for (bu_lib x) sh l).
    { intros l0. rewrite L. cbn [klib bu_lib]. apply (psf_scale W k Kp B F). exact M. }
    destruct l as [l|]; [rewrite A, A' by exact Hl|rewrite A2, A2']; apply G.
Qed.

(** ** The matched filter *)

Lemma dft_scale c f u v : px (fft2_ortho (pmap (fun z => (c * z)%C) f)) u v = (c * px (fft2_ortho f) u v)%C.
Proof.
  unfold fft2_ortho, dft_raw. cbn [px pmap nr nc].
  match goal with |- (?a * ?b)%C = (c * (?a' * ?b'))%C => replace b with (c * b')%C; [ring|] end.
  rewrite <- csum_scale. apply csum_ext. intros x _. rewrite <- csum_scale. apply csum_ext. intros y _. ring.
Qed.

Lemma s_base_scale k sh f r z r' z' nrm fs bs :
  s_base (mkfimg sh (fun i j => k * f i j) r' z') nrm fs bs =
  rmap (pmap (fun z => (RtoC k * z)%C)) (s_base (mkfimg sh f r z) nrm fs bs).
Proof.
  unfold s_base. destruct bs as [|b bs]; [reflexivity|]. cbn [rmap]. f_equal. destruct fs as [fs|].
  - unfold s_hat_fields. cbn [f_shape f_pix].
    set (d := center_of_mass b).
    replace (pconst sh (RtoC 0)) with (pmap (fun z => (RtoC k * z)%C) (pconst sh (RtoC 0))) at 1.
    2:{ apply plane_ext; [reflexivity|]. intros i j. cbn. ring. }
    generalize (pconst sh (RtoC 0)). generalize (combine fs (b :: bs)).
    induction l as [|[g e] l IH]; intros acc; [reflexivity|]. cbn [fold_left fst snd]. rewrite <- IH. f_equal.
    apply plane_ext; [reflexivity|]. intros i j. unfold pmap2, fourier_shift. cbn [px pmap nr nc].
    replace (frame sh (fun i j => RtoC (k * f i j * g i j / nrm i j))) with
      (pmap (fun z => (RtoC k * z)%C) (frame sh (fun i j => RtoC (f i j * g i j / nrm i j)))).
    2:{ apply plane_ext; [reflexivity|]. intros x y. cbn [px pmap frame]. rewrite <- RtoC_mult. f_equal. unfold Rdiv. ring. }
    rewrite dft_scale. unfold times_conj. cbn [nr nc pmap fft2_ortho dft_raw frame]. ring.
  - unfold s_hat_const. cbn [f_shape f_pix]. destruct (center_of_mass b) as [dx dy].
    apply plane_ext; [reflexivity|]. intros i j. unfold pmap2, fourier_shift. cbn [px pmap nr nc].
    replace (frame sh (fun i j => RtoC (k * f i j))) with (pmap (fun z => (RtoC k * z)%C) (frame sh (fun i j => RtoC (f i j)))).
    2:{ apply plane_ext; [reflexivity|]. intros x y. cbn [px pmap frame]. now rewrite <- RtoC_mult. }
    rewrite dft_scale. unfold times_conj. cbn [nr nc pmap fft2_ortho dft_raw frame]. ring.
Qed.

Lemma s_hat_scale k sh f r z nrm fs bs : 0 < k -> r <> 0 ->
  Filter.s_hat (mkfimg sh (fun i j => k * f i j) (k * r) z) nrm fs bs =
  rmap (pmap (fun w => (RtoC (/ k) * w)%C)) (Filter.s_hat (mkfimg sh f r z) nrm fs bs).
Proof.
  intros Kp R0. unfold Filter.s_hat. rewrite (s_base_scale k sh f r z).
  destruct (s_base (mkfimg sh f r z) nrm fs bs) as [s|]; [|reflexivity]. cbn [rmap bind f_zp f_var]. f_equal.
  apply plane_ext; [reflexivity|]. intros i j. cbn [px pmap].
  rewrite !Cmult_assoc, <- !RtoC_mult. f_equal. f_equal. field. split; lra.
Qed.

(** The matched filter is divided by [k], for every history of calls: like every S of the
    package it is signal over variance. *)
Lemma C95_filter_lm : forall W k fuel o im im' x x', 0 < k -> sep_skips_masked W -> unit_free W ->
  (forall n c, length (fst (l_eigh W n c)) = n) -> multiplied_by k im im' ->
  build W fuel o (mdata im) = Some (Ok x) -> build W fuel o (mdata im') = Some (Ok x') ->
  var (bu_back x) <> 0 ->
  forall cs, Forall plain cs ->
    match fst (s_hat_comp (bu_lib x) (bu_attr (after cs x))),
          fst (s_hat_comp (bu_lib x') (bu_attr (after cs x'))) with
    | Ok (Ok h), Ok (Ok h') => shape h' = shape h /\ forall u v, px h' u v = (px h u v / RtoC k)%C
    | Ok (Raise e), Ok (Raise e') => e = e'
    | Raise e, Raise e' => e = e'
    | _, _ => False
    end.
Proof.
  intros W k fuel o im im' x x' Kp B F EL M E E' V cs P.
  apply multiplied_tied in M.
  rewrite (build_scale W k Kp B F fuel o _ _ (mdata_sane im) (mdata_sane im') M), E in E'. injection E' as <-.
  destruct (build_lib _ _ _ _ _ E) as (D & L & sh & N & Sh).
  assert (N' : new_image (bu_lib (klib W k o (mdata im') x)) sh (bu_attr (klib W k o (mdata im') x))).
  { cbn [klib bu_lib bu_attr]. unfold kattr. destruct N as [->|(c & Ec & ->)].
    - left. reflexivity.
    - right. exists (map (brighter k) c). rewrite L in Ec. cbn [lib_of Session.select] in Ec |- *.
      rewrite (catalogue_scale k Kp W B F _ _ _ _ (bu_back x) M), Ec. split; reflexivity. }
  cbn [after bu_attr].
  assert (O : lib_ok (bu_lib x)) by (rewrite L; now apply lib_of_ok).
  assert (O' : lib_ok (bu_lib (klib W k o (mdata im') x))) by (now apply lib_of_ok).
  pose proof (C40_history_lm _ _ _ _ _ _ cs O N P) as A.
  pose proof (C40_history_lm _ _ _ _ _ _ cs O' N' P) as A'.
  cbv zeta in A, A'. rewrite A, A'. clear A A'.
  generalize (snd (made_of (need_filt (history cs)))) (norm_loss (need_filt (history cs))) (last_loss cs).
  intros z ln l. unfold filt_for, norm_for.
  assert (G : forall l, psf_for (bu_lib (klib W k o (mdata im') x)) sh l = psf_for (bu_lib x) sh l).
  { intros l0. rewrite L. cbn [klib bu_lib]. apply (psf_scale W k Kp B F). exact M. }
  rewrite !G. destruct (psf_for (bu_lib x) sh l) as [psf|]; [|reflexivity]. cbn [bind].
  destruct (psf_for (bu_lib x) sh ln) as [psf'|]; [|reflexivity]. cbn [bind].
  rewrite L. cbn [klib bu_lib lib_of shat_of normal_of].
  destruct M as (_ & Sd & _). rewrite <- Sd.
  change (px (pmap (fun x0 => k * x0) (bu_clean x))) with (fun i j => k * px (bu_clean x) i j).
  change (b_rms (kback k (bu_back x))) with (k * b_rms (bu_back x)).
  rewrite s_hat_scale by assumption.
  destruct (Filter.s_hat (mkfimg (shape (m_dat (mdata im))) (px (bu_clean x)) (b_rms (bu_back x)) z) _ _ _) as [h|e]; [|reflexivity].
  cbn [rmap]. split; [reflexivity|]. intros u v. cbn [px pmap]. rewrite RtoC_inv by lra. unfold Cdiv. ring.
Qed.
