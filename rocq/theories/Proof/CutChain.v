(** New images with the image that the extraction leaves: the values under the mask, the level
    of the sky, the unit of the pixels. *)
From Coq Require Import ZArith List Bool Arith Reals Lia Lra FunctionalExtensionality.
From Coquelicot Require Import Complex.
From Verif.Model Require Import Py Plane Ma Image Interp FindS Sources Stamps Cut KL Session Filter Transparency Subtract Chain CutChain.
From Verif.Spec Require Import Image Chain Session Cut.
From Verif.Proof Require Import Fourier Dft Chain ChainMain ChainScale ChainUnits SessionLm.
Import ListNotations.
Set Bullet Behavior "Strict Subproofs".
Local Open Scope R_scope.

(** * Mask and sky *)
Lemma opened_moved W o c d' g x : shape (m_dat d') = shape (m_dat (bu_data x)) ->
  (forall b, b_rms (g b) = b_rms b) ->
  opened W o c (moved d' g x) = moved d' g (opened W o c x).
Proof.
  intros S Rm. unfold opened, moved. cbn [bu_data bu_back bu_clean bu_lib bu_attr]. now rewrite Rm, S.
Qed.

Lemma subtract_cut_moved W o o' l beta shift it r n dr dn :
  tied (fun x => x) (bu_data r) dr -> tied (fun x => x) (bu_data n) dn ->
  subtract_cut W o o' l beta shift it (moved dr (fun b => b) r) (moved dn (fun b => b) n) =
  subtract_cut W o o' l beta shift it r n.
Proof.
  intros Tr Tn. unfold subtract_cut.
  change (bu_data (moved dn (fun b => b) n)) with dn. change (bu_data (moved dr (fun b => b) r)) with dr.
  pose proof Tr as (_ & Sr & _). pose proof Tn as (_ & Sn & _). rewrite <- Sr, <- Sn.
  destruct (negb (shape_eqb _ _)); [reflexivity|].
  change (bu_lib (moved dr (fun b => b) r)) with (bu_lib r). change (bu_lib (moved dn (fun b => b) n)) with (bu_lib n).
  change (bu_attr (moved dr (fun b => b) r)) with (bu_attr r). change (bu_attr (moved dn (fun b => b) n)) with (bu_attr n).
  destruct (fst (Session.best_sources (bu_lib r) (bu_attr r))) as [cr|]; [|reflexivity]. cbn [bind].
  destruct (fst (Session.best_sources (bu_lib n) (bu_attr n))) as [cn|]; [|reflexivity]. cbn [bind].
  destruct (transparency _ _ _ _ _) as [t|]; [|reflexivity]. cbn [bind].
  change (with_best ?c (moved dr (fun b => b) r)) with (moved dr (fun b => b) (with_best c r)).
  change (with_best ?c (moved dn (fun b => b) n)) with (moved dn (fun b => b) (with_best c n)).
  rewrite !opened_moved by (auto; now symmetry).
  change (first_element l (moved ?d (fun b => b) ?x)) with (first_element l x).
  destruct (first_element l _) as [pr|]; [|reflexivity]. cbn [bind].
  destruct (first_element l _) as [pn|]; [|reflexivity]. cbn [bind].
  rewrite !seen_moved; [reflexivity|exact Tn|exact Tr].
Qed.

Lemma subtract_cut_lifted W o o' l beta shift it cr cn r n dr dn :
  m_msk (bu_data r) = m_msk dr -> shape (m_dat (bu_data r)) = shape (m_dat dr) ->
  m_msk (bu_data n) = m_msk dn -> shape (m_dat (bu_data n)) = shape (m_dat dn) ->
  same_D_P (subtract_cut W o o' l beta shift it r n)
    (subtract_cut W o o' l beta shift it (moved dr (lifted cr) r) (moved dn (lifted cn) n)).
Proof.
  intros Mr Sr Mn Sn. unfold subtract_cut.
  change (bu_data (moved dn (lifted cn) n)) with dn. change (bu_data (moved dr (lifted cr) r)) with dr.
  rewrite <- Sr, <- Sn.
  destruct (negb (shape_eqb _ _)); [reflexivity|].
  change (bu_lib (moved dr (lifted cr) r)) with (bu_lib r). change (bu_lib (moved dn (lifted cn) n)) with (bu_lib n).
  change (bu_attr (moved dr (lifted cr) r)) with (bu_attr r). change (bu_attr (moved dn (lifted cn) n)) with (bu_attr n).
  destruct (fst (Session.best_sources (bu_lib r) (bu_attr r))) as [ar|]; [|reflexivity]. cbn [bind].
  destruct (fst (Session.best_sources (bu_lib n) (bu_attr n))) as [an|]; [|reflexivity]. cbn [bind].
  destruct (transparency _ _ _ _ _) as [t|]; [|reflexivity]. cbn [bind].
  change (with_best ?c (moved dr (lifted cr) r)) with (moved dr (lifted cr) (with_best c r)).
  change (with_best ?c (moved dn (lifted cn) n)) with (moved dn (lifted cn) (with_best c n)).
  rewrite !opened_moved by (auto; now symmetry).
  change (first_element l (moved ?d (lifted ?c) ?x)) with (first_element l x).
  destruct (first_element l _) as [pr|]; [|reflexivity]. cbn [bind].
  destruct (first_element l _) as [pn|]; [|reflexivity]. cbn [bind].
  apply (subtract_data _ (Ok (nth 0 (zps t) 0, nth 1 (zps t) 0))); [now apply seen_lifted|now apply seen_lifted|reflexivity].
Qed.

(** The subtraction of two pairs of images that differ under the mask is the same, or raises the
    same exception. *)
Lemma C133_mask_lm : forall W fuel o o' l beta shift iterative ref ref' new new',
  sep_skips_masked W -> alike ref ref' -> alike new new' ->
  subtract_cut_pixels W fuel o o' l beta shift iterative (mdata ref') (mdata new') =
  subtract_cut_pixels W fuel o o' l beta shift iterative (mdata ref) (mdata new).
Proof.
  intros W fuel o o' l beta shift it ref ref' new new' B Ar An. unfold subtract_cut_pixels.
  rewrite (alike_build W fuel o ref ref' B Ar), (alike_build W fuel o' new new' B An).
  destruct (build W fuel o (mdata ref)) as [[r|e]|] eqn:Er; [| |reflexivity];
  destruct (build W fuel o' (mdata new)) as [[n|e']|] eqn:En; try reflexivity.
  cbn [bind]. f_equal. apply subtract_cut_moved.
  - rewrite (build_data _ _ _ _ _ Er). now apply alike_tied.
  - rewrite (build_data _ _ _ _ _ En). now apply alike_tied.
Qed.

(** D, P and the mask of a subtraction do not depend on the levels of the two skies. *)
Lemma C133_sky_lm : forall W c c' fuel o o' l beta shift iterative ref ref' new new',
  sep_skips_masked W -> sep_follows_sky W -> raised_by c ref ref' -> raised_by c' new new' ->
  match subtract_cut_pixels W fuel o o' l beta shift iterative (mdata ref) (mdata new),
        subtract_cut_pixels W fuel o o' l beta shift iterative (mdata ref') (mdata new') with
  | Some (Ok (D, P, _, m)), Some (Ok (D', P', _, m')) => D = D' /\ P = P' /\ m = m'
  | Some (Raise e), Some (Raise e') => e = e'
  | None, None => True
  | _, _ => False
  end.
Proof.
  intros W c c' fuel o o' l beta shift it ref ref' new new' B F Ar An. unfold subtract_cut_pixels.
  rewrite (raised_build W c fuel o ref ref' B F Ar), (raised_build W c' fuel o' new new' B F An).
  destruct (build W fuel o (mdata ref)) as [[r|e]|] eqn:Er; [| |exact I];
  destruct (build W fuel o' (mdata new)) as [[n|e']|] eqn:En; try exact I; cbn [bind].
  - apply raised_tied in Ar, An. destruct Ar as (Mr & Sr & _), An as (Mn & Sn & _).
    pose proof (subtract_cut_lifted W o o' l beta shift it c c' r n (mdata ref') (mdata new')) as H.
    rewrite (build_data _ _ _ _ _ Er), (build_data _ _ _ _ _ En) in H. specialize (H Mr Sr Mn Sn).
    unfold same_D_P in H.
    destruct (subtract_cut W o o' l beta shift it r n) as [[[[D P] S] m]|];
    destruct (subtract_cut W o o' l beta shift it _ _) as [[[[D' P'] S'] m']|]; exact H.
  - reflexivity.
  - reflexivity.
  - reflexivity.
Qed.

(** * Unit *)
Section Scale.
Variable k : R.
Hypothesis Kp : 0 < k.
Notation times := (pmap (option_map (fun x => k * x))).
Notation ktimes := (pmap (fun x => k * x)).

Lemma view_scale im fill sh pos : view (times im) (k * fill) sh pos = rmap times (view im fill sh pos).
Proof.
  unfold view. cbn [nr nc pmap]. destruct (_ || _); [reflexivity|]. cbn [rmap]. f_equal.
  apply plane_ext; [reflexivity|]. intros i j. cbn [px pmap].
  destruct (_ && _); [|cbn; now rewrite Rmult_0_r]. now destruct (_ && _).
Qed.

Lemma whole_scale w : whole (times w) = option_map ktimes (whole w).
Proof.
  unfold whole. rewrite any_nan_times. destruct (any_nan w); [reflexivity|]. cbn [option_map]. f_equal.
  apply plane_ext; [reflexivity|]. intros i j. cbn [px pmap]. destruct (px w i j); cbn; [reflexivity|now rewrite Rmult_0_r].
Qed.

Lemma is_nan_map l : existsb is_nan (map (option_map (fun x => k * x)) l) = existsb is_nan l.
Proof. induction l as [|[a|] l IH]; cbn; auto. Qed.

Lemma check_scale rms w : check_margin_nan (k * rms) (times w) = check_margin_nan rms w.
Proof.
  unfold check_margin_nan. cbn [nr nc pmap px].
  match goal with |- context [existsb is_nan ?l] =>
    match l with context [option_map] => idtac end;
    replace l with (map (option_map (fun x => k * x))
      (map (fun i => px w i 0) (seq 0 (nr w)) ++ map (fun i => px w i (nc w - 1)) (seq 0 (nr w)) ++
       map (fun j => px w (nr w - 1) j) (seq 0 (nc w)) ++ map (fun j => px w 0 j) (seq 0 (nc w))))
      by (rewrite !map_app, !map_map; reflexivity) end.
  rewrite is_nan_map. destruct (existsb _ _); [reflexivity|].
  rewrite <- (check_margin_scale k Kp rms (pmap (fun x => match x with Some x => x | None => 0 end) w)). f_equal.
  apply plane_ext; [reflexivity|]. intros i j. cbn [px pmap]. destruct (px w i j); cbn; [reflexivity|now rewrite Rmult_0_r].
Qed.

Lemma grow_view_scale fuel im rms sh pos cur sub :
  grow_view fuel (times im) (k * rms) sh pos cur (times sub) =
  option_map (rmap times) (grow_view fuel im rms sh pos cur sub).
Proof.
  revert cur sub. induction fuel as [|fuel IH]; intros cur sub; [reflexivity|].
  cbn [grow_view]. cbn [nr nc pmap]. destruct (_ || _); [reflexivity|]. rewrite check_scale, view_scale.
  destruct (view im rms _ pos) as [sub'|e]; [|reflexivity]. cbn [rmap].
  destruct (if Nat.leb 6 _ then false else _); [apply IH|reflexivity].
Qed.

Lemma levelled_scale w : levelled (times w) = times (levelled w).
Proof.
  unfold levelled. rewrite whole_scale. destruct (whole w) as [p|]; [|reflexivity]. cbn [option_map].
  rewrite (subtract_level_scale k Kp). destruct (subtract_level p) as [q|]; [|reflexivity]. cbn [option_map].
  apply plane_ext; [reflexivity|]. intros i j. unfold Cut.tidy. cbn [px pmap nr nc option_map].
  destruct (_ && _); [reflexivity|now rewrite Rmult_0_r].
Qed.

Lemma judge_scale stats label pk w : judge stats label pk (times w) = judge stats label pk w.
Proof.
  unfold judge. rewrite whole_scale, (strict_scale k Kp).
  replace (match option_map ktimes (whole w) with Some p => unit_sum p | None => pmap (fun _ => None) (times w) end)
    with (match whole w with Some p => unit_sum p | None => pmap (fun _ => None) w end); [reflexivity|].
  destruct (whole w); cbn [option_map]; [now rewrite (unit_sum_scale k Kp)|reflexivity].
Qed.

Lemma write_scale im pos w : write (times im) pos (times w) = times (write im pos w).
Proof.
  unfold write, shares. cbn [nr nc pmap shape fst snd]. destruct (_ && _); [|reflexivity].
  apply plane_ext; [reflexivity|]. intros i j. cbn [px pmap]. now destruct (_ && _).
Qed.

Lemma cut_one_scale stats label pk im rms sh s :
  cut_one stats label pk (times im) (k * rms) sh (brighter k s) =
  (times (fst (cut_one stats label pk im rms sh s)), snd (cut_one stats label pk im rms sh s)).
Proof.
  unfold cut_one. cbn [s_x s_y brighter]. rewrite view_scale.
  destruct (view im rms sh _) as [sub0|e]; [|reflexivity]. cbn [rmap]. rewrite any_nan_times.
  destruct (any_nan sub0); [reflexivity|]. rewrite grow_view_scale.
  destruct (grow_view 4 im rms sh _ sh sub0) as [[sub|e]|]; [|reflexivity|reflexivity].
  cbn [option_map rmap fst snd]. rewrite levelled_scale, write_scale, judge_scale. cbn [nr nc pmap]. reflexivity.
Qed.

Lemma cut_dump_scale W pk rms sh srcs : forall im jj,
  cut_dump W pk (times im) (k * rms) sh (map (brighter k) srcs) jj =
  (times (fst (cut_dump W pk im rms sh srcs jj)), snd (cut_dump W pk im rms sh srcs jj)).
Proof.
  induction srcs as [|s t IH]; intros im jj; [reflexivity|]. cbn [map cut_dump]. rewrite cut_one_scale.
  destruct (cut_one (l_stats W) (l_label W) pk im rms sh s) as [im' [o|e]]; cbn [fst snd]; [|reflexivity].
  rewrite IH. destruct (cut_dump W pk im' rms sh t (S jj)) as [last [st r]]. reflexivity.
Qed.

Lemma intact_scale img : pmap Some (ktimes img) = times (pmap Some img).
Proof. reflexivity. Qed.

Lemma left_scale W pk img rms sh srcs :
  left_by W pk (ktimes img) (k * rms) sh (map (brighter k) srcs) = ktimes (left_by W pk img rms sh srcs).
Proof.
  unfold left_by. rewrite intact_scale, cut_dump_scale. cbn [fst]. unfold numbers.
  apply plane_ext; [reflexivity|]. intros i j. cbn [px pmap]. destruct (px _ i j); cbn; [reflexivity|now rewrite Rmult_0_r].
Qed.

Lemma cut_for_scale W pk img rms sh srcs :
  cut_for W pk (ktimes img) (k * rms) sh (map (brighter k) srcs) =
  (fst (cut_for W pk img rms sh srcs),
   rmap (fun pc => (fst pc, map (brighter k) (snd pc))) (snd (cut_for W pk img rms sh srcs))).
Proof.
  unfold cut_for. rewrite intact_scale, cut_dump_scale.
  destruct (cut_dump W pk (pmap Some img) rms sh srcs 0) as [last [stamps [[pos del]|e]]]; [|reflexivity].
  cbn [fst snd bind rmap]. rewrite map_length, np_delete_map. now destruct (Nat.leb 15 _).
Qed.
End Scale.

Lemma cut_dump_length W pk rms sh srcs : forall im jj last stamps p del,
  cut_dump W pk im rms sh srcs jj = (last, (stamps, Ok (p, del))) -> length stamps = length p.
Proof.
  induction srcs as [|s t IH]; intros im jj last stamps p del; cbn [cut_dump].
  - intros [= <- <- <- <-]. reflexivity.
  - destruct (cut_one _ _ _ _ _ _ _) as [im' [o|]]; [|discriminate].
    destruct (cut_dump W pk im' rms sh t (S jj)) as [l' [st [[p' d']|e]]] eqn:E; specialize (IH im' (S jj));
      rewrite E in IH; destruct o; cbn [bind fst snd]; intros [= <- <- <- <-]; cbn [length];
      rewrite (IH _ _ _ _ eq_refl); reflexivity.
Qed.

Lemma opened_ok W o c x : (forall n m, length (fst (eigh (bu_lib x) n m)) = n) -> lib_ok (bu_lib (opened W o c x)).
Proof.
  intros E. split; [|exact E]. intros sh cat stamps positions kept. cbn [opened bu_lib extract]. unfold cut_for.
  destruct (cut_dump W _ _ _ sh cat 0) as [l [s [[p d']|e]]] eqn:D; cbn [bind]; [|discriminate].
  intros [= <- <- <-]. rewrite map_length. exact (cut_dump_length _ _ _ _ _ _ _ _ _ _ _ D).
Qed.

Section Units.
Variables (W : libs) (k : R) (fuel : nat) (o : choices) (im im' : image) (x x' y y' : built).
Hypothesis Kp : 0 < k.
Hypothesis B : sep_skips_masked W.
Hypothesis F : unit_free W.
Hypothesis EL : forall n c, length (fst (l_eigh W n c)) = n.
Hypothesis M : multiplied_by k im im'.
Hypothesis E : build W fuel o (mdata im) = Some (Ok x).
Hypothesis E' : build W fuel o (mdata im') = Some (Ok x').
Hypothesis U : used W o x = Ok y.
Hypothesis U' : used W o x' = Ok y'.

Lemma both_used : exists c sh,
  Session.select (bu_lib x) = Ok c /\ sh = stamp_shape (bu_attr x) /\
  y = opened W o c x /\ y' = opened W o (map (brighter k) c) (klib W k o (mdata im') x) /\
  new_image (bu_lib y) sh (bu_attr y) /\ new_image (bu_lib y') sh (bu_attr y') /\
  Session.select (bu_lib y') = Ok (map (brighter k) c) /\
  lib_ok (bu_lib y) /\ lib_ok (bu_lib y').
Proof.
  pose proof (multiplied_tied _ _ _ M) as T.
  pose proof E' as G. rewrite (build_scale W k Kp B F fuel o _ _ (mdata_sane im) (mdata_sane im') T), E in G. injection G as Ex.
  destruct (build_lib _ _ _ _ _ E) as (D & L & sh & N & Sh).
  assert (S' : Session.select (bu_lib (klib W k o (mdata im') x)) =
               rmap (map (brighter k)) (Session.select (bu_lib x))).
  { rewrite L. cbn [klib bu_lib lib_of Session.select]. apply (catalogue_scale k Kp W B F). exact T. }
  unfold used in U, U'. rewrite <- Ex in U'.
  assert (C : exists c, Session.select (bu_lib x) = Ok c /\
     (bu_attr x = fresh _ _ _ sh None \/ bu_attr x = fresh _ _ _ sh (Some c))).
  { destruct N as [Na|(c & Ec & Na)]; [|exists c; auto].
    unfold Session.best_sources in U. rewrite Na in U. cbn [best fresh] in U.
    destruct (Session.select (bu_lib x)) as [c|]; [|discriminate]. exists c. auto. }
  destruct C as (c & Ec & Na). rewrite Ec in S'. cbn [rmap] in S'.
  exists c, sh. split; [exact Ec|]. split; [exact Sh|].
  assert (Y : y = opened W o c x).
  { unfold Session.best_sources in U. destruct Na as [Na|Na]; rewrite Na in U; cbn [best fresh] in U;
      [rewrite Ec in U|]; cbn [fst bind] in U; now injection U as <-. }
  assert (Y' : y' = opened W o (map (brighter k) c) (klib W k o (mdata im') x)).
  { unfold Session.best_sources in U'. cbn [klib bu_attr] in U'. unfold kattr in U'.
    destruct Na as [Na|Na]; rewrite Na in U'; cbn [best fresh set_best option_map] in U';
      [cbn [klib bu_lib] in U', S'; rewrite S' in U'|]; cbn [fst bind] in U'; injection U' as <-; unfold klib, kattr; rewrite Na; reflexivity. }
  split; [exact Y|]. split; [exact Y'|]. rewrite Y, Y'.
  split; [|split; [|split; [exact S'|split]]].
  - cbn [opened bu_attr bu_lib]. destruct Na as [Na|Na]; rewrite Na; [now left|right; exists c; auto].
  - cbn [opened bu_attr bu_lib]. destruct Na as [Na|Na]; unfold klib, kattr; cbn [bu_attr]; rewrite Na; [now left|].
    right. exists (map (brighter k) c). split; [exact S'|reflexivity].
  - apply opened_ok. rewrite L. exact EL.
  - apply opened_ok. exact EL.
Qed.

Lemma used_psf sh l : psf_for (bu_lib y') sh l = psf_for (bu_lib y) sh l.
Proof.
  destruct both_used as (c & sh0 & Ec & _ & Y & Y' & _ & _ & Ec' & _).
  unfold psf_for. replace (stamps_of _ _ _ (bu_lib y') sh) with (stamps_of _ _ _ (bu_lib y) sh).
  - rewrite Y, Y'. destruct (build_lib _ _ _ _ _ E) as (_ & L & _).
    unfold opened. cbn [bu_lib eigh smooth Session.fit]. rewrite L. reflexivity.
  - unfold stamps_of. rewrite Ec'. rewrite Y. cbn [opened bu_lib Session.select]. rewrite Ec.
    rewrite Y'. cbn [opened bu_lib extract klib bu_clean bu_back kback b_rms].
    rewrite (cut_for_scale k Kp). destruct (cut_for W _ (bu_clean x) _ sh c) as [st [[p q]|e]]; reflexivity.
Qed.

Lemma used_left : bu_clean y' = pmap (fun v => k * v) (bu_clean y).
Proof.
  destruct both_used as (c & sh0 & Ec & _ & Y & Y' & _). rewrite Y, Y'. unfold opened. cbn [bu_clean klib bu_back bu_attr].
  change (b_rms (kback k (bu_back x))) with (k * b_rms (bu_back x)). unfold kattr. cbn [set_best stamp_shape].
  apply (left_scale k Kp).
Qed.

Lemma used_psf_history cs l : Forall plain cs -> match l with Some l => 0 <= l | None => True end ->
  fst (get_variable_psf (bu_lib y') l None (bu_attr (after cs y'))) =
  fst (get_variable_psf (bu_lib y) l None (bu_attr (after cs y))).
Proof.
  intros P Hl. destruct both_used as (c & sh & Ec & _ & Y & Y' & N & N' & _ & O & O').
  destruct (C39_history_lm _ _ _ _ _ _ cs O N P) as (A & A2 & _).
  destruct (C39_history_lm _ _ _ _ _ _ cs O' N' P) as (A' & A2' & _).
  cbn [after bu_attr]. destruct l as [l|]; [rewrite A, A' by exact Hl|rewrite A2, A2']; apply used_psf.
Qed.

Lemma used_filter cs : Forall plain cs -> var (bu_back x) <> 0 ->
  match fst (s_hat_comp (bu_lib y) (bu_attr (after cs y))),
        fst (s_hat_comp (bu_lib y') (bu_attr (after cs y'))) with
  | Ok (Ok h), Ok (Ok h') => shape h' = shape h /\ forall u v, px h' u v = (px h u v / RtoC k)%C
  | Ok (Raise e), Ok (Raise e') => e = e'
  | Raise e, Raise e' => e = e'
  | _, _ => False
  end.
Proof.
  intros P V. destruct both_used as (c & sh & Ec & _ & Y & Y' & N & N' & _ & O & O'). cbn [after bu_attr].
  pose proof (C40_history_lm _ _ _ _ _ _ cs O N P) as A.
  pose proof (C40_history_lm _ _ _ _ _ _ cs O' N' P) as A'.
  cbv zeta in A, A'. rewrite A, A'. clear A A'.
  generalize (snd (made_of (need_filt (history cs)))) (norm_loss (need_filt (history cs))) (last_loss cs).
  intros z ln l. unfold filt_for, norm_for. rewrite !used_psf.
  destruct (psf_for (bu_lib y) sh l) as [psf|]; [|reflexivity]. cbn [bind].
  destruct (psf_for (bu_lib y) sh ln) as [psf'|]; [|reflexivity]. cbn [bind].
  pose proof used_left as Lf. pose proof (multiplied_tied _ _ _ M) as (_ & Sd & _).
  destruct (build_lib _ _ _ _ _ E) as (D & L & _).
  assert (Nm : normal_of (bu_lib y') = normal_of (bu_lib y)).
  { rewrite Y, Y'. unfold opened. cbn [bu_lib normal_of klib]. rewrite L. cbn [lib_of normal_of]. now rewrite Sd. }
  assert (Sh : forall z a b n, shat_of (bu_lib y') z a b n =
     Filter.s_hat (mkfimg (shape (m_dat (mdata im))) (fun i j => k * px (bu_clean y) i j) (k * b_rms (bu_back x)) z) (px n) (on_pixels a) (map numbers b)).
  { intros. rewrite Sd. change (fun i j => k * px (bu_clean y) i j) with (px (pmap (fun v => k * v) (bu_clean y))). rewrite <- Lf.
    rewrite Y'. reflexivity. }
  assert (Sh0 : forall z a b n, shat_of (bu_lib y) z a b n =
     Filter.s_hat (mkfimg (shape (m_dat (mdata im))) (px (bu_clean y)) (b_rms (bu_back x)) z) (px n) (on_pixels a) (map numbers b)).
  { intros. rewrite <- D, Y. reflexivity. }
  rewrite Sh, Sh0, Nm, s_hat_scale by assumption.
  destruct (Filter.s_hat (mkfimg (shape (m_dat (mdata im))) (px (bu_clean y)) (b_rms (bu_back x)) z) _ _ _) as [h|e]; [|reflexivity].
  cbn [rmap]. split; [reflexivity|]. intros u v. cbn [px pmap]. rewrite RtoC_inv by lra. unfold Cdiv. ring.
Qed.
End Units.

(** [k] times the image: the image left by the extraction is multiplied by [k], the PSF is the
    same and the matched filter is divided by [k], for every history of calls. *)
Lemma C133_units_lm : forall W k fuel o im im' x x' y y', 0 < k -> sep_skips_masked W -> unit_free W ->
  (forall n c, length (fst (l_eigh W n c)) = n) -> multiplied_by k im im' ->
  build W fuel o (mdata im) = Some (Ok x) -> build W fuel o (mdata im') = Some (Ok x') ->
  used W o x = Ok y -> used W o x' = Ok y' ->
  (forall i j, px (bu_clean y') i j = k * px (bu_clean y) i j) /\
  forall cs, Forall plain cs ->
    (forall l, match l with Some l => 0 <= l | None => True end ->
       fst (get_variable_psf (bu_lib y') l None (bu_attr (after cs y'))) =
       fst (get_variable_psf (bu_lib y) l None (bu_attr (after cs y)))) /\
    (var (bu_back x) <> 0 ->
     match fst (s_hat_comp (bu_lib y) (bu_attr (after cs y))),
           fst (s_hat_comp (bu_lib y') (bu_attr (after cs y'))) with
     | Ok (Ok h), Ok (Ok h') => shape h' = shape h /\ forall u v, px h' u v = (px h u v / RtoC k)%C
     | Ok (Raise e), Ok (Raise e') => e = e'
     | Raise e, Raise e' => e = e'
     | _, _ => False
     end).
Proof.
  intros W k fuel o im im' x x' y y' Kp B F EL M E E' U U'. split.
  - intros i j. now rewrite (used_left W k fuel o im im' x x' y y').
  - intros cs P. split.
    + intros l Hl. exact (used_psf_history W k fuel o im im' x x' y y' Kp B F EL M E E' U U' cs l P Hl).
    + intros V. exact (used_filter W k fuel o im im' x x' y y' Kp B F EL M E E' U U' cs P V).
Qed.
