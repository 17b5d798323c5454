(** Values under the mask are not used; the level of the sky does not matter: main lemmas. *)
From Coq Require Import ZArith List Bool Arith Reals Lia Lra FunctionalExtensionality SpecFloat.
From Flocq Require Import Core.Core IEEE754.BinarySingleNaN.
From Coquelicot Require Import Complex.
From Verif.Model Require Import Py Plane Ma Image Interp Sources Stamps KL Session Filter Transparency Subtract Chain.
From Verif.Spec Require Import Image Chain.
From Verif.Proof Require Import Image ImageGrow ImageMask ImageBuild ImageMain Chain.
Import ListNotations.
Set Bullet Behavior "Strict Subproofs".
Local Open Scope R_scope.

Lemma background_id W p m :
  l_background W (pmap (option_map (fun x => x)) p) m =
  match l_background W p m with Ok b => Ok ((fun b => b) b) | Raise e => Raise e end.
Proof.
  replace (pmap (option_map (fun x : R => x)) p) with p.
  - now destruct (l_background W p m).
  - apply plane_ext; [reflexivity|]. intros i j. cbn. now rewrite option_map_id.
Qed.

Lemma alike_build W fuel o im im' : sep_skips_masked W -> alike im im' ->
  build W fuel o (mdata im') = match build W fuel o (mdata im) with
                      | Some (Ok x) => Some (Ok (moved (mdata im') (fun b => b) x))
                      | r => r
                      end.
Proof.
  intros B A. apply (build_tied W B (fun x => x)); auto using mdata_sane, alike_tied, background_id.
  intros b. split; [reflexivity|]. reflexivity.
Qed.

Lemma after_moved cs d' g x : after cs (moved d' g x) = moved d' g (after cs x).
Proof. reflexivity. Qed.

Lemma seen_moved d' x p : tied (fun x => x) (bu_data x) d' ->
  seen (moved d' (fun b => b) x) p = seen x p.
Proof.
  intros (M & S & V). unfold seen, moved. cbn [bu_data bu_back bu_clean]. rewrite <- M, <- S. f_equal.
  extensionality i. extensionality j. destruct (px (m_msk (bu_data x)) i j) eqn:N; [reflexivity|].
  rewrite (V i j N), option_map_id. reflexivity.
Qed.

Lemma subtract_built_moved W l beta shift it r n dr dn :
  tied (fun x => x) (bu_data r) dr -> tied (fun x => x) (bu_data n) dn ->
  subtract_built W l beta shift it (moved dr (fun b => b) r) (moved dn (fun b => b) n) =
  subtract_built W l beta shift it r n.
Proof.
  intros Tr Tn. unfold subtract_built.
  change (bu_data (moved dn (fun b => b) n)) with dn. change (bu_data (moved dr (fun b => b) r)) with dr.
  pose proof Tr as (_ & Sr & _). pose proof Tn as (_ & Sn & _). rewrite <- Sr, <- Sn.
  destruct (negb (shape_eqb _ _)); [reflexivity|].
  change (bu_lib (moved dr (fun b => b) r)) with (bu_lib r). change (bu_lib (moved dn (fun b => b) n)) with (bu_lib n).
  change (bu_attr (moved dr (fun b => b) r)) with (bu_attr r). change (bu_attr (moved dn (fun b => b) n)) with (bu_attr n).
  destruct (fst (Session.best_sources _ _ _ (bu_lib r) (bu_attr r))) as [cr|]; [|reflexivity]. cbn [bind].
  destruct (fst (Session.best_sources _ _ _ (bu_lib n) (bu_attr n))) as [cn|]; [|reflexivity]. cbn [bind].
  destruct (transparency _ _ _ _ _) as [t|]; [|reflexivity]. cbn [bind].
  change (first_element l (with_best ?c (moved dr (fun b => b) r))) with (first_element l (with_best c r)).
  change (first_element l (with_best ?c (moved dn (fun b => b) n))) with (first_element l (with_best c n)).
  destruct (first_element l (with_best (map src_of (rows (mcat t))) r)) as [pr|]; [|reflexivity]. cbn [bind].
  destruct (first_element l (with_best _ n)) as [pn|]; [|reflexivity]. cbn [bind].
  change (with_best ?c (moved dr (fun b => b) r)) with (moved dr (fun b => b) (with_best c r)).
  change (with_best ?c (moved dn (fun b => b) n)) with (moved dn (fun b => b) (with_best c n)).
  rewrite !seen_moved; [reflexivity|exact Tn|exact Tr].
Qed.

Lemma array_masked fs nsum d m th guess gain im : shape m = shape d ->
  construct fs nsum (mkargs (Ndarray d) (MArray m) th guess false ((0, 0), (0, 0))%Z gain) = Ok im ->
  let g := match gain with Some g => g | None => fone end in
  shape (pixels im) = shape d /\
  (forall i j, (i < nr d)%nat -> (j < nc d)%nat -> px (pixels im) i j = f4_mul (to_f4 (px d i j)) (to_f4 g)) /\
  exists init,
    (forall i j, (i < nr d)%nat -> (j < nc d)%nat ->
      (init i j = true <-> px m i j = true \/ out_of_range (px (pixels im) i j))) /\
    (forall i j, (i < nr d)%nat -> (j < nc d)%nat -> (is_masked im i j <-> grown (shape d) 7 init i j = true)).
Proof.
  intros S E g.
  set (c := mkargs (Ndarray d) (MArray m) th guess false ((0, 0), (0, 0))%Z gain) in E.
  assert (Wc : wf_source (a_img c)) by exact I.
  pose proof (C20_gain_lm fs nsum c im Wc E) as G. cbn in G.
  pose proof (C20_pixels_lm fs nsum c im d Wc eq_refl eq_refl eq_refl E) as P. cbn [reloads a_img a_mask a_guess] in P.
  destruct (C23_construct_mask_lm fs nsum c im Wc E) as (_ & a0 & d0 & flag & E0 & K & F).
  cbn [a_mask] in K. inversion K; subst. destruct F as (P0 & q & init & Eq & Sq & Ii & Gr).
  fold (pixels im) in *. destruct P as [Ps Pv], P0 as [P0s P0v].
  assert (Sd : shape (pixels im) = shape d) by exact Ps.
  pose proof Sd as Sd'. unfold shape in Sd'. injection Sd' as Dr Dc.
  assert (S0 : shape (dat a0) = shape d) by congruence.
  pose proof S0 as S0'. unfold shape in S0'. injection S0' as D0r D0c.
  split; [exact Sd|]. split.
  - intros i j Hi Hj. rewrite Pv by lia. unfold scaled. cbn [px user_masked]. rewrite G. reflexivity.
  - exists init. split.
    + intros i j Hi Hj. rewrite Ii by lia. unfold set_by.
      pose proof S as S'. unfold shape in S'. injection S' as Mr Mc.
      destruct (Nat.eqb_spec (nr m * nc m) 0) as [Z|Z]; [apply Nat.eq_mul_0 in Z; lia|].
      rewrite cyclic_same; [|lia|lia|lia]. rewrite P0v by lia. reflexivity.
    + intros i j Hi Hj. unfold is_masked. rewrite Eq. cbn [masked_at]. rewrite Gr, S0 by lia. reflexivity.
Qed.

(** Two arrays with the same mask that differ only under the mask give images with the same
    mask and the same values outside it. *)
Lemma C93_construct_lm : forall fs nsum d d' m th guess gain im im',
  shape m = shape d -> same_off m d d' ->
  construct fs nsum (mkargs (Ndarray d) (MArray m) th guess false ((0, 0), (0, 0))%Z gain) = Ok im ->
  construct fs nsum (mkargs (Ndarray d') (MArray m) th guess false ((0, 0), (0, 0))%Z gain) = Ok im' ->
  alike im im'.
Proof.
  intros fs nsum d d' m th guess gain im im' S [Sd V] E E'.
  destruct (array_masked fs nsum d m th guess gain im S E) as (P & X & init & Ii & G).
  destruct (array_masked fs nsum d' m th guess gain im' (eq_trans S Sd) E') as (P' & X' & init' & Ii' & G').
  pose proof Sd as Sd'. unfold shape in Sd'. injection Sd' as Dr Dc.
  assert (Q : forall i j, (i < nr d)%nat -> (j < nc d)%nat -> init i j = init' i j).
  { intros i j Hi Hj. apply Bool.eq_iff_eq_true. rewrite Ii, Ii' by lia.
    destruct (px m i j) eqn:M; [split; auto|]. rewrite X, X', V by (trivial; lia). reflexivity. }
  split; [congruence|]. intros i j Hi Hj. unfold shape in P. injection P as Pr Pc.
  rewrite Pr in Hi. rewrite Pc in Hj. split.
  - rewrite G, G' by lia. rewrite <- Sd. rewrite (grown_ext (shape d) 7 init init'); [reflexivity| |exact Hi|exact Hj].
    intros x y Hx Hy. now apply Q.
  - intros N. rewrite X, X' by lia. rewrite V; trivial.
    destruct (px m i j) eqn:M; [|reflexivity]. exfalso. apply N. apply G; [exact Hi|exact Hj|].
    apply grown_incl. apply Ii; auto.
Qed.

(** Every attribute of the two images, after any history of calls, is the same. *)
Lemma C93_history_lm : forall W fuel o im im', sep_skips_masked W -> alike im im' ->
  match build W fuel o (mdata im), build W fuel o (mdata im') with
  | Some (Ok x), Some (Ok x') =>
      background (bu_back x') = background (bu_back x) /\ var (bu_back x') = var (bu_back x) /\
      bu_clean x' = bu_clean x /\ bu_lib x' = bu_lib x /\
      forall cs, bu_attr (after cs x') = bu_attr (after cs x)
  | Some (Raise e), Some (Raise e') => e = e'
  | None, None => True
  | _, _ => False
  end.
Proof.
  intros W fuel o im im' B A. rewrite (alike_build W fuel o im im' B A).
  destruct (build W fuel o (mdata im)) as [[x|e]|]; [|reflexivity|exact I].
  repeat (split; [reflexivity|]). intros cs. reflexivity.
Qed.

(** The subtraction of two pairs of such images is the same, or raises the same exception. *)
Lemma C93_subtract_lm : forall W fuel o o' l beta shift iterative ref ref' new new',
  sep_skips_masked W -> alike ref ref' -> alike new new' ->
  subtract_pixels W fuel o o' l beta shift iterative (mdata ref') (mdata new') =
  subtract_pixels W fuel o o' l beta shift iterative (mdata ref) (mdata new).
Proof.
  intros W fuel o o' l beta shift it ref ref' new new' B Ar An. unfold subtract_pixels.
  rewrite (alike_build W fuel o ref ref' B Ar), (alike_build W fuel o' new new' B An).
  destruct (build W fuel o (mdata ref)) as [[r|e]|] eqn:Er; [| |reflexivity];
  destruct (build W fuel o' (mdata new)) as [[n|e']|] eqn:En; try reflexivity.
  cbn [bind]. f_equal. apply subtract_built_moved.
  - rewrite (build_data _ _ _ _ _ Er). now apply alike_tied.
  - rewrite (build_data _ _ _ _ _ En). now apply alike_tied.
Qed.

(** ** The level of the sky *)

Definition lifted (c : R) (b : backobj) : backobj :=
  mkbackobj (pmap (fun x => x + c) (b_back b)) (b_rms b).

Lemma raised_build W c fuel o im im' : sep_skips_masked W -> sep_follows_sky W -> raised_by c im im' ->
  build W fuel o (mdata im') = match build W fuel o (mdata im) with
                      | Some (Ok x) => Some (Ok (moved (mdata im') (lifted c) x))
                      | r => r
                      end.
Proof.
  intros B F A. apply (build_tied W B (fun x => x + c)); auto using mdata_sane.
  - now apply raised_tied.
  - intros p m. apply F.
  - intros b. split; [reflexivity|]. intros x i j. cbn. ring.
Qed.

Definition same_but_data (x x' : dimg) : Prop :=
  exists d', x' = mkdimg (d_shape x) d' (d_mask x) (d_interped x) (d_var x) (d_stamp x) (d_render x).

Lemma seen_lifted c d' x p : m_msk (bu_data x) = m_msk d' -> shape (m_dat (bu_data x)) = shape (m_dat d') ->
  same_but_data (seen x p) (seen (moved d' (lifted c) x) p).
Proof.
  intros M S. eexists. unfold seen, moved. cbn [bu_data bu_back bu_clean d_shape d_mask d_interped d_var d_stamp d_render].
  rewrite <- M, <- S. reflexivity.
Qed.

Definition same_D_P (a a' : res (plane C * plane R * plane (option R) * mask)) : Prop :=
  match a, a' with
  | Ok (D, P, _, m), Ok (D', P', _, m') => D = D' /\ P = P' /\ m = m'
  | Raise e, Raise e' => e = e'
  | _, _ => False
  end.

Lemma same_D_P_refl a : same_D_P a a.
Proof. destruct a as [[[[D P] S] m]|e]; cbn; auto. Qed.

Lemma subtract_data e z r n r' n' beta shift it fitted : same_but_data r r' -> same_but_data n n' ->
  (forall x y, e_transp e x y = z) ->
  same_D_P (subtract e (Is r) (Is n) false beta shift it fitted)
           (subtract e (Is r') (Is n') false beta shift it fitted).
Proof.
  intros (dr & ->) (dn & ->) T. destruct r as [sr fr mr ir vr pr gr], n as [sn fn mn ins vn pn gn].
  unfold subtract, setup, as_image. cbn [bind d_shape d_mask d_interped d_var d_stamp d_render].
  destruct ((fst sn =? fst sr)%nat && (snd sn =? snd sr)%nat); [|reflexivity].
  destruct (mask_or mn mr) as [mix|]; [|reflexivity]. cbn [bind]. rewrite !T.
  destruct z as [[rz nz]|]; [|reflexivity]. cbn [bind].
  unfold prepare. cbn [d_shape d_data d_mask d_interped d_var d_stamp d_render].
  destruct (center_of_mass (if fitted then frame sr gr else pr)) as [x y].
  destruct (center_of_mass (if fitted then frame sn gn else pn)) as [x' y'].
  destruct (negb fitted && _); [reflexivity|]. cbn [bind].
  match goal with |- same_D_P (bind (fit ?s ?c _ _ _) _) (bind (fit _ ?c' _ _ _) _) =>
    change (fit s c' beta shift it) with (fit s c beta shift it);
    destruct (fit s c beta shift it) as [[[b dx] dy]|]; [|reflexivity] end.
  cbn [bind]. unfold difference. cbn [same_D_P]. split; [reflexivity|]. split; reflexivity.
Qed.

Lemma subtract_built_lifted W l beta shift it cr cn r n dr dn :
  m_msk (bu_data r) = m_msk dr -> shape (m_dat (bu_data r)) = shape (m_dat dr) ->
  m_msk (bu_data n) = m_msk dn -> shape (m_dat (bu_data n)) = shape (m_dat dn) ->
  same_D_P (subtract_built W l beta shift it r n)
    (subtract_built W l beta shift it (moved dr (lifted cr) r) (moved dn (lifted cn) n)).
Proof.
  intros Mr Sr Mn Sn. unfold subtract_built.
  change (bu_data (moved dn (lifted cn) n)) with dn. change (bu_data (moved dr (lifted cr) r)) with dr.
  rewrite <- Sr, <- Sn.
  destruct (negb (shape_eqb _ _)); [reflexivity|].
  change (bu_lib (moved dr (lifted cr) r)) with (bu_lib r). change (bu_lib (moved dn (lifted cn) n)) with (bu_lib n).
  change (bu_attr (moved dr (lifted cr) r)) with (bu_attr r). change (bu_attr (moved dn (lifted cn) n)) with (bu_attr n).
  destruct (fst (Session.best_sources _ _ _ (bu_lib r) (bu_attr r))) as [ar|]; [|reflexivity]. cbn [bind].
  destruct (fst (Session.best_sources _ _ _ (bu_lib n) (bu_attr n))) as [an|]; [|reflexivity]. cbn [bind].
  destruct (transparency _ _ _ _ _) as [t|]; [|reflexivity]. cbn [bind].
  change (first_element l (with_best ?c (moved dr (lifted cr) r))) with (first_element l (with_best c r)).
  change (first_element l (with_best ?c (moved dn (lifted cn) n))) with (first_element l (with_best c n)).
  destruct (first_element l (with_best (map src_of (rows (mcat t))) r)) as [pr|]; [|reflexivity]. cbn [bind].
  destruct (first_element l (with_best _ n)) as [pn|]; [|reflexivity]. cbn [bind].
  change (with_best ?c (moved dr (lifted cr) r)) with (moved dr (lifted cr) (with_best c r)).
  change (with_best ?c (moved dn (lifted cn) n)) with (moved dn (lifted cn) (with_best c n)).
  apply (subtract_data _ (Ok (nth 0 (zps t) 0, nth 1 (zps t) 0))); [now apply seen_lifted|now apply seen_lifted|reflexivity].
Qed.

(** Everything an image computes after construction, but for its pixels and its background,
    is the same at another level of the sky. *)
Lemma C94_history_lm : forall W c fuel o im im', sep_skips_masked W -> sep_follows_sky W ->
  raised_by c im im' ->
  match build W fuel o (mdata im), build W fuel o (mdata im') with
  | Some (Ok x), Some (Ok x') =>
      (forall i j, px (background (bu_back x')) i j = px (background (bu_back x)) i j + c) /\
      var (bu_back x') = var (bu_back x) /\
      bu_clean x' = bu_clean x /\ bu_lib x' = bu_lib x /\
      forall cs, bu_attr (after cs x') = bu_attr (after cs x)
  | Some (Raise e), Some (Raise e') => e = e'
  | None, None => True
  | _, _ => False
  end.
Proof.
  intros W c fuel o im im' B F A. rewrite (raised_build W c fuel o im im' B F A).
  destruct (build W fuel o (mdata im)) as [[x|e]|]; [|reflexivity|exact I].
  repeat (split; [reflexivity|]). intros cs. reflexivity.
Qed.

(** D, P and the mask of a subtraction do not depend on the levels of the two skies. *)
Lemma C94_subtract_lm : forall W c c' fuel o o' l beta shift iterative ref ref' new new',
  sep_skips_masked W -> sep_follows_sky W -> raised_by c ref ref' -> raised_by c' new new' ->
  match subtract_pixels W fuel o o' l beta shift iterative (mdata ref) (mdata new),
        subtract_pixels W fuel o o' l beta shift iterative (mdata ref') (mdata new') with
  | Some (Ok (D, P, _, m)), Some (Ok (D', P', _, m')) => D = D' /\ P = P' /\ m = m'
  | Some (Raise e), Some (Raise e') => e = e'
  | None, None => True
  | _, _ => False
  end.
Proof.
  intros W c c' fuel o o' l beta shift it ref ref' new new' B F Ar An. unfold subtract_pixels.
  rewrite (raised_build W c fuel o ref ref' B F Ar), (raised_build W c' fuel o' new new' B F An).
  destruct (build W fuel o (mdata ref)) as [[r|e]|] eqn:Er; [| |exact I];
  destruct (build W fuel o' (mdata new)) as [[n|e']|] eqn:En; try exact I; cbn [bind].
  - apply raised_tied in Ar, An. destruct Ar as (Mr & Sr & _), An as (Mn & Sn & _).
    pose proof (subtract_built_lifted W l beta shift it c c' r n (mdata ref') (mdata new')) as H.
    rewrite (build_data _ _ _ _ _ Er), (build_data _ _ _ _ _ En) in H. specialize (H Mr Sr Mn Sn).
    unfold same_D_P in H.
    destruct (subtract_built W l beta shift it r n) as [[[[D P] S] m]|];
    destruct (subtract_built W l beta shift it _ _) as [[[[D' P'] S'] m']|]; exact H.
  - reflexivity.
  - reflexivity.
  - reflexivity.
Qed.
