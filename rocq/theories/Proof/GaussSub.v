(** What a subtraction with Gaussian PSFs uses. *)
From Coq Require Import ZArith List Bool Arith Reals Lia Lra Permutation.
From Coquelicot Require Import Complex.
From Verif.Model Require Import Py Plane Ma Coadd.
From Verif.Spec Require Import Coadd.
From Verif.Model Require Import Filter.
From Verif.Spec Require Import Filter.
From Verif.Model Require Import Interp Subtract Sources Stamps Transparency KL Session Chain ChainCoadd Gauss GaussImage GaussSub.
From Verif.Spec Require Import Session Uses UsesCoadd GaussImage GaussSub.
From Verif.Proof Require Import Interp Session SessionBad SessionHist SessionMain SessionFrame SessionLm GaussMain Chain ChainUnits Uses UsesCoadd GaussImage.
Import ListNotations.
Local Open Scope R_scope.
Set Bullet Behavior "Strict Subproofs".
Arguments gauss_model {NI FT IM} L fitter stats s.

Lemma fit_all_inv fitter l gs : fit_all fitter l = Ok gs -> Forall2 (fun p g => fit_gaussian2d fitter p = Ok g) l gs.
Proof.
  revert gs. induction l as [|p t IH]; intros gs H; cbn in H; [injection H as <-; constructor|].
  destruct (fit_gaussian2d fitter p) as [g|] eqn:E; [|discriminate]. cbn in H.
  destruct (fit_all fitter t) as [r|]; [|discriminate]. cbn in H. injection H as <-. constructor; [exact E|now apply IH].
Qed.

(** The model behind the rendered PSF. *)
Definition coded (a b t am : R) : plane (option R) := mkplane 1 3 (fun _ j => nth_error [a; b; t] j).

Lemma model_coded NI FT IM (L : lib NI FT IM) fitter stats l sh s g s' :
  gauss_psf L fitter stats coded l sh s = (Ok (NoField, [coded (fst (fst g)) (snd (fst g)) (snd g) 1]), s') ->
  gauss_model L fitter stats s = (Ok g, s').
Proof.
  destruct g as [[a b] t]. cbn [fst snd]. unfold gauss_psf, gauss_model. destruct (n_sources L s) as [[n|e] s1]; [|discriminate].
  destruct (no_file _ _ _ _ _); [discriminate|]. destruct (fit_all _ _) as [gs|]; [|discriminate].
  destruct (Nat.ltb _ _); [discriminate|]. intros H. injection H as H <-.
  pose proof (f_equal (fun f => f 0%nat 0%nat) H) as A. pose proof (f_equal (fun f => f 0%nat 1%nat) H) as B.
  pose proof (f_equal (fun f => f 0%nat 2%nat) H) as C. cbn in A, B, C. congruence.
Qed.

Section Read.
Variables NI FT IM : Type.
Variable L : lib NI FT IM.
Variable fitter : Gauss.start -> plane R -> gaussian.
Variable stats : list R -> R * R * R.
Variable render : R -> R -> R -> R -> plane (option R).
Variable sh0 : nat * nat.
Variable cat0 : list src.
Variable st0 : list (plane R).
Variables p0 : list (R * R).
Variable k0 : list src.
Hypothesis Hsel : select L = Ok cat0.
Hypothesis Hext : extract L sh0 cat0 = (st0, Ok (p0, k0)).
Notation state := (si NI FT IM).
Notation has_pos := (fun s : state => pos s <> None).
Local Notation takes := (takes NI FT IM sh0 cat0).
Local Notation virgin := (virgin NI FT IM sh0 cat0).
Local Notation g_psf := (gauss_psf L fitter stats render).
Local Notation g_run := (g_exec L fitter stats render).

Ltac hp := repeat first
  [ apply pres_ret | apply pres_raise | apply pres_get
  | (apply pres_upd; intros ? ?; first [assumption | discriminate])
  | (apply pres_bind; [|intros ?]) ].
Ltac frame lm := apply lm; intros; first [assumption | discriminate].

Lemma hp_gauss l sh : pres NI FT IM has_pos (g_psf l sh).
Proof.
  assert (N : pres NI FT IM has_pos (n_sources L)) by frame n_pres.
  intros s H. pose proof (N s H) as K. unfold gauss_psf. destruct (n_sources L s) as [[n|e] s1]; exact K.
Qed.

Lemma hp_gnormal : pres NI FT IM has_pos (g_normal_image L fitter stats render).
Proof.
  intros s H. unfold g_normal_image. destruct (normal s); [exact H|].
  apply pres_bind; [apply hp_gauss| |exact H]. intros q. cbn zeta. hp.
Qed.

Lemma hp_gshat : pres NI FT IM has_pos (g_s_hat_comp L fitter stats render).
Proof.
  intros s H. unfold g_s_hat_comp. destruct (match shat s with None => true | Some (_, l) => _ end).
  - apply pres_bind; [apply hp_gauss| |exact H]. intros q. apply pres_bind; [exact hp_gnormal|]. intros n. hp.
  - destruct (shat s) as [[h l]|]; exact H.
Qed.

Lemma hp_gscomp : pres NI FT IM has_pos (g_s_component L fitter stats render).
Proof.
  intros s H. unfold g_s_component. apply pres_bind; [| |exact H].
  - destruct (scomp s); [hp|]. apply pres_bind; [exact hp_gshat|]. intros h. hp.
  - intros _. apply pres_bind; [hp|]. intros s1. destruct (scomp s1) as [[c l]|]; [|hp].
    destruct (Req_EM_T _ _); [hp|]. apply pres_bind; [exact hp_gshat|]. intros h. hp.
Qed.

Lemma hp_exec c s : pos s <> None -> pos (g_run c s) <> None.
Proof.
  intros H.
  assert (X : pos (exec L c s) <> None).
  { apply (exec_pres NI FT IM L has_pos); try exact (hp_normal NI FT IM L); try exact H; intros; first [assumption|discriminate]. }
  destruct c; try exact X; cbn [g_exec]; unfold void.
  - now apply hp_gauss.
  - now apply hp_gnormal.
  - now apply hp_gshat.
  - now apply hp_gscomp.
Qed.

Lemma hp_run_all cs : forall s, pos s <> None -> pos (g_exec_all L fitter stats render cs s) <> None.
Proof.
  induction cs as [|c cs IH]; intros s H; [exact H|]. cbn. apply IH. now apply hp_exec.
Qed.

Lemma takes_gauss l sh : takes (g_psf l sh).
Proof.
  intros z l0 lk. pose proof (takes_n NI FT IM L sh0 cat0 st0 p0 k0 Hsel Hext z l0 lk) as K. unfold gauss_psf.
  destruct (n_sources L _) as [[n|e] s1]; exact K.
Qed.

Lemma takes_gnormal : takes (g_normal_image L fitter stats render).
Proof.
  intros z l lk. unfold g_normal_image. cbn [normal set_inf_loss set_zp fresh].
  apply (takes_bind NI FT IM sh0 cat0 (g_psf None None)); [apply takes_gauss|]. intros q. cbn zeta. hp.
Qed.

Lemma takes_gshat : takes (g_s_hat_comp L fitter stats render).
Proof.
  intros z l lk. unfold g_s_hat_comp. cbn [shat set_inf_loss set_zp fresh].
  apply (takes_bind NI FT IM sh0 cat0 (g_psf None None)); [apply takes_gauss|]. intros q.
  apply pres_bind; [exact hp_gnormal|]. intros n. hp.
Qed.

Lemma takes_gscomp : takes (g_s_component L fitter stats render).
Proof.
  intros z l lk. unfold g_s_component. cbn [scomp set_inf_loss set_zp fresh].
  apply (takes_bind NI FT IM sh0 cat0 (mbind _ _ _ (g_s_hat_comp L fitter stats render) (fun h => mbind _ _ _ (get _ _ _) (fun s =>
     upd _ _ _ (set_scomp _ _ _ (Some (ifft_real L h, inf_loss s))))))).
  - apply takes_bind; [exact takes_gshat|]. intros h. hp.
  - intros _. apply pres_bind; [apply pres_get|]. intros s1. destruct (scomp s1) as [[c l1]|]; [|hp].
    destruct (Req_EM_T _ _); [hp|]. apply pres_bind; [exact hp_gshat|]. intros h. hp.
Qed.

Lemma g_virgin cs : forall lk s, Forall g_plain cs -> virgin lk s ->
  if stamps_read lk cs then pos (g_exec_all L fitter stats render cs s) <> None
  else exists lk', virgin lk' (g_exec_all L fitter stats render cs s) /\ (lk = true -> lk' = true).
Proof.
  induction cs as [|c cs IH]; intros lk s F V; [exists lk; now split|].
  inversion F as [|? ? Pc Fc]; subst.
  assert (T : forall A (m : M NI FT IM A), takes m -> pos (snd (m s)) <> None).
  { intros A m T. destruct V as (z & ->). exact (T (Some z) (2 / 10) lk). }
  assert (Y : plain c -> stamps_read lk [c] = true -> pos (exec L c s) <> None).
  { intros Q R. pose proof (virgin_all NI FT IM L sh0 cat0 st0 p0 k0 Hsel Hext [c] lk s) as X. rewrite R in X.
    apply X; [now repeat constructor|exact V]. }
  assert (Z : plain c -> stamps_read lk [c] = false -> g_run c s = exec L c s ->
     stamps_read lk (c :: cs) = stamps_read (match c with CBestSources => true | _ => lk end) cs /\
     virgin (match c with CBestSources => true | _ => lk end) (exec L c s)).
  { intros Q R E. destruct V as (z & ->). destruct c; try discriminate.
    - split; [reflexivity|]. exists z. cbn [exec]. unfold void, best_sources. cbn. destruct lk; [reflexivity|]. rewrite Hsel. reflexivity.
    - split; [reflexivity|]. now exists z0.
    - cbn in R. destruct lk; [discriminate|]. cbn in Q. subst new. split; [reflexivity|]. now exists z. }
  change (g_exec_all L fitter stats render (c :: cs) s) with (g_exec_all L fitter stats render cs (g_run c s)).
  destruct (stamps_read lk [c]) eqn:R.
  - assert (R' : stamps_read lk (c :: cs) = true) by (destruct c; cbn in R |- *; try reflexivity; try discriminate; destruct lk; [reflexivity|discriminate]).
    rewrite R'. apply hp_run_all. destruct c; try (apply Y; [exact Pc|reflexivity]); cbn [g_exec]; unfold void;
      (apply T, takes_gauss) || (apply T, takes_gnormal) || (apply T, takes_gshat) || (apply T, takes_gscomp).
  - assert (E : g_run c s = exec L c s) by (destruct c; try discriminate R; reflexivity).
    assert (Q : plain c) by (destruct c; try discriminate R; exact Pc).
    destruct (Z Q eq_refl E) as [Er V']. rewrite Er, E. specialize (IH _ _ Fc V').
    destruct (stamps_read _ cs); [exact IH|]. destruct IH as (lk' & V1 & I). exists lk'. split; [exact V1|].
    intros ->. apply I. now destruct c.
Qed.
End Read.

Lemma stamps_inv NI FT IM (L : lib NI FT IM) sh stamps p : stamps_of _ _ _ L sh = Ok (stamps, p) ->
  exists cat k, select L = Ok cat /\ extract L sh cat = (stamps, Ok (p, k)).
Proof.
  intros St. unfold stamps_of in St. destruct (select L) as [cat|]; [|discriminate]. exists cat.
  destruct (extract L sh cat) as [st [[p' k]|]]; [|discriminate]. injection St as -> ->. eauto.
Qed.

Lemma model_ready NI FT IM (L : lib NI FT IM) fitter stats sh cat stamps p k s g s' : lib_ok L ->
  select L = Ok cat -> extract L sh cat = (stamps, Ok (p, k)) ->
  good NI FT IM L sh cat stamps p s -> gauss_model L fitter stats s = (Ok g, s') -> params_of fitter stats stamps g.
Proof.
  intros [Hlen Heig] Hs He Gd E.
  destruct (n_good NI FT IM L sh Hlen cat stamps p k Hs He s Gd) as (s1 & E1 & Rs & _).
  unfold gauss_model in E. rewrite E1 in E. destruct (no_file _ _ _ _ _); [discriminate|].
  destruct Rs. unfold stored in E. rewrite r_db in E. rewrite firstn_all in E.
  destruct (fit_all fitter stamps) as [gs|] eqn:Fa; [|discriminate]. destruct (Nat.ltb _ _); [discriminate|].
  injection E as <- _. exists gs. split; [now apply fit_all_inv|reflexivity].
Qed.

Lemma model_good NI FT IM (L : lib NI FT IM) fitter stats sh cat stamps p k s g : lib_ok L ->
  select L = Ok cat -> extract L sh cat = (stamps, Ok (p, k)) ->
  good NI FT IM L sh cat stamps p s -> params_of fitter stats stamps g -> fst (gauss_model L fitter stats s) = Ok g.
Proof.
  intros [Hlen Heig] Hs He Gd (gs & Fi & ->).
  destruct (n_good NI FT IM L sh Hlen cat stamps p k Hs He s Gd) as (s1 & E1 & Rs & _).
  unfold gauss_model. rewrite E1. destruct Rs. unfold no_file, stored. rewrite r_db. rewrite firstn_all.
  rewrite (fit_all_ok fitter stamps gs Fi). rewrite (proj2 (Nat.ltb_ge _ _)) by lia. reflexivity.
Qed.

(** The sources given to an image decide its Gaussian as long as no stamps were asked for. *)
Lemma model_answer NI FT IM (L : lib NI FT IM) fitter stats render sh s0 cs stamps p g0 stars g s' :
  lib_ok L -> new_image L sh s0 -> stamps_of _ _ _ L sh = Ok (stamps, p) -> params_of fitter stats stamps g0 ->
  Forall g_plain cs ->
  gauss_model L fitter stats (set_best _ _ _ (Some stars) (g_exec_all L fitter stats render cs s0)) = (Ok g, s') ->
  exists stamps' p', stamps_of _ _ _ (if stamps_read (looked_at s0) cs then L else given L stars) sh = Ok (stamps', p') /\
    params_of fitter stats stamps' g.
Proof.
  intros O Nw St Pm F E. destruct (stamps_inv _ _ _ _ _ _ _ St) as (cat & k & Hs & He).
  assert (V : virgin _ _ _ sh cat (looked_at s0) s0).
  { exists 1. destruct Nw as [->|(c & Hc & ->)]; cbn; [reflexivity|]. rewrite Hs in Hc. now injection Hc as ->. }
  pose proof (g_virgin NI FT IM L fitter stats render sh cat stamps p k Hs He cs (looked_at s0) s0 F V) as X.
  destruct (stamps_read (looked_at s0) cs).
  - exists stamps, p. split; [exact St|].
    destruct Pm as (gs & Fi & _).
    destruct (g_reached_all NI FT IM L fitter stats render sh s0 cs stamps p _ O Nw St (ex_intro _ gs (conj Fi eq_refl)) F)
      as (J & _ & _ & _ & _ & _ & Gd & Sb & (Js & _)).
    apply (model_ready _ _ _ L fitter stats sh cat stamps p k _ g s' O Hs He (Gd _ _ _ _ _ Hs He (Sb _ _ Js X)) E).
  - destruct X as (lk & (z & EV) & _). rewrite EV in E. clear EV.
    change (set_best NI FT IM (Some stars) (set_zp _ _ _ (Some z) (fresh _ _ _ sh (if lk then Some cat else None))))
      with (set_zp _ _ _ (Some z) (fresh NI FT IM sh (Some stars))) in E.
    set (s1 := set_zp _ _ _ (Some z) (fresh NI FT IM sh (Some stars))) in E.
    assert (E' : gauss_model (given L stars) fitter stats s1 = (Ok g, s')).
    { rewrite <- E. unfold gauss_model. destruct (same_n NI FT IM L stars s1 ltac:(discriminate)) as [-> _]. reflexivity. }
    destruct (extract L sh stars) as [st [[p' k']|e]] eqn:Ex.
    + exists st, p'. assert (Se : stamps_of _ _ _ (given L stars) sh = Ok (st, p')).
      { unfold stamps_of. cbn [given Session.select Session.extract]. now rewrite Ex. }
      split; [exact Se|].
      assert (O' : lib_ok (given L stars)) by exact O.
      assert (N' : new_image (given L stars) sh (fresh NI FT IM sh (Some stars))) by (right; exists stars; now split).
      destruct (SessionMain.reached_fresh _ _ _ _ sh _ O' N') as (J & mode & I0 & H1 & H2 & H3 & H4 & H5 & H6 & H7 & H8 & H9 & H10 & H11 & H12).
      apply (model_ready _ _ _ (given L stars) fitter stats sh stars st p' k' s1 g s' O' eq_refl Ex); [|exact E'].
      apply (H9 _ _ _ k'); [reflexivity|exact Ex|]. apply H3. exact (proj1 I0).
    + exfalso. clear -E Ex. unfold gauss_model, n_sources, s1, stamps_pos, best_sources, mbind, get, upd, raise in E. cbn in E.
      rewrite Ex in E. cbn in E. discriminate.
Qed.

Lemma model_given NI FT IM (L : lib NI FT IM) fitter stats render sh s0 cs stamps p g0 stars stamps' p' g :
  lib_ok L -> new_image L sh s0 -> stamps_of _ _ _ L sh = Ok (stamps, p) -> params_of fitter stats stamps g0 ->
  Forall g_plain cs ->
  stamps_of _ _ _ (if stamps_read (looked_at s0) cs then L else given L stars) sh = Ok (stamps', p') ->
  params_of fitter stats stamps' g ->
  fst (gauss_model L fitter stats (set_best _ _ _ (Some stars) (g_exec_all L fitter stats render cs s0))) = Ok g.
Proof.
  intros O Nw St Pm F St' Pg. destruct (stamps_inv _ _ _ _ _ _ _ St) as (cat & k & Hs & He).
  assert (V : virgin _ _ _ sh cat (looked_at s0) s0).
  { exists 1. destruct Nw as [->|(c & Hc & ->)]; cbn; [reflexivity|]. rewrite Hs in Hc. now injection Hc as ->. }
  pose proof (g_virgin NI FT IM L fitter stats render sh cat stamps p k Hs He cs (looked_at s0) s0 F V) as X.
  destruct (stamps_read (looked_at s0) cs).
  - rewrite St in St'. injection St' as <- <-.
    destruct Pm as (gs & Fi & _).
    destruct (g_reached_all NI FT IM L fitter stats render sh s0 cs stamps p _ O Nw St (ex_intro _ gs (conj Fi eq_refl)) F)
      as (J & _ & _ & _ & _ & _ & Gd & Sb & (Js & _)).
    exact (model_good _ _ _ L fitter stats sh cat stamps p k _ g O Hs He (Gd _ _ _ _ _ Hs He (Sb _ _ Js X)) Pg).
  - destruct X as (lk & (z & EV) & _). rewrite EV. clear EV.
    change (set_best NI FT IM (Some stars) (set_zp _ _ _ (Some z) (fresh _ _ _ sh (if lk then Some cat else None))))
      with (set_zp _ _ _ (Some z) (fresh NI FT IM sh (Some stars))).
    set (s1 := set_zp _ _ _ (Some z) (fresh NI FT IM sh (Some stars))).
    assert (E' : fst (gauss_model L fitter stats s1) = fst (gauss_model (given L stars) fitter stats s1)).
    { unfold gauss_model. destruct (same_n NI FT IM L stars s1 ltac:(discriminate)) as [-> _]. reflexivity. }
    rewrite E'. destruct (stamps_inv _ _ _ _ _ _ _ St') as (c & k' & Hc & Hx). cbn in Hc. injection Hc as <-.
    assert (O' : lib_ok (given L stars)) by exact O.
    assert (N' : new_image (given L stars) sh (fresh NI FT IM sh (Some stars))) by (right; exists stars; now split).
    destruct (SessionMain.reached_fresh _ _ _ _ sh _ O' N') as (J & mode & I0 & H1 & H2 & H3 & H4 & H5 & H6 & H7 & H8 & H9 & H10 & H11 & H12).
    apply (model_good _ _ _ (given L stars) fitter stats sh stars stamps' p' k' s1 g O' eq_refl Hx); [|exact Pg].
    apply (H9 _ _ _ k'); [reflexivity|exact Hx|]. apply H3. exact (proj1 I0).
Qed.

Lemma gauss2d_rotated a b t x0 y0 x y : a <> 0 -> b <> 0 ->
  gauss2d a b t x0 y0 1 x y = exp (- rotated a b t (x - x0) (y - y0) / 2).
Proof.
  intros Ha Hb. unfold gauss2d, rotated. rewrite Rmult_1_l. f_equal. rewrite sin_2a. field. now split.
Qed.

Lemma gauss_used W fuel o d x fitter stats render cs stars stamps p g0 g s' :
  (forall n c, length (fst (l_eigh W n c)) = n) -> build W fuel o d = Some (Ok x) -> Forall g_plain cs ->
  stamps_of _ _ _ (bu_lib x) (stamp_shape (bu_attr x)) = Ok (stamps, p) -> params_of fitter stats stamps g0 ->
  gauss_model (bu_lib x) fitter stats (bu_attr (with_best stars (g_after fitter stats render cs x))) = (Ok g, s') ->
  g_reads fitter stats x cs stars g (seen_gauss (with_best stars (g_after fitter stats render cs x)) g) /\
  d_render (seen_gauss (with_best stars (g_after fitter stats render cs x)) g) =
    (let '(a, b, t) := g in render_frame (shape (m_dat (bu_data x))) a b t).
Proof.
  intros EL Bx F St Pm E. destruct (build_lib _ _ _ _ _ Bx) as (Dx & Lx & sh & N & Sh). rewrite <- Sh in St.
  assert (O : lib_ok (bu_lib x)) by (rewrite Lx; now apply lib_of_ok).
  pose proof (model_answer _ _ _ (bu_lib x) fitter stats render sh (bu_attr x) cs stamps p g0 stars g s' O N St Pm F E) as Q.
  destruct g as [[a b] t]. split; [|reflexivity]. unfold g_reads. cbn zeta. rewrite <- Sh. split; [exact Q|].
  cbn. repeat split; intros i j.
  - intros M. now rewrite M.
  - intros v M V. now rewrite M, V.
Qed.

(** What a subtraction in the default mode uses. *)
Lemma C122_subtract_lm : forall W fuel o o' d d' x y fitter stats render cs cs' beta shift iterative sp sp' g0 g0' D P S m,
  (forall n c, length (fst (l_eigh W n c)) = n) -> (forall r, Permutation (l_sort W r) r) ->
  build W fuel o d = Some (Ok x) -> build W fuel o' d' = Some (Ok y) ->
  stamps_of _ _ _ (bu_lib x) (stamp_shape (bu_attr x)) = Ok sp -> params_of fitter stats (fst sp) g0 ->
  stamps_of _ _ _ (bu_lib y) (stamp_shape (bu_attr y)) = Ok sp' -> params_of fitter stats (fst sp') g0' ->
  Forall g_plain cs -> Forall g_plain cs' ->
  let x' := g_after fitter stats render cs x in let y' := g_after fitter stats render cs' y in
  subtract_gauss W fitter stats beta shift iterative x' y' = Ok (D, P, S, m) ->
  exists cr cn left left' t e u v a b th a' b' th',
    fst (best_sources (bu_lib x) (bu_attr x')) = Ok cr /\ fst (best_sources (bu_lib y) (bu_attr y')) = Ok cn /\
    transparency (l_query W) (l_sort W) (l_lsqr W)
      [mkcat false false (map row_of cr); mkcat false false (map row_of cn)] None = Ok t /\
    map spot left = map spot cr /\ Permutation (map spot left') (map spot cn) /\
    g_reads fitter stats x cs left (a, b, th) u /\ g_reads fitter stats y cs' left' (a', b', th') v /\
    (a <> 0 -> b <> 0 ->
     gaussian_at (d_render u) (d_shape u) a b th (INR (snd (d_shape u)) / 2) (INR (fst (d_shape u)) / 2)) /\
    (a' <> 0 -> b' <> 0 ->
     gaussian_at (d_render v) (d_shape v) a' b' th' (INR (snd (d_shape v)) / 2) (INR (fst (d_shape v)) / 2)) /\
    e_transp e u v = Ok (nth 0 (zps t) 0, nth 1 (zps t) 0) /\ e_back e = l_back W /\ e_solve e = l_solve W /\
    subtract e (Is u) (Is v) false beta shift iterative true = Ok (D, P, S, m).
Proof.
  intros W fuel o o' d d' x y fitter stats render cs cs' beta shift it sp sp' g0 g0' D P S m EL SP Bx By Hx Px Hy Py F F' x' y'.
  destruct sp as [st p]. destruct sp' as [st' p']. cbn [fst] in Px, Py.
  unfold subtract_gauss. destruct (negb _); [discriminate|].
  change (bu_lib x') with (bu_lib x). change (bu_lib y') with (bu_lib y).
  destruct (fst (best_sources (bu_lib x) (bu_attr x'))) as [cr|] eqn:Er; [|discriminate]. cbn [bind].
  destruct (fst (best_sources (bu_lib y) (bu_attr y'))) as [cn|] eqn:En; [|discriminate]. cbn [bind].
  destruct (transparency _ _ _ _ _) as [t|] eqn:Et; [|discriminate]. cbn [bind].
  destruct (matched_spots _ _ _ _ _ _ SP Et) as (Sr & c & Ec & Sn). rewrite Ec.
  change (bu_lib (with_best ?l x')) with (bu_lib x). change (bu_lib (with_best ?l y')) with (bu_lib y).
  destruct (gauss_model (bu_lib x) fitter stats (bu_attr (with_best _ x'))) as [[gr|] sx] eqn:Gr; [|discriminate]. cbn [fst bind].
  destruct (gauss_model (bu_lib y) fitter stats (bu_attr (with_best _ y'))) as [[gn|] sy] eqn:Gn; [|discriminate]. cbn [fst bind].
  intros E. destruct (gauss_used W fuel o d x fitter stats render cs _ st p g0 gr sx EL Bx F Hx Px Gr) as [R1 E1].
  destruct (gauss_used W fuel o' d' y fitter stats render cs' _ st' p' g0' gn sy EL By F' Hy Py Gn) as [R2 E2].
  fold x' in R1, E1. fold y' in R2, E2.
  destruct gr as [[a b] th]. destruct gn as [[a' b'] th'].
  exists cr, cn, (map src_of (rows (mcat t))), (map src_of (rows c)), t.
  eexists. exists (seen_gauss (with_best (map src_of (rows (mcat t))) x') (a, b, th)),
    (seen_gauss (with_best (map src_of (rows c)) y') (a', b', th')), a, b, th, a', b', th'.
  split; [reflexivity|]. split; [reflexivity|]. split; [exact Et|].
  assert (Q : forall r, map spot (map src_of r) = map rspot r) by (intros r; rewrite map_map; reflexivity).
  assert (Q' : forall s, map rspot (map row_of s) = map spot s) by (intros s; rewrite map_map; reflexivity).
  split; [now rewrite Q, Sr, Q'|]. split; [now rewrite Q, <- Q'|].
  split; [exact R1|]. split; [exact R2|].
  split; [intros Ha Hb i j _ _; cbn; now apply gauss2d_rotated|].
  split; [intros Ha Hb i j _ _; cbn; now apply gauss2d_rotated|].
  split; [|split; [|split; [|exact E]]]; reflexivity.
Qed.
