(** Histories of an image with a Gaussian PSF whose stamps are cut in place. *)
From Coq Require Import ZArith List Bool Arith Reals Lia Lra.
From Coquelicot Require Import Complex.
From Verif.Model Require Import Py Plane Ma Coadd.
From Verif.Spec Require Import Coadd.
From Verif.Model Require Import Filter.
From Verif.Spec Require Import Filter.
From Verif.Proof Require Import Filter FilterMain.
From Verif.Model Require Import Interp Subtract FindS Sources Stamps Transparency Cut KL Session Chain ChainCoadd CutChain Gauss GaussImage Live LiveGauss.
From Verif.Spec Require Import Stamps Chain Session Uses UsesCoadd GaussImage Cut CutCoadd Live LiveGauss.
From Verif.Proof Require Import Interp KL KLMain Session SessionLm GaussMain Chain ChainMain ChainUnits Uses UsesCoadd UsesCoaddMain Filtered GaussImage GaussFiltered CutMain CutLeft CutChain CutChainLeft Live LiveMain.
Import ListNotations.
Set Bullet Behavior "Strict Subproofs".
Local Open Scope R_scope.

Arguments lg_psf {PIC NI FT IM}.
Arguments lg_normal_image {PIC NI FT IM}.
Arguments lg_s_hat_comp {PIC NI FT IM}.
Arguments lg_s_component {PIC NI FT IM}.
Arguments lg_exec {PIC NI FT IM}.
Arguments lg_exec_all {PIC NI FT IM}.

Section Sim.
Variables PIC NI FT IM : Type.
Variable L : llib PIC NI FT IM.
Variables (p0 p1 : PIC) (sh0 : nat * nat) (cat : list src).
Variables (st : list (plane R)) (ps : list (R * R)) (kept : list src).
Variable good : PIC -> Prop.
Hypothesis Hsel : select (base L) = Ok cat.
Hypothesis Hcut : cutting L p0 sh0 cat = (p1, (st, Ok (ps, kept))).
Hypothesis G1 : good p1.
Hypothesis GS : forall p z a b n, good p -> good (fst (filtering L p z a b n)).
Hypothesis GR : forall p z a b n, good p -> snd (filtering L p z a b n) = snd (filtering L p1 z a b n).
Variables (fitter : Gauss.start -> plane R -> gaussian) (stats : list R -> R * R * R) (render : R -> R -> R -> R -> plane (option R)).

Notation T := (still PIC NI FT IM L p0 p1).
Notation A := (simA PIC NI FT IM p0 sh0 cat ps good).
Notation B := (simB PIC NI FT IM ps good).
Notation agr := (agree PIC NI FT IM p0 sh0 cat ps good).
Notation bindB := (simB_bind PIC NI FT IM ps good).
Notation bindA := (simA_bind PIC NI FT IM p0 sh0 cat ps good).
Notation retB := (simB_ret PIC NI FT IM ps good).
Notation updB := (simB_upd PIC NI FT IM ps good).
Notation getB := (simB_get PIC NI FT IM ps good).

Lemma gpsf_B l sh : B (lg_psf L fitter stats render l sh) (gauss_psf T fitter stats render l sh).
Proof.
  intros p s H. unfold lg_psf, gauss_psf.
  assert (N : B (l_n_sources _ _ _ _ L) (n_sources T)) by (eapply n_B; first [exact Hsel|exact Hcut|exact G1|exact GS|exact GR]).
  destruct (N p s H) as (r & p' & s' & E & E' & K). rewrite E, E'. destruct r as [n|e]; cbn [snd].
  - do 3 eexists. split; [reflexivity|]. split; [reflexivity|exact K].
  - now exists (Raise e), p', s'.
Qed.
Lemma gpsf_A l sh : A (lg_psf L fitter stats render l sh) (gauss_psf T fitter stats render l sh).
Proof.
  intros s H. unfold lg_psf, gauss_psf.
  assert (N : A (l_n_sources _ _ _ _ L) (n_sources T)) by (eapply n_A; first [exact Hsel|exact Hcut|exact G1|exact GS|exact GR]).
  destruct (N s H) as (r & p' & s' & E & E' & K). rewrite E, E'. destruct r as [n|e]; cbn [snd].
  - do 3 eexists. split; [reflexivity|]. split; [reflexivity|exact K].
  - now exists (Raise e), p', s'.
Qed.

Lemma gnormal_B : B (lg_normal_image L fitter stats render) (g_normal_image T fitter stats render).
Proof.
  intros p s H. unfold lg_normal_image, g_normal_image. cbn [snd]. destruct (normal s); [now apply retB|].
  refine (bindB _ _ _ _ _ _ (gpsf_B None None) _ p s H). intros a. cbv zeta. apply bindB; [|intros _; apply retB].
  apply updB. intros; cbn; auto.
Qed.
Lemma gnormal_A : A (lg_normal_image L fitter stats render) (g_normal_image T fitter stats render).
Proof.
  intros s H. unfold lg_normal_image, g_normal_image. cbn [snd]. assert (N : normal s = None) by apply H. rewrite N.
  refine (bindA _ _ _ _ _ _ (gpsf_A None None) _ s H). intros a. cbv zeta. apply bindB; [|intros _; apply retB].
  apply updB. intros; cbn; auto.
Qed.

Lemma gfilter_B psf : B
  (lbind _ _ _ _ (lg_normal_image L fitter stats render) (fun nrm => lbind _ _ _ _ (lget _ _ _ _) (fun s =>
     lbind _ _ _ _ (fun x => let '(p, h) := filtering L (fst x) (get_zp _ _ _ s) (fst psf) (snd psf) nrm in
                       (Ok h, (p, snd x))) (fun h =>
     lbind _ _ _ _ (lupd _ _ _ _ (set_shat _ _ _ (Some (h, inf_loss s)))) (fun _ => lret _ _ _ _ h)))))
  (mbind _ _ _ (g_normal_image T fitter stats render) (fun nrm => mbind _ _ _ (get _ _ _) (fun s =>
     let h := shat_of T (get_zp _ _ _ s) (fst psf) (snd psf) nrm in
     mbind _ _ _ (upd _ _ _ (set_shat _ _ _ (Some (h, inf_loss s)))) (fun _ => ret _ _ _ h)))).
Proof.
  apply bindB; [exact gnormal_B|intros nrm]. apply getB. intros s1 p s H. cbn [still shat_of].
  unfold lbind, mbind, lupd, upd, lret, ret. cbn [fst snd].
  destruct H as (X & Y & Z & D).
  rewrite <- (GR p (get_zp _ _ _ s1) (fst psf) (snd psf) nrm D).
  pose proof (GS p (get_zp _ _ _ s1) (fst psf) (snd psf) nrm D) as D'.
  destruct (filtering L p _ _ _ _) as [p' h]. cbn [fst snd] in *.
  do 3 eexists. split; [reflexivity|]. split; [reflexivity|]. now repeat split.
Qed.

Lemma gshat_B : B (lg_s_hat_comp L fitter stats render) (g_s_hat_comp T fitter stats render).
Proof.
  intros p s H. unfold lg_s_hat_comp, g_s_hat_comp. cbn [snd].
  assert (K := bindB _ _ _ _ _ _ (gpsf_B None None) gfilter_B p s H).
  destruct (shat s) as [[h l]|]; [|exact K]. destruct (Req_EM_T l (inf_loss s)); [now apply retB|exact K].
Qed.
Lemma gshat_A : A (lg_s_hat_comp L fitter stats render) (g_s_hat_comp T fitter stats render).
Proof.
  intros s H. unfold lg_s_hat_comp, g_s_hat_comp. cbn [snd]. assert (N : shat s = None) by apply H. rewrite N.
  exact (bindA _ _ _ _ _ _ (gpsf_A None None) gfilter_B s H).
Qed.

Lemma gscomp_rest : B
  (lbind _ _ _ _ (lget _ _ _ _) (fun s =>
   match scomp s with
   | None => lraise _ _ _ _ AttributeError
   | Some (c, l) =>
       if Req_EM_T l (inf_loss s) then lret _ _ _ _ c
       else
         lbind _ _ _ _ (lg_s_hat_comp L fitter stats render) (fun h =>
         let c := ifft_real (base L) h in
         lbind _ _ _ _ (lupd _ _ _ _ (set_scomp _ _ _ (Some (c, l)))) (fun _ =>
         lret _ _ _ _ c))
   end))
  (mbind _ _ _ (get _ _ _) (fun s =>
   match scomp s with
   | None => raise _ _ _ AttributeError
   | Some (c, l) =>
       if Req_EM_T l (inf_loss s) then ret _ _ _ c
       else
         mbind _ _ _ (g_s_hat_comp T fitter stats render) (fun h =>
         let c := ifft_real T h in
         mbind _ _ _ (upd _ _ _ (set_scomp _ _ _ (Some (c, l)))) (fun _ =>
         ret _ _ _ c))
   end)).
Proof.
  apply getB. intros s. destruct (scomp s) as [[c l]|]; [|apply (simB_raise PIC NI FT IM ps good)].
  destruct (Req_EM_T l (inf_loss s)); [apply retB|]. apply bindB; [exact gshat_B|intros h]. cbv zeta.
  apply bindB; [|intros _; apply retB]. apply updB. intros; cbn; auto.
Qed.
Lemma gscomp_B : B (lg_s_component L fitter stats render) (g_s_component T fitter stats render).
Proof.
  intros p s H. unfold lg_s_component, g_s_component. cbn [snd]. refine (bindB _ _ _ _ _ _ _ (fun _ => gscomp_rest) p s H).
  destruct (scomp s); [apply retB|]. apply bindB; [exact gshat_B|intros h]. apply getB. intros s1. apply updB. intros; cbn; auto.
Qed.
Lemma gscomp_A : A (lg_s_component L fitter stats render) (g_s_component T fitter stats render).
Proof.
  intros s H. unfold lg_s_component, g_s_component. cbn [snd]. assert (N : scomp s = None) by apply H. rewrite N.
  refine (bindA _ _ _ _ _ _ _ (fun _ => gscomp_rest) s H).
  apply bindA; [exact gshat_A|intros h]. apply getB. intros s1. apply updB. intros; cbn; auto.
Qed.

Lemma gexec_sim c x : g_same_stamps c -> agr x ->
  snd (lg_exec L fitter stats render c x) = g_exec T fitter stats render c (snd x) /\ agr (lg_exec L fitter stats render c x).
Proof.
  intros O H. assert (V : forall X (m : LM PIC NI FT IM X) m', A m m' -> B m m' ->
    snd (lvoid _ _ _ _ m x) = void _ _ _ m' (snd x) /\ agr (lvoid _ _ _ _ m x)).
  { intros X m m' HA HB. unfold lvoid, void.
    destruct (void_sim PIC NI FT IM p0 sh0 cat ps good _ m m' HA HB x H) as (_ & Q & R). now split. }
  assert (E : Verif.Spec.Live.same_stamps c -> snd (l_exec L c x) = Session.exec T c (snd x) /\ agr (l_exec L c x)).
  { intros S. eapply exec_sim; first [exact Hsel|exact Hcut|exact G1|exact GS|exact GR|exact S|exact H]. }
  destruct c; cbn [lg_exec g_exec g_same_stamps] in *; try (exact (E O)).
  - apply V; [apply gpsf_A|apply gpsf_B].
  - apply V; [apply gnormal_A|apply gnormal_B].
  - apply V; [apply gshat_A|apply gshat_B].
  - apply V; [apply gscomp_A|apply gscomp_B].
Qed.

Lemma gexec_all_sim cs : Forall g_same_stamps cs -> forall x, agr x ->
  snd (lg_exec_all L fitter stats render cs x) = g_exec_all T fitter stats render cs (snd x) /\ agr (lg_exec_all L fitter stats render cs x).
Proof.
  induction 1 as [|c cs O _ IH]; intros x H; [now split|]. unfold lg_exec_all, g_exec_all. cbn [fold_left].
  destruct (gexec_sim c x O H) as [X Y]. destruct (IH _ Y) as [Z D]. split; [|exact D].
  unfold lg_exec_all, g_exec_all in Z. rewrite Z, X. reflexivity.
Qed.
End Sim.

(** The attributes, the answers and the interpolated image after a history of an image of the
    Gaussian class: those of Model/GaussImage.v for the stamps of one extraction, from the image
    of the constructor, and with what it left for the matched filter. *)
Lemma C139_history_lm : forall W fitter stats render fuel o d x c ex,
  build W fuel o d = Some (Ok x) -> fst (Session.best_sources (bu_lib x) (bu_attr x)) = Ok c ->
  snd (first_cut W o x c) = Ok ex ->
  let y := opened W o c x in
  let L := live_lib W o x in
  forall cs, Forall g_same_stamps cs ->
  let s := lg_lived W fitter stats render o cs x in
  let a := bu_attr (g_after fitter stats render cs y) in
  snd s = a /\
  pic_now (fst s) = (if pos a then fst (first_cut W o x c) else intact (bu_clean x)) /\
  (forall l sh, fst (lg_psf L fitter stats render l sh s) = fst (gauss_psf (bu_lib y) fitter stats render l sh a)) /\
  fst (lg_normal_image L fitter stats render s) = fst (g_normal_image (bu_lib y) fitter stats render a) /\
  fst (lg_s_hat_comp L fitter stats render s) = fst (g_s_hat_comp (bu_lib y) fitter stats render a) /\
  fst (lg_s_component L fitter stats render s) = fst (g_s_component (bu_lib y) fitter stats render a).
Proof.
  intros W fitter stats render fuel o d x c ex E Bs First y L cs F s a.
  destruct (build_catalogue _ _ _ _ _ _ E Bs) as [Hsel New].
  pose proof (still_opened W o x c ex First) as SO.
  pose proof (first_cutting W o x c ex First) as FC.
  pose proof (live_good1 W o x c) as G1. pose proof (live_good W o x c) as GS. pose proof (live_read W o x c) as GR.
  destruct (gexec_all_sim _ _ _ _ L (untouched x) (pic1 W o x c) (stamp_shape (bu_attr x)) c _ _ _ (goodpic W o x c)
    Hsel FC G1 GS GR fitter stats render cs F _ (live_start W o x c ex Hsel New)) as [A G].
  fold s in G. change (lg_exec_all L fitter stats render cs (untouched x, bu_attr x)) with s in A. cbn [snd] in A.
  unfold L in A. rewrite SO in A. change (snd s = a) in A.
  assert (Ans : forall X (m : LM _ _ _ _ X) m',
     (simA _ _ _ _ (untouched x) (stamp_shape (bu_attr x)) c (ex_pos ex) (goodpic W o x c) m (m' (still _ _ _ _ L (untouched x) (pic1 W o x c)))) ->
     (simB _ _ _ _ (ex_pos ex) (goodpic W o x c) m (m' (still _ _ _ _ L (untouched x) (pic1 W o x c)))) -> fst (m s) = fst (m' (bu_lib y) a)).
  { intros X m m' HA HB. unfold L in HA, HB. rewrite SO in HA, HB. rewrite <- A.
    now destruct (void_sim _ _ _ _ (untouched x) (stamp_shape (bu_attr x)) c (ex_pos ex) (goodpic W o x c) _ m _ HA HB _ G). }
  split; [exact A|]. split; [|split; [|split; [|split]]].
  - rewrite <- A. unfold s, lg_lived. fold L. destruct G as [(_ & G2 & _ & G4 & _)|[G5 G6]].
    + rewrite G2. exact G4.
    + destruct G6 as (_ & _ & _ & G7 & _). rewrite G7, G5. reflexivity.
  - intros l q. apply (Ans _ (lg_psf L fitter stats render l q) (fun lb => gauss_psf lb fitter stats render l q)).
    + eapply gpsf_A; first [exact Hsel|exact FC|exact G1|exact GS|exact GR].
    + eapply gpsf_B; first [exact Hsel|exact FC|exact G1|exact GS|exact GR].
  - apply (Ans _ (lg_normal_image L fitter stats render) (fun lb => g_normal_image lb fitter stats render)).
    + eapply gnormal_A; first [exact Hsel|exact FC|exact G1|exact GS|exact GR].
    + eapply gnormal_B; first [exact Hsel|exact FC|exact G1|exact GS|exact GR].
  - apply (Ans _ (lg_s_hat_comp L fitter stats render) (fun lb => g_s_hat_comp lb fitter stats render)).
    + eapply gshat_A; first [exact Hsel|exact FC|exact G1|exact GS|exact GR].
    + eapply gshat_B; first [exact Hsel|exact FC|exact G1|exact GS|exact GR].
  - apply (Ans _ (lg_s_component L fitter stats render) (fun lb => g_s_component lb fitter stats render)).
    + eapply gscomp_A; first [exact Hsel|exact FC|exact G1|exact GS|exact GR].
    + eapply gscomp_B; first [exact Hsel|exact FC|exact G1|exact GS|exact GR].
Qed.

Lemma plain_same cs : Forall g_plain cs -> Forall g_same_stamps cs.
Proof.
  apply Forall_impl. intros c0 H. destruct c0 as [| | | | | | |[l|] q| | | | | |q| | |]; cbn in *; tauto.
Qed.

Lemma opened_stamps W o x c ex : Session.select (bu_lib x) = Ok c -> snd (first_cut W o x c) = Ok ex ->
  stamps_of _ _ _ (bu_lib (opened W o c x)) (stamp_shape (bu_attr x)) = Ok (map numbers (ex_stamps ex), ex_pos ex).
Proof.
  intros Hsel First. unfold stamps_of. change (Session.select (bu_lib (opened W o c x))) with (Session.select (bu_lib x)). rewrite Hsel.
  destruct (first_dump W o x c ex First) as (del & Dd & K). unfold opened. cbn [bu_lib extract]. unfold cut_for.
  rewrite Dd. reflexivity.
Qed.

(** get_variable_psf answers the Gaussian of the stamps of the first extraction, after any plain
    history and whatever loss and shape it is given. *)
Lemma C139_psf_lm : forall W fitter stats render fuel o d x c ex G,
  (forall n m, length (fst (l_eigh W n m)) = n) ->
  build W fuel o d = Some (Ok x) -> fst (Session.best_sources (bu_lib x) (bu_attr x)) = Ok c ->
  snd (first_cut W o x c) = Ok ex ->
  gaussian_of fitter stats render (map numbers (ex_stamps ex)) G ->
  forall cs, Forall g_plain cs ->
  let s := lg_lived W fitter stats render o cs x in
  forall l sh, fst (lg_psf (live_lib W o x) fitter stats render l sh s) = Ok (NoField, [G]).
Proof.
  intros W fitter stats render fuel o d x c ex G EL E Bs First Hg cs P s l sh.
  destruct (build_catalogue _ _ _ _ _ _ E Bs) as [Hsel New].
  destruct (C139_history_lm W fitter stats render fuel o d x c ex E Bs First cs (plain_same cs P)) as (_ & _ & A & _).
  unfold s. rewrite A. set (y := opened W o c x).
  assert (LO : lib_ok (bu_lib y)).
  { apply opened_ok. destruct (build_lib _ _ _ _ _ E) as (D & L & _). rewrite L. exact EL. }
  assert (N : new_image (bu_lib y) (stamp_shape (bu_attr x)) (bu_attr y)) by exact New.
  exact (proj1 (C121_psf_lm _ _ _ (bu_lib y) fitter stats render _ _ cs _ _ G l sh LO N (opened_stamps W o x c ex Hsel First) Hg P)).
Qed.

(** Each pixel of s_component: the image that the extraction leaves, seen through the Gaussian. *)
Lemma C139_pixels_lm : forall W fitter stats render fuel o d x c ex G e u v,
  (forall n m, length (fst (l_eigh W n m)) = n) ->
  build W fuel o d = Some (Ok x) -> fst (Session.best_sources (bu_lib x) (bu_attr x)) = Ok c ->
  snd (first_cut W o x c) = Ok ex ->
  gaussian_of fitter stats render (map numbers (ex_stamps ex)) G ->
  forall cs, Forall g_plain cs -> first_component (2 / 10) (map forget cs) <> Some (g_last_loss cs) ->
  is_stamp G e -> symmetric e u v -> rsum2 (nr e) (nc e) (px e) <> 0 ->
  let sh := shape (m_dat (bu_data x)) in
  fits sh e -> var (bu_back x) <> 0 ->
  exists S, fst (lg_s_component (live_lib W o x) fitter stats render (lg_lived W fitter stats render o cs x)) = Ok (Ok S) /\
    shape S = sh /\
    forall i j, (i < fst sh)%nat -> (j < snd sh)%nat ->
      px S i j = snd (made_of (need_filt (g_history cs))) / var (bu_back x) ^ 2 / sqrt (cells_of sh) *
                 Filter.seen sh (px (numbers (fst (first_cut W o x c)))) e (Z.of_nat u) (Z.of_nat v) i j.
Proof.
  intros W fitter stats render fuel o d x c ex G e u v EL Bx Bs First Hg cs F N He Hs Hn sh Hf Hv.
  destruct (build_catalogue _ _ _ _ _ _ Bx Bs) as [Hsel New].
  destruct (C139_history_lm W fitter stats render fuel o d x c ex Bx Bs First cs (plain_same cs F)) as (_ & _ & _ & _ & _ & A).
  rewrite A. set (y := opened W o c x).
  destruct (build_lib _ _ _ _ _ Bx) as (Dx & Lx & _).
  assert (O : lib_ok (bu_lib y)) by (apply opened_ok; rewrite Lx; exact EL).
  assert (Nw : new_image (bu_lib y) (stamp_shape (bu_attr x)) (bu_attr y)) by exact New.
  change (bu_attr (g_after fitter stats render cs y)) with (g_exec_all (bu_lib y) fitter stats render cs (bu_attr y)).
  rewrite (g_component _ _ _ (bu_lib y) fitter stats render _ (bu_attr y) cs _ _ G O Nw (opened_stamps W o x c ex Hsel First) Hg F N).
  assert (El : left_by W (mkpicks (o_pick o) None) (bu_clean x) (b_rms (bu_back x)) (stamp_shape (bu_attr x)) c =
    numbers (fst (first_cut W o x c))).
  { unfold left_by. destruct (first_dump W o x c ex First) as (del & D & _). now rewrite D. }
  set (z := snd (made_of (need_filt (g_history cs)))). unfold y, opened. cbn [bu_lib shat_of normal_of ifft_real].
  rewrite El. fold sh. change (b_rms (bu_back x)) with (var (bu_back x)). cbn [on_pixels map].
  rewrite Lx. unfold lib_of at 2. cbn [ifft_real].
  set (nrm := px (Session.normal_of _ _ _)). set (im := mkfimg _ _ _ _).
  assert (Ex : exists S, Filter.s_component im nrm None [numbers G] = Ok S) by (unfold Filter.s_component, Filter.s_hat, s_base; cbn; eauto).
  destruct Ex as (S & ES). exists S. split; [now f_equal|].
  destruct (stamp_numbers G e He) as [Ss V].
  assert (Hf' : fits sh (numbers G)).
  { unfold shape in Ss. injection Ss as Sr Sc. unfold fits in *. rewrite Sr, Sc in Hf. exact Hf. }
  pose proof (symmetric_center e u v Hs Hn) as Hc. rewrite (com_ext e (numbers G) Ss V) in Hc.
  assert (P0 : (0 < fst sh)%nat /\ (0 < snd sh)%nat).
  { destruct Hs as (H1 & H2 & _). destruct Hf. lia. }
  destruct P0 as [Pr Pc].
  destruct (C87_constant_psf_lm im nrm (numbers G) [] _ _ S Pr Pc Hv Hf' Hc ES) as [Sp P].
  split; [exact Sp|]. intros i j Hi Hj. rewrite (P i j Hi Hj). unfold im. cbn [f_zp f_var f_shape f_pix].
  now rewrite (seen_is_ext sh (px (numbers (fst (first_cut W o x c)))) e (numbers G) _ _ i j Ss V).
Qed.
