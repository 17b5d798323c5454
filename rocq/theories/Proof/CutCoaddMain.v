(** What a coadd of new images uses. *)
From Coq Require Import ZArith List Bool Arith Reals Lia Lra Permutation.
From Coquelicot Require Import Complex.
From Verif.Model Require Import Py Plane Ma Coadd.
From Verif.Spec Require Import Coadd.
From Verif.Model Require Import Image Interp Subtract Filter Sources Stamps Cut KL Session Transparency Chain ChainCoadd CutChain CutCoadd.
From Verif.Spec Require Import Image Chain Session Uses UsesCoadd Cut CutCoadd.
From Verif.Proof Require Import Session SessionLm Chain ChainMain ChainUnits ChainCoadd UsesCoadd UsesCoaddMain CutLoop CutChain CutChainLeft CutCoadd.
Import ListNotations.
Set Bullet Behavior "Strict Subproofs".
Local Open Scope R_scope.

Lemma cut_stamps_of W fuel o d c x l cat last ex : build W fuel o d = Some (Ok x) ->
  l = bu_lib (opened W o c x) \/ l = given (bu_lib (opened W o c x)) cat ->
  select l = Ok cat -> first_cut W o x cat = (last, Ok ex) ->
  exists sp, stamps_of _ _ _ l (stamp_shape (bu_attr x)) = Ok sp.
Proof.
  intros B Hl S F. destruct (cut_dump_stamps _ _ _ _ _ _ _ _ F) as (del & D & _).
  unfold stamps_of. rewrite S. assert (E : extract l (stamp_shape (bu_attr x)) cat = cut_for W (mkpicks (o_pick o) None) (bu_clean x) (b_rms (bu_back x)) (stamp_shape (bu_attr x)) cat)
    by (destruct Hl as [->| ->]; reflexivity).
  rewrite E. unfold cut_for. change (pmap Some (bu_clean x)) with (intact (bu_clean x)).
  change (b_rms (bu_back x)) with (var (bu_back x)). rewrite D. cbn [bind]. eauto.
Qed.

(** The stamps of the stars were extracted when they give a PSF. *)
Lemma psf_cut W o x c l q : psf_for (given (bu_lib (opened W o c x)) c) (stamp_shape (bu_attr x)) l = Ok q ->
  exists last ex, first_cut W o x c = (last, Ok ex) /\ bu_clean (opened W o c x) = numbers last.
Proof.
  unfold psf_for, stamps_of. cbn [given select]. change (extract (given (bu_lib (opened W o c x)) c)) with
    (cut_for W (mkpicks (o_pick o) None) (bu_clean x) (b_rms (bu_back x))).
  unfold opened, left_by. cbn [bu_clean]. unfold cut_for, first_cut. change (pmap Some (bu_clean x)) with (intact (bu_clean x)).
  change (b_rms (bu_back x)) with (var (bu_back x)).
  destruct (cut_dump W _ _ _ _ c 0) as [last [st [pd|e]]] eqn:D; [|discriminate]. intros _.
  destruct (dump_turns _ _ _ _ _ _ _ _ _ _ D) as (v & T). exists last. eexists. split; [|reflexivity].
  apply cut_ok. exists v. split; [exact T|reflexivity].
Qed.

Lemma combine_nth_error {A B} (l : list A) (l' : list B) k a b : nth_error l k = Some a -> nth_error l' k = Some b ->
  nth_error (combine l l') k = Some (a, b).
Proof.
  revert l' k. induction l as [|x l IH]; intros [|y l'] [|k]; cbn; try discriminate; [congruence|apply IH].
Qed.

(** What a coadd of new images uses of each: the stars that the matching left, their stamps, and
    the image that the extraction of these stamps left. *)
Lemma C135_coadd_lm : forall W fuel fuel' sched loss n sh ous Rr P m,
  (forall n c, length (fst (l_eigh W n c)) = n) -> (forall r, Permutation (l_sort W r) r) -> 0 <= loss ->
  Forall (can_cut W fuel sh) ous -> run_limits fuel' (seq 0 (length ous)) n ->
  coadd_cut W fuel' sched loss n ous = Some (Ok (Rr, P, m)) ->
  exists cs t parts S Q ps raw,
    Forall2 (fun u c => fst (best_sources (bu_lib (snd u)) (bu_attr (snd u))) = Ok c) ous cs /\
    transparency (l_query W) (l_sort W) (l_lsqr W) (map (fun c => mkcat false false (map row_of c)) cs) None = Ok t /\
    length parts = length ous /\
    (forall k o x c p, nth_error ous k = Some (o, x) -> nth_error cs k = Some c -> nth_error parts k = Some p ->
       exists left z last ex, Permutation (map spot left) (map spot c) /\ (k = 0%nat -> map spot left = map spot c) /\
         nth_error (zps t) k = Some z /\ pt_weight p = (z / var (bu_back x))%R /\
         first_cut W o x left = (last, Ok ex) /\
         exists y, bu_clean y = numbers last /\ bu_data y = bu_data x /\ bu_back y = bu_back x /\ bu_attr y = bu_attr x /\
           extract (bu_lib y) (stamp_shape (bu_attr x)) left = (map numbers (ex_stamps ex), Ok (ex_pos ex, ex_sources ex)) /\
           filtered W y (given (bu_lib y) left) loss z loss (pt_filtered p) /\
           squared y (given (bu_lib y) left) loss (pt_squared p)) /\
    shape S = sh /\ shape Q = sh /\
    (forall i j, (i < fst sh)%nat -> (j < snd sh)%nat ->
      px S i j = total (fun p => px (pt_filtered p) i j) parts /\
      px Q i j = total (fun p => (RtoC (pt_weight p ^ 2)%R * px (pt_squared p) i j)%C) parts) /\
    (exists u, In u ous /\ ps = (fst (stamp_shape (bu_attr (snd u))) + 6)%nat) /\
    (forall u, In u ous -> (fst (stamp_shape (bu_attr (snd u))) + 6 <= ps)%nat) /\
    plane_eq Rr (ifft2 (pmap2 Cdiv S (pmap csqrt Q))) /\
    plane_eq raw (ifft2 (fourier_shift (pmap csqrt Q) (INR ps) (INR ps))) /\
    plane_eq P (pmap (fun z => (z / psum raw)%C) raw) /\
    is_union (fun u => Full (m_msk (bu_data (snd u)))) ous sh m.
Proof.
  intros W fuel fuel' sched loss n sh ous Rr P m EL SP Hl Hu Hrl E.
  (* the catalogues and the matching *)
  assert (X : exists cs t, mapM (fun x => fst (best_sources (bu_lib x) (bu_attr x))) (map snd ous) = Ok cs /\
     transparency (l_query W) (l_sort W) (l_lsqr W) (map (fun c => mkcat false false (map row_of c)) cs) None = Ok t).
  { unfold coadd_cut in E. destruct ous as [|a ous]; [discriminate|]. unfold match_all in E.
    destruct (mapM _ (map snd (a :: ous))) as [cs|]; [|discriminate]. cbn [bind] in E.
    destruct (transparency _ _ _ _ _) as [t|] eqn:Et; [|discriminate]. eauto. }
  destruct X as (cs & t & Ec & Et).
  assert (Lc : length cs = length ous) by (destruct (mapM_nth _ _ _ Ec) as [A _]; now rewrite A, map_length).
  assert (Ne : ous <> []) by (intros ->; discriminate).
  assert (Lk : length (mcat t :: cats t) = length cs).
  { destruct cs as [|c0 cs0]; [destruct ous; [congruence|discriminate]|]. cbn [map] in Et.
    rewrite <- (map_map (map row_of) (mkcat false false)) in Et.
    destruct (matched_all _ _ _ _ _ _ SP Et) as [_ M2]. destruct (Forall2_nth _ _ _ M2) as [Ln _].
    rewrite map_length in Ln. cbn. now rewrite <- Ln. }
  rewrite (cut_built W fuel' sched loss n ous cs t Ec Et Lk) in E.
  set (ls := map (fun c => map src_of (rows c)) (mcat t :: cats t)) in *.
  assert (Ll : length ls = length ous) by (unfold ls; rewrite map_length; congruence).
  set (us := map (fun a => (opened_with W a, @nil call)) (combine ous ls)).
  assert (Lu : length us = length ous) by (unfold us; rewrite map_length, combine_length, Ll; apply Nat.min_id).
  assert (Eu : map (opened_with W) (combine ous ls) = map (fun u => after (snd u) (fst u)) us).
  { unfold us. rewrite map_map. apply map_ext. intros a. reflexivity. }
  rewrite Eu in E.
  assert (Hr : Forall (ready W sh) us).
  { apply Forall_forall. intros u Iu. unfold us in Iu. apply in_map_iff in Iu as ([[o x] c] & <- & Ic).
    apply in_combine_l in Ic. pose proof (proj1 (Forall_forall _ _) Hu _ Ic) as ((d & B) & S1 & S2 & cat & last & ex & Es & F).
    cbn [fst snd] in *. unfold ready, opened_with. cbn [fst snd]. split; [now apply (opened_usable W fuel o d)|].
    split; [exact S1|]. split; [exact S2|]. split; [|constructor].
    apply (cut_stamps_of W fuel o d c x _ cat last ex B); [now left|exact Es|exact F]. }
  rewrite <- Lu in Hrl.
  destruct (coadd_gen W fuel' sched loss n sh us Rr P m SP Hl Hr Hrl E)
    as (cs' & t' & parts & S & Q & ps & raw & A1 & A2 & A3 & A4 & A5 & A6 & A7 & A8 & A9 & B1 & B2 & B3 & B4).
  assert (Nu : forall k o x c, nth_error ous k = Some (o, x) -> nth_error ls k = Some c -> nth_error us k = Some (opened W o c x, [])).
  { intros k o x c No Nl. unfold us. apply (map_nth_error (fun a => (opened_with W a, @nil call)) k _ (d := ((o, x), c))).
    now apply combine_nth_error. }
  assert (Uo : forall u, In u us -> exists o x c, In (o, x) ous /\ u = (opened W o c x, [])).
  { intros u Iu. unfold us in Iu. apply in_map_iff in Iu as ([[o x] c] & <- & Ic). apply in_combine_l in Ic. exists o, x, c. split; [exact Ic|reflexivity]. }
  assert (Ou : forall a, In a ous -> exists c, In (opened W (fst a) c (snd a), []) us).
  { intros [o x] Ia. apply In_nth_error in Ia as (k & Nk). assert (Lt : (k < length ls)%nat) by (rewrite Ll; apply nth_error_Some; congruence).
    destruct (nth_error ls k) as [c|] eqn:Nl; [|apply nth_error_None in Nl; lia]. exists c. eapply nth_error_In. now apply (Nu k). }
  (* the same catalogues *)
  assert (Fc : Forall2 (fun u c => fst (best_sources (bu_lib (snd u)) (bu_attr (snd u))) = Ok c) ous cs).
  { clear - Ec. revert cs Ec. induction ous as [|a ous IH]; cbn [map mapM]; intros cs Ec; [injection Ec as <-; constructor|].
    destruct (fst (best_sources _ _)) as [c|] eqn:B; [|discriminate]. cbn [bind] in Ec.
    destruct (mapM _ (map snd ous)) as [cs'|]; [|discriminate]. cbn [bind] in Ec. injection Ec as <-. constructor; [exact B|now apply IH]. }
  assert (Ecs : cs' = cs).
  { clear - A1 Fc Ll. unfold us in A1. clear us. clearbody ls. revert ls cs cs' A1 Fc Ll. induction ous as [|a ous IH]; intros [|c0 ls] cs cs' A1 Fc Ll; try discriminate.
    - inversion A1; inversion Fc; subst; reflexivity.
    - inversion Fc as [|? ? ? ? B Fc']; subst. inversion A1 as [|? ? ? ? B' A1']; subst. f_equal.
      + change (fst (best_sources (bu_lib (snd a)) (bu_attr (snd a))) = Ok y0) in B'. rewrite B in B'. now injection B'.
      + apply (IH ls l' l'0 A1' Fc'). now injection Ll. }
  subst cs'. assert (t' = t) by congruence. subst t'.
  exists cs, t, parts, S, Q, ps, raw. split; [exact Fc|]. split; [exact Et|]. split; [congruence|]. split.
  { intros k o x c p No Nc Np.
    assert (Lt : (k < length ls)%nat) by (rewrite Ll; apply nth_error_Some; congruence).
    destruct (nth_error ls k) as [c0|] eqn:Nl; [|apply nth_error_None in Nl; lia].
    destruct (A4 k _ c p (Nu k o x c0 No Nl) Nc Np) as (left & z & D1 & D2 & D3 & D4 & D5 & D6 & D7).
    fold ls in D1. rewrite Nl in D1. injection D1 as <-. cbn [fst snd] in *. cbn [opened bu_back] in D5.
    unfold stars_for in D6, D7. cbn [stamps_read] in D6, D7.
    change (snd (made_of (need_filt (history ([] ++ [CCoadd loss z]))))) with z in D6.
    change (norm_loss (need_filt (history ([] ++ [CCoadd loss z])))) with loss in D6.
    pose proof D7 as (a & b & fs & es & Ep & _). destruct (psf_cut W o x c0 loss (a, b) Ep) as (last & ex & F & Cl).
    exists c0, z, last, ex. split; [exact D2|]. split; [exact D3|]. split; [exact D4|]. split; [exact D5|]. split; [exact F|].
    exists (opened W o c0 x). split; [exact Cl|]. split; [reflexivity|]. split; [reflexivity|]. split; [reflexivity|].
    split; [|split; [exact D6|exact D7]].
    destruct (cut_dump_stamps _ _ _ _ _ _ _ _ F) as (del & D & K). unfold opened. cbn [bu_lib extract]. unfold cut_for.
    change (pmap Some (bu_clean x)) with (intact (bu_clean x)). change (b_rms (bu_back x)) with (var (bu_back x)).
    rewrite D. cbn [bind]. now rewrite K. }
  split; [exact A5|]. split; [exact A6|]. split; [exact A7|]. split.
  { destruct A8 as (u & Iu & Eps). destruct (Uo u Iu) as (o & x & c & Io & ->). exists (o, x). split; [exact Io|exact Eps]. }
  split.
  { intros u Iu. destruct (Ou u Iu) as (c & Ic). exact (A9 _ Ic). }
  split; [exact B1|]. split; [exact B2|]. split; [exact B3|].
  destruct B4 as (V1 & V2 & V3). split; [|split; [|exact V3]].
  - intros i j Hi Hj. rewrite (V1 i j Hi Hj). split.
    + intros (u & Iu & Mu). destruct (Uo u Iu) as (o & x & c & Io & ->). exists (o, x). split; [exact Io|exact Mu].
    + intros (u & Iu & Mu). destruct (Ou u Iu) as (c & Ic). eexists. split; [exact Ic|exact Mu].
  - rewrite V2. split.
    + intros H u i j Iu Hi Hj. destruct (Ou u Iu) as (c & Ic). exact (H _ i j Ic Hi Hj).
    + intros H u i j Iu Hi Hj. destruct (Uo u Iu) as (o & x & c & Io & ->). exact (H (o, x) i j Io Hi Hj).
Qed.
