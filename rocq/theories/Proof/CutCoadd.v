(** A coadd of new images with what the extraction leaves in them. *)
From Coq Require Import ZArith List Bool Arith Reals Lia Lra Permutation.
From Coquelicot Require Import Complex.
From Verif.Model Require Import Py Plane Ma Coadd.
From Verif.Spec Require Import Coadd.
From Verif.Model Require Import Image Interp Subtract Filter Sources Stamps Cut KL Session Transparency Chain ChainCoadd CutChain CutCoadd.
From Verif.Spec Require Import Image Chain Session Uses UsesCoadd Cut CutCoadd.
From Verif.Proof Require Import Session SessionLm Chain ChainMain ChainUnits ChainCoadd UsesCoadd UsesCoaddMain CutLoop CutChain CutChainLeft.
Import ListNotations.
Set Bullet Behavior "Strict Subproofs".
Local Open Scope R_scope.

(** * Mask and sky *)
Definition twin' (x x' : built) : Prop := twin x x' /\ bu_clean x' = bu_clean x.

Lemma opened_twin W o c x x' : twin' x x' -> twin (opened W o c x) (opened W o c x').
Proof.
  intros ((A & B & D & E & F) & G). unfold twin, opened. cbn [bu_data bu_back bu_lib bu_attr bu_clean].
  rewrite A, D, E, F, G. auto.
Qed.

Lemma own_twin W o x x' : twin' x x' -> twin (opened_own W o x) (opened_own W o x').
Proof.
  intros T. unfold opened_own. pose proof T as ((_ & _ & _ & _ & F) & _). rewrite F.
  destruct (best (bu_attr x)); [now apply opened_twin|exact (proj1 T)].
Qed.

Lemma given_twin' xs xs' (cs : list cat) : Forall2 twin' xs xs' ->
  Forall2 twin' (map (fun xc => with_best (map src_of (rows (snd xc))) (fst xc)) (combine xs cs))
                (map (fun xc => with_best (map src_of (rows (snd xc))) (fst xc)) (combine xs' cs)).
Proof.
  intros F. revert cs. induction F as [|x x' l l' T F IH]; intros cs; [constructor|].
  destruct cs as [|c cs]; [constructor|]. cbn. constructor; [|apply IH].
  destruct T as [T G]. split; [now apply twin_best|exact G].
Qed.

Lemma twins xs xs' : Forall2 twin' xs xs' -> Forall2 twin xs xs'.
Proof. induction 1 as [|x x' l l' [T _] F IH]; constructor; assumption. Qed.

Lemma match_twin' W xs xs' : Forall2 twin' xs xs' ->
  match match_all W xs, match_all W xs' with
  | Ok (z, ys), Ok (z', ys') => z' = z /\ Forall2 twin' ys ys'
  | Raise e, Raise e' => e' = e
  | _, _ => False
  end.
Proof.
  intros F. unfold match_all. rewrite (mapM_twin _ xs xs'); [|intros x x' (_ & _ & _ & E & G); now rewrite E, G|now apply twins].
  destruct (mapM _ xs) as [cs|]; [|reflexivity]. cbn [bind].
  destruct (transparency _ _ _ _ _) as [t|]; [|reflexivity]. cbn [bind]. split; [reflexivity|now apply given_twin'].
Qed.

Definition pair_twin (a b : choices * built) : Prop := fst b = fst a /\ twin' (snd a) (snd b).

Lemma pairs_apart l l' : Forall2 pair_twin l l' -> map fst l' = map fst l /\ Forall2 twin' (map snd l) (map snd l').
Proof.
  induction 1 as [|a b l l' [E T] F [IH1 IH2]]; cbn; [split; constructor|]. split; [now rewrite E, IH1|now constructor].
Qed.

Lemma cut_twin W fuel sched l n ous ous' : Forall2 pair_twin ous ous' ->
  coadd_cut W fuel sched l n ous' = coadd_cut W fuel sched l n ous.
Proof.
  intros F. destruct (pairs_apart _ _ F) as [Ef Fx]. pose proof (match_twin' W _ _ Fx) as M. unfold coadd_cut.
  assert (Eb : bind (match_all W (map snd ous')) (fun '(zs, ys) =>
              bind (set_up l (map (fun oy => opened_own W (fst oy) (snd oy)) (combine (map fst ous') ys)) zs) (mapM coadd_seen)) =
               bind (match_all W (map snd ous)) (fun '(zs, ys) =>
              bind (set_up l (map (fun oy => opened_own W (fst oy) (snd oy)) (combine (map fst ous) ys)) zs) (mapM coadd_seen))).
  { destruct (match_all W (map snd ous)) as [[z ys]|], (match_all W (map snd ous')) as [[z' ys']|]; try contradiction; cbn [bind]; [|now rewrite M].
    destruct M as [-> G]. rewrite Ef.
    assert (O : forall os, Forall2 twin (map (fun oy => opened_own W (fst oy) (snd oy)) (combine os ys))
                  (map (fun oy => opened_own W (fst oy) (snd oy)) (combine os ys'))).
    { clear - G. induction G as [|y y' ys ys' T G IH]; intros [|o os]; cbn; try constructor; [now apply own_twin|apply IH]. }
    specialize (O (map fst ous)). pose proof (set_up_twin l _ _ z O) as U.
    destruct (set_up l _ z) as [us|], (set_up l _ z) as [us'|]; try contradiction; cbn [bind]; [|now rewrite U].
    apply mapM_twin; [exact seen_twin|exact U]. }
  rewrite Eb. destruct F; reflexivity.
Qed.

Lemma build_each_twin W fuel (l l' : list (choices * image)) (rel : image -> image -> Prop) :
  (forall o im im', rel im im' ->
     match build W fuel o (mdata im), build W fuel o (mdata im') with
     | Some (Ok x), Some (Ok x') => twin' x x'
     | Some (Raise e), Some (Raise e') => e' = e
     | None, None => True
     | _, _ => False
     end) ->
  Forall2 (fun a b => fst b = fst a /\ rel (snd a) (snd b)) l l' ->
  match build_each W fuel (new_images l), build_each W fuel (new_images l') with
  | Some (Ok xs), Some (Ok xs') => Forall2 pair_twin xs xs'
  | Some (Raise e), Some (Raise e') => e' = e
  | None, None => True
  | _, _ => False
  end.
Proof.
  intros H F. induction F as [|[o im] [o' im'] t t' U F IH]; [constructor|]. cbn [fst snd] in U.
  destruct U as (-> & U). cbn [new_images map build_each fst snd]. specialize (H o im im' U).
  fold (new_images t). fold (new_images t').
  destruct (build W fuel o (mdata im)) as [[x|e]|], (build W fuel o (mdata im')) as [[x'|e']|]; try contradiction; [| |exact I];
  destruct (build_each W fuel (new_images t)) as [[xs|e1]|], (build_each W fuel (new_images t')) as [[xs'|e1']|];
    try contradiction; cbn [bind]; trivial.
  constructor; [split; [reflexivity|exact H]|exact IH].
Qed.

(** The coadd of new images that differ under their masks is the same, or raises the same
    exception. *)
Lemma C135_mask_lm : forall W fuel fuel' sched loss n_procs l l',
  sep_skips_masked W -> Forall2 (fun a b => fst b = fst a /\ alike (snd a) (snd b)) l l' ->
  coadd_cut_pixels W fuel fuel' sched loss n_procs (new_images l') =
  coadd_cut_pixels W fuel fuel' sched loss n_procs (new_images l).
Proof.
  intros W fuel fuel' sched loss np l l' B F. unfold coadd_cut_pixels.
  pose proof (build_each_twin W fuel l l' alike) as H.
  assert (H' : forall o im im', alike im im' ->
     match build W fuel o (mdata im), build W fuel o (mdata im') with
     | Some (Ok x), Some (Ok x') => twin' x x'
     | Some (Raise e), Some (Raise e') => e' = e
     | None, None => True
     | _, _ => False
     end).
  { intros o im im' A. rewrite (alike_build W fuel o im im' B A).
    destruct (build W fuel o (mdata im)) as [[x|e]|] eqn:E; [|reflexivity|exact I].
    apply build_data in E. apply alike_tied in A. destruct A as (M & S & _).
    unfold twin', twin, moved. cbn. rewrite E. auto 8. }
  specialize (H H' F).
  destruct (build_each W fuel (new_images l)) as [[xs|e]|], (build_each W fuel (new_images l')) as [[xs'|e']|];
    try contradiction; [|now rewrite H|reflexivity].
  now apply cut_twin.
Qed.

(** Nor does it depend on the levels of the skies. *)
Lemma C135_sky_lm : forall W fuel fuel' sched loss n_procs l l',
  sep_skips_masked W -> sep_follows_sky W ->
  Forall2 (fun a b => fst b = fst a /\ exists c, raised_by c (snd a) (snd b)) l l' ->
  coadd_cut_pixels W fuel fuel' sched loss n_procs (new_images l') =
  coadd_cut_pixels W fuel fuel' sched loss n_procs (new_images l).
Proof.
  intros W fuel fuel' sched loss np l l' B Fo F. unfold coadd_cut_pixels.
  pose proof (build_each_twin W fuel l l' (fun im im' => exists c, raised_by c im im')) as H.
  assert (H' : forall o im im', (exists c, raised_by c im im') ->
     match build W fuel o (mdata im), build W fuel o (mdata im') with
     | Some (Ok x), Some (Ok x') => twin' x x'
     | Some (Raise e), Some (Raise e') => e' = e
     | None, None => True
     | _, _ => False
     end).
  { intros o im im' (c & A). rewrite (raised_build W c fuel o im im' B Fo A).
    destruct (build W fuel o (mdata im)) as [[x|e]|] eqn:E; [|reflexivity|exact I].
    apply build_data in E. apply raised_tied in A. destruct A as (M & S & _).
    unfold twin', twin, moved. cbn. rewrite E. auto 8. }
  specialize (H H' F).
  destruct (build_each W fuel (new_images l)) as [[xs|e]|], (build_each W fuel (new_images l')) as [[xs'|e']|];
    try contradiction; [|now rewrite H|reflexivity].
  now apply cut_twin.
Qed.

(** * What is used *)
Lemma dump_turns W pk rms sh l : forall im jj last st pd,
  cut_dump W pk im rms sh l jj = (last, (st, Ok pd)) -> exists v, turns (l_stats W) (l_label W) pk rms sh im l v last.
Proof.
  induction l as [|s l IH]; intros im jj last st pd; cbn [cut_dump].
  - intros [= <- <- <-]. exists []. constructor.
  - destruct (cut_one _ _ _ _ _ _ _) as [im' [o|]] eqn:E; [|discriminate].
    destruct (cut_dump W pk im' rms sh l (S jj)) as [la [st' [pd'|e]]] eqn:D.
    + destruct (IH _ _ _ _ _ D) as (v & T). destruct o; intros [= <- _ _]; eexists; econstructor; eauto.
    + destruct o; discriminate.
Qed.

Lemma opened_usable W fuel o d c x : (forall n c, length (fst (l_eigh W n c)) = n) ->
  build W fuel o d = Some (Ok x) -> usable W (opened W o c x).
Proof.
  intros EL Bx. destruct (build_lib _ _ _ _ _ Bx) as (Dx & Lx & sh & N & Sh). rewrite Sh in N.
  split; [apply opened_ok; rewrite Lx; exact EL|]. split; [exact N|]. split; [reflexivity|].
  cbn [opened bu_lib bu_data normal_of]. rewrite Lx, Dx. reflexivity.
Qed.

(** The image and the stars it ends up with. *)
Definition opened_with (W : libs) (a : (choices * built) * list src) : built :=
  opened W (fst (fst a)) (snd a) (snd (fst a)).

Lemma cut_built W fuel sched loss n ous cs t :
  mapM (fun x => fst (best_sources (bu_lib x) (bu_attr x))) (map snd ous) = Ok cs ->
  transparency (l_query W) (l_sort W) (l_lsqr W) (map (fun c => mkcat false false (map row_of c)) cs) None = Ok t ->
  length (mcat t :: cats t) = length cs ->
  coadd_cut W fuel sched loss n ous =
  coadd_built W fuel sched loss n
    (map (opened_with W) (combine ous (map (fun c => map src_of (rows c)) (mcat t :: cats t)))).
Proof.
  intros M T Ln.
  assert (Lo : length cs = length ous) by (destruct (mapM_nth _ _ _ M) as [A _]; now rewrite A, map_length).
  remember (mcat t :: cats t) as ks eqn:Ek.
  set (us := map (opened_with W) (combine ous (map (fun c => map src_of (rows c)) ks))).
  assert (Mu : mapM (fun x => fst (best_sources (bu_lib x) (bu_attr x))) us = Ok cs).
  { rewrite <- M. unfold us. assert (L2 : length ous = length ks) by congruence. clear - L2.
    revert ks L2. induction ous as [|a ous IH]; intros [|c ks] L2; try discriminate; [reflexivity|].
    cbn [map combine mapM]. change (best_sources (bu_lib (opened_with W (a, map src_of (rows c)))) (bu_attr (opened_with W (a, map src_of (rows c)))))
      with (best_sources (bu_lib (snd a)) (bu_attr (snd a))) || idtac.
    rewrite IH by (cbn in L2; lia). reflexivity. }
  assert (E : bind (match_all W (map snd ous)) (fun '(zs, ys) =>
              bind (set_up loss (map (fun oy => opened_own W (fst oy) (snd oy)) (combine (map fst ous) ys)) zs) (mapM coadd_seen)) =
              bind (match_all W us) (fun '(zs, xs) => bind (set_up loss xs zs) (mapM coadd_seen))).
  { unfold match_all. rewrite M, Mu. cbn [bind]. rewrite T. cbn [bind]. rewrite <- Ek.
    replace (map (fun oy => opened_own W (fst oy) (snd oy))
        (combine (map fst ous) (map (fun xc => with_best (map src_of (rows (snd xc))) (fst xc)) (combine (map snd ous) ks))))
      with (map (fun xc => with_best (map src_of (rows (snd xc))) (fst xc)) (combine us ks)); [reflexivity|].
    unfold us. clear. revert ks. induction ous as [|a ous IH]; intros [|c ks]; try reflexivity. cbn [map combine]. f_equal. apply IH. }
  unfold coadd_cut, coadd_built. rewrite E. destruct ous as [|a ous]; [reflexivity|]. destruct ks as [|c ks]; [discriminate|]. reflexivity.
Qed.
