(** Values under the mask and the level of the sky do not matter to a coadd. *)
From Coq Require Import ZArith List Bool Arith Reals Lia Lra.
From Coquelicot Require Import Complex.
From Verif.Model Require Import Py Plane Ma Image Interp Coadd Subtract Filter Sources Stamps KL Session Transparency Chain ChainCoadd.
From Verif.Spec Require Import Image Chain ChainCoadd.
From Verif.Proof Require Import Chain ChainMain.
Import ListNotations.
Set Bullet Behavior "Strict Subproofs".
Local Open Scope R_scope.

(** Two images of which a coadd sees the same. *)
Definition twin (x x' : built) : Prop :=
  shape (m_dat (bu_data x')) = shape (m_dat (bu_data x)) /\ m_msk (bu_data x') = m_msk (bu_data x) /\
  b_rms (bu_back x') = b_rms (bu_back x) /\ bu_lib x' = bu_lib x /\ bu_attr x' = bu_attr x.

Lemma twin_best l x x' : twin x x' -> twin (with_best l x) (with_best l x').
Proof. intros (A & B & D & E & F). unfold twin, with_best. cbn. rewrite F. auto. Qed.

Lemma twin_attr s x x' : twin x x' -> twin (with_attr s x) (with_attr s x').
Proof. intros (A & B & D & E & F). unfold twin, with_attr. cbn. auto. Qed.

Lemma twin_after cs x x' : twin x x' -> twin (after cs x) (after cs x').
Proof. intros (A & B & D & E & F). unfold twin, after. cbn. rewrite E, F. auto. Qed.

Lemma mapM_twin {B} (f : built -> res B) xs xs' : (forall x x', twin x x' -> f x' = f x) ->
  Forall2 twin xs xs' -> mapM f xs' = mapM f xs.
Proof. intros H F. induction F as [|x x' l l' T F IH]; [reflexivity|]. cbn. now rewrite (H _ _ T), IH. Qed.

Lemma given_twin xs xs' (cs : list cat) : Forall2 twin xs xs' ->
  Forall2 twin (map (fun xc => with_best (map src_of (rows (snd xc))) (fst xc)) (combine xs cs))
               (map (fun xc => with_best (map src_of (rows (snd xc))) (fst xc)) (combine xs' cs)).
Proof.
  intros F. revert cs. induction F as [|x x' l l' T F IH]; intros cs; [constructor|].
  destruct cs as [|c cs]; [constructor|]. cbn. constructor; [now apply twin_best|apply IH].
Qed.

Lemma match_twin W xs xs' : Forall2 twin xs xs' ->
  match match_all W xs, match_all W xs' with
  | Ok (z, ys), Ok (z', ys') => z' = z /\ Forall2 twin ys ys'
  | Raise e, Raise e' => e' = e
  | _, _ => False
  end.
Proof.
  intros F. unfold match_all. rewrite (mapM_twin _ xs xs'); [|intros x x' (_ & _ & _ & E & G); now rewrite E, G|exact F].
  destruct (mapM _ xs) as [cs|]; [|reflexivity]. cbn [bind].
  destruct (transparency _ _ _ _ _) as [t|]; [|reflexivity]. cbn [bind]. split; [reflexivity|now apply given_twin].
Qed.

Lemma set_up_twin l xs xs' zs : Forall2 twin xs xs' ->
  match set_up l xs zs, set_up l xs' zs with
  | Ok ys, Ok ys' => Forall2 twin ys ys'
  | Raise e, Raise e' => e' = e
  | _, _ => False
  end.
Proof.
  intros F. revert zs. induction F as [|x x' t t' T F IH]; intros zs; [constructor|].
  destruct zs as [|z zs]; [reflexivity|]. cbn [set_up]. pose proof T as (_ & _ & _ & E & G). rewrite E, G.
  destruct (setup_kl_a_fields _ _ _ _ _ _ _) as [[r|e] s]; [|reflexivity]. specialize (IH zs).
  destruct (set_up l t zs) as [ys|], (set_up l t' zs) as [ys'|]; cbn [bind]; try contradiction; [|exact IH].
  constructor; [now apply twin_attr|exact IH].
Qed.

Lemma seen_twin x x' : twin x x' -> coadd_seen x' = coadd_seen x.
Proof.
  intros (A & B & D & E & F). unfold coadd_seen. rewrite E, F.
  destruct (Session.s_hat_comp _ _ _ _ _) as [h s]. unfold sqnorm_of, with_attr. cbn [bu_lib bu_attr bu_data].
  rewrite A, B, D, E. reflexivity.
Qed.

Lemma coadd_twin W fuel sched l n xs xs' : Forall2 twin xs xs' ->
  coadd_built W fuel sched l n xs' = coadd_built W fuel sched l n xs.
Proof.
  intros F. unfold coadd_built. pose proof (match_twin W xs xs' F) as M.
  assert (Eb : bind (match_all W xs') (fun '(zs, xs) => bind (set_up l xs zs) (mapM coadd_seen)) =
               bind (match_all W xs) (fun '(zs, xs) => bind (set_up l xs zs) (mapM coadd_seen))).
  { destruct (match_all W xs) as [[z ys]|], (match_all W xs') as [[z' ys']|]; try contradiction; cbn [bind]; [|now rewrite M].
    destruct M as [-> G]. pose proof (set_up_twin l ys ys' z G) as U.
    destruct (set_up l ys z) as [us|], (set_up l ys' z) as [us'|]; try contradiction; cbn [bind]; [|now rewrite U].
    apply mapM_twin; [exact seen_twin|exact U]. }
  rewrite Eb. destruct F; reflexivity.
Qed.

Lemma build_all_twin W fuel (l l' : list used_image) (rel : image -> image -> Prop) :
  (forall o im im', rel im im' ->
     match build W fuel o (mdata im), build W fuel o (mdata im') with
     | Some (Ok x), Some (Ok x') => twin x x'
     | Some (Raise e), Some (Raise e') => e' = e
     | None, None => True
     | _, _ => False
     end) ->
  Forall2 (used_alike rel) l l' ->
  match build_all W fuel (loaded l), build_all W fuel (loaded l') with
  | Some (Ok xs), Some (Ok xs') => Forall2 twin xs xs'
  | Some (Raise e), Some (Raise e') => e' = e
  | None, None => True
  | _, _ => False
  end.
Proof.
  intros H F. induction F as [|[[o im] cs] [[o' im'] cs'] t t' U F IH]; [constructor|].
  destruct U as (<- & <- & U). cbn [loaded map build_all]. specialize (H o im im' U).
  fold (loaded t). fold (loaded t').
  destruct (build W fuel o (mdata im)) as [[x|e]|], (build W fuel o (mdata im')) as [[x'|e']|]; try contradiction; [| |exact I];
  destruct (build_all W fuel (loaded t)) as [[xs|e1]|], (build_all W fuel (loaded t')) as [[xs'|e1']|];
    try contradiction; cbn [bind]; trivial.
  constructor; [now apply twin_after|exact IH].
Qed.

(** The coadd of images that differ under their masks is the same, or raises the same
    exception, or does not end: for any choices and histories of the images, any number of
    processes and any order in which they run. *)
Lemma C117_masked_lm : forall W fuel fuel' sched loss n_procs l l',
  sep_skips_masked W -> Forall2 (used_alike alike) l l' ->
  coadd_pixels W fuel fuel' sched loss n_procs (loaded l') = coadd_pixels W fuel fuel' sched loss n_procs (loaded l).
Proof.
  intros W fuel fuel' sched loss np l l' B F. unfold coadd_pixels.
  pose proof (build_all_twin W fuel l l' alike) as H.
  assert (H' : forall o im im', alike im im' ->
     match build W fuel o (mdata im), build W fuel o (mdata im') with
     | Some (Ok x), Some (Ok x') => twin x x'
     | Some (Raise e), Some (Raise e') => e' = e
     | None, None => True
     | _, _ => False
     end).
  { intros o im im' A. rewrite (alike_build W fuel o im im' B A).
    destruct (build W fuel o (mdata im)) as [[x|e]|] eqn:E; [|reflexivity|exact I].
    apply build_data in E. apply alike_tied in A. destruct A as (M & S & _).
    unfold twin, moved. cbn. rewrite E. auto. }
  specialize (H H' F).
  destruct (build_all W fuel (loaded l)) as [[xs|e]|], (build_all W fuel (loaded l')) as [[xs'|e']|];
    try contradiction; [|now rewrite H|reflexivity].
  now apply coadd_twin.
Qed.

(** Nor does it depend on the levels of the skies. *)
Lemma C117_sky_lm : forall W fuel fuel' sched loss n_procs l l',
  sep_skips_masked W -> sep_follows_sky W -> Forall2 (used_alike (fun im im' => exists c, raised_by c im im')) l l' ->
  coadd_pixels W fuel fuel' sched loss n_procs (loaded l') = coadd_pixels W fuel fuel' sched loss n_procs (loaded l).
Proof.
  intros W fuel fuel' sched loss np l l' B Fo F. unfold coadd_pixels.
  pose proof (build_all_twin W fuel l l' (fun im im' => exists c, raised_by c im im')) as H.
  assert (H' : forall o im im', (exists c, raised_by c im im') ->
     match build W fuel o (mdata im), build W fuel o (mdata im') with
     | Some (Ok x), Some (Ok x') => twin x x'
     | Some (Raise e), Some (Raise e') => e' = e
     | None, None => True
     | _, _ => False
     end).
  { intros o im im' (c & A). rewrite (raised_build W c fuel o im im' B Fo A).
    destruct (build W fuel o (mdata im)) as [[x|e]|] eqn:E; [|reflexivity|exact I].
    apply build_data in E. apply raised_tied in A. destruct A as (M & S & _).
    unfold twin, moved. cbn. rewrite E. auto. }
  specialize (H H' F).
  destruct (build_all W fuel (loaded l)) as [[xs|e]|], (build_all W fuel (loaded l')) as [[xs'|e']|];
    try contradiction; [|now rewrite H|reflexivity].
  now apply coadd_twin.
Qed.
