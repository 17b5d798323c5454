(** C126: what a coadd works on. *)
From Coq Require Import ZArith List Bool Arith Reals Lia Lra Permutation.
From Coq Require Import SpecFloat.
From Coquelicot Require Import Complex.
From Verif.Model Require Import Py Plane Ma Coadd.
From Verif.Spec Require Import Coadd.
From Verif.Proof Require Import Coadd CoaddThreads CoaddMain CoaddMore CoaddFail.
From Verif.Model Require Import Image Interp Subtract Filter Sources Stamps Transparency KL Session Chain ChainCoadd Gauss GaussSub Rebuild CoaddCall.
From Verif.Spec Require Import Image ImageExample Float32 Rebuild Transparency Session Uses UsesCoadd CoaddCall.
From Verif.Proof Require Import Image ImageMask ImageGrow ImageBorder ImageBuild ImageStore ImageSum ImageMain Float32 Float32Main.
From Verif.Proof Require Import Transparency TransparencyMain.
From Verif.Proof Require Import Session SessionBad SessionHist SessionMain SessionFrame SessionLm SessionKeep Chain ChainUnits Uses UsesCoadd UsesCoaddMain.
From Verif.Proof Require Import Rebuild RebuildMain.
Import ListNotations.
Set Bullet Behavior "Strict Subproofs".
Local Open Scope R_scope.

Notation used := (choices * image * list call)%type.

(** * The list of images *)

Lemma mapM_app {A B} (f : A -> res B) l1 l2 : mapM f (l1 ++ l2) = bind (mapM f l1) (fun a => bind (mapM f l2) (fun b => Ok (a ++ b))).
Proof.
  induction l1 as [|x l1 IH]; cbn [app mapM bind].
  - destruct (mapM f l2); reflexivity.
  - destruct (f x); [|reflexivity]. cbn [bind]. rewrite IH. destruct (mapM f l1); [|reflexivity]. cbn [bind].
    destruct (mapM f l2); reflexivity.
Qed.

(** Something that is not an image is replaced by the image that the constructor makes of it with
    its defaults. *)
Lemma C126_built_lm : forall fs nsum register W stack fuel fuel' sched loss n es s im es' align,
  construct fs nsum (plain_args s) = Ok im ->
  coadd_call fs nsum register W stack fuel fuel' sched loss n (es ++ NotMade s :: es') align =
  coadd_call fs nsum register W stack fuel fuel' sched loss n (es ++ Made (mkchoices None 20 false None stack) im [] :: es') align.
Proof.
  intros fs nsum register W stack fuel fuel' sched loss n es s im es' align E.
  unfold coadd_call, img_list. rewrite !mapM_app. cbn [mapM made bind]. rewrite E. cbn [bind]. reflexivity.
Qed.

(** If the constructor makes nothing of it, its exception is raised; its attribute data is not
    tried. *)
Lemma C126_not_built_lm : forall fs nsum register W stack fuel fuel' sched loss n es s e es' align,
  Forall (can_be_made fs nsum) es -> construct fs nsum (plain_args s) = Raise e ->
  coadd_call fs nsum register W stack fuel fuel' sched loss n (es ++ NotMade s :: es') align = Some (Raise e).
Proof.
  intros fs nsum register W stack fuel fuel' sched loss n es s e es' align F E.
  assert (M : exists l, mapM (made fs nsum stack) es = Ok l).
  { apply mapM_ok. intros a Ia. pose proof (proj1 (Forall_forall _ _) F a Ia) as H. destruct a as [o im cs|s']; [eexists; reflexivity|].
    destruct H as [im H]. cbn [made]. rewrite H. eexists. reflexivity. }
  destruct M as [l M]. unfold coadd_call, img_list. rewrite mapM_app, M. cbn [bind mapM made]. rewrite E. reflexivity.
Qed.

(** A CCDData can be subtracted but not coadded. *)
Lemma C126_ccd_refuted_lm : forall fs nsum register W stack fuel fuel' sched loss n es es' align d m,
  Forall (can_be_made fs nsum) es ->
  coadd_call fs nsum register W stack fuel fuel' sched loss n (es ++ NotMade Image.Other :: es') align = Some (Raise AttributeError) /\
  exists im, converted fs nsum (Ccd d m) = Ok im.
Proof.
  intros fs nsum register W stack fuel fuel' sched loss n es es' align d m F. split.
  - now apply C126_not_built_lm.
  - destruct (C125_ccd_lm fs nsum d m) as (im & E & _). eauto.
Qed.

(** A registered image: the registered values, in single precision, not cut to the size of the
    reference; its mask comes from the footprint and from the values out of range. *)
Lemma C126_frame_lm : forall fs nsum register ref new d m,
  register (im_data new) (im_data ref) = Ok (d, m) -> shape m = shape d ->
  exists im, registered fs nsum register ref new = Ok im /\ shape (pixels im) = shape d /\
    (forall i j, (i < nr d)%nat -> (j < nc d)%nat -> in_single (px d i j) (px (pixels im) i j)) /\
    mask_from (fun i j => px m i j = true \/ out_of_range (px (pixels im) i j)) im.
Proof.
  intros fs nsum register ref new d m Rg Sm. unfold registered. rewrite Rg. cbn [bind].
  set (a := mkargs (Ndarray d) (MArray m) None true false ((0, 0), (0, 0))%Z None).
  assert (Wf : wf_source (a_img a)) by exact I.
  injection Sm as Smr Smc.
  assert (H : exists im, construct fs nsum a = Ok im).
  { pose proof (C73_outcome_lm fs nsum a Wf eq_refl) as H. assert (B : build_error fs a = None) by reflexivity. rewrite B in H. exact H. }
  destruct H as [im E]. exists im. split; [exact E|].
  pose proof (gain_one fs nsum (Ndarray d) (MArray m) None true im E eq_refl) as G1.
  destruct (C20_pixels_lm fs nsum a im d Wf eq_refl eq_refl eq_refl E) as [Sh V].
  cbn [a a_img a_mask a_guess reloads] in Sh, V. rewrite G1 in V.
  injection Sh as Sr Sc. cbn [scaled nr nc] in Sr, Sc.
  split; [unfold shape; now rewrite Sr, Sc|]. split.
  { intros i j Hi Hj. rewrite V by lia. cbn [scaled px user_masked]. apply single_mul. }
  destruct (C23_construct_mask_lm fs nsum a im Wf E) as (_ & a0 & d0 & flag & S & K & F).
  cbn [a a_img a_mask a_guess a_borders a_crop a_thresh] in S, K.
  inversion K; subst.
  eapply mask_from_final; [exact F|]. intros i j Hi Hj. cbn beta.
  assert (Z : shape (dat a0) = shape d).
  { unfold set_data in S. cbn [load_data bind cut_borders] in S. injection S as <-. reflexivity. }
  injection Z as Zr Zc.
  assert (Y : set_by m a0 i j <-> px m i j = true).
  { unfold set_by, cyclic. rewrite Smr, Smc. destruct (Nat.eqb_spec (nr d * nc d) 0) as [Z0|Z0].
    - exfalso. rewrite Sr in Hi. rewrite Sc in Hj. destruct (nr d); [lia|]. destruct (nc d); [lia|]. cbn in Z0. lia.
    - rewrite Zc, Sr, Sc in *. set (w := nc d) in *. set (h := nr d) in *.
      rewrite Nat.mod_small by nia.
      replace ((i * w + j) / w)%nat with i by (rewrite Nat.add_comm, Nat.div_add by lia; rewrite Nat.div_small by lia; reflexivity).
      replace ((i * w + j) mod w)%nat with j by (rewrite Nat.add_comm, Nat.mod_add by lia; now rewrite Nat.mod_small by lia).
      reflexivity. }
  rewrite Y. reflexivity.
Qed.

(** The mask that the caller's image had is not used. *)
Lemma C126_mask_forgotten_refuted_lm : forall fs nsum register ref new m im,
  register (im_data new) (im_data ref) = Ok (pixels new, m) -> shape m = shape (pixels new) ->
  (forall i j, (i < nr m)%nat -> (j < nc m)%nat -> px m i j = false) ->
  (forall i j, (i < nr m)%nat -> (j < nc m)%nat ->
     ~ non_finite (px (pixels new) i j) /\ ~ out_of_range (px (pixels new) i j)) ->
  registered fs nsum register ref new = Ok im ->
  forall i j, (i < nr (pixels im))%nat -> (j < nc (pixels im))%nat -> ~ is_masked im i j.
Proof.
  intros fs nsum register ref new m im Rg Sm Nm Ok_ E.
  destruct (C126_frame_lm fs nsum register ref new _ m Rg Sm) as (im' & E' & Sh & P & F).
  rewrite E in E'. injection E' as <-. apply (no_flags _ _ F). intros i j Hi Hj.
  injection Sm as Smr Smc. injection Sh as Sr Sc.
  assert (Hi' : (i < nr m)%nat) by lia. assert (Hj' : (j < nc m)%nat) by lia.
  intros [M|O].
  - rewrite Nm in M by assumption. discriminate.
  - destruct (Ok_ i j Hi' Hj') as [A B].
    destruct (single_bad _ _ (P i j ltac:(lia) ltac:(lia)) (or_intror O)); contradiction.
Qed.

Lemma mapM_all {A B} (f : A -> res B) (l : list A) r : Forall2 (fun a b => f a = Ok b) l r -> mapM f l = Ok r.
Proof. induction 1 as [|a b l r E _ IH]; [reflexivity|]. cbn [mapM]. rewrite E. cbn [bind]. now rewrite IH. Qed.

Definition whole (u : used) : entry := Made (fst (fst u)) (snd (fst u)) (snd u).

Lemma made_whole fs nsum stack us : mapM (made fs nsum stack) (map whole us) = Ok us.
Proof. apply mapM_all. induction us as [|[[o im] cs] us IH]; constructor; [reflexivity|exact IH]. Qed.

(** Of the images that are registered, options and history do not matter. *)
Lemma C126_only_pixels_lm : forall fs nsum register W stack fuel fuel' sched loss n o r cs us us',
  Forall2 (fun u u' : choices * image * list call => im_data (snd (fst u')) = im_data (snd (fst u))) us us' ->
  let entries us := Made o r cs :: map (fun u => Made (fst (fst u)) (snd (fst u)) (snd u)) us in
  coadd_call fs nsum register W stack fuel fuel' sched loss n (entries us') true =
  coadd_call fs nsum register W stack fuel fuel' sched loss n (entries us) true.
Proof.
  intros fs nsum register W stack fuel fuel' sched loss n o r cs us us' H entries.
  assert (L : forall us, img_list fs nsum register stack (entries us) true =
    bind (mapM (fun n => bind (registered fs nsum register r (snd (fst n))) (fun f => Ok (default_choices stack, f, []))) us)
      (fun t => Ok ((o, r, cs) :: t))).
  { intros l. unfold img_list, entries. cbn [mapM made bind]. change (map _ l) with (map whole l). rewrite made_whole. reflexivity. }
  unfold coadd_call. rewrite !L.
  assert (E : mapM (fun n => bind (registered fs nsum register r (snd (fst n))) (fun f => Ok (default_choices stack, f, @nil call))) us' =
              mapM (fun n => bind (registered fs nsum register r (snd (fst n))) (fun f => Ok (default_choices stack, f, []))) us).
  { induction H as [|u u' l l' E _ IH]; [reflexivity|]. cbn [mapM]. rewrite IH. unfold registered. now rewrite E. }
  now rewrite E.
Qed.

(** * Detecting the sources again *)

Section Neat.
Variables NI FT IM : Type.
Notation state := (si NI FT IM).
Variable L : lib NI FT IM.
Variable sh : nat * nat.
Variable cat0 : list src.
Variables (st0 : list (plane R)) (p0 : list (R * R)) (k0 : list src).
Hypothesis Hsel : select L = Ok cat0.
Hypothesis Hext : extract L sh cat0 = (st0, Ok (p0, k0)).

(** Before the stamps are extracted, and afterwards. *)
Definition neat (s : state) : Prop :=
  req_shape s = None /\
  (pos s = None /\ nsrc s = None /\ stamp_shape s = sh /\ (best s = None \/ best s = Some cat0) \/
   pos s <> None /\ nsrc s <> None).

Lemma neat_frame (s s' : state) : neat s -> req_shape s' = req_shape s -> stamp_shape s' = stamp_shape s ->
  best s' = best s -> pos s' = pos s -> nsrc s' = nsrc s -> neat s'.
Proof. intros H A B D E F. unfold neat in *. now rewrite A, B, D, E, F. Qed.

Lemma neat_best : pres NI FT IM neat (best_sources L).
Proof.
  intros s H. unfold best_sources. destruct (best s) eqn:B; [exact H|]. rewrite Hsel. cbn [snd].
  destruct H as (Q & [(A & C & D & _)|(A & C)]); (split; [exact Q|]).
  - left. repeat split; auto.
  - right. now split.
Qed.

Lemma neat_stamps : pres NI FT IM neat (stamps_pos L).
Proof.
  intros s (Q & [(A & D & E & B)|(A & D)]).
  - unfold stamps_pos, reshaped. rewrite A, Q.
    assert (Bs : best_sources L (set_db _ _ _ (Some []) s) = (Ok cat0, set_best _ _ _ (Some cat0) (set_db _ _ _ (Some []) s))).
    { unfold best_sources. change (best (set_db _ _ _ (Some []) s)) with (best s). destruct B as [B|B]; rewrite B.
      - now rewrite Hsel.
      - rewrite <- B. destruct s; reflexivity. }
    unfold mbind at 1. rewrite Bs. unfold mbind, get, upd, ret.
    change (stamp_shape (set_best _ _ _ (Some cat0) (set_db _ _ _ (Some []) s))) with (stamp_shape s). rewrite E, Hext. cbn [snd].
    split; [exact Q|]. right. split; discriminate.
  - unfold stamps_pos, reshaped. rewrite Q. destruct (pos s) eqn:Ep; [|now elim A]. cbn [snd].
    split; [exact Q|]. right. split; [congruence|exact D].
Qed.

Lemma neat_none s : neat s -> neat (set_best _ _ _ None s).
Proof. intros (Q & [(A & D & E & B)|H]); (split; [exact Q|]); [left; repeat split; auto|right; exact H]. Qed.

Lemma neat_history cs s : Forall plain cs -> neat s -> neat (exec_all L cs s).
Proof. apply st_history; [exact neat_frame|exact neat_best|exact neat_stamps|exact neat_none]. Qed.

(** The sources are detected again, and afterwards there are stamps. *)
Lemma neat_update s : neat s -> best s <> None -> exists s',
  update_sources L None s = (Ok tt, s') /\ neat s' /\
  (nsrc s = None -> best s' = Some k0) /\ (nsrc s <> None -> best s' = Some cat0) /\ pos s' <> None.
Proof.
  intros N B. pose proof N as (Q & [(A & D & E & Bs)|(A & D)]).
  - exists (set_pos _ _ _ (Some p0) (Some (length p0)) (set_stamp_shape _ _ _ (fst sh + 6, snd sh + 6)%nat
             (set_best _ _ _ (Some k0) (set_db _ _ _ (Some st0) (set_best _ _ _ (Some cat0) (set_db _ _ _ (Some []) (set_best _ _ _ (Some cat0) s))))))).
    split; [|split; [|split; [|split]]].
    + unfold update_sources. destruct (best s) eqn:Eb; [|congruence].
      unfold mbind at 1, upd at 1. unfold mbind at 1. unfold best_sources at 1. cbn [best set_best]. rewrite Hsel.
      unfold n_sources, stamps_pos, reshaped, mbind, get, upd, ret.
      change (nsrc (set_best _ _ _ (Some cat0) (set_best _ _ _ None s))) with (nsrc s). rewrite D.
      change (pos (set_best _ _ _ (Some cat0) (set_best _ _ _ None s))) with (pos s). rewrite A.
      change (req_shape (set_best _ _ _ (Some cat0) (set_best _ _ _ None s))) with (req_shape s). rewrite Q.
      unfold best_sources. cbn [best set_best set_db stamp_shape]. rewrite E, Hext. reflexivity.
    + split; [exact Q|]. right. split; discriminate.
    + reflexivity.
    + congruence.
    + discriminate.
  - exists (set_best _ _ _ (Some cat0) s). split; [|split; [|split; [|split]]].
    + unfold update_sources. destruct (best s) eqn:Eb; [|congruence].
      unfold mbind at 1, upd at 1. unfold mbind at 1. unfold best_sources at 1. cbn [best set_best]. rewrite Hsel.
      unfold mbind, n_sources. cbn [nsrc set_best]. destruct (nsrc s) eqn:En; [|congruence]. cbn [ret].
      unfold ret. reflexivity.
    + split; [exact Q|]. right. now split.
    + congruence.
    + reflexivity.
    + exact A.
Qed.
End Neat.

(** An image in use, before the sources are detected again. *)
Lemma in_use_neat W fuel sh u : in_use W fuel sh u -> exists cat0 st0 p0 k0,
  select (bu_lib (fst u)) = Ok cat0 /\ extract (bu_lib (fst u)) (stamp_shape (bu_attr (fst u))) cat0 = (st0, Ok (p0, k0)) /\
  neat _ _ _ (stamp_shape (bu_attr (fst u))) cat0 (bu_attr (after (snd u) (fst u))).
Proof.
  intros ((o & d & Bx) & _ & _ & (sp & Hsp) & Fp). destruct u as [x cs]. cbn [fst snd] in *.
  unfold stamps_of in Hsp. destruct (select (bu_lib x)) as [cat0|] eqn:Es; [|discriminate]. cbn [bind] in Hsp.
  destruct (extract (bu_lib x) (stamp_shape (bu_attr x)) cat0) as [st0 [[p0 k0]|]] eqn:Ee; [|discriminate].
  exists cat0, st0, p0, k0. split; [reflexivity|]. split; [exact Ee|].
  destruct (build_lib _ _ _ _ _ Bx) as (Dx & Lx & sh' & N & Sh). subst sh'.
  unfold after. cbn [bu_attr]. apply (neat_history _ _ _ (bu_lib x) _ _ st0 p0 k0 Es Ee); [exact Fp|].
  destruct N as [->|(cat & E & ->)].
  - split; [reflexivity|]. left. repeat split; auto.
  - split; [reflexivity|]. left. rewrite Es in E. injection E as <-. repeat split; auto.
Qed.

Lemma after_app cs cs' x : after (cs ++ cs') x = after cs' (after cs x).
Proof. unfold after. cbn [bu_attr bu_lib bu_data bu_back bu_clean]. unfold exec_all. now rewrite fold_left_app. Qed.

Lemma refresh_ok W fuel sh u : in_use W fuel sh u -> best (bu_attr (after (snd u) (fst u))) <> None ->
  refreshed (after (snd u) (fst u)) = Ok (after (snd u ++ [CUpdateSources None]) (fst u)).
Proof.
  intros Hu B. destruct (in_use_neat _ _ _ _ Hu) as (cat0 & st0 & p0 & k0 & Es & Ee & N).
  destruct (neat_update _ _ _ _ _ _ st0 p0 k0 Es Ee _ N B) as (s' & E & _).
  unfold refreshed. change (bu_lib (after (snd u) (fst u))) with (bu_lib (fst u)). rewrite E. f_equal.
  rewrite after_app. set (y := after (snd u) (fst u)) in *. unfold with_attr, after. f_equal.
  unfold exec_all. cbn [fold_left exec]. unfold void. change (bu_lib y) with (bu_lib (fst u)). now rewrite E.
Qed.

(** * The coadd of registered images *)

Lemma build_all_nth W fuel l xs : build_all W fuel l = Some (Ok xs) ->
  Forall2 (fun v x => exists y, build W fuel (fst (fst v)) (snd (fst v)) = Some (Ok y) /\ x = after (snd v) y) l xs.
Proof.
  revert xs. induction l as [|[[o d] cs] l IH]; intros xs E; cbn [build_all] in E.
  - injection E as <-. constructor.
  - destruct (build W fuel o d) as [[y|]|] eqn:B; [|destruct (build_all W fuel l) as [[|]|]; discriminate|discriminate].
    destruct (build_all W fuel l) as [[ys|]|]; try discriminate. cbn [bind] in E. injection E as <-.
    constructor; [exists y; split; [exact B|reflexivity]|now apply IH].
Qed.

Lemma build_all_is W fuel l xs :
  Forall2 (fun v x => exists y, build W fuel (fst (fst v)) (snd (fst v)) = Some (Ok y) /\ x = after (snd v) y) l xs ->
  build_all W fuel l = Some (Ok xs).
Proof.
  induction 1 as [|[[o d] cs] x l xs (y & B & ->) _ IH]; [reflexivity|]. cbn [build_all fst snd] in *. rewrite B, IH. reflexivity.
Qed.

Lemma frames_of fs nsum register stack r news frames :
  Forall2 (fun u f => registered fs nsum register r (snd (fst u)) = Ok f) news frames ->
  mapM (fun n : used => bind (registered fs nsum register r (snd (fst n))) (fun f => Ok (default_choices stack, f, @nil call))) news =
  Ok (map (fun f => (default_choices stack, f, [])) frames).
Proof.
  intros F. apply mapM_all. induction F as [|u f us frs E _ IH]; constructor; [|exact IH]. now rewrite E.
Qed.

Lemma call_aligned fs nsum register W stack fuel fuel' sched loss n o r cs news frames x xs :
  Forall2 (fun u f => registered fs nsum register r (snd (fst u)) = Ok f) news frames ->
  build W fuel o (mdata r) = Some (Ok x) ->
  Forall2 (fun f y => build W fuel (default_choices stack) (mdata f) = Some (Ok y)) frames xs ->
  coadd_call fs nsum register W stack fuel fuel' sched loss n (Made o r cs :: map whole news) true =
  match mapM refreshed (after cs x :: map (after []) xs) with
  | Raise e => Some (Raise e)
  | Ok ys => coadd_built W fuel' sched loss n ys
  end.
Proof.
  intros F B Bs. unfold coadd_call, img_list. cbn [mapM made bind]. rewrite made_whole. cbn [bind align_for_coadd fst snd].
  rewrite (frames_of _ _ _ _ _ _ _ F). cbn [bind map].
  rewrite (build_all_is W fuel _ (after cs x :: map (after []) xs)); [reflexivity|].
  constructor; [exists x; auto|]. clear - Bs. induction Bs as [|f y fr ys E _ IH]; cbn [map]; constructor; [|exact IH].
  exists y. auto.
Qed.

Lemma call_unaligned fs nsum register W stack fuel fuel' sched loss n o r cs frames cs' x xs :
  build W fuel o (mdata r) = Some (Ok x) ->
  Forall2 (fun f y => build W fuel (default_choices stack) (mdata f) = Some (Ok y)) frames xs ->
  coadd_call fs nsum register W stack fuel fuel' sched loss n
    (Made o r cs :: map (fun f => Made (default_choices stack) f cs') frames) false =
  coadd_built W fuel' sched loss n (after cs x :: map (after cs') xs).
Proof.
  intros B Bs. unfold coadd_call, img_list.
  replace (mapM (made fs nsum stack) (Made o r cs :: map (fun f => Made (default_choices stack) f cs') frames))
    with (Ok ((o, r, cs) :: map (fun f => (default_choices stack, f, cs')) frames)).
  2: { symmetry. apply mapM_all. constructor; [reflexivity|]. clear. induction frames; constructor; auto. }
  cbn [bind map]. rewrite (build_all_is W fuel _ (after cs x :: map (after cs') xs)); [reflexivity|].
  constructor; [exists x; auto|]. clear - Bs. induction Bs as [|f y fr ys E _ IH]; cbn [map]; constructor; [|exact IH].
  exists y. auto.
Qed.

Lemma mdata_shapes im : shape (m_dat (mdata im)) = shape (pixels im) /\ shape (m_msk (mdata im)) = shape (pixels im).
Proof. split; reflexivity. Qed.

Lemma starry_use W fuel o im cs x : starry W fuel o im cs x -> in_use W fuel (shape (pixels im)) (x, cs).
Proof.
  intros (B & S & P). destruct (build_lib _ _ _ _ _ B) as (D & _). unfold in_use. cbn [fst snd]. rewrite D.
  split; [eauto|]. split; [apply mdata_shapes|]. split; [apply mdata_shapes|]. now split.
Qed.

(** Without a stamp shape the sources are looked at when the image is made. *)
Lemma made_detected W fuel o d x : o_stamp o = None -> build W fuel o d = Some (Ok x) -> best (bu_attr x) <> None.
Proof.
  unfold build. intros ->. destruct (set_bkg W (o_thresh o) d) as [b|]; [|discriminate].
  destruct (clean W fuel d b) as [img|]; [|discriminate].
  destruct (Session.select _) as [srcs|] eqn:E; cbn [bind]; [|discriminate]. intros [= <-]. discriminate.
Qed.

Lemma starry_builds W fuel stack frames xs :
  Forall2 (fun f y => starry W fuel (default_choices stack) f [] y) frames xs ->
  Forall2 (fun f y => build W fuel (default_choices stack) (mdata f) = Some (Ok y)) frames xs.
Proof. induction 1 as [|f y fr ys (B & _) _ IH]; constructor; auto. Qed.

Lemma aligned_built fs nsum register W stack fuel fuel' sched loss n o r cs news frames x xs :
  Forall2 (fun u f => registered fs nsum register r (snd (fst u)) = Ok f) news frames ->
  starry W fuel o r cs x -> detected cs x ->
  Forall2 (fun f y => starry W fuel (default_choices stack) f [] y) frames xs ->
  coadd_call fs nsum register W stack fuel fuel' sched loss n (Made o r cs :: map whole news) true =
  coadd_built W fuel' sched loss n (after (cs ++ [CUpdateSources None]) x :: map (after [CUpdateSources None]) xs).
Proof.
  intros F St D Sx.
  rewrite (call_aligned _ _ _ _ _ _ _ _ _ _ _ _ _ _ _ _ _ F (proj1 St) (starry_builds _ _ _ _ _ Sx)).
  rewrite (mapM_all refreshed _ (after (cs ++ [CUpdateSources None]) x :: map (after [CUpdateSources None]) xs)); [reflexivity|].
  constructor.
  - exact (refresh_ok W fuel _ (x, cs) (starry_use _ _ _ _ _ _ St) D).
  - clear - Sx. induction Sx as [|f y fr ys S _ IH]; cbn [map]; constructor; [|exact IH].
    apply (refresh_ok W fuel (shape (pixels f)) (y, [])); [now apply starry_use in S|].
    cbn [fst snd]. exact (made_detected _ _ (default_choices stack) _ _ eq_refl (proj1 S)).
Qed.

(** With align, the other images are replaced by their registered versions, and the sources are
    detected again in all of them. *)
Lemma C126_aligned_lm : forall fs nsum register W stack fuel fuel' sched loss n o r cs x news frames xs,
  let default := mkchoices None 20 false None stack in
  Forall2 (fun u f => registered fs nsum register r (snd (fst u)) = Ok f) news frames ->
  starry W fuel o r cs x -> detected cs x ->
  Forall2 (fun f y => starry W fuel default f [] y) frames xs ->
  coadd_call fs nsum register W stack fuel fuel' sched loss n
    (Made o r cs :: map (fun u => Made (fst (fst u)) (snd (fst u)) (snd u)) news) true =
  coadd_call fs nsum register W stack fuel fuel' sched loss n
    (Made o r (cs ++ [CUpdateSources None]) :: map (fun f => Made default f [CUpdateSources None]) frames) false.
Proof.
  intros fs nsum register W stack fuel fuel' sched loss n o r cs x news frames xs default F St D Sx.
  change (map _ news) with (map whole news). rewrite (aligned_built _ _ _ _ _ _ _ _ _ _ _ _ _ _ _ _ _ F St D Sx).
  symmetry. apply call_unaligned; [exact (proj1 St)|]. now apply starry_builds.
Qed.

(** A reference whose sources were never looked at cannot be aligned to. *)
Lemma C126_not_looked_refuted_lm : forall fs nsum register W stack fuel fuel' sched loss n o r cs x news frames xs,
  let default := mkchoices None 20 false None stack in
  Forall2 (fun u f => registered fs nsum register r (snd (fst u)) = Ok f) news frames ->
  build W fuel o (mdata r) = Some (Ok x) -> ~ detected cs x ->
  Forall2 (fun f y => build W fuel default (mdata f) = Some (Ok y)) frames xs ->
  coadd_call fs nsum register W stack fuel fuel' sched loss n
    (Made o r cs :: map (fun u => Made (fst (fst u)) (snd (fst u)) (snd u)) news) true = Some (Raise AttributeError).
Proof.
  intros fs nsum register W stack fuel fuel' sched loss n o r cs x news frames xs default F B D Bs.
  change (map _ news) with (map whole news). rewrite (call_aligned _ _ _ _ _ _ _ _ _ _ _ _ _ _ _ _ _ F B Bs).
  cbn [mapM]. assert (E : refreshed (after cs x) = Raise AttributeError); [|now rewrite E].
  unfold refreshed. change (bu_lib (after cs x)) with (bu_lib x).
  change (bu_attr (after cs x)) with (exec_all (bu_lib x) cs (bu_attr x)). unfold update_sources.
  unfold detected in D. destruct (best _) eqn:E; [|reflexivity]. exfalso. now apply D.
Qed.

(** The stars that are matched after the detection: those that have a stamp if no stamps were
    asked for before, and otherwise all those that are found. *)
Lemma C126_stars_lm : forall W fuel o d x cs cat st p k,
  build W fuel o d = Some (Ok x) -> Forall plain cs -> detected cs x ->
  select (bu_lib x) = Ok cat -> extract (bu_lib x) (stamp_shape (bu_attr x)) cat = (st, Ok (p, k)) ->
  fst (best_sources (bu_lib x) (bu_attr (after (cs ++ [CUpdateSources None]) x))) =
  Ok (if stamps_read (looked_at (bu_attr x)) cs then cat else k).
Proof.
  intros W fuel o d x cs cat st p k B F D Es Ee.
  assert (H : stamps_of _ _ _ (bu_lib x) (stamp_shape (bu_attr x)) = Ok (st, p)) by (unfold stamps_of; rewrite Es; cbn [bind]; now rewrite Ee).
  destruct (build_lib _ _ _ _ _ B) as (Dx & Lx & sh & N & Sh).
  assert (V : virgin _ _ _ sh cat (looked_at (bu_attr x)) (bu_attr x)) by exact (first_virgin _ _ _ (bu_lib x) _ _ cs [] 0 0 N cat Es).
  rewrite Sh in *.
  pose proof (virgin_all _ _ _ (bu_lib x) _ cat st p k Es Ee cs _ _ F V) as X.
  assert (Ne : neat _ _ _ (stamp_shape (bu_attr x)) cat (exec_all (bu_lib x) cs (bu_attr x))).
  { apply (neat_history _ _ _ (bu_lib x) _ _ st p k Es Ee); [exact F|].
    destruct V as (z & ->). split; [reflexivity|]. left. repeat split; auto. cbn. destruct (looked_at _); auto. }
  destruct (neat_update _ _ _ (bu_lib x) _ _ st p k Es Ee _ Ne D) as (s' & E & _ & H1 & H2 & _).
  assert (A : bu_attr (after (cs ++ [CUpdateSources None]) x) = s').
  { rewrite after_app. unfold after. cbn [bu_attr bu_lib]. unfold exec_all at 1. cbn [fold_left exec]. unfold void. now rewrite E. }
  rewrite A. assert (Q : forall c, best s' = Some c -> fst (best_sources (bu_lib x) s') = Ok c).
  { intros c Q. unfold best_sources. now rewrite Q. }
  destruct (stamps_read _ cs).
  - apply Q, H2. destruct Ne as (_ & [(P0 & _)|(_ & Nn)]); [congruence|exact Nn].
  - apply Q, H1. destruct X as (lk & (z & ->) & _). reflexivity.
Qed.

(** After the detection there are stamps. *)
Lemma stamps_taken W fuel o im cs x : starry W fuel o im cs x -> detected cs x ->
  stamps_read (looked_at (bu_attr x)) (cs ++ [CUpdateSources None]) = true.
Proof.
  intros (B & (sp & Hsp) & F) D.
  unfold stamps_of in Hsp. destruct (select (bu_lib x)) as [cat|] eqn:Es; [|discriminate]. cbn [bind] in Hsp.
  destruct (extract (bu_lib x) (stamp_shape (bu_attr x)) cat) as [st [[p k]|]] eqn:Ee; [|discriminate].
  destruct (build_lib _ _ _ _ _ B) as (Dx & Lx & sh & N & Sh).
  assert (V : virgin _ _ _ sh cat (looked_at (bu_attr x)) (bu_attr x)) by exact (first_virgin _ _ _ (bu_lib x) _ _ cs [] 0 0 N cat Es).
  rewrite Sh in *.
  assert (Ne : neat _ _ _ (stamp_shape (bu_attr x)) cat (exec_all (bu_lib x) cs (bu_attr x))).
  { apply (neat_history _ _ _ (bu_lib x) _ _ st p k Es Ee); [exact F|].
    destruct V as (z & ->). split; [reflexivity|]. left. repeat split; auto. cbn. destruct (looked_at _); auto. }
  destruct (neat_update _ _ _ (bu_lib x) _ _ st p k Es Ee _ Ne D) as (s' & E & _ & _ & _ & P).
  assert (F' : Forall plain (cs ++ [CUpdateSources None])) by (apply Forall_app; split; [exact F|repeat constructor]).
  pose proof (virgin_all _ _ _ (bu_lib x) _ cat st p k Es Ee _ _ _ F' V) as X.
  destruct (stamps_read _ _); [reflexivity|]. destruct X as (lk & (z & Q) & _).
  unfold exec_all in Q. rewrite fold_left_app in Q. fold (exec_all (bu_lib x) cs (bu_attr x)) in Q. cbn [fold_left exec] in Q.
  unfold void in Q. rewrite E in Q. cbn [snd] in Q. rewrite Q in P. now elim P.
Qed.

(** What the coadd of registered images is made of. *)
Lemma C126_coadd_lm : forall fs nsum register W stack fuel fuel' sched loss n o r cs x news frames xs Rr P m,
  (forall n c, length (fst (l_eigh W n c)) = n) -> (forall r, Permutation (l_sort W r) r) -> 0 <= loss ->
  Forall2 (fun u f => registered fs nsum register r (snd (fst u)) = Ok f) news frames ->
  starry W fuel o r cs x -> detected cs x ->
  Forall2 (fun f y => starry W fuel (mkchoices None 20 false None stack) f [] y) frames xs ->
  Forall (fun f => shape (pixels f) = shape (pixels r)) frames ->
  run_limits fuel' (seq 0 (S (length frames))) n ->
  coadd_call fs nsum register W stack fuel fuel' sched loss n
    (Made o r cs :: map (fun u => Made (fst (fst u)) (snd (fst u)) (snd u)) news) true = Some (Ok (Rr, P, m)) ->
  is_union (fun im => msk (im_data im)) (r :: frames) (shape (pixels r)) m /\
  exists ks t parts S Q ps raw,
    Forall2 (fun y k => fst (best_sources (bu_lib y) (bu_attr y)) = Ok k)
      (after (cs ++ [CUpdateSources None]) x :: map (after [CUpdateSources None]) xs) ks /\
    transparency (l_query W) (l_sort W) (l_lsqr W) (map (fun k => mkcat false false (map row_of k)) ks) None = Ok t /\
    length parts = length (x :: xs) /\
    (forall k y p, nth_error (x :: xs) k = Some y -> nth_error parts k = Some p ->
       exists z, nth_error (zps t) k = Some z /\ pt_weight p = z / var (bu_back y) /\
         squared y (bu_lib y) loss (pt_squared p) /\
         let mem := need_filt (history (cs ++ [CUpdateSources None; CCoadd loss z])) in
         match k with
         | 0%nat => filtered W y (bu_lib y) loss (snd (made_of mem)) (norm_loss mem) (pt_filtered p)
         | _ => filtered W y (bu_lib y) loss z loss (pt_filtered p)
         end) /\
    shape S = shape (pixels r) /\ shape Q = shape (pixels r) /\
    (forall i j, (i < nr (pixels r))%nat -> (j < nc (pixels r))%nat ->
      px S i j = total (fun p => px (pt_filtered p) i j) parts /\
      px Q i j = total (fun p => (RtoC (pt_weight p ^ 2)%R * px (pt_squared p) i j)%C) parts) /\
    (exists y, In y (x :: xs) /\ ps = (fst (stamp_shape (bu_attr y)) + 6)%nat) /\
    (forall y, In y (x :: xs) -> (fst (stamp_shape (bu_attr y)) + 6 <= ps)%nat) /\
    plane_eq Rr (ifft2 (pmap2 Cdiv S (pmap csqrt Q))) /\
    plane_eq raw (ifft2 (fourier_shift (pmap csqrt Q) (INR ps) (INR ps))) /\
    plane_eq P (pmap (fun z => (z / psum raw)%C) raw).
Proof.
  intros fs nsum register W stack fuel fuel' sched loss n o r cs x news frames xs Rr P m EL SP Hl F St D Sx Sh Rl E.
  change (map (fun u : choices * image * list call => Made (fst (fst u)) (snd (fst u)) (snd u)) news) with (map whole news) in E.
  rewrite (aligned_built _ _ _ _ _ _ _ _ _ _ _ _ _ _ _ _ _ F St D Sx) in E.
  set (us := (x, cs ++ [CUpdateSources None]) :: map (fun y => (y, [CUpdateSources None])) xs).
  assert (Eu : map (fun u => after (snd u) (fst u)) us = after (cs ++ [CUpdateSources None]) x :: map (after [CUpdateSources None]) xs).
  { unfold us. cbn [map fst snd]. rewrite map_map. reflexivity. }
  assert (Lf : length xs = length frames) by (clear - Sx; induction Sx; cbn; auto).
  assert (U : Forall (in_use W fuel (shape (pixels r))) us).
  { unfold us. constructor.
    - destruct St as (B & S & Fp). apply (starry_use W fuel o r _ x). split; [exact B|]. split; [exact S|].
      apply Forall_app. split; [exact Fp|repeat constructor].
    - clear - Sx Sh. induction Sx as [|f y fr ys (B & S & _) _ IH]; [constructor|]. inversion Sh as [|? ? S1 S2]; subst. cbn [map].
      constructor; [|now apply IH]. rewrite <- S1. apply (starry_use W fuel (mkchoices None 20 false None stack) f _ y).
      split; [exact B|]. split; [exact S|]. repeat constructor. }
  rewrite <- Eu in E.
  assert (Ln : length us = S (length frames)) by (unfold us; cbn; now rewrite map_length, Lf).
  rewrite <- Ln in Rl.
  destruct (C118_coadd_lm W fuel fuel' sched loss n _ us Rr P m EL SP Hl U Rl E)
    as (ks & t & parts & S & Q & ps & raw & H1 & H2 & H3 & H4 & H5 & H6 & H7 & H8 & H9 & H10 & H11 & H12 & H13).
  split.
  { assert (Md : forall im i j, (i < nr (pixels im))%nat -> (j < nc (pixels im))%nat ->
             masked_at (Full (m_msk (mdata im))) i j = masked_at (msk (im_data im)) i j) by (intros im i j; apply masked_mdata).
    assert (G : forall i j, (i < nr (pixels r))%nat -> (j < nc (pixels r))%nat ->
      ((exists u, In u us /\ masked_at (Full (m_msk (bu_data (fst u)))) i j = true) <->
       (exists im, In im (r :: frames) /\ masked_at (msk (im_data im)) i j = true))).
    { intros i j Hi Hj. destruct St as (B & _). destruct (build_lib _ _ _ _ _ B) as (Dx & _).
      unfold us. cbn [In map].
      assert (T : forall f y, In f frames -> build W fuel (mkchoices None 20 false None stack) (mdata f) = Some (Ok y) ->
                masked_at (Full (m_msk (bu_data y))) i j = masked_at (msk (im_data f)) i j).
      { intros f y If By. destruct (build_lib _ _ _ _ _ By) as (Dy & _). rewrite Dy.
        pose proof (proj1 (Forall_forall _ _) Sh f If) as Sf. injection Sf as Sr Sc. apply Md; lia. }
      assert (X : forall A B (Pr : A -> B -> Prop) l l', Forall2 Pr l l' -> (forall a, In a l -> exists b, In b l' /\ Pr a b) /\ (forall b, In b l' -> exists a, In a l /\ Pr a b)).
      { clear. induction 1 as [|a b l l' H _ [IH1 IH2]]; [split; intros ? []|].
        split; intros c [<-|I]; [exists b; cbn; auto| |exists a; cbn; auto|].
        - destruct (IH1 c I) as (d & Id & Pd). exists d. cbn; auto.
        - destruct (IH2 c I) as (d & Id & Pd). exists d. cbn; auto. }
      destruct (X _ _ _ _ _ Sx) as [X1 X2].
      split.
      - intros (u & [<-|Iu] & M).
        + exists r. split; [now left|]. cbn [fst] in M. rewrite Dx in M. now rewrite Md in M by assumption.
        + apply in_map_iff in Iu as (y & <- & Iy). cbn [fst] in M. destruct (X2 y Iy) as (f & If & By & _).
          exists f. split; [now right|]. now rewrite (T f y If By) in M.
      - intros (im & [<-|If] & M).
        + exists (x, cs ++ [CUpdateSources None]). split; [now left|]. cbn [fst]. rewrite Dx. now rewrite Md by assumption.
        + destruct (X1 im If) as (y & Iy & By & _). exists (y, [CUpdateSources None]). split; [right; now apply (in_map (fun y => (y, [CUpdateSources None])))|].
          cbn [fst]. now rewrite (T im y If By). }
    destruct H13 as (V1 & V2 & V3). split; [|split; [|exact V3]].
    - intros i j Hi Hj. rewrite (V1 i j Hi Hj). now apply G.
    - rewrite V2. split; intros H.
      + intros im i j Ii Hi Hj. destruct (masked_at _ i j) eqn:Em; [|reflexivity].
        destruct (proj2 (G i j Hi Hj)) as (u & Iu & Mu); [eauto|]. now rewrite (H u i j Iu Hi Hj) in Mu.
      + intros u i j Iu Hi Hj. destruct (masked_at _ i j) eqn:Em; [|reflexivity].
        destruct (proj1 (G i j Hi Hj)) as (im & Ii & Mi); [eauto|]. now rewrite (H im i j Ii Hi Hj) in Mi. }
  exists ks, t, parts, S, Q, ps, raw.
  split. { rewrite <- Eu. clear - H1. induction H1 as [|u c l l0 E _ IH]; cbn [map]; constructor; [exact E|exact IH]. }
  split; [exact H2|]. split. { rewrite H3, Ln. cbn. now rewrite Lf. }
  split.
  { intros k y p Ny Np. destruct (Forall2_nth _ _ _ H1) as [Lk Nk].
    assert (Nu : exists h, nth_error us k = Some (y, h) /\ h = match k with 0%nat => cs ++ [CUpdateSources None] | _ => [CUpdateSources None] end).
    { destruct k as [|k]; cbn in Ny |- *; [injection Ny as <-; eauto|]. exists [CUpdateSources None]. split; [|reflexivity].
      now apply (map_nth_error (fun y => (y, [CUpdateSources None]))). }
    destruct Nu as (h & Nu & Eh). destruct (Nk k _ Nu) as (c & Nc & _).
    destruct (H4 k _ c p Nu Nc Np) as (left & z & _ & _ & Nz & Wt & A). exists z. split; [exact Nz|]. split; [exact Wt|].
    unfold adds in A. cbn [fst snd] in A.
    assert (Own : stars_for y h left = bu_lib y).
    { unfold stars_for. destruct k as [|k].
      - injection Ny as <-. subst h. now rewrite (stamps_taken _ _ _ _ _ _ St D).
      - subst h. assert (exists f, starry W fuel (mkchoices None 20 false None stack) f [] y) as (f & Sf).
        { clear - Sx Ny. cbn in Ny. revert k Ny. induction Sx as [|f y' fr ys S _ IH]; intros [|k] Ny; try discriminate; [injection Ny as <-; eauto|eauto]. }
        pose proof (stamps_taken W fuel (mkchoices None 20 false None stack) f [] y Sf) as T. cbn [app] in T. rewrite T; [reflexivity|].
        unfold detected. cbn [exec_all fold_left]. exact (made_detected _ _ (mkchoices None 20 false None stack) _ _ eq_refl (proj1 Sf)). }
    rewrite Own in A. destruct A as [A1 A2]. split; [exact A2|]. cbn zeta. subst h. destruct k as [|k].
    - now rewrite <- app_assoc in A1.
    - exact A1. }
  split; [exact H5|]. split; [exact H6|]. split; [exact H7|].
  split. { destruct H8 as (u & Iu & ->). destruct Iu as [<-|Iu]; [exists x; split; [now left|reflexivity]|].
    apply in_map_iff in Iu as (y & <- & Iy). exists y. split; [now right|reflexivity]. }
  split. { intros y [<-|Iy]; [apply (H9 (x, cs ++ [CUpdateSources None])); now left|].
    apply (H9 (y, [CUpdateSources None])). right. now apply (in_map (fun y => (y, [CUpdateSources None]))). }
  auto.
Qed.

(** * Sizes *)

Lemma seen_sizes W fuel' sched loss n xs r : (forall r, Permutation (l_sort W r) r) ->
  coadd_built W fuel' sched loss n xs = Some (Ok r) -> exists vs, length vs = length xs /\
    coadd_core fuel' sched (fun k => nth k vs blank) (seq 0 (length vs)) n = Some (Ok r) /\
    forall k x, nth_error xs k = Some x -> si_shape (nth k vs blank) = shape (m_dat (bu_data x)) /\
      si_shat_loss (nth k vs blank) <> None.
Proof.
  intros SP E. unfold coadd_built in E. destruct xs as [|x0 xs0] eqn:Ex; [discriminate|]. rewrite <- Ex in *.
  assert (Hne : xs <> []) by (rewrite Ex; discriminate). clear Ex.
  destruct (bind _ _) as [vs|] eqn:Ev; [|discriminate]. exists vs. unfold match_all in Ev.
  destruct (mapM _ xs) as [cs|] eqn:Ecs; [|discriminate]. cbn [bind] in Ev.
  destruct (transparency _ _ _ _ _) as [t|] eqn:Et; [|discriminate]. cbn [bind] in Ev.
  set (ys := map _ (combine xs (mcat t :: cats t))) in Ev.
  destruct (set_up loss ys (zps t)) as [ws|] eqn:Ews; [|discriminate]. cbn [bind] in Ev.
  destruct (mapM_nth _ _ _ Ecs) as [Lc _]. destruct (set_up_nth _ _ _ _ Ews) as [Lw Hw].
  destruct (mapM_nth _ _ _ Ev) as [Lv Hv].
  assert (Lk : length (mcat t :: cats t) = length xs).
  { destruct cs as [|c0 cs0]; [destruct xs; [congruence|discriminate]|]. cbn [map] in Et.
    rewrite <- (map_map (map row_of) (mkcat false false)) in Et.
    destruct (matched_all _ _ _ _ _ _ SP Et) as [_ M2]. destruct (Forall2_nth _ _ _ M2) as [Ln _].
    rewrite map_length in Ln. cbn in *. congruence. }
  assert (Ly : length ys = length xs).
  { unfold ys. rewrite map_length, combine_length, Lk. apply Nat.min_id. }
  split; [congruence|]. split; [exact E|].
  intros k x Ek.
  assert (Ny : exists y, nth_error ys k = Some y /\ bu_data y = bu_data x).
  { destruct (nth_error (mcat t :: cats t) k) as [c|] eqn:Nc.
    - exists (with_best (map src_of (rows c)) x). split; [|reflexivity]. unfold ys.
      apply (map_nth_error (fun xc => with_best (map src_of (rows (snd xc))) (fst xc)) k _ (d := (x, c))).
      clear - Ek Nc. revert k Ek Nc. generalize (mcat t :: cats t). induction xs as [|a l IH]; intros [|b m] [|k] Ek Nc; cbn in *; try discriminate.
      + congruence.
      + now apply IH.
    - apply nth_error_None in Nc. assert (k < length xs)%nat by (apply nth_error_Some; congruence). lia. }
  destruct Ny as (y & Ny & Dy). destruct (Hw k y Ny) as (z & s & _ & _ & Nw). destruct (Hv k _ Nw) as (v & Sv & Nv).
  rewrite (nth_of _ _ _ blank Nv). unfold coadd_seen in Sv. destruct (s_hat_comp _ _) as [[[h|]|] s1]; cbn [bind] in Sv; try discriminate.
  destruct (sqnorm_of _) as [q|]; [|discriminate]. cbn [bind] in Sv. injection Sv as <-. cbn [si_shape si_shat_loss bu_data with_attr].
  rewrite Dy. split; [reflexivity|discriminate].
Qed.

(** A coadd of registered images of other sizes than the reference fails. *)
Lemma C126_sizes_lm : forall fs nsum register W stack fuel fuel' sched loss n o r cs news frames res,
  (forall r, Permutation (l_sort W r) r) ->
  Forall2 (fun u f => registered fs nsum register r (snd (fst u)) = Ok f) news frames ->
  Forall (fun im => 0 < nr (pixels im) /\ 0 < nc (pixels im))%nat (r :: frames) ->
  (n <= 1)%Z \/ (2 <= n <= Z.of_nat (S (length frames)))%Z /\ (Z.of_nat (S (length frames)) < 2 ^ 52)%Z /\ (5 * Z.to_nat n + 1 <= fuel')%nat ->
  coadd_call fs nsum register W stack fuel fuel' sched loss n
    (Made o r cs :: map (fun u => Made (fst (fst u)) (snd (fst u)) (snd u)) news) true = Some (Ok res) ->
  Forall (fun f => shape (pixels f) = shape (pixels r)) frames.
Proof.
  intros fs nsum register W stack fuel fuel' sched loss n o r cs news frames res SP F Pos Hn E.
  change (map (fun u : choices * image * list call => Made (fst (fst u)) (snd (fst u)) (snd u)) news) with (map whole news) in E.
  unfold coadd_call, img_list in E. cbn [mapM made bind] in E. rewrite made_whole in E. cbn [bind align_for_coadd fst snd] in E.
  rewrite (frames_of _ _ _ _ _ _ _ F) in E. cbn [bind] in E.
  destruct (build_all _ _ _) as [[xs|]|] eqn:B; try discriminate.
  destruct (mapM refreshed xs) as [ys|] eqn:Er; [|discriminate].
  apply build_all_nth in B.
  assert (Hd : Forall2 (fun im y => shape (m_dat (bu_data y)) = shape (pixels im)) (r :: frames) ys).
  { assert (H0 : Forall2 (fun im x => shape (m_dat (bu_data x)) = shape (pixels im)) (r :: frames) xs).
    { assert (L : map (fun v : choices * mimg * list call => snd (fst v)) (map (fun '(o, im, cs) => (o, mdata im, cs)) ((o, r, cs) :: map (fun f => (default_choices stack, f, [])) frames)) = map mdata (r :: frames)).
      { cbn [map fst snd]. f_equal. rewrite !map_map. reflexivity. }
      clear - B L. revert L. generalize (r :: frames). induction B as [|v x l xs (y & By & ->) _ IH]; intros [|im ims] L; cbn [map] in L; try discriminate; constructor.
      - injection L as L1 L2. destruct (build_lib _ _ _ _ _ By) as (D & _). unfold after. cbn [bu_data]. rewrite D, L1. reflexivity.
      - injection L as L1 L2. now apply IH. }
    clear - H0 Er. revert ys Er. induction H0 as [|im x ims xs S _ IH]; intros ys Er; cbn [mapM] in Er; [injection Er as <-; constructor|].
    destruct (refreshed x) as [y|] eqn:Ry; [|discriminate]. cbn [bind] in Er. destruct (mapM refreshed xs) as [ys'|]; [|discriminate].
    cbn [bind] in Er. injection Er as <-. constructor; [|now apply IH].
    unfold refreshed in Ry. destruct (update_sources _ _ _) as [[|] s]; [|discriminate]. injection Ry as <-. exact S. }
  destruct (seen_sizes _ _ _ _ _ _ _ SP E) as (vs & Lv & Ec & Hv).
  pose proof (Forall2_len _ _ _ Hd) as Ly. cbn [length] in Ly.
  apply Forall_forall. intros f If. destruct (In_nth_error _ _ If) as [k Nk].
  set (h := fun k => nth k vs blank) in Ec.
  destruct (Forall2_nth _ _ _ Hd) as [_ Hnth].
  assert (Sz : forall k im, nth_error (r :: frames) k = Some im -> si_shape (h k) = shape (pixels im)).
  { intros k' im N'. destruct (Hnth _ _ N') as (y & Ny & <-). apply (Hv _ _ Ny). }
  destruct (list_eq_dec Nat.eq_dec [nr (pixels f); nc (pixels f)] [nr (pixels r); nc (pixels r)]) as [Q|Q].
  { injection Q as Q1 Q2. unfold shape. now rewrite Q1, Q2. }
  exfalso.
  assert (Hk : forall k', In k' (seq 0 (length vs)) -> exists im, nth_error (r :: frames) k' = Some im).
  { intros k' Hk'. apply in_seq in Hk'. destruct (nth_error (r :: frames) k') eqn:N'; [eauto|]. apply nth_error_None in N'. cbn [length] in N'. lia. }
  assert (kl : (k < length frames)%nat) by (apply nth_error_Some; congruence).
  destruct (shape_mismatch h (seq 0 (length vs)) (S k) 0%nat) as [M1 M2].
  - apply in_seq. lia.
  - apply in_seq. lia.
  - rewrite (Sz (S k) f Nk), (Sz 0%nat r eq_refl). intros Z. injection Z as Z1 Z2. apply Q. now rewrite Z1, Z2.
  - intros k' Hk'. destruct (Hk _ Hk') as (im & N'). rewrite (Sz _ _ N'). exact (proj1 (Forall_forall _ _) Pos im (nth_error_In _ _ N')).
  - intros k' Hk' _. destruct (Hk _ Hk') as (im & N'). destruct (Hnth _ _ N') as (y & Ny & _). apply (Hv _ _ Ny).
  - assert (Ls : length (seq 0 (length vs)) = S (length frames)) by (rewrite seq_length; lia).
    destruct Hn as [Hn|(Hn & H52 & Hf)].
    + rewrite (M1 _ _ _ Hn) in Ec. discriminate.
    + destruct (M2 fuel' sched n) as [[M|M] _]; try (rewrite M in Ec; discriminate); try rewrite Ls; auto. apply seq_NoDup.
Qed.

(** The empty list. *)
Lemma C126_nothing_lm : forall fs nsum register W stack fuel fuel' sched loss n,
  coadd_call fs nsum register W stack fuel fuel' sched loss n [] true = Some (Raise IndexError) /\
  coadd_call fs nsum register W stack fuel fuel' sched loss n [] false = Some (Raise ValueError).
Proof. intros. split; reflexivity. Qed.
