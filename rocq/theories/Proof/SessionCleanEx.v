(** Removed temporary files: many stamps, the Gaussian class, and cases to watch. *)
From Coq Require Import ZArith List Bool Arith Reals Lia Lra.
From Verif.Model Require Import Py Plane Sources KL Session Gauss.
From Verif.Spec Require Import KL Session.
From Verif.Proof Require Import KL KLMain Session SessionFrame SessionMain SessionLm SessionLm2 SessionExample SessionClean GaussMain.
Import ListNotations.
Local Open Scope R_scope.
Set Bullet Behavior "Strict Subproofs".

(** More than 250 stamps: the PSF known stays; another one cannot be made, and the second
    request for it gets the old one. *)
Lemma C107_large_lm : forall NI FT IM (L : lib NI FT IM) sh s0 cs psf stamps p e l,
  lib_ok L -> new_image L sh s0 -> Forall plain cs -> 0 <= l -> l <> last_loss cs ->
  stamps_of NI FT IM L sh = Ok (stamps, p) -> (250 < length stamps)%nat ->
  KL.eigenv (eigh L) (fst sh + 6, snd sh + 6)%nat stamps = Ok e ->
  psf_for L sh (last_loss cs) = Ok psf ->
  let s := exec_all L (cs ++ [CGetPSF None None; CEigenv; CClean]) s0 in
  get_variable_psf L None None s = (Ok psf, s) /\
  fst (get_variable_psf L (Some l) None s) = Raise IOError /\
  fst (get_variable_psf L (Some l) None (exec L (CGetPSF (Some l) None) s)) = Ok psf.
Proof.
  intros NI FT IM L sh s0 cs [f b] stamps p e l (Hlen & Heig) Hn F Hl Hll Hst H250 He Hpsf s.
  assert (Hst' := Hst). unfold stamps_of in Hst'. destruct (select L) as [cat0|] eqn:Hsel; [|discriminate].
  destruct (extract L sh cat0) as [st0 [[p0 k0]|]] eqn:Hext; [|discriminate]. injection Hst' as -> ->.
  assert (F1 : Forall plain (cs ++ [CGetPSF None None])) by (apply Forall_app; split; [exact F|repeat constructor]).
  pose proof (C39_history_lm NI FT IM L sh s0 cs (conj Hlen Heig) Hn F) as (_ & Hg & _). rewrite Hpsf in Hg.
  pose proof (reached_history NI FT IM L sh s0 _ (conj Hlen Heig) Hn F1) as Rd.
  pose proof (reached_loss _ _ _ _ _ _ _ Rd) as (Lo & _). rewrite (proj1 (history_loss _)), last_loss_app in Lo. cbn [fold_left loss_of] in Lo.
  destruct Rd as (J & mode & (Js & _) & _ & _ & _ & _ & _ & _ & _ & _ & HG & _).
  pose proof (HG _ _ _ _ _ Hsel Hext Js) as G. clear HG Js.
  assert (Ea : exec_all L (cs ++ [CGetPSF None None]) s0 = snd (get_variable_psf L None None (exec_all L cs s0))).
  { unfold exec_all. rewrite fold_left_app. reflexivity. }
  destruct (get_variable_psf L None None (exec_all L cs s0)) as [r sa] eqn:Ga. cbn [fst snd] in *. subst r.
  destruct (psf_stored _ _ _ _ _ _ _ _ _ Ga) as (Ba & Fa & Sh). cbn [fst snd] in Ba, Fa.
  rewrite Ea in Lo, G.
  destruct (eig_good NI FT IM L sh Hlen cat0 stamps p k0 Hsel Hext sa G) as (sb & E1 & R1 & K1 & Q1).
  specialize (Q1 e He).
  assert (Es : s = set_db NI FT IM None sb).
  { unfold s. rewrite exec_all_app. change (exec_all L [CGetPSF None None; CEigenv; CClean] (exec_all L cs s0)) with
      (set_db NI FT IM None (snd (Session.eigenv _ _ _ L (snd (get_variable_psf L None None (exec_all L cs s0)))))).
    rewrite Ga. cbn [snd]. now rewrite E1. }
  clearbody s. subst s.
  assert (Bb : basis (set_db NI FT IM None sb) = Some b) by (cbn; rewrite (k_basis _ _ _ _ _ K1); exact Ba).
  assert (Fb : fields (set_db NI FT IM None sb) = Some f) by (cbn; rewrite (k_fields _ _ _ _ _ K1); exact Fa).
  assert (Shf : match f with NoField => exists q t, b = unit_total q :: t | Fields fs => fs <> [] end) by (destruct f; exact Sh).
  assert (Dx : differs _ _ _ (Some l) (set_db NI FT IM None sb) = true).
  { unfold differs. cbn [inf_loss set_db]. rewrite (k_loss _ _ _ _ _ K1), Lo. destruct (Req_EM_T _ _); [congruence|reflexivity]. }
  assert (Mc : mcols sb = None).
  { destruct (r_cov _ _ _ _ _ _ _ _ R1) as [[_ [Q|[Q _]]]|(c' & _ & _ & Qm)]; [exact Q|apply Nat.leb_le in Q; lia|]. rewrite Qm.
    destruct (Nat.leb_spec (length stamps) 250); [lia|reflexivity]. }
  assert (Run : get_variable_psf L (Some l) None (set_db NI FT IM None sb) = (Raise IOError, set_inf_loss l (set_db NI FT IM None sb))).
  { unfold get_variable_psf, mbind, ret, get. rewrite Dx. unfold setup_kl_basis at 1. rewrite Dx, orb_true_r.
    unfold mbind, upd.
    assert (Ev : Session.eigenv _ _ _ L (set_inf_loss l (set_db NI FT IM None sb)) = (Ok e, set_inf_loss l (set_db NI FT IM None sb))).
    { unfold Session.eigenv. cbn [eig set_inf_loss set_db]. now rewrite Q1. }
    rewrite Ev. unfold build_basis. destruct e as [valh vech]. cbn [mcols set_inf_loss set_db stamp_shape inf_loss]. rewrite Mc.
    unfold mbind, n_sources, get. cbn [nsrc set_inf_loss set_db]. rewrite (r_n _ _ _ _ _ _ _ _ R1).
    unfold no_file. cbn [db set_inf_loss set_db].
    destruct (Nat.eqb_spec (length stamps) 0); [lia|]. reflexivity. }
  split; [apply psf_cached; [exact Bb|exact Fb|now left|exact Shf]|]. split; [now rewrite Run|].
  change (exec L (CGetPSF (Some l) None) ?x) with (snd (get_variable_psf L (Some l) None x)). rewrite Run. cbn [snd].
  rewrite (psf_cached NI FT IM L (Some l) _ f b); [reflexivity|exact Bb|exact Fb|now right|exact Shf].
Qed.

(** The Gaussian class reads the stamps each time. *)
Lemma C107_gauss_lm : forall NI FT IM (L : lib NI FT IM) fitter stats render s n s1 l sh,
  n_sources L s = (Ok n, s1) -> n <> 0%nat ->
  gauss_psf L fitter stats render l sh (exec L CClean s1) = (Raise IOError, exec L CClean s1).
Proof.
  intros NI FT IM L fitter stats render s n s1 l sh H Hn. unfold gauss_psf. cbn [exec].
  assert (N : nsrc s1 = Some n).
  { unfold n_sources in H. destruct (nsrc s) as [m|] eqn:N; [congruence|].
    apply mbind_ok in H. destruct H as (p & s2 & _ & H). unfold mbind, get in H.
    destruct (nsrc s2) as [m|] eqn:N2; [|discriminate]. unfold ret in H. congruence. }
  assert (H2 : n_sources L (set_db NI FT IM None s1) = (Ok n, set_db NI FT IM None s1)).
  { unfold n_sources. cbn [nsrc set_db]. now rewrite N. }
  rewrite H2. unfold no_file. cbn [db set_db]. destruct (Nat.eqb_spec n 0); [contradiction|reflexivity].
Qed.

(** Two stamps; the history removes the files twice. *)
Lemma C107_memory_case_lm :
  let cs' := [CClean; CGetPSF (Some (5 / 10)) None; CClean; CSHat] in
  lib_ok demo /\ new_image demo dshape dnew /\ Forall plain_or_clean cs' /\
  stamps_of _ _ _ demo dshape = Ok (two_stamps dshape, two_positions dshape) /\
  exists c, KL.cov_matrix (fst dshape + 6, snd dshape + 6)%nat (two_stamps dshape) = Ok c.
Proof.
  split; [exact demo_ok|]. split; [exact demo_new|]. split.
  { apply Forall_cons; [now left|]. apply Forall_cons; [right; cbn; split; [lra|reflexivity]|].
    apply Forall_cons; [now left|]. apply Forall_cons; [now right|]. constructor. }
  split; [reflexivity|]. eexists. reflexivity.
Qed.

(** The claim that leaving a with block does no harm is false. *)
Lemma C107_harmless_refuted_lm : exists NI FT IM (L : lib NI FT IM) sh s0 cs psf,
  lib_ok L /\ new_image L sh s0 /\ Forall plain cs /\
  fst (get_variable_psf L None None (exec_all L cs s0)) = Ok psf /\
  fst (get_variable_psf L None None (exec_all L (cs ++ [CClean]) s0)) = Raise IOError.
Proof.
  destruct (demo_len (2 / 10)) as (f & b & E & _).
  exists nat, (R * nat * nat)%type, (R * nat * nat)%type, demo, dshape, dnew, [CNSources], (f, b).
  split; [exact demo_ok|]. split; [exact demo_new|]. split; [repeat constructor|]. split.
  - destruct (C39_history_lm _ _ _ demo dshape dnew [CNSources] demo_ok demo_new) as (_ & H & _); [repeat constructor|].
    rewrite H. exact E.
  - assert (Z : two_stamps dshape <> []) by discriminate.
    exact (proj1 (proj2 (proj2 (proj2 (C107_lost_lm _ _ _ demo dshape dnew [] [] _ _ demo_ok demo_new (Forall_nil _) (Forall_nil _)
      demo_stamps Z)))) None).
Qed.

(** 251 stamps. *)
Definition many_stamps (sh : nat * nat) : list (plane R) := repeat (pconst (fst sh + 6, snd sh + 6)%nat 1) 251.
Definition many : lib nat (R * nat * nat) (R * nat * nat) := {|
  select := Ok [star 20; star 50];
  extract := fun sh cat => (many_stamps sh, Ok (repeat (0, 0) 251, cat));
  eigh := fun n _ => (map (fun i => INR (S i)) (seq 0 n), delta);
  smooth := None;
  fit := fun ps _ _ _ => fst (hd (0, 0) ps);
  normal_of := fun _ b => length b;
  shat_of := fun z _ b n => (z, length b, n);
  ifft_real := fun h => h |}.

Lemma C107_large_case_lm : exists psf e,
  lib_ok many /\ new_image many dshape dnew /\
  stamps_of _ _ _ many dshape = Ok (many_stamps dshape, repeat (0, 0) 251) /\ (250 < length (many_stamps dshape))%nat /\
  KL.eigenv (eigh many) (fst dshape + 6, snd dshape + 6)%nat (many_stamps dshape) = Ok e /\
  psf_for many dshape (last_loss []) = Ok psf.
Proof.
  assert (Ok1 : lib_ok many).
  { split.
    - intros sh c st p k H. cbn [extract many] in H.
      assert (st = many_stamps sh) as -> by congruence. assert (p = repeat (0, 0) 251) as -> by congruence.
      unfold many_stamps. now rewrite !repeat_length.
    - intros n c. cbn [eigh many fst]. now rewrite map_length, seq_length. }
  assert (Hc : exists c, KL.cov_matrix (fst dshape + 6, snd dshape + 6)%nat (many_stamps dshape) = Ok c).
  { unfold KL.cov_matrix. assert (X : forallb (fun p => Nat.eqb (nr p) (fst (fst dshape + 6, snd dshape + 6)%nat) &&
        Nat.eqb (nc p) (snd (fst dshape + 6, snd dshape + 6)%nat)) (many_stamps dshape) = true).
    { apply forallb_forall. intros x Hx. apply repeat_spec in Hx. subst x. reflexivity. }
    rewrite X. cbn [negb]. eexists. reflexivity. }
  destruct Hc as (c & Hc).
  assert (He : KL.eigenv (eigh many) (fst dshape + 6, snd dshape + 6)%nat (many_stamps dshape) = Ok (eigh many 251 c)).
  { unfold KL.eigenv. rewrite Hc. cbn [bind]. unfold many_stamps. rewrite repeat_length. reflexivity. }
  destruct (kb_total _ _ _ many dshape (proj2 Ok1) (many_stamps dshape) _ (last_loss []) He) as (b & Hb).
  { change (last_loss []) with (2 / 10). lra. }
  assert (St : stamps_of _ _ _ many dshape = Ok (many_stamps dshape, repeat (0, 0) 251)) by reflexivity.
  assert (Hp : exists psf, psf_for many dshape (last_loss []) = Ok psf).
  { unfold psf_for. rewrite St. cbn [bind]. rewrite Hb. cbn [bind]. destruct (Nat.eqb _ 1); [eauto|].
    rewrite repeat_length. cbn [Nat.eqb]. rewrite He. cbn [bind]. eauto. }
  destruct Hp as (psf & Hp). exists psf, (eigh many 251 c).
  split; [exact Ok1|]. split; [now left|]. split; [exact St|]. split; [unfold many_stamps; rewrite repeat_length; lia|].
  split; [exact He|exact Hp].
Qed.

Lemma C107_gauss_case_lm : exists s1, n_sources three (fresh _ _ _ (1, 1)%nat None) = (Ok 3%nat, s1) /\
  exists r, fst (gauss_psf three (fun _ p => mkgauss (px p 0%nat 0%nat) 1 1 1) (fun l => (mean_of l, 0, 0))
    (fun a _ _ _ => pconst (1, 1)%nat (Some a)) None None s1) = Ok r.
Proof. eexists. split; [reflexivity|]. eexists. reflexivity. Qed.
