(** Subtracting and coadding the same two images again: image by image, then both. *)
From Coq Require Import ZArith List Bool Arith Reals Lia Lra Permutation.
From Coquelicot Require Import Complex.
From Verif.Model Require Import Py Plane Ma Coadd.
From Verif.Spec Require Import Coadd.
From Verif.Proof Require Import Coadd CoaddThreads CoaddMain CoaddMore.
From Verif.Model Require Import Filter.
From Verif.Proof Require Import Filter FilterMain.
From Verif.Model Require Import Interp Subtract Filter Sources Stamps Transparency KL Session Chain ChainCoadd Again SubAgain.
From Verif.Spec Require Import Transparency Session Uses UsesCoadd Again SubAgain.
From Verif.Proof Require Import Transparency TransparencyMain TransparencyAgain.
From Verif.Proof Require Import Session SessionBad SessionHist SessionMain SessionFrame SessionLm Chain ChainUnits Uses UsesCoadd UsesCoaddMain Again AgainMain SubAgain.
Import ListNotations.
Local Open Scope R_scope.
Set Bullet Behavior "Strict Subproofs".

Notation plib := (lib (plane R) (res (plane C)) (res (plane R))).
Notation pstate := (si (plane R) (res (plane C)) (res (plane R))).

Section Placed.
Variable x : built.
Notation L := (bu_lib x).
Variable sh : nat * nat.
Variable Lp : plib.
Hypothesis HLp : Lp = L \/ exists left, Lp = given L left.

Definition placed (s : pstate) (m : memory) : Prop := reached _ _ _ Lp sh s m /\ best s <> None.

Lemma placed_exec c s m : plain c -> no_new_sources c -> placed s m -> placed (exec L c s) (recall c m).
Proof.
  intros Pc N (Rd & B). assert (E : exec L c s = exec Lp c s /\ best (exec L c s) <> None).
  { destruct HLp as [->|[left ->]]; [split; [reflexivity|]|]; [exact (proj2 (same_exec _ _ _ L [] c s N B))|exact (same_exec _ _ _ L left c s N B)]. }
  destruct E as [E B']. split; [|exact B'].
  rewrite E. exact (reached_all _ _ _ Lp sh [c] s m Rd (Forall_cons _ Pc (Forall_nil _))).
Qed.

Lemma placed_psf s m l : placed s m -> 0 <= l -> fst (get_variable_psf L (Some l) None s) = psf_for Lp sh l.
Proof.
  intros (Rd & B) Hl. destruct (same_Lp x Lp HLp (fun L => get_variable_psf L (Some l) None) s (fun left => same_psf _ _ _ L left (Some l) None) B) as [-> _].
  exact (reached_psf _ _ _ Lp sh s m (Some l) Rd Hl).
Qed.

Lemma placed_set_up s m l z q : placed s m -> 0 <= l -> psf_for Lp sh l = Ok q ->
  fst (setup_kl_a_fields _ _ _ L (Some l) false (set_zp _ _ _ (Some z) s)) = Ok tt.
Proof.
  intros U Hl Q. assert (U2 : placed (set_zp _ _ _ (Some z) s) (recall (CSetZp z) m)) by exact (placed_exec (CSetZp z) s m I I U).
  destruct U2 as (Rd & B).
  destruct (same_Lp x Lp HLp (fun L => setup_kl_a_fields _ _ _ L (Some l) false) _ (fun left => same_fields _ _ _ L left (Some l) false) B) as [-> _].
  pose proof (reached_loss _ _ _ _ _ _ _ Rd) as (Lo & Lo0 & _).
  destruct Rd as (J & mode & (Js & I2) & H1 & H2 & H3 & H4 & H5 & H6 & H7 & H8 & H9 & H10 & H11).
  apply (proj2 H11 l _ q Hl Js); [rewrite Lo; exact Lo0|exact Q].
Qed.

Lemma placed_seen s m v : placed s m -> coadd_seen (with_attr s x) = Ok v -> exists q, psf_for Lp sh (m_loss m) = Ok q.
Proof.
  intros (Rd & B). destruct (same_Lp x Lp HLp (fun L => s_hat_comp L) s (same_shat _ _ _ L) B) as [Eh Bh].
  pose proof (reached_filt _ _ _ Lp sh s m Rd) as Rf. rewrite <- Eh, made_of_loss in Rf.
  unfold coadd_seen. change (bu_lib (with_attr s x)) with L. change (bu_attr (with_attr s x)) with s.
  destruct (s_hat_comp L s) as [rh s2]. cbn [fst snd] in *. subst rh. unfold filt_for.
  destruct (psf_for Lp sh (m_loss m)) as [q|]; [eauto|]. cbn [bind]. discriminate.
Qed.
End Placed.

Lemma usable_placed sh Lp s m : usable sh Lp s m -> placed sh Lp s m.
Proof. intros (A & B & _). now split. Qed.

Lemma placed_usable sh Lp s m : placed sh Lp s m -> pos s <> None -> usable sh Lp s m.
Proof. intros (A & B) P. now repeat split. Qed.

(** What the filtered image of a coadd will have been made with. *)
Definition view (l z : R) (m : memory) : R * R :=
  let m' := recall (CCoadd l z) m in (snd (made_of (need_filt m')), norm_loss (need_filt m')).

Definition ask_psf (l z : R) (s : pstate) (L : plib) : pstate := exec L (CGetPSF (Some l) None) (set_zp _ _ _ (Some z) s).

(** An image that the matching gave the stars [left]. *)
Definition placed_at (u : built * list call) (h : held) (left : list src) (Lp : plib) (m : memory) : Prop :=
  let x := fst u in let sh := stamp_shape (bu_attr x) in let s := set_best _ _ _ (Some left) (bu_attr (h_img h)) in
  h_img h = with_attr (bu_attr (h_img h)) x /\
  (Lp = bu_lib x \/ exists left, Lp = given (bu_lib x) left) /\ placed sh Lp s m /\
  forall l z q, 0 <= l -> psf_for Lp sh l = Ok q ->
    pos (ask_psf l z s (bu_lib x)) <> None /\ pos (exec (bu_lib x) (CCoadd l z) s) <> None.

Lemma usable_at u s c left Lp m : let x := fst u in let sh := stamp_shape (bu_attr x) in
  (Lp = bu_lib x \/ exists left, Lp = given (bu_lib x) left) -> usable sh Lp s m ->
  placed_at u (mkheld (with_attr s x) c) left Lp m.
Proof.
  intros x sh HLp U. unfold placed_at. cbn zeta. cbn [h_img]. change (bu_attr (with_attr s (fst u))) with s. fold x sh.
  split; [reflexivity|]. split; [exact HLp|]. pose proof (usable_best sh Lp s m left U) as U1.
  split; [now apply usable_placed|]. intros l z q Hl Q. destruct U1 as (_ & _ & P). split.
  - exact (hp_exec_all _ _ _ (bu_lib x) [CSetZp z; CGetPSF (Some l) None] _ P).
  - exact (hp_exec_all _ _ _ (bu_lib x) [CCoadd l z] _ P).
Qed.

Lemma exists_placed W fuel shp u h left : (forall n c, length (fst (l_eigh W n c)) = n) -> in_use W fuel shp u -> held_ok u h ->
  exists Lp m, placed_at u h left Lp m.
Proof.
  intros EL ((o & d & Bx) & S1 & S2 & (sp & Hsp) & Fp) Ho.
  destruct Ho as [->|(s0 & c & Lp & m & l0 & q0 & -> & HLp & U & Q0)]; [|exists Lp, m; now apply usable_at].
  set (x := fst u) in *. set (cs := snd u) in *. set (sh := stamp_shape (bu_attr x)) in *.
  destruct (build_lib _ _ _ _ _ Bx) as (Dx & Lx & sh' & N & Sh). fold sh in Sh. subst sh'.
  assert (O : lib_ok (bu_lib x)) by (rewrite Lx; now apply lib_of_ok).
  destruct (selected _ _ _ (bu_lib x) sh sp Hsp) as (cat1 & st1 & p1 & k1 & Hs1 & He1).
  pose proof (virgin_all _ _ _ (bu_lib x) sh cat1 st1 p1 k1 Hs1 He1 cs (looked_at (bu_attr x)) (bu_attr x) Fp (first_virgin _ _ _ (bu_lib x) sh (bu_attr x) cs [] 0 0 N cat1 Hs1)) as X.
  unfold placed_at. cbn zeta. cbn [h_img]. fold x sh. change (bu_attr (after cs x)) with (exec_all (bu_lib x) cs (bu_attr x)).
  set (s := exec_all (bu_lib x) cs (bu_attr x)) in *.
  destruct (stamps_read (looked_at (bu_attr x)) cs) eqn:Sr.
  - exists (bu_lib x), (history cs). split; [reflexivity|]. split; [now left|]. split.
    + split; [|discriminate]. pose proof (reached_history _ _ _ (bu_lib x) sh (bu_attr x) cs O N Fp) as Rd. fold s in Rd.
      destruct Rd as (J & mode & (Js & I) & H1 & H2 & H3 & H4 & H5 & H6 & H7 & H8 & H9 & H10 & H11). exists J, mode.
      split; [split; [now apply H10|exact I]|]. auto 12.
    + intros l z q Hl Q. split.
      * exact (hp_exec_all _ _ _ (bu_lib x) [CSetZp z; CGetPSF (Some l) None] (set_best _ _ _ (Some left) s) X).
      * exact (hp_exec_all _ _ _ (bu_lib x) [CCoadd l z] (set_best _ _ _ (Some left) s) X).
  - destruct X as (lk & (z0 & Ez) & _). exists (given (bu_lib x) left), (history [CSetZp z0]).
    split; [reflexivity|]. split; [right; now exists left|].
    assert (E1 : set_best _ _ _ (Some left) s = exec_all (given (bu_lib x) left) [CSetZp z0] (fresh _ _ _ sh (Some left))) by (rewrite Ez; reflexivity).
    split.
    + split; [|discriminate]. rewrite E1. apply reached_history; [exact O|right; exists left; now split|now repeat constructor].
    + intros l z q Hl Q.
      assert (Sel : exists st p k, extract (given (bu_lib x) left) sh left = (st, Ok (p, k))).
      { unfold psf_for, stamps_of in Q. cbn [select given] in Q.
        destruct (extract (given (bu_lib x) left) sh left) as [st [[p k]|]] eqn:E; [|discriminate]. eauto 8. }
      destruct Sel as (st & p & k & He2).
      assert (B1 : best (set_best _ _ _ (Some left) s) <> None) by discriminate. split.
      * unfold ask_psf.
        destruct (same_exec _ _ _ (bu_lib x) left (CGetPSF (Some l) None) (set_zp _ _ _ (Some z) (set_best _ _ _ (Some left) s)) I B1) as [-> _].
        rewrite Ez.
        exact (takes_psf _ _ _ (given (bu_lib x) left) sh left st p k eq_refl He2 (Some l) (Some z) (2 / 10) true).
      * destruct (same_exec _ _ _ (bu_lib x) left (CCoadd l z) (set_best _ _ _ (Some left) s) I B1) as [-> _]. rewrite Ez.
        exact (takes_fields _ _ _ (given (bu_lib x) left) sh left st p k eq_refl He2 (Some l) false (Some z) (2 / 10) true).
Qed.

(** The PSF that a subtraction uses. *)
Lemma element_at u h c Lp m l z : placed_at u h (map src_of (rows c)) Lp m -> 0 <= l ->
  first_element l (given_zp c z (h_img h)) =
  bind (psf_for Lp (stamp_shape (bu_attr (fst u))) l) (fun ab => match snd ab with [] => Raise IndexError | p :: _ => Ok (numbers p) end).
Proof.
  intros (Ei & HLp & Pl & _) Hl. unfold first_element. rewrite Ei.
  change (bu_lib (given_zp c z (with_attr (bu_attr (h_img h)) (fst u)))) with (bu_lib (fst u)).
  change (bu_attr (given_zp c z (with_attr (bu_attr (h_img h)) (fst u)))) with (set_zp _ _ _ (Some z) (set_best _ _ _ (Some (map src_of (rows c))) (bu_attr (h_img h)))).
  rewrite (placed_psf (fst u) (stamp_shape (bu_attr (fst u))) Lp HLp _ (recall (CSetZp z) m) l); [reflexivity| |exact Hl].
  exact (placed_exec (fst u) _ Lp HLp (CSetZp z) _ m I I Pl).
Qed.

(** What the workers of a coadd see. *)
Definition fields_set (l : R) (c : cat) (z : R) (x : built) : res unit * pstate :=
  setup_kl_a_fields _ _ _ (bu_lib x) (Some l) false (bu_attr (given_zp c z x)).

Lemma seen_at u h c Lp m l z q : placed_at u h (map src_of (rows c)) Lp m -> 0 <= l -> psf_for Lp (stamp_shape (bu_attr (fst u))) l = Ok q ->
  let x := fst u in let sh := stamp_shape (bu_attr x) in
  fst (fields_set l c z (h_img h)) = Ok tt /\
  coadd_seen (with_attr (snd (fields_set l c z (h_img h))) x) =
  bind (filt_for Lp sh l (fst (view l z m)) (snd (view l z m))) (fun h => bind h (fun h =>
  Ok (mksimg (shape (m_dat (bu_data x))) (Full (m_msk (bu_data x))) (b_rms (bu_back x)) z l
        (fst sh + 6) (fun _ => px h)
        (fun _ => px (psf_hat_sqnorm (shape (m_dat (bu_data x))) (on_pixels (fst q)) (map numbers (snd q))))
        (Some (px h)) (Some l) false true))).
Proof.
  intros (Ei & HLp & Pl & T) Hl Q x sh. fold x in Ei, HLp, Pl, T, Q. fold sh in Pl, T, Q. unfold fields_set. rewrite Ei.
  change (bu_lib (with_attr (bu_attr (h_img h)) x)) with (bu_lib x).
  change (bu_attr (given_zp c z (with_attr (bu_attr (h_img h)) x))) with (set_zp _ _ _ (Some z) (set_best _ _ _ (Some (map src_of (rows c))) (bu_attr (h_img h)))).
  set (s := set_best _ _ _ (Some (map src_of (rows c))) (bu_attr (h_img h))) in *.
  split; [exact (placed_set_up x sh Lp HLp s m l z q Pl Hl Q)|].
  pose proof (placed_exec x sh Lp HLp (CCoadd l z) s m Hl I Pl) as P1.
  apply placed_usable in P1; [|exact (proj2 (T l z q Hl Q))].
  change (snd (setup_kl_a_fields _ _ _ (bu_lib x) (Some l) false (set_zp _ _ _ (Some z) s))) with (exec (bu_lib x) (CCoadd l z) s).
  rewrite (seen_is x sh Lp HLp _ _ q P1); [|exact Q].
  change (m_loss (recall (CCoadd l z) m)) with l. change (m_zp (recall (CCoadd l z) m)) with z. reflexivity.
Qed.

Lemma seen_needs u h c Lp m l z v : placed_at u h (map src_of (rows c)) Lp m -> 0 <= l ->
  coadd_seen (with_attr (snd (fields_set l c z (h_img h))) (fst u)) = Ok v ->
  exists q, psf_for Lp (stamp_shape (bu_attr (fst u))) l = Ok q.
Proof.
  intros (Ei & HLp & Pl & T) Hl E. unfold fields_set in E. rewrite Ei in E.
  change (bu_lib (with_attr (bu_attr (h_img h)) (fst u))) with (bu_lib (fst u)) in E.
  change (bu_attr (given_zp c z (with_attr (bu_attr (h_img h)) (fst u)))) with (set_zp _ _ _ (Some z) (set_best _ _ _ (Some (map src_of (rows c))) (bu_attr (h_img h)))) in E.
  pose proof (placed_exec (fst u) _ Lp HLp (CCoadd l z) _ m Hl I Pl) as P1.
  exact (placed_seen (fst u) _ Lp HLp _ _ v P1 E).
Qed.

(** An image in a task. *)
Definition img_after (k : task) (c : cat) (z : R) (h : held) : held :=
  match k with
  | Sub l _ _ _ => keeping (asked l (given_zp c z (h_img h))) c
  | Add _ _ l _ => leave (with_attr (snd (fields_set l c z (h_img h))) (h_img h), c)
  end.

Definition img_done (k : task) (c : cat) (z : R) (h : held) : Prop :=
  match k with
  | Sub l _ _ _ => exists p, first_element l (given_zp c z (h_img h)) = Ok p
  | Add _ _ l _ => fst (fields_set l c z (h_img h)) = Ok tt /\ exists v, coadd_seen (with_attr (snd (fields_set l c z (h_img h))) (h_img h)) = Ok v
  end.

Lemma view_sub l z l' z' m : view l z (recall (CGetPSF (Some l') None) (recall (CSetZp z') m)) = view l z m.
Proof. reflexivity. Qed.

Lemma view_add l z m : view l z (recall CSHat (recall (CCoadd l z) m)) = view l z m.
Proof.
  set (mc := recall (CCoadd l z) m). destruct (recall_shat mc) as (Ml & Mz & Mf & Mn).
  unfold view. set (m3 := recall (CCoadd l z) (recall CSHat mc)). fold mc.
  assert (F3 : m_filt m3 = Some (made_of (need_filt mc))) by exact Mf.
  assert (M3l : m_loss m3 = l) by reflexivity.
  assert (N3 : need_filt m3 = m3).
  { unfold need_filt. rewrite F3. destruct (made_of (need_filt mc)) as [l1 z1] eqn:Em.
    pose proof (made_of_loss mc) as Y. rewrite Em in Y. cbn in Y. subst l1. now destruct (Req_EM_T _ _). }
  assert (D3 : made_of m3 = made_of (need_filt mc)) by (unfold made_of at 1; now rewrite F3).
  assert (Z3 : norm_loss m3 = norm_loss (need_filt mc)).
  { unfold norm_loss. change (m_norm m3) with (m_norm (recall CSHat mc)). rewrite Mn, M3l.
    destruct (m_norm (need_filt mc)); [reflexivity|]. change l with (m_loss mc). rewrite <- Ml. reflexivity. }
  now rewrite N3, D3, Z3.
Qed.

(** The image after the task: its stars, its PSF, what it remembers. *)
Lemma image_task u h c Lp m k z : placed_at u h (map src_of (rows c)) Lp m -> 0 <= loss_asked k -> img_done k c z h ->
  exists s m1 q kept, img_after k c z h = mkheld (with_attr s (fst u)) (Some (mkcat (has_id c) (has_det c) (keep_rows (rows c) kept))) /\
    kept = match best s with Some l => l | None => [] end /\
    (Lp = bu_lib (fst u) \/ exists left, Lp = given (bu_lib (fst u)) left) /\
    usable (stamp_shape (bu_attr (fst u))) Lp s m1 /\ psf_for Lp (stamp_shape (bu_attr (fst u))) (loss_asked k) = Ok q /\
    s = exec_all (bu_lib (fst u)) (match k with Sub l _ _ _ => [CSetZp z; CGetPSF (Some l) None] | Add _ _ l _ => [CCoadd l z; CSHat; CBasis; CAfields] end)
          (set_best _ _ _ (Some (map src_of (rows c))) (bu_attr (h_img h))) /\
    forall l z', is_sub k \/ (l = loss_asked k /\ z' = z) -> view l z' m1 = view l z' m.
Proof.
  intros Pa Hl D. pose proof Pa as (Ei & HLp & Pl & T). set (x := fst u) in *. set (sh := stamp_shape (bu_attr x)) in *.
  set (s0 := set_best _ _ _ (Some (map src_of (rows c))) (bu_attr (h_img h))) in *.
  destruct k as [l b1 b2 b3|fu sc l n]; cbn [loss_asked img_done img_after is_sub] in *.
  - destruct D as [p D]. rewrite (element_at u h c Lp m l z Pa Hl) in D. fold x sh in D.
    destruct (psf_for Lp sh l) as [q|] eqn:Q; [|discriminate].
    exists (ask_psf l z s0 (bu_lib x)), (recall (CGetPSF (Some l) None) (recall (CSetZp z) m)), q.
    eexists. split; [rewrite Ei at 1; unfold keeping; f_equal; f_equal; f_equal; rewrite Ei; reflexivity|]. split; [reflexivity|].
    split; [exact HLp|]. split; [|split; [reflexivity|split; [reflexivity|intros; apply view_sub]]].
    apply placed_usable; [|exact (proj1 (T l z q Hl Q))].
    apply (placed_exec x sh Lp HLp (CGetPSF (Some l) None)); [split; [exact Hl|reflexivity] || exact Hl|exact I|].
    exact (placed_exec x sh Lp HLp (CSetZp z) s0 m I I Pl).
  - destruct D as (D & v & E). rewrite Ei in E at 2. fold x in E.
    destruct (seen_needs u h c Lp m l z v Pa Hl) as [q Q]; [exact E|]. fold x sh in Q.
    pose proof (placed_exec x sh Lp HLp (CCoadd l z) s0 m Hl I Pl) as P1.
    apply placed_usable in P1; [|exact (proj2 (T l z q Hl Q))].
    pose proof (usable_exec x sh Lp HLp CSHat _ _ I I P1) as X1. pose proof (usable_exec x sh Lp HLp CBasis _ _ I I X1) as X2.
    pose proof (usable_exec x sh Lp HLp CAfields _ _ I I X2) as X3.
    eexists _, _, q, _. split; [|split; [reflexivity|split; [exact HLp|split; [exact X3|split; [exact Q|split; [reflexivity|]]]]]].
    + unfold fields_set. rewrite Ei. reflexivity.
    + intros l' z' [[]|[-> ->]]. exact (view_add l z m).
Qed.
