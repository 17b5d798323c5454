(** Subtracting and coadding the same two images again: the two images. *)
From Coq Require Import ZArith List Bool Arith Reals Lia Lra Permutation.
From Coquelicot Require Import Complex.
From Verif.Model Require Import Py Plane Ma Coadd.
From Verif.Spec Require Import Coadd.
From Verif.Proof Require Import Coadd CoaddThreads CoaddMain CoaddMore.
From Verif.Model Require Import Filter.
From Verif.Proof Require Import Filter FilterMain.
From Verif.Model Require Import Interp Subtract Filter Sources Stamps Transparency KL Session Chain ChainCoadd Again SubAgain.
From Verif.Spec Require Import Transparency Session Uses UsesCoadd Again SubAgain.
From Verif.Proof Require Import Transparency TransparencyMain TransparencyAgain.
From Verif.Proof Require Import Session SessionBad SessionHist SessionMain SessionFrame SessionLm Chain ChainUnits Uses UsesCoadd UsesCoaddMain Again AgainMain SubAgain SubAgainMain.
Import ListNotations.
Local Open Scope R_scope.
Set Bullet Behavior "Strict Subproofs".

Lemma run_pair W f s l n a b r hs1 : coadd_run W f s l n [a; b] = Some (Ok (r, hs1)) ->
  forall x y, hs1 = [x; y] ->
  exists cr cn t kn, catalogue_of a = Ok cr /\ catalogue_of b = Ok cn /\
    transparency (l_query W) (l_sort W) (l_lsqr W) [cr; cn] None = Ok t /\ hd_error (cats t) = Some kn /\
    img_done (Add f s l n) (mcat t) (nth 0 (zps t) 0) a /\ img_done (Add f s l n) kn (nth 1 (zps t) 0) b /\
    x = img_after (Add f s l n) (mcat t) (nth 0 (zps t) 0) a /\ y = img_after (Add f s l n) kn (nth 1 (zps t) 0) b /\
    exists va vb, coadd_seen (with_attr (snd (fields_set l (mcat t) (nth 0 (zps t) 0) (h_img a))) (h_img a)) = Ok va /\
      coadd_seen (with_attr (snd (fields_set l kn (nth 1 (zps t) 0) (h_img b))) (h_img b)) = Ok vb /\
      coadd_core f s (fun k => nth k [va; vb] blank) (seq 0 2) n = Some (Ok r) /\
      exists z0 z1 zs, zps t = z0 :: z1 :: zs.
Proof.
  intros E x y Ex. destruct (run_parts _ _ _ _ _ _ _ _ E) as (_ & cs & t & ws & vs & [Ec Et Ew Ev Eh] & Ek).
  cbn [mapM] in Ec. destruct (catalogue_of a) as [cr|]; [|discriminate]. cbn [bind] in Ec.
  destruct (catalogue_of b) as [cn|]; [|discriminate]. cbn [bind] in Ec. injection Ec as <-.
  destruct (cats t) as [|kn rest] eqn:Ect.
  { exfalso. rewrite Eh in Ex. apply (f_equal (@length _)) in Ex. rewrite map_length, combine_length, Nat.min_comm in Ex. cbn in Ex. destruct (length ws); cbn in Ex; lia. }
  unfold seats in Ew. rewrite Ect in Ew. cbn [combine map fst snd] in Ew.
  assert (Ew' : set_up l [with_best (map src_of (rows (mcat t))) (h_img a); with_best (map src_of (rows kn)) (h_img b)] (zps t) = Ok ws) by exact Ew. clear Ew.
  cbn [set_up] in Ew'. destruct (zps t) as [|z0 zs] eqn:Ez; [discriminate|].
  change (setup_kl_a_fields _ _ _ (bu_lib (with_best (map src_of (rows (mcat t))) (h_img a))) (Some l) false
     (set_zp _ _ _ (Some z0) (bu_attr (with_best (map src_of (rows (mcat t))) (h_img a))))) with (fields_set l (mcat t) z0 (h_img a)) in Ew'.
  destruct (fields_set l (mcat t) z0 (h_img a)) as [[[]|] sa] eqn:Ea; [|discriminate].
  destruct zs as [|z1 zs]; [discriminate|].
  change (setup_kl_a_fields _ _ _ (bu_lib (with_best (map src_of (rows kn)) (h_img b))) (Some l) false
     (set_zp _ _ _ (Some z1) (bu_attr (with_best (map src_of (rows kn)) (h_img b))))) with (fields_set l kn z1 (h_img b)) in Ew'.
  destruct (fields_set l kn z1 (h_img b)) as [[[]|] sb] eqn:Eb; [|discriminate]. cbn [bind] in Ew'. injection Ew' as <-.
  cbn [mapM] in Ev.
  change (with_attr sa (with_best (map src_of (rows (mcat t))) (h_img a))) with (with_attr sa (h_img a)) in *.
  change (with_attr sb (with_best (map src_of (rows kn)) (h_img b))) with (with_attr sb (h_img b)) in *.
  destruct (coadd_seen (with_attr sa (h_img a))) as [va|] eqn:Va; [|discriminate]. cbn [bind] in Ev.
  destruct (coadd_seen (with_attr sb (h_img b))) as [vb|] eqn:Vb; [|discriminate]. cbn [bind] in Ev. injection Ev as <-.
  exists cr, cn, t, kn. rewrite Ez. cbn [nth]. rewrite Ea, Eb. cbn [snd].
  split; [reflexivity|]. split; [reflexivity|]. split; [exact Et|]. split; [rewrite Ect; reflexivity|].
  unfold img_done, img_after. rewrite Ea, Eb. cbn [fst snd].
  rewrite Eh in Ex. cbn [combine map] in Ex. injection Ex as <- <-.
  split; [eauto|]. split; [eauto|]. split; [reflexivity|]. split; [reflexivity|]. exists va, vb. eauto 8.
Qed.

Lemma task_is W k p p1 : do_task W k p = Some (Ok p1) ->
  exists cr cn t, catalogue_of (fst p) = Ok cr /\ catalogue_of (snd p) = Ok cn /\
    transparency (l_query W) (l_sort W) (l_lsqr W) [cr; cn] None = Ok t /\
    let kn := match cats t with c :: _ => c | [] => cn end in
    img_done k (mcat t) (nth 0 (zps t) 0) (fst p) /\ img_done k kn (nth 1 (zps t) 0) (snd p) /\
    p1 = (img_after k (mcat t) (nth 0 (zps t) 0) (fst p), img_after k kn (nth 1 (zps t) 0) (snd p)).
Proof.
  destruct p as [a b]. destruct k as [l be sh it|f s l n]; cbn [do_task fst snd]; intros E.
  - injection E as E. destruct (subtract_run _ _ _ _ _ _ _) as [[r q]|] eqn:Er; [|discriminate]. cbn [bind snd] in E. injection E as ->.
    unfold subtract_run in Er. destruct (negb _); [discriminate|].
    destruct (catalogue_of a) as [cr|]; [|discriminate]. cbn [bind] in Er. destruct (catalogue_of b) as [cn|]; [|discriminate]. cbn [bind] in Er.
    destruct (transparency _ _ _ _ _) as [t|] eqn:Et; [|discriminate]. cbn [bind] in Er. cbv zeta in Er.
    destruct (first_element l (given_zp (mcat t) _ _)) as [pr|] eqn:Fr; [|discriminate]. cbn [bind] in Er.
    destruct (first_element l (given_zp (match cats t with [] => _ | _ => _ end) _ _)) as [pn|] eqn:Fn; [|discriminate]. cbn [bind] in Er.
    destruct (subtract _ _ _ _ _ _ _ _) as [d|]; [|discriminate]. cbn [bind] in Er. injection Er as _ <-.
    exists cr, cn, t. split; [reflexivity|]. split; [reflexivity|]. split; [exact Et|]. cbv zeta. cbn [img_done]. split; [now exists pr|]. split; [now exists pn|reflexivity].
  - destruct (coadd_run W f s l n [a; b]) as [[[r hs]|]|] eqn:Er; try discriminate.
    destruct hs as [|x [|y [|? ?]]]; try discriminate. injection E as <-.
    destruct (run_pair W f s l n a b r _ Er x y eq_refl) as (cr & cn & t & kn & A1 & A2 & A3 & A4 & A5 & A6 & -> & -> & _).
    exists cr, cn, t. destruct (cats t) as [|c rest]; [discriminate|]. injection A4 as ->. cbv zeta. auto 8.
Qed.

(** The two images between tasks. *)
Record pair_ok (u v : built * list call) (p : held * held) : Prop := {
  po_ref : held_ok u (fst p);
  po_new : held_ok v (snd p);
  po_ids : match h_cat (fst p) with Some c => good_ids c | None => True end }.

Lemma good_first h c : match h_cat h with Some c => good_ids c | None => True end -> catalogue_of h = Ok c -> good_ids c.
Proof.
  unfold catalogue_of. destruct (h_cat h) as [c'|]; [intros G X; injection X as <-; exact G|].
  intros _. destruct (fst _) as [l1|]; [|discriminate]. cbn [bind]. intros X. injection X as <-. now left.
Qed.

Definition kept_of (h : held) : list src := match best (bu_attr (h_img h)) with Some l => l | None => [] end.

Record stepped (W : libs) (u v : built * list call) (k : task) (p p1 : held * held) (cr cn : cat) (t : outcome) (kn : cat)
  (Lp Lq : plib) (m n m1 n1 : memory) : Prop := {
  sp_cr : catalogue_of (fst p) = Ok cr;
  sp_cn : catalogue_of (snd p) = Ok cn;
  sp_t : transparency (l_query W) (l_sort W) (l_lsqr W) [cr; cn] None = Ok t;
  sp_kn : cats t = [kn];
  sp_good : good_ids cr /\ good_ids (mcat t);
  sp_ref : map place (rows (mcat t)) = map place (rows cr);
  sp_new : same_sources cn kn;
  sp_at : placed_at u (fst p) (map src_of (rows (mcat t))) Lp m;
  sp_at' : placed_at v (snd p) (map src_of (rows kn)) Lq n;
  sp_done : img_done k (mcat t) (nth 0 (zps t) 0) (fst p);
  sp_done' : img_done k kn (nth 1 (zps t) 0) (snd p);
  sp_p1 : p1 = (img_after k (mcat t) (nth 0 (zps t) 0) (fst p), img_after k kn (nth 1 (zps t) 0) (snd p));
  sp_c1 : h_cat (fst p1) = Some (mkcat (has_id (mcat t)) (has_det (mcat t)) (keep_rows (rows (mcat t)) (kept_of (fst p1))));
  sp_c1' : h_cat (snd p1) = Some (mkcat (has_id kn) (has_det kn) (keep_rows (rows kn) (kept_of (snd p1))));
  sp_then : forall left, placed_at u (fst p1) left Lp m1;
  sp_then' : forall left, placed_at v (snd p1) left Lq n1;
  sp_view : forall l z, is_sub k \/ (l = loss_asked k /\ z = nth 0 (zps t) 0) -> view l z m1 = view l z m;
  sp_view' : forall l z, is_sub k \/ (l = loss_asked k /\ z = nth 1 (zps t) 0) -> view l z n1 = view l z n;
  sp_kept : settled _ _ _ (bu_lib (fst u)) (map src_of (rows (mcat t))) (set_best _ _ _ (Some (map src_of (rows (mcat t)))) (bu_attr (h_img (fst p)))) ->
    kept_of (fst p1) = map src_of (rows (mcat t));
  sp_kept' : settled _ _ _ (bu_lib (fst v)) (map src_of (rows kn)) (set_best _ _ _ (Some (map src_of (rows kn))) (bu_attr (h_img (snd p)))) ->
    kept_of (snd p1) = map src_of (rows kn);
  sp_ok : pair_ok u v p1 }.

(** A task leaves the sources of a settled image as they are. *)
Lemma settled_task (L : plib) l0 k z s : settled _ _ _ L l0 s ->
  best (exec_all L (match k with Sub l _ _ _ => [CSetZp z; CGetPSF (Some l) None] | Add _ _ l _ => [CCoadd l z; CSHat; CBasis; CAfields] end) s) = Some l0.
Proof.
  intros H. destruct k as [l ? ? ?|? ? l ?].
  - exact (proj1 (st_psf _ _ _ L l0 (Some l) (set_zp _ _ _ (Some z) s) H)).
  - exact (proj1 (settled_coadd _ _ _ L l0 l z s H)).
Qed.

Lemma task_step W fuel shp u v k p p1 : (forall n c, length (fst (l_eigh W n c)) = n) -> (forall r, Permutation (l_sort W r) r) ->
  in_use W fuel shp u -> in_use W fuel shp v -> pair_ok u v p -> 0 <= loss_asked k -> do_task W k p = Some (Ok p1) ->
  exists cr cn t kn Lp Lq m n m1 n1, stepped W u v k p p1 cr cn t kn Lp Lq m n m1 n1.
Proof.
  intros EL SP Hu Hv [Ha Hb Hg] Hl E. destruct (task_is W k p p1 E) as (cr & cn & t & Cr & Cn & Et & D & D' & ->).
  pose proof (good_first _ _ Hg Cr) as Gr.
  destruct (matched_again _ _ _ [cr; cn] t SP Gr Et) as (Lm & Gm & Hm).
  destruct (cats t) as [|kn [|? ?]] eqn:Ect; [discriminate| |discriminate].
  destruct (Hm 0%nat cr (mcat t) eq_refl eq_refl) as [_ Pr]. specialize (Pr eq_refl).
  destruct (Hm 1%nat cn kn eq_refl) as [Sn _]; [reflexivity|].
  destruct (exists_placed W fuel shp u (fst p) (map src_of (rows (mcat t))) EL Hu Ha) as (Lp & m & Pl).
  destruct (exists_placed W fuel shp v (snd p) (map src_of (rows kn)) EL Hv Hb) as (Lq & n & Pl').
  destruct (image_task u (fst p) (mcat t) Lp m k _ Pl Hl D) as (s & m1 & q & kept & Ei & Ek & HL & U & Q & Es & V).
  destruct (image_task v (snd p) kn Lq n k _ Pl' Hl D') as (s' & n1 & q' & kept' & Ei' & Ek' & HL' & U' & Q' & Es' & V').
  exists cr, cn, t, kn, Lp, Lq, m, n, m1, n1. cbv zeta in *. constructor; cbn [fst snd]; auto.
  - rewrite Ei. unfold kept_of. cbn [h_cat h_img]. now subst kept.
  - rewrite Ei'. unfold kept_of. cbn [h_cat h_img]. now subst kept'.
  - intros left. rewrite Ei. now apply usable_at.
  - intros left. rewrite Ei'. now apply usable_at.
  - intros St. rewrite Ei. unfold kept_of. cbn [h_img]. change (bu_attr (with_attr s (fst u))) with s. rewrite Es. now rewrite (settled_task _ _ k _ _ St).
  - intros St. rewrite Ei'. unfold kept_of. cbn [h_img]. change (bu_attr (with_attr s' (fst v))) with s'. rewrite Es'. now rewrite (settled_task _ _ k _ _ St).
  - constructor; cbn [fst snd].
    + rewrite Ei. right. exists s. eexists. exists Lp, m1, (loss_asked k), q. split; [reflexivity|auto].
    + rewrite Ei'. right. exists s'. eexists. exists Lq, n1, (loss_asked k), q'. split; [reflexivity|auto].
    + rewrite Ei. cbn [h_cat]. apply keep_good. now destruct (mcat t).
Qed.

Lemma start_ok u v : pair_ok u v (start_with u v).
Proof. constructor; [now left|now left|exact I]. Qed.

Lemma tasks_ok W fuel shp u v ks : forall p p1, (forall n c, length (fst (l_eigh W n c)) = n) -> (forall r, Permutation (l_sort W r) r) ->
  in_use W fuel shp u -> in_use W fuel shp v -> pair_ok u v p -> Forall (fun k => 0 <= loss_asked k) ks -> tasks W ks p = Some (Ok p1) ->
  pair_ok u v p1 /\ (ks <> [] -> h_cat (fst p1) <> None /\ h_cat (snd p1) <> None).
Proof.
  induction ks as [|k ks IH]; intros p p1 EL SP Hu Hv Hp Hk E; [injection E as <-; split; [exact Hp|congruence]|].
  cbn [tasks] in E. destruct (do_task W k p) as [[p2|]|] eqn:E2; try discriminate. inversion Hk as [|? ? Hl Hk']; subst.
  destruct (task_step W fuel shp u v k p p2 EL SP Hu Hv Hp Hl E2) as (cr & cn & t & kn & Lp & Lq & m & n & m1 & n1 & S).
  destruct (IH p2 p1 EL SP Hu Hv (sp_ok _ _ _ _ _ _ _ _ _ _ _ _ _ _ _ _ S) Hk' E) as [A B]. split; [exact A|]. intros _.
  destruct ks as [|k' ks]; [|apply B; discriminate]. injection E as <-. destruct S. rewrite sp_c2, sp_c1'0. split; discriminate.
Qed.

(** What a subtraction of two images answers, from their PSFs and zero points. *)
Definition element (Lp : plib) (x : built) (l : R) : res (plane R) :=
  bind (psf_for Lp (stamp_shape (bu_attr x)) l) (fun ab => match snd ab with [] => Raise IndexError | p :: _ => Ok (numbers p) end).

Lemma sub_is W u v a b cr cn t kn Lp Lq m n l be sh it : catalogue_of a = Ok cr -> catalogue_of b = Ok cn ->
  transparency (l_query W) (l_sort W) (l_lsqr W) [cr; cn] None = Ok t -> cats t = [kn] ->
  placed_at u a (map src_of (rows (mcat t))) Lp m -> placed_at v b (map src_of (rows kn)) Lq n -> 0 <= l ->
  result (subtract_run W l be sh it a b) =
  if negb (shape_eqb (shape (m_dat (bu_data (fst v)))) (shape (m_dat (bu_data (fst u))))) then Raise ValueError
  else bind (element Lp (fst u) l) (fun pr => bind (element Lq (fst v) l) (fun pn =>
    subtract (mkenv (fun _ => Raise TypeError) (fun _ => Raise TypeError) (fun _ _ => Raise ValueError)
              (fun _ _ => Ok (nth 0 (zps t) 0, nth 1 (zps t) 0)) (l_back W) (l_solve W))
      (Is (seen (fst u) pr)) (Is (seen (fst v) pn)) false be sh it false)).
Proof.
  intros Cr Cn Et Ek Pa Pb Hl. unfold subtract_run. rewrite Cr, Cn. cbn [bind]. rewrite Et. cbn [bind]. cbv zeta. rewrite Ek.
  rewrite (element_at u a (mcat t) Lp m l _ Pa Hl), (element_at v b kn Lq n l _ Pb Hl). fold (element Lp (fst u) l) (element Lq (fst v) l).
  pose proof (proj1 Pa) as Ea. pose proof (proj1 Pb) as Eb.
  assert (Da : bu_data (h_img a) = bu_data (fst u)) by (now rewrite Ea). assert (Db : bu_data (h_img b) = bu_data (fst v)) by (now rewrite Eb).
  rewrite Da, Db. destruct (negb _); [reflexivity|]. destruct (element Lp (fst u) l) as [pr|]; [|reflexivity]. cbn [bind].
  destruct (element Lq (fst v) l) as [pn|]; [|reflexivity]. cbn [bind].
  assert (Sa : forall c z, seen (given_zp c z (h_img a)) pr = seen (fst u) pr) by (intros; now rewrite Ea).
  assert (Sb : forall c z, seen (given_zp c z (h_img b)) pn = seen (fst v) pn) by (intros; now rewrite Eb).
  rewrite Sa, Sb. destruct (subtract _ _ _ _ _ _ _ _) as [r|]; reflexivity.
Qed.

Lemma catalogues_are p a b : catalogues p = Ok (a, b) -> catalogue_of (fst p) = Ok a /\ catalogue_of (snd p) = Ok b.
Proof.
  unfold catalogues. destruct (catalogue_of (fst p)); [|discriminate]. cbn [bind]. destruct (catalogue_of (snd p)); [|discriminate].
  cbn [bind]. intros X. now injection X as -> ->.
Qed.

(** The catalogues after a task that rejected no star. *)
Lemma stepped_cats W u v k p p1 cr cn t kn Lp Lq m n m1 n1 a1 b1 : stepped W u v k p p1 cr cn t kn Lp Lq m n m1 n1 ->
  catalogues p1 = Ok (a1, b1) -> stars a1 = stars cr -> stars b1 = stars cn ->
  a1 = mcat t /\ b1 = kn.
Proof.
  intros S C La Lb. destruct (catalogues_are _ _ _ C) as [Ca Cb]. destruct S. unfold catalogue_of in Ca, Cb. rewrite sp_c2 in Ca. rewrite sp_c1'0 in Cb.
  injection Ca as <-. injection Cb as <-. unfold stars in La, Lb. cbn [rows] in La, Lb.
  assert (Ea : length (rows (mcat t)) = length (rows cr)) by (rewrite <- (map_length place), sp_ref0; apply map_length).
  assert (Eb : length (rows kn) = length (rows cn)).
  { unfold same_sources in sp_new0. apply Permutation_length in sp_new0. now rewrite !map_length in sp_new0. }
  rewrite <- Ea in La. rewrite <- Eb in Lb. apply keep_all in La. apply keep_all in Lb. rewrite La, Lb. split; [now destruct (mcat t)|now destruct kn].
Qed.

Lemma zps_again W u v k p p1 cr cn t kn Lp Lq m n m1 n1 a1 b1 : nearest (l_query W) -> (forall r, Permutation (l_sort W r) r) ->
  stepped W u v k p p1 cr cn t kn Lp Lq m n m1 n1 -> clear_match cr cn -> catalogues p1 = Ok (a1, b1) -> stars a1 = stars cr -> stars b1 = stars cn ->
  exists t1 kn1, transparency (l_query W) (l_sort W) (l_lsqr W) [a1; b1] None = Ok t1 /\ zps t1 = zps t /\ cats t1 = [kn1].
Proof.
  intros Nq SP S Cl C La Lb. destruct (stepped_cats _ _ _ _ _ _ _ _ _ _ _ _ _ _ _ _ _ _ S C La Lb) as [-> ->]. destruct S.
  destruct (C48_total_lm (l_query W) (l_sort W) (l_lsqr W) [mcat t; kn] None SP) as [(t1 & Et1)|(X & _)]; [|discriminate].
  destruct (matched_again _ _ _ [mcat t; kn] t1 SP (proj2 sp_good0) Et1) as (Lm & _).
  destruct (cats t1) as [|kn1 [|? ?]] eqn:Ec; [discriminate| |discriminate]. exists t1, kn1. split; [exact Et1|]. split; [|exact Ec].
  exact (proj1 (zps_same _ _ _ _ _ Nq Nq SP SP cr (mcat t) [cn] [kn] t t1 (proj1 sp_good0) (proj2 sp_good0) sp_ref0
    (Forall2_cons _ _ sp_new0 (Forall2_nil _)) (Forall_cons _ Cl (Forall_nil _)) sp_t0 Et1)).
Qed.

(** A task between two subtractions. *)
Lemma C123_subtract_lm : forall W fuel shp u v ks p k p1 a b a1 b1 l beta shift iterative,
  (forall n c, length (fst (l_eigh W n c)) = n) -> nearest (l_query W) -> (forall r, Permutation (l_sort W r) r) ->
  in_use W fuel shp u -> in_use W fuel shp v -> Forall (fun k => 0 <= loss_asked k) ks -> 0 <= loss_asked k -> 0 <= l ->
  tasks W ks (start_with u v) = Some (Ok p) -> do_task W k p = Some (Ok p1) ->
  catalogues p = Ok (a, b) -> catalogues p1 = Ok (a1, b1) ->
  clear_match a b -> stars a1 = stars a -> stars b1 = stars b ->
  result (subtract_run W l beta shift iterative (fst p1) (snd p1)) = result (subtract_run W l beta shift iterative (fst p) (snd p)).
Proof.
  intros W fuel shp u v ks p k p1 a b a1 b1 l be sh it EL Nq SP Hu Hv Hks Hk Hl Eks Ek Ca Ca1 Cl La Lb.
  destruct (tasks_ok W fuel shp u v ks _ _ EL SP Hu Hv (start_ok u v) Hks Eks) as [Pok _].
  destruct (task_step W fuel shp u v k p p1 EL SP Hu Hv Pok Hk Ek) as (cr & cn & t & kn & Lp & Lq & m & n & m1 & n1 & S).
  pose proof (catalogues_are _ _ _ Ca) as [X Y]. pose proof (sp_cr _ _ _ _ _ _ _ _ _ _ _ _ _ _ _ _ S) as X'. pose proof (sp_cn _ _ _ _ _ _ _ _ _ _ _ _ _ _ _ _ S) as Y'.
  assert (cr = a) as -> by congruence. assert (cn = b) as -> by congruence.
  destruct (zps_again _ _ _ _ _ _ _ _ _ _ _ _ _ _ _ _ _ _ Nq SP S Cl Ca1 La Lb) as (t1 & kn1 & Et1 & Ez & Ec1).
  destruct (catalogues_are _ _ _ Ca1) as [X1 Y1]. destruct S.
  rewrite (sub_is W u v _ _ a b t kn Lp Lq m n l be sh it X' Y' sp_t0 sp_kn0 sp_at0 sp_at'0 Hl).
  rewrite (sub_is W u v _ _ a1 b1 t1 kn1 Lp Lq m1 n1 l be sh it X1 Y1 Et1 Ec1 (sp_then0 _) (sp_then'0 _) Hl).
  now rewrite Ez.
Qed.

Lemma settled_held W fuel shp u h left c : in_use W fuel shp u -> held_ok u h -> same_sources c (mkcat true true left) ->
  h_cat h <> None \/ (stars c < 15)%nat ->
  settled _ _ _ (bu_lib (fst u)) (map src_of left) (set_best _ _ _ (Some (map src_of left)) (bu_attr (h_img h))).
Proof.
  intros Hu Ho Ss [Nc|Few]; (split; [reflexivity|]).
  - right. destruct Ho as [->|(sb & c' & Lq & ma & la & qa & -> & HLq & Ua & Qa)]; [now elim Nc|].
    split; [exact (proj2 (proj2 Ua))|exact (proj2 (usable_ready _ _ sb ma la qa Ua Qa))].
  - left. apply (few_loyal W fuel shp u _ Hu). unfold stars in Few. unfold same_sources in Ss. apply Permutation_length in Ss.
    rewrite !map_length in Ss. cbn [rows] in Ss. rewrite map_length. lia.
Qed.

(** Stars are rejected by the first task only, and not when there are less than 15. *)
Lemma C123_rejected_lm : forall W fuel shp u v ks p k p1 a b a1 b1,
  (forall n c, length (fst (l_eigh W n c)) = n) -> (forall r, Permutation (l_sort W r) r) ->
  in_use W fuel shp u -> in_use W fuel shp v -> Forall (fun k => 0 <= loss_asked k) ks -> 0 <= loss_asked k ->
  tasks W ks (start_with u v) = Some (Ok p) -> do_task W k p = Some (Ok p1) ->
  catalogues p = Ok (a, b) -> catalogues p1 = Ok (a1, b1) ->
  ks <> [] \/ (stars a < 15 /\ stars b < 15)%nat ->
  map place (rows a1) = map place (rows a) /\ same_sources b b1.
Proof.
  intros W fuel shp u v ks p k p1 a b a1 b1 EL SP Hu Hv Hks Hk Eks Ek Ca Ca1 Hn.
  destruct (tasks_ok W fuel shp u v ks _ _ EL SP Hu Hv (start_ok u v) Hks Eks) as [Pok Nn].
  destruct (task_step W fuel shp u v k p p1 EL SP Hu Hv Pok Hk Ek) as (cr & cn & t & kn & Lp & Lq & m & n & m1 & n1 & S).
  pose proof (catalogues_are _ _ _ Ca) as [X Y]. pose proof (catalogues_are _ _ _ Ca1) as [X1 Y1]. destruct S, Pok.
  assert (cr = a) as -> by congruence. assert (cn = b) as -> by congruence.
  assert (Ka : kept_of (fst p1) = map src_of (rows (mcat t))).
  { apply sp_kept0. apply (settled_held W fuel shp u (fst p) (rows (mcat t)) a Hu po_ref0).
    - unfold same_sources. cbn [rows]. rewrite sp_ref0. apply Permutation_refl.
    - destruct Hn as [Hn|[F _]]; [left; exact (proj1 (Nn Hn))|now right]. }
  assert (Kb : kept_of (snd p1) = map src_of (rows kn)).
  { apply sp_kept'0. apply (settled_held W fuel shp v (snd p) (rows kn) b Hv po_new0).
    - exact sp_new0.
    - destruct Hn as [Hn|[_ F]]; [left; exact (proj2 (Nn Hn))|now right]. }
  unfold catalogue_of in X1, Y1. rewrite sp_c2, Ka, keep_self in X1. rewrite sp_c1'0, Kb, keep_self in Y1. injection X1 as <-. injection Y1 as <-.
  split; [exact sp_ref0|exact sp_new0].
Qed.

Lemma tasks_app W k1 : forall k2 p p1, tasks W k1 p = Some (Ok p1) -> tasks W (k1 ++ k2) p = tasks W k2 p1.
Proof.
  induction k1 as [|k k1 IH]; intros k2 p p1 E; [now injection E as ->|]. cbn [tasks app] in *.
  destruct (do_task W k p) as [[q|]|]; try discriminate. now apply IH.
Qed.

Lemma tasks_cats W fuel shp u v k p p1 : (forall n c, length (fst (l_eigh W n c)) = n) -> (forall r, Permutation (l_sort W r) r) ->
  in_use W fuel shp u -> in_use W fuel shp v -> pair_ok u v p -> 0 <= loss_asked k -> do_task W k p = Some (Ok p1) -> exists a1 b1, catalogues p1 = Ok (a1, b1).
Proof.
  intros EL SP Hu Hv Hp Hl E. destruct (task_step W fuel shp u v k p p1 EL SP Hu Hv Hp Hl E) as (cr & cn & t & kn & Lp & Lq & m & n & m1 & n1 & S).
  destruct S. unfold catalogues, catalogue_of. rewrite sp_c2, sp_c1'0. cbn [bind]. eauto.
Qed.

Lemma same_length c d : same_sources c d -> stars d = stars c.
Proof. intros E. unfold stars. unfold same_sources in E. apply Permutation_length in E. now rewrite !map_length in E. Qed.

(** Any tasks between two subtractions. *)
Lemma C123_subtracts_lm : forall W fuel shp u v ks p a b again p1 l beta shift iterative,
  (forall n c, length (fst (l_eigh W n c)) = n) -> nearest (l_query W) -> (forall r, Permutation (l_sort W r) r) ->
  in_use W fuel shp u -> in_use W fuel shp v -> Forall (fun k => 0 <= loss_asked k) (ks ++ again) -> 0 <= l ->
  tasks W ks (start_with u v) = Some (Ok p) -> catalogues p = Ok (a, b) -> clear_match a b ->
  ks <> [] \/ (stars a < 15 /\ stars b < 15)%nat ->
  tasks W again p = Some (Ok p1) ->
  result (subtract_run W l beta shift iterative (fst p1) (snd p1)) = result (subtract_run W l beta shift iterative (fst p) (snd p)).
Proof.
  intros W fuel shp u v ks p a b again. revert ks p a b. induction again as [|k again IH];
    intros ks p a b p1 l be sh it EL Nq SP Hu Hv Hks Hl Eks Ca Cl Hn E; [now injection E as <-|].
  apply Forall_app in Hks as [Hks Hag]. inversion Hag as [|? ? Hk Hag']; subst. cbn [tasks] in E.
  destruct (do_task W k p) as [[p2|]|] eqn:Ek; try discriminate.
  destruct (tasks_ok W fuel shp u v ks _ _ EL SP Hu Hv (start_ok u v) Hks Eks) as [Pok _].
  destruct (tasks_cats W fuel shp u v k p p2 EL SP Hu Hv Pok Hk Ek) as (a2 & b2 & Ca2).
  destruct (C123_rejected_lm W fuel shp u v ks p k p2 a b a2 b2 EL SP Hu Hv Hks Hk Eks Ek Ca Ca2 Hn) as [Pa Pb].
  rewrite (IH (ks ++ [k]) p2 a2 b2 p1 l be sh it EL Nq SP Hu Hv); try assumption.
  - apply (C123_subtract_lm W fuel shp u v ks p k p2 a b a2 b2 l be sh it); auto.
    + unfold stars. rewrite <- (map_length place), Pa. apply map_length.
    + now apply same_length.
  - rewrite <- app_assoc. apply Forall_app. split; [exact Hks|]. now constructor.
  - rewrite (tasks_app W ks [k] _ p Eks). cbn [tasks]. now rewrite Ek.
  - now apply (clear_same a a2 b b2).
  - left. destruct ks; discriminate.
Qed.

(** Images that were in no operation yet. *)
Lemma C123_first_lm : forall W l beta shift iterative x y, (forall r, Permutation (l_sort W r) r) ->
  result (subtract_run W l beta shift iterative (mkheld x None) (mkheld y None)) = subtract_built W l beta shift iterative x y.
Proof.
  intros W l be sh it x y SP. unfold subtract_run, subtract_built. cbn [h_img h_cat]. destruct (negb _); [reflexivity|].
  unfold catalogue_of. cbn [h_cat h_img]. destruct (fst (best_sources (bu_lib x) (bu_attr x))) as [cr|]; [|reflexivity]. cbn [bind].
  destruct (fst (best_sources (bu_lib y) (bu_attr y))) as [cn|] eqn:En; [|reflexivity]. cbn [bind].
  destruct (transparency _ _ _ _ _) as [t|] eqn:Et; [|reflexivity]. cbn [bind]. cbv zeta.
  assert (F : forall c z x, first_element l (given_zp c z x) = first_element l (with_best (map src_of (rows c)) x)).
  { intros c z x0. unfold first_element, given_zp. change (bu_lib (with_attr ?s ?b)) with (bu_lib b). change (bu_attr (with_attr ?s ?b)) with s.
    now rewrite (bl_psf _ _ _ (bu_lib (with_best (map src_of (rows c)) x0)) (Some z) (Some l) None (bu_attr (with_best (map src_of (rows c)) x0))). }
  rewrite !F.
  assert (N : exists kn, cats t = [kn]).
  { destruct (matched_spots _ _ _ _ _ t SP Et) as (_ & c & Ec & _). now exists c. }
  destruct N as [kn ->].
  destruct (first_element l (with_best (map src_of (rows (mcat t))) x)) as [pr|]; [|reflexivity]. cbn [bind].
  destruct (first_element l (with_best (map src_of (rows kn)) y)) as [pn|]; [|reflexivity]. cbn [bind].
  change (seen (given_zp ?c ?z ?x) ?p) with (seen (with_best (map src_of (rows c)) x) p).
  now destruct (subtract _ _ _ _ _ _ _ _).
Qed.

Lemma pair_run W f s l n a b cr cn t kn va vb z0 z1 zs : catalogue_of a = Ok cr -> catalogue_of b = Ok cn ->
  transparency (l_query W) (l_sort W) (l_lsqr W) [cr; cn] None = Ok t -> cats t = [kn] -> zps t = z0 :: z1 :: zs ->
  fst (fields_set l (mcat t) z0 (h_img a)) = Ok tt -> fst (fields_set l kn z1 (h_img b)) = Ok tt ->
  coadd_seen (with_attr (snd (fields_set l (mcat t) z0 (h_img a))) (h_img a)) = Ok va ->
  coadd_seen (with_attr (snd (fields_set l kn z1 (h_img b))) (h_img b)) = Ok vb ->
  answer (coadd_run W f s l n [a; b]) = coadd_core f s (fun k => nth k [va; vb] blank) (seq 0 2) n.
Proof.
  intros Ca Cb Et Ek Ez Fa Fb Va Vb. unfold coadd_run. cbn [mapM]. rewrite Ca. cbn [bind]. rewrite Cb. cbn [bind]. rewrite Et. cbn [bind]. cbv zeta.
  rewrite Ek, Ez. cbn [combine map fst snd set_up].
  change (setup_kl_a_fields _ _ _ (bu_lib (with_best (map src_of (rows (mcat t))) (h_img a))) (Some l) false
     (set_zp _ _ _ (Some z0) (bu_attr (with_best (map src_of (rows (mcat t))) (h_img a))))) with (fields_set l (mcat t) z0 (h_img a)).
  change (setup_kl_a_fields _ _ _ (bu_lib (with_best (map src_of (rows kn)) (h_img b))) (Some l) false
     (set_zp _ _ _ (Some z1) (bu_attr (with_best (map src_of (rows kn)) (h_img b))))) with (fields_set l kn z1 (h_img b)).
  destruct (fields_set l (mcat t) z0 (h_img a)) as [ra sa]. destruct (fields_set l kn z1 (h_img b)) as [rb sb]. cbn [fst snd] in *. subst ra rb. cbn [bind mapM].
  change (with_attr sa (with_best (map src_of (rows (mcat t))) (h_img a))) with (with_attr sa (h_img a)).
  change (with_attr sb (with_best (map src_of (rows kn)) (h_img b))) with (with_attr sb (h_img b)).
  rewrite Va. cbn [bind]. rewrite Vb. cbn [bind length].
  destruct (coadd_core _ _ _ _ _) as [[r|]|]; reflexivity.
Qed.

(** A task between two coadds. *)
Lemma C123_coadd_lm : forall W fuel shp u v ks p k p1 a b a1 b1 f s l n p2 f' s' n',
  (forall n c, length (fst (l_eigh W n c)) = n) -> nearest (l_query W) -> (forall r, Permutation (l_sort W r) r) ->
  in_use W fuel shp u -> in_use W fuel shp v -> Forall (fun k => 0 <= loss_asked k) ks -> 0 <= loss_asked k -> 0 <= l ->
  tasks W ks (start_with u v) = Some (Ok p) -> do_task W (Add f s l n) p = Some (Ok p2) ->
  do_task W k p = Some (Ok p1) -> is_sub k \/ loss_asked k = l ->
  catalogues p = Ok (a, b) -> catalogues p1 = Ok (a1, b1) ->
  clear_match a b -> stars a1 = stars a -> stars b1 = stars b ->
  answer (coadd_run W f' s' l n' [fst p1; snd p1]) = answer (coadd_run W f' s' l n' [fst p; snd p]).
Proof.
  intros W fuel shp u v ks p k p1 a b a1 b1 f s l n p2 f' s' n' EL Nq SP Hu Hv Hks Hk Hl Eks Ec Ek Hkl Ca Ca1 Cl La Lb.
  destruct (tasks_ok W fuel shp u v ks _ _ EL SP Hu Hv (start_ok u v) Hks Eks) as [Pok _].
  destruct (task_step W fuel shp u v k p p1 EL SP Hu Hv Pok Hk Ek) as (cr & cn & t & kn & Lp & Lq & m & n0 & m1 & n1 & S).
  pose proof (catalogues_are _ _ _ Ca) as [X Y]. pose proof (sp_cr _ _ _ _ _ _ _ _ _ _ _ _ _ _ _ _ S) as X'. pose proof (sp_cn _ _ _ _ _ _ _ _ _ _ _ _ _ _ _ _ S) as Y'.
  assert (cr = a) as -> by congruence. assert (cn = b) as -> by congruence.
  destruct (zps_again _ _ _ _ _ _ _ _ _ _ _ _ _ _ _ _ _ _ Nq SP S Cl Ca1 La Lb) as (t1 & kn1 & Et1 & Ez & Ec1).
  destruct (catalogues_are _ _ _ Ca1) as [X1 Y1]. destruct S.
  cbn [do_task] in Ec. destruct (coadd_run W f s l n [fst p; snd p]) as [[[r hs]|]|] eqn:Er; try discriminate.
  destruct hs as [|hx [|hy [|? ?]]]; try discriminate. clear Ec.
  destruct (run_pair W f s l n _ _ r _ Er hx hy eq_refl) as (cr' & cn' & t' & kn' & A1 & A2 & A3 & A4 & A5 & A6 & _ & _ & va & vb & Va & Vb & Ck & z0 & z1 & zs & Ezs).
  assert (cr' = a) as -> by congruence. assert (cn' = b) as -> by congruence. assert (t' = t) as -> by congruence.
  rewrite sp_kn0 in A4. injection A4 as <-. rewrite Ezs in *. cbn [nth] in *.
  destruct A5 as [Fa _]. destruct A6 as [Fb _].
  rewrite (pair_run W f' s' l n' _ _ a b t kn va vb z0 z1 zs X' Y' sp_t0 sp_kn0 Ezs Fa Fb Va Vb).
  pose proof (proj1 sp_at0) as Ia. pose proof (proj1 sp_at'0) as Ib. rewrite Ia in Va at 2. rewrite Ib in Vb at 2.
  change (with_attr ?s1 (with_attr ?s2 ?x)) with (with_attr s1 x) in Va, Vb.
  destruct (seen_needs u (fst p) (mcat t) Lp m l z0 va sp_at0 Hl Va) as [q Q]. destruct (seen_needs v (snd p) kn Lq n0 l z1 vb sp_at'0 Hl Vb) as [q' Q'].
  destruct (seen_at u (fst p) (mcat t) Lp m l z0 q sp_at0 Hl Q) as [_ Sa]. destruct (seen_at v (snd p) kn Lq n0 l z1 q' sp_at'0 Hl Q') as [_ Sb].
  destruct (seen_at u (fst p1) (mcat t1) Lp m1 l z0 q (sp_then0 _) Hl Q) as [Fa1 Sa1]. destruct (seen_at v (snd p1) kn1 Lq n1 l z1 q' (sp_then'0 _) Hl Q') as [Fb1 Sb1].
  rewrite sp_view0 in Sa1 by (destruct Hkl; auto). rewrite sp_view'0 in Sb1 by (destruct Hkl; auto).
  rewrite <- Sa, Va in Sa1. rewrite <- Sb, Vb in Sb1.
  pose proof (proj1 (sp_then0 (map src_of (rows (mcat t1))))) as Ia1. pose proof (proj1 (sp_then'0 (map src_of (rows kn1)))) as Ib1.
  apply (pair_run W f' s' l n' _ _ a1 b1 t1 kn1 va vb z0 z1 zs X1 Y1 Et1 Ec1); auto.
  - rewrite Ia1 at 2. exact Sa1.
  - rewrite Ib1 at 2. exact Sb1.
Qed.

(** Any subtractions, and coadds for the same loss, between two coadds. *)
Lemma C123_coadds_lm : forall W fuel shp u v ks p a b again p1 f s l n p2 f' s' n',
  (forall n c, length (fst (l_eigh W n c)) = n) -> nearest (l_query W) -> (forall r, Permutation (l_sort W r) r) ->
  in_use W fuel shp u -> in_use W fuel shp v -> Forall (fun k => 0 <= loss_asked k) (ks ++ again) -> 0 <= l ->
  tasks W ks (start_with u v) = Some (Ok p) -> catalogues p = Ok (a, b) -> clear_match a b ->
  ks <> [] \/ (stars a < 15 /\ stars b < 15)%nat ->
  do_task W (Add f s l n) p = Some (Ok p2) ->
  tasks W again p = Some (Ok p1) -> Forall (fun k => is_sub k \/ loss_asked k = l) again ->
  answer (coadd_run W f' s' l n' [fst p1; snd p1]) = answer (coadd_run W f' s' l n' [fst p; snd p]).
Proof.
  intros W fuel shp u v ks p a b again. revert ks p a b. induction again as [|k again IH];
    intros ks p a b p1 f s l n p2 f' s' n' EL Nq SP Hu Hv Hks Hl Eks Ca Cl Hn Ec E Hal; [now injection E as <-|].
  apply Forall_app in Hks as [Hks Hag]. inversion Hag as [|? ? Hk Hag']; subst. inversion Hal as [|? ? Hkl Hal']; subst. cbn [tasks] in E.
  destruct (do_task W k p) as [[p3|]|] eqn:Ek; try discriminate.
  destruct (tasks_ok W fuel shp u v ks _ _ EL SP Hu Hv (start_ok u v) Hks Eks) as [Pok _].
  destruct (tasks_cats W fuel shp u v k p p3 EL SP Hu Hv Pok Hk Ek) as (a2 & b2 & Ca2).
  destruct (C123_rejected_lm W fuel shp u v ks p k p3 a b a2 b2 EL SP Hu Hv Hks Hk Eks Ek Ca Ca2 Hn) as [Pa Pb].
  assert (La : stars a2 = stars a) by (unfold stars; rewrite <- (map_length place), Pa; apply map_length).
  assert (Lb : stars b2 = stars b) by now apply same_length.
  assert (Step : forall f' s' n', answer (coadd_run W f' s' l n' [fst p3; snd p3]) = answer (coadd_run W f' s' l n' [fst p; snd p])).
  { intros. exact (C123_coadd_lm W fuel shp u v ks p k p3 a b a2 b2 f s l n p2 f'0 s'0 n'0 EL Nq SP Hu Hv Hks Hk Hl Eks Ec Ek Hkl Ca Ca2 Cl La Lb). }
  assert (Pok3 : pair_ok u v p3).
  { destruct (task_step W fuel shp u v k p p3 EL SP Hu Hv Pok Hk Ek) as (? & ? & ? & ? & ? & ? & ? & ? & ? & ? & S). now destruct S. }
  assert (exists p4, do_task W (Add f s l n) p3 = Some (Ok p4)) as [p4 Ec4].
  { specialize (Step f s n). cbn [do_task] in Ec |- *. destruct (coadd_run W f s l n [fst p; snd p]) as [[[r hs]|]|]; try discriminate. cbn [answer] in Step.
    destruct (coadd_run W f s l n [fst p3; snd p3]) as [[[r' hs']|]|] eqn:E3; try discriminate.
    destruct (run_parts _ _ _ _ _ _ _ _ E3) as (_ & cs & t & ws & vs & Pa3 & _).
    assert (L1 : length hs' = 2%nat).
    { destruct (parts_at W fuel shp [u; v] l [fst p3; snd p3] cs t ws vs hs' EL SP) as (_ & _ & _ & L1 & _); auto; destruct Pok3; auto. }
    destruct hs' as [|x [|y [|? ?]]]; try discriminate. eauto. }
  rewrite (IH (ks ++ [k]) p3 a2 b2 p1 f s l n p4 f' s' n' EL Nq SP Hu Hv); try assumption; [apply Step| | | |].
  - rewrite <- app_assoc. apply Forall_app. split; [exact Hks|]. now constructor.
  - rewrite (tasks_app W ks [k] _ p Eks). cbn [tasks]. now rewrite Ek.
  - now apply (clear_same a a2 b b2).
  - left. destruct ks; discriminate.
Qed.

Lemma sub_attr u h c Lp m l z : placed_at u h (map src_of (rows c)) Lp m -> 0 <= l ->
  let y := h_img (img_after (Sub l true true true) c z h) in
  zp (bu_attr y) = Some z /\ inf_loss (bu_attr y) = l /\
  bu_data y = bu_data (fst u) /\ bu_back y = bu_back (fst u) /\ bu_clean y = bu_clean (fst u).
Proof.
  intros (Ei & HLp & Pl & _) Hl. cbn [img_after]. rewrite Ei. cbn zeta. unfold keeping. cbn [h_img].
  set (s0 := set_best _ _ _ (Some (map src_of (rows c))) (bu_attr (h_img h))) in *.
  change (bu_attr (asked l (given_zp c z (with_attr (bu_attr (h_img h)) (fst u))))) with (exec (bu_lib (fst u)) (CGetPSF (Some l) None) (exec (bu_lib (fst u)) (CSetZp z) s0)).
  pose proof (placed_exec (fst u) _ Lp HLp (CSetZp z) s0 m I I Pl) as P1.
  assert (Pc : plain (CGetPSF (Some l) None)) by (first [exact Hl|split; [exact Hl|reflexivity]]).
  pose proof (placed_exec (fst u) _ Lp HLp (CGetPSF (Some l) None) _ _ Pc I P1) as (Rd & _).
  destruct (reached_loss _ _ _ _ _ _ _ Rd) as (A & _ & B). split; [exact B|]. split; [exact A|]. repeat split.
Qed.

(** What a subtraction leaves in the two images. *)
Lemma C123_left_lm : forall W fuel shp u v ks p l beta shift iterative r p1 a b t,
  (forall n c, length (fst (l_eigh W n c)) = n) -> (forall r, Permutation (l_sort W r) r) ->
  in_use W fuel shp u -> in_use W fuel shp v -> Forall (fun k => 0 <= loss_asked k) ks -> 0 <= l ->
  tasks W ks (start_with u v) = Some (Ok p) -> catalogues p = Ok (a, b) ->
  transparency (l_query W) (l_sort W) (l_lsqr W) [a; b] None = Ok t ->
  subtract_run W l beta shift iterative (fst p) (snd p) = Ok (r, p1) ->
  let x := h_img (fst p1) in let y := h_img (snd p1) in
  (zp (bu_attr x) = Some (nth 0 (zps t) 0) /\ zp (bu_attr y) = Some (nth 1 (zps t) 0)) /\
  (inf_loss (bu_attr x) = l /\ inf_loss (bu_attr y) = l) /\
  (bu_data x = bu_data (fst u) /\ bu_back x = bu_back (fst u) /\ bu_clean x = bu_clean (fst u)) /\
  (bu_data y = bu_data (fst v) /\ bu_back y = bu_back (fst v) /\ bu_clean y = bu_clean (fst v)).
Proof.
  intros W fuel shp u v ks p l be sh it r p1 a b t EL SP Hu Hv Hks Hl Eks Ca Et Er.
  destruct (tasks_ok W fuel shp u v ks _ _ EL SP Hu Hv (start_ok u v) Hks Eks) as [Pok _].
  assert (Ek : do_task W (Sub l be sh it) p = Some (Ok p1)) by (cbn [do_task]; now rewrite Er).
  destruct (task_step W fuel shp u v (Sub l be sh it) p p1 EL SP Hu Hv Pok Hl Ek) as (cr & cn & t' & kn & Lp & Lq & m & n0 & m1 & n1 & S).
  pose proof (catalogues_are _ _ _ Ca) as [X Y]. destruct S.
  assert (cr = a) as -> by congruence. assert (cn = b) as -> by congruence. assert (t' = t) as -> by congruence.
  pose proof (sub_attr u (fst p) (mcat t) Lp m l (nth 0 (zps t) 0) sp_at0 Hl) as (A1 & A2 & A3).
  pose proof (sub_attr v (snd p) kn Lq n0 l (nth 1 (zps t) 0) sp_at'0 Hl) as (B1 & B2 & B3).
  rewrite sp_p2. cbn [fst snd]. cbv zeta. auto 8.
Qed.
