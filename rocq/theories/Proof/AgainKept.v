(** The stars that are left in an image after a coadd. *)
From Coq Require Import ZArith List Bool Arith Reals Lia Lra Permutation.
From Coquelicot Require Import Complex.
From Verif.Model Require Import Py Plane Ma Coadd.
From Verif.Spec Require Import Coadd.
From Verif.Proof Require Import Coadd CoaddThreads CoaddMain CoaddMore.
From Verif.Model Require Import Filter.
From Verif.Proof Require Import Filter FilterMain.
From Verif.Model Require Import Interp Subtract Filter Sources Stamps Transparency KL Session Chain ChainCoadd Again.
From Verif.Spec Require Import Transparency Session Uses UsesCoadd Again.
From Verif.Proof Require Import Transparency TransparencyMain TransparencyAgain.
From Verif.Proof Require Import Session SessionBad SessionHist SessionMain SessionFrame SessionLm Chain ChainUnits Uses SessionKeep UsesCoadd UsesCoaddMain Nearest Again AgainMain.
Import ListNotations.
Local Open Scope R_scope.
Set Bullet Behavior "Strict Subproofs".

(** [part l k]: [k] is [l] without some of its elements. *)
Inductive part {A} : list A -> list A -> Prop :=
| part_nil : part [] []
| part_keep a l k : part l k -> part (a :: l) (a :: k)
| part_drop a l k : part l k -> part (a :: l) k.

Lemma part_refl {A} (l : list A) : part l l.
Proof. induction l; constructor; assumption. Qed.

Lemma part_trans {A} (b : list A) : forall a c, part a b -> part b c -> part a c.
Proof.
  intros a c H. revert c. induction H as [|x l k _ IH|x l k _ IH]; intros c Hc.
  - exact Hc.
  - inversion Hc; subst; constructor; now apply IH.
  - constructor. now apply IH.
Qed.

Lemma part_delete {A} d (l : list A) : forall n, part l (np_delete n d l).
Proof.
  induction l as [|a l IH]; intros n; cbn; [constructor|]. destruct (existsb _ _); constructor; apply IH.
Qed.

(** No operation adds a star. *)
Section Thinned.
Variables NI FT IM : Type.
Notation state := (si NI FT IM).
Variable L : lib NI FT IM.
Hypothesis Hx : forall sh l st p k, extract L sh l = (st, Ok (p, k)) -> part l k.
Variable l0 : list src.

Definition thinned (s : state) : Prop := exists k, best s = Some k /\ part l0 k.
Notation st := (pres NI FT IM thinned).

Lemma st_best : st (best_sources L).
Proof. intros s H. unfold best_sources. destruct H as (k & B & S0). rewrite B. exists k. now split. Qed.

Lemma st_stamps : st (stamps_pos L).
Proof.
  intros s (k0 & B & S0). unfold stamps_pos.
  assert (X : forall s1, best s1 = Some k0 -> thinned (snd ((mbind _ _ _ (best_sources L) (fun cat =>
     mbind _ _ _ (get _ _ _) (fun s =>
     let sh := stamp_shape s in
     let '(stamps, r) := extract L sh cat in
     mbind _ _ _ (upd _ _ _ (set_db _ _ _ (Some stamps))) (fun _ =>
     match r with
     | Raise e => raise _ _ _ e
     | Ok (p, kept) =>
         mbind _ _ _ (upd _ _ _ (set_best _ _ _ (Some kept))) (fun _ =>
         mbind _ _ _ (upd _ _ _ (set_stamp_shape _ _ _ (fst sh + 6, snd sh + 6)%nat)) (fun _ =>
         mbind _ _ _ (upd _ _ _ (set_pos _ _ _ (Some p) (Some (length p)))) (fun _ => ret _ _ _ p)))
     end)))) s1))).
  { intros s1 B1. unfold mbind at 1, best_sources. rewrite B1. unfold mbind at 1, get at 1. cbn zeta.
    destruct (extract L (stamp_shape s1) k0) as [stt [[p k]|e]] eqn:E; cbn.
    - exists k. split; [reflexivity|]. apply (part_trans k0); [exact S0|exact (Hx _ _ _ _ _ E)].
    - exists k0. split; [exact B1|exact S0]. }
  destruct (pos s); destruct (reshaped _ _ _ s); try (exists k0; split; [exact B|exact S0]); apply X; exact B.
Qed.

Lemma thinned_coadd l z s : thinned s -> thinned (exec_all L [CSHat; CBasis; CAfields] (exec L (CCoadd l z) s)).
Proof.
  intros H.
  assert (Fr : forall s s' : state, thinned s -> req_shape s' = req_shape s -> stamp_shape s' = stamp_shape s ->
    best s' = best s -> pos s' = pos s -> nsrc s' = nsrc s -> thinned s').
  { intros a b (k & B & P) _ _ E _ _. exists k. now rewrite E. }
  cbn [exec_all fold_left]. do 3 (apply (st_exec _ _ _ L thinned Fr st_best st_stamps); [exact Logic.I|exact Logic.I|]).
  now apply (st_coadd _ _ _ L thinned Fr st_best st_stamps).
Qed.
End Thinned.


Lemma extract_part W fuel shp u sh l st p k : in_use W fuel shp u ->
  extract (bu_lib (fst u)) sh l = (st, Ok (p, k)) -> part l k.
Proof.
  intros ((o & d & Bx) & _) E. destruct (build_lib _ _ _ _ _ Bx) as (_ & Lx & _). rewrite Lx in E.
  unfold lib_of in E. cbn [extract] in E. unfold extract_for in E. destruct (dump_loop _ _ _ _ _ _ _) as [stm r].
  destruct r as [[pp dl]|]; [|discriminate]. cbn [bind] in E. destruct (Nat.leb 15 (length l - length dl)) in E; injection E as _ _ <-; [apply part_delete|apply part_refl].
Qed.

Definition spot (s : src) : R * R * R := (s_x s, s_y s, s_flux s).

Lemma is_source_spot r s : is_source r s = true <-> place r = spot s.
Proof.
  unfold is_source, place, spot. destruct (Req_EM_T (r_x r) (s_x s)), (Req_EM_T (r_y r) (s_y s)), (Req_EM_T (r_flux r) (s_flux s));
    cbn; split; intros H; try discriminate; try congruence; reflexivity.
Qed.

Lemma keep_part l : forall kept, part (map src_of l) kept -> map place (keep_rows l kept) = map spot kept.
Proof.
  induction l as [|r l IH]; intros kept H; cbn [map] in H.
  - inversion H; subst. reflexivity.
  - destruct kept as [|s kept]; [reflexivity|]. cbn [keep_rows]. destruct (is_source r s) eqn:E.
    + cbn [map]. f_equal; [now apply is_source_spot|]. apply IH. inversion H; subst; [assumption|].
      apply (part_trans (s :: kept)); [assumption|]. constructor. apply part_refl.
    + inversion H; subst; [rewrite is_source_of in E; discriminate|]. now apply IH.
Qed.

(** After a coadd the catalogue that transparency reads holds the stars of best_sources, which
    are stars that it held before. *)
Lemma C119_catalogue_lm : forall W fuel shp us jobs hs f s l n r hs1 cs,
  (forall n c, length (fst (l_eigh W n c)) = n) -> (forall r, Permutation (l_sort W r) r) ->
  Forall (in_use W fuel shp) us -> Forall (fun j => 0 <= snd (fst j)) jobs -> 0 <= l ->
  coadds W jobs (map (fun u => mkheld (after (snd u) (fst u)) None) us) = Some (Ok hs) ->
  coadd_run W f s l n hs = Some (Ok (r, hs1)) ->
  mapM catalogue_of hs = Ok cs ->
  Forall2 (fun c h => exists c1 b, catalogue_of h = Ok c1 /\ fst (best_sources (bu_lib (h_img h)) (bu_attr (h_img h))) = Ok b /\
    map place (rows c1) = map (fun s => (s_x s, s_y s, s_flux s)) b /\ incl (map place (rows c1)) (map place (rows c))) cs hs1.
Proof.
  intros W fuel shp us jobs hs f s l n r hs1 cs EL SP Hu Hj Hl Ej Er Ecs.
  destruct (held_first us) as [H0 G0]. destruct (coadds_leave _ _ _ _ _ _ _ EL SP Hu Hj H0 G0 Ej) as (Hh & Gh & Hn).
  destruct (run_parts _ _ _ _ _ _ _ _ Er) as (Hne & cs' & t & ws & vs & Pa & _).
  assert (cs' = cs) as -> by (destruct Pa; congruence).
  destruct (parts_at _ _ _ _ _ _ _ _ _ _ _ EL SP Hu Hl Hh Gh Pa) as (Lc & Lm & Lv & L1 & Gm & H).
  destruct (Forall2_nth _ _ _ Hh) as [Lh Hk].
  apply Forall2_nth_error; [lia|]. intros k c0 h1 K0 K2.
  destruct (nth_length cs us k c0 Lc K0) as [u Ku]. destruct (nth_length us hs k u Lh Ku) as [h Kh].
  destruct (H k u h Ku Kh) as (c0' & c1 & z & s0 & v & Lp & m & q & A1 & A2 & A3 & A4 & A5 & A6 & A7 & A8 & A9 & A10 & A11 & A12 & _).
  rewrite K0 in A1. injection A1 as <-. rewrite K2 in A9. injection A9 as ->.
  destruct (Hk k u Ku) as (h' & Kh' & Ho). rewrite Kh in Kh'. injection Kh' as <-.
  pose proof (proj1 (Forall_forall _ _) Hu _ (nth_error_In _ _ Ku)) as Iu.
  assert (St : thinned _ _ _ (map src_of (rows c1)) (bu_attr (touched (with_attr s0 (fst u))))).
  { unfold touched. change (bu_attr (with_attr ?a ?b)) with a. change (bu_lib (with_attr s0 (fst u))) with (bu_lib (fst u)).
    set (sa := bu_attr (h_img h)).
    assert (Lh' : bu_lib (h_img h) = bu_lib (fst u)) by (destruct Ho as [->|(? & ? & ? & ? & ? & ? & -> & _)]; reflexivity).
    assert (E0 : s0 = exec (bu_lib (fst u)) (CCoadd l z) (set_best _ _ _ (Some (map src_of (rows c1))) sa)).
    { cbn [exec]. unfold void. rewrite <- Lh'. change (set_best _ _ _ (Some (map src_of (rows c1))) sa) with (bu_attr (with_best (map src_of (rows c1)) (h_img h))).
      now rewrite A10. }
    rewrite E0. apply thinned_coadd; [intros; eapply extract_part; eassumption|].
    exists (map src_of (rows c1)). split; [reflexivity|apply part_refl]. }
  destruct St as (K & Eb & Pb). unfold leave, catalogue_of. cbn [h_cat h_img fst snd]. rewrite Eb.
  eexists _, K. split; [reflexivity|]. split; [unfold best_sources; now rewrite Eb|]. cbn [rows]. rewrite (keep_part _ _ Pb).
  split; [reflexivity|]. intros x Hx. rewrite <- (keep_part _ _ Pb) in Hx. apply in_map_iff in Hx. destruct Hx as (rw & <- & Hx).
  apply keep_in in Hx. apply (Permutation_in _ (Permutation_sym A4)). now apply in_map.
Qed.
