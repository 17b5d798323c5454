(** The PSF does not depend on the order of the stars, nor on the signs of the eigenvectors. *)
From Coq Require Import ZArith List Bool Arith Reals Lia Lra Permutation FinFun FunctionalExtensionality.
From Verif.Model Require Import Py Plane Session KL.
From Verif.Spec Require Import KL Session Order.
From Verif.Proof Require Import KL KLMain Session SessionFrame SessionMain SessionLm Order.
Import ListNotations.
Local Open Scope R_scope.
Set Bullet Behavior "Strict Subproofs".

Definition pscale (s : R) (p : plane (option R)) : plane (option R) := pmap (option_map (Rmult s)) p.

Lemma total_scale s p : total_opt (pscale s p) = option_map (Rmult s) (total_opt p).
Proof.
  unfold total_opt. cbn [pscale pmap nr nc px]. generalize (list_prod (seq 0 (nr p)) (seq 0 (nc p))) as l.
  induction l as [|c l IH]; [cbn; f_equal; ring|]. cbn [fold_right]. rewrite IH. clear IH.
  match goal with |- context [option_map (Rmult s) (fold_right ?g ?z l)] => generalize (fold_right g z l) end. intros t.
  destruct (px p (fst c) (snd c)) as [x|]; [|reflexivity]. cbn [option_map]. destruct t as [t|]; [|reflexivity].
  cbn. f_equal. ring.
Qed.

Lemma pmap_pmap {A B C} (g : B -> C) (h : A -> B) p : pmap g (pmap h p) = pmap (fun x => g (h x)) p.
Proof. reflexivity. Qed.

Lemma pmap_ext' {A B} (g h : A -> B) p : (forall x, g x = h x) -> pmap g p = pmap h p.
Proof. intros E. unfold pmap. f_equal. extensionality i. extensionality j. apply E. Qed.

(** The sign is lost in the normalisation. *)
Lemma unit_total_sign s p : s = 1 \/ s = -1 -> unit_total (pscale s p) = unit_total p.
Proof.
  intros Hs. assert (Ns : s <> 0) by (destruct Hs; lra). unfold unit_total. rewrite total_scale.
  destruct (total_opt p) as [t|]; cbn [option_map]; [|reflexivity].
  destruct (Req_EM_T t 0) as [->|N].
  - destruct (Req_EM_T (s * 0) 0) as [_|X]; [reflexivity|]. exfalso. apply X. ring.
  - destruct (Req_EM_T (s * t) 0) as [X|_]; [apply Rmult_integral in X; tauto|].
    unfold pscale. rewrite pmap_pmap. apply pmap_ext'. intros [x|]; [|reflexivity]. cbn. f_equal. field. auto.
Qed.

(** The PSF made from a list of stars with their positions. *)
Definition psf_from (eigh : nat -> (nat -> nat -> R) -> list R * (nat -> nat -> R))
  (smooth : option (plane (option R) -> plane (option R))) (fit : list (R * R) -> (nat -> R) -> R -> R -> R)
  (size : nat * nat) (stars : list (plane R * (R * R))) (l : R) : res (fieldset * list (plane (option R))) :=
  let stamps := map fst stars in
  bind (KL.kl_basis eigh smooth size stamps l) (fun b =>
  if Nat.eqb (length b) 1 then Ok (NoField, b)
  else if Nat.eqb (length stars) 0 then Raise IndexError
  else bind (KL.eigenv eigh size stamps) (fun e =>
       Ok (Fields (map (fun k => fit (map snd stars) (eigen_component (length stars) (snd e) k))
                       (seq 0 (length b))), b))).

(** The elements before the last step, largest eigenvalue first. *)
Definition element (sh : nat * nat) (n : nat) (stamps : list (plane R)) (V : nat -> nat -> R) (k : nat) : plane (option R) :=
  reshape sh (fun p => Some (combination n stamps V k p)).

Definition one_unit (l : list (plane (option R))) : list (plane (option R)) :=
  match l with [p] => [unit_total p] | l => l end.

Lemma kl_basis_form eigh smooth sh stamps L c : KL.cov_matrix sh stamps = Ok c -> length stamps <> 1%nat ->
  let n := length stamps in
  let cut := kl_cut L (fst (eigh n c)) in
  let V := snd (eigh n c) in
  KL.kl_basis eigh smooth sh stamps L =
  if Nat.leb n 250 then
    let b := map (fun k => element sh n stamps V (n - 1 - k)) (seq 0 (Nat.min n cut)) in
    Ok (one_unit match smooth with Some g => map (fun p => unit_total (g p)) b | None => b end)
  else if Nat.ltb n cut then Raise IndexError
  else
    let b := map (fun k => unit_total (lower (unit_total (element sh n stamps V (n - 1 - k))))) (seq 0 cut) in
    Ok (one_unit match smooth with Some g => map (fun p => unit_total (g p)) b | None => b end).
Proof.
  intros Hc N1 n cut V. unfold KL.kl_basis. rewrite (eigenv_ok _ _ _ _ Hc N1). fold n.
  unfold cut, V. destruct (eigh n c) as [valh vech]. cbn [fst snd bind]. cbn zeta.
  set (K := kl_cut L valh).
  destruct (Nat.leb n 250).
  - cbn [bind]. do 2 f_equal.
    assert (E : rev (map (fun i => reshape sh (fun p => Some (combination n stamps vech (n - K + i) p))) (seq 0 (n - (n - K)))) =
      map (fun k => element sh n stamps vech (n - 1 - k)) (seq 0 (Nat.min n K))).
    { pose proof (map_rev_seq (fun k => element sh n stamps vech k) n (n - K)) as Q.
      replace (Nat.min n K) with (n - (n - K))%nat by lia. apply Q. lia. }
    rewrite E. reflexivity.
  - destruct (Nat.ltb_spec n K) as [|Le]; [reflexivity|]. cbn [bind]. do 2 f_equal.
    assert (E : rev (map (fun i => unit_total (lower (unit_total (reshape sh (fun p => Some (combination n stamps vech (n - K + i) p)))))) (seq 0 K)) =
      map (fun k => unit_total (lower (unit_total (element sh n stamps vech (n - 1 - k))))) (seq 0 K)).
    { pose proof (map_rev_seq (fun k => unit_total (lower (unit_total (element sh n stamps vech k)))) n (n - K)) as Q.
      replace (n - (n - K))%nat with K in Q by lia. apply Q. lia. }
    rewrite E. reflexivity.
Qed.

Lemma element_scale sh n stamps stamps' V V' s k : (forall p, combination n stamps' V' k p = s * combination n stamps V k p) ->
  element sh n stamps' V' k = pscale s (element sh n stamps V k).
Proof.
  intros H. unfold element, reshape, pscale, pmap. cbn [nr nc px]. f_equal. extensionality i. extensionality j.
  cbn. now rewrite H.
Qed.

Lemma one_unit_length l : length (one_unit l) = length l.
Proof. apply unit_single. Qed.

Lemma one_unit_not l : length l <> 1%nat -> one_unit l = l.
Proof. destruct l as [|a [|b l]]; cbn; congruence. Qed.

Lemma combine_map {A B C} (f : A -> B) (g : A -> C) l : combine (map f l) (map g l) = map (fun a => (f a, g a)) l.
Proof. induction l as [|a l IH]; [reflexivity|]. cbn. now rewrite IH. Qed.

Lemma fst_map_nth (stars : list (plane R * (R * R))) j : (j < length stars)%nat ->
  nth j (map fst stars) (pconst (0, 0)%nat 0) = fst (nth j stars (pconst (0, 0)%nat 0, (0, 0))).
Proof. intros H. now rewrite <- (map_nth fst). Qed.

Lemma snd_map_nth (stars : list (plane R * (R * R))) j :
  nth j (map snd stars) (0, 0) = snd (nth j stars (pconst (0, 0)%nat 0, (0, 0))).
Proof. now rewrite <- (map_nth snd). Qed.

Lemma psf_from_perm : forall eigh eigh' fit size stars stars' l psf,
  fair_fit fit (map snd stars) -> Permutation stars stars' -> (length stars <= 250)%nat ->
  (forall c, KL.cov_matrix size (map fst stars) = Ok c ->
     eigh_ok (length stars) c (eigh (length stars) c) /\
     simple_last (length (snd psf)) (fst (eigh (length stars) c))) ->
  (forall c, KL.cov_matrix size (map fst stars') = Ok c ->
     eigh_ok (length stars) c (eigh' (length stars) c)) ->
  psf_from eigh None fit size stars l = Ok psf ->
  exists psf', psf_from eigh' None fit size stars' l = Ok psf' /\ length (snd psf') = length (snd psf) /\
    forall x y i j, psf_at psf' x y i j = psf_at psf x y i j.
Proof.
  intros eigh eigh' fit size stars stars' l psf Hfit HP H250 He He' Hpsf.
  apply (proj1 (Permutation_nth stars stars' (pconst (0, 0)%nat 0, (0, 0)))) in HP.
  cbn zeta in HP. destruct HP as (Hlen & f & Hf & Hinj & Hnth). set (n := length stars) in *.
  unfold psf_from in Hpsf. fold n in Hpsf.
  destruct (KL.cov_matrix size (map fst stars)) as [c|x] eqn:Hc.
  2:{ exfalso. unfold KL.kl_basis, KL.eigenv in Hpsf. rewrite Hc in Hpsf. discriminate. }
  destruct (Nat.eq_dec n 1) as [N1|N1].
  { exfalso. unfold KL.kl_basis, KL.eigenv in Hpsf. rewrite Hc, map_length in Hpsf. fold n in Hpsf. rewrite N1 in Hpsf. discriminate. }
  specialize (He c eq_refl). destruct He as (He & Hsimple).
  assert (Hl1 : length (map fst stars) = n) by apply map_length.
  assert (Hl2 : length (map fst stars') = length (map fst stars)) by (rewrite !map_length; exact Hlen).
  assert (Hnth1 : forall j, (j < length (map fst stars))%nat ->
     nth j (map fst stars') (pconst (0, 0)%nat 0) = nth (f j) (map fst stars) (pconst (0, 0)%nat 0)).
  { intros j Hj. rewrite Hl1 in Hj. rewrite !fst_map_nth; [now rewrite Hnth|now apply Hf|lia]. }
  assert (Hf1 : bFun (length (map fst stars)) f) by (rewrite Hl1; exact Hf).
  assert (Hi1 : bInjective (length (map fst stars)) f) by (rewrite Hl1; exact Hinj).
  destruct (cov_perm size (map fst stars) (map fst stars') f Hl2 Hf1 Hnth1 c Hc) as (c' & Hc' & _).
  specialize (He' c' Hc').
  assert (He1 : eigh_ok (length (map fst stars)) c (eigh n c)) by (rewrite Hl1; exact He).
  assert (He1' : eigh_ok (length (map fst stars)) c' (eigh' n c')) by (rewrite Hl1; exact He').
  destruct (solver_perm size (map fst stars) (map fst stars') f Hl2 Hf1 Hi1 Hnth1 c c' _ _ Hc Hc' He1 He1') as (Hvals & Hvec).
  rewrite Hl1 in Hvec.
  assert (N1' : length (map fst stars) <> 1%nat) by (rewrite Hl1; exact N1).
  assert (N1'' : length (map fst stars') <> 1%nat) by (rewrite Hl2; exact N1').
  pose proof (kl_basis_form eigh None size (map fst stars) l c Hc N1') as Fb. cbn zeta in Fb. rewrite Hl1 in Fb.
  pose proof (kl_basis_form eigh' None size (map fst stars') l c' Hc' N1'') as Fb'. cbn zeta in Fb'. rewrite Hl2, Hl1 in Fb'.
  rewrite (proj2 (Nat.leb_le _ _) H250) in Fb, Fb'. rewrite Hvals in Fb'.
  set (K := Nat.min n (kl_cut l (fst (eigh n c)))) in *.
  set (B := map (fun k => element size n (map fst stars) (snd (eigh n c)) (n - 1 - k)) (seq 0 K)) in *.
  set (B' := map (fun k => element size n (map fst stars') (snd (eigh' n c')) (n - 1 - k)) (seq 0 K)) in *.
  assert (LB : length B = K) by (unfold B; now rewrite map_length, seq_length).
  assert (LB' : length B' = K) by (unfold B'; now rewrite map_length, seq_length).
  rewrite Fb in Hpsf. cbn [bind] in Hpsf. rewrite one_unit_length, LB in Hpsf.
  unfold psf_from. rewrite Fb'. cbn [bind]. rewrite one_unit_length, LB', Hlen. fold n.
  rewrite (eigenv_ok eigh _ _ _ Hc N1') in Hpsf. rewrite (eigenv_ok eigh' _ _ _ Hc' N1''). rewrite Hl1 in Hpsf. rewrite Hl2, Hl1.
  (* the kept vectors *)
  assert (Lv : length (fst (eigh n c)) = n) by (exact (proj1 He)).
  assert (HK : length (snd psf) = K).
  { destruct (Nat.eqb K 1); [injection Hpsf as <-; cbn [snd]; now rewrite one_unit_length|].
    destruct (Nat.eqb n 0); [discriminate|]. injection Hpsf as <-. cbn [snd]. now rewrite one_unit_length. }
  assert (Sg : forall k, (k < K)%nat -> exists s, (s = 1 \/ s = -1) /\
     (forall j, (j < n)%nat -> snd (eigh' n c') j (n - 1 - k)%nat = s * snd (eigh n c) (f j) (n - 1 - k)%nat) /\
     element size n (map fst stars') (snd (eigh' n c')) (n - 1 - k) = pscale s (element size n (map fst stars) (snd (eigh n c)) (n - 1 - k))).
  { intros k Hk. assert (KN : (K <= n)%nat) by (unfold K; lia).
    destruct (Hvec (n - 1 - k)%nat) as (s & Hs & E); [lia| |].
    - intros j Hj Nj. apply (Hsimple (n - 1 - k)%nat j); [rewrite Lv, HK; lia|rewrite Lv; exact Hj|exact Nj].
    - exists s. split; [exact Hs|]. split; [exact E|]. apply element_scale. intros p.
      pose proof (combination_perm (map fst stars) (map fst stars') f Hf1 Hi1 Hnth1 (snd (eigh n c)) (snd (eigh' n c')) s (n - 1 - k)%nat p) as Q.
      rewrite Hl1 in Q. apply Q. exact E. }
  destruct (Nat.eqb_spec K 1) as [K1|K1].
  - injection Hpsf as <-. eexists. split; [reflexivity|]. cbn [snd fst] in *. split; [now rewrite !one_unit_length, LB, LB'|].
    intros x y i j. unfold psf_at. cbn [fst snd]. destruct (Sg 0%nat) as (s & Hs & _ & E); [lia|].
    unfold B, B'. rewrite K1. cbn [seq map one_unit]. rewrite E, unit_total_sign by exact Hs. reflexivity.
  - destruct (Nat.eqb n 0); [discriminate|]. cbn [bind] in Hpsf |- *. injection Hpsf as <-. eexists. split; [reflexivity|].
    cbn [snd fst] in *. split; [now rewrite !one_unit_length, LB, LB'|].
    intros x y i j. unfold psf_at. cbn [fst snd].
    rewrite !one_unit_not by congruence.
    assert (CE : forall (F : nat -> R -> R -> R) (G : nat -> plane (option R)),
      combine (map F (seq 0 K)) (map G (seq 0 K)) = map (fun k => (F k, G k)) (seq 0 K)) by (intros; apply combine_map).
    unfold B, B'. rewrite !CE, !map_map. f_equal. apply map_ext_in. intros k Hk. apply in_seq in Hk.
    destruct (Sg k) as (s & Hs & E1 & E2); [lia|]. cbn [fst snd]. rewrite E2. unfold pscale. cbn [pmap px].
    assert (EF : fit (map snd stars') (eigen_component n (snd (eigh' n c')) k) x y = s * fit (map snd stars) (eigen_component n (snd (eigh n c)) k) x y).
    { apply (Hfit _ _ _ f s); rewrite ?map_length; fold n; [exact Hlen|exact Hf|exact Hinj| | |exact Hs].
      - intros q Hq. rewrite !snd_map_nth. now rewrite Hnth.
      - intros q Hq. unfold eigen_component. now apply E1. }
    rewrite EF. destruct (px (element _ _ _ _ _) i j) as [v|]; [|reflexivity]. cbn [option_map]. f_equal.
    destruct Hs; subst s; ring.
Qed.

Lemma combine_split {A B} (l : list A) (l' : list B) : length l = length l' ->
  map fst (combine l l') = l /\ map snd (combine l l') = l' /\ length (combine l l') = length l'.
Proof.
  revert l'. induction l as [|a l IH]; intros [|b l'] H; try discriminate; [easy|]. injection H as H.
  destruct (IH l' H) as (E1 & E2 & E3). cbn. now rewrite E1, E2, E3.
Qed.

Lemma psf_for_from {NI FT IM} (L : lib NI FT IM) sh l stamps positions : stamps_of _ _ _ L sh = Ok (stamps, positions) ->
  length stamps = length positions ->
  psf_for L sh l = psf_from (eigh L) (smooth L) (fit L) (fst sh + 6, snd sh + 6)%nat (combine stamps positions) l.
Proof.
  intros E Hl. unfold psf_for, psf_from. rewrite E. cbn [bind]. destruct (combine_split _ _ Hl) as (E1 & E2 & E3).
  rewrite E1, E2, E3, Hl. reflexivity.
Qed.

Lemma stamps_len {NI FT IM} (L : lib NI FT IM) sh stamps positions : lib_ok L -> stamps_of _ _ _ L sh = Ok (stamps, positions) ->
  length stamps = length positions.
Proof.
  intros (H & _) E. unfold stamps_of in E. destruct (select L) as [cat|]; [|discriminate].
  destruct (extract L sh cat) as [st [(p & k)|]] eqn:X; [|discriminate]. injection E as <- <-. now apply (H _ _ _ _ _ X).
Qed.

(** Two images with the same stars in different order, or two solvers. *)
Lemma C108_order_lm : forall NI FT IM (L L' : lib NI FT IM) sh s0 s0' cs cs' stamps positions stamps' positions' l psf,
  lib_ok L -> lib_ok L' -> new_image L sh s0 -> new_image L' sh s0' -> Forall plain cs -> Forall plain cs' -> 0 <= l ->
  stamps_of NI FT IM L sh = Ok (stamps, positions) -> stamps_of NI FT IM L' sh = Ok (stamps', positions') ->
  Permutation (combine stamps positions) (combine stamps' positions') -> (length stamps <= 250)%nat ->
  smooth L = None -> smooth L' = None -> fit L' = fit L -> fair_fit (fit L) positions ->
  (forall c, KL.cov_matrix (fst sh + 6, snd sh + 6)%nat stamps = Ok c ->
     eigh_ok (length stamps) c (eigh L (length stamps) c) /\
     simple_last (length (snd psf)) (fst (eigh L (length stamps) c))) ->
  (forall c, KL.cov_matrix (fst sh + 6, snd sh + 6)%nat stamps' = Ok c ->
     eigh_ok (length stamps) c (eigh L' (length stamps) c)) ->
  fst (get_variable_psf L (Some l) None (exec_all L cs s0)) = Ok psf ->
  exists psf', fst (get_variable_psf L' (Some l) None (exec_all L' cs' s0')) = Ok psf' /\
    length (snd psf') = length (snd psf) /\
    forall x y i j, psf_at psf' x y i j = psf_at psf x y i j.
Proof.
  intros NI FT IM L L' sh s0 s0' cs cs' stamps positions stamps' positions' l psf HL HL' H0 H0' Hcs Hcs' Hl E E' HP H250 S1 S2 HF Hfair He He'.
  rewrite (proj1 (C39_history_lm _ _ _ L sh s0 cs HL H0 Hcs) l Hl).
  rewrite (proj1 (C39_history_lm _ _ _ L' sh s0' cs' HL' H0' Hcs') l Hl).
  pose proof (stamps_len L sh _ _ HL E) as Q. pose proof (stamps_len L' sh _ _ HL' E') as Q'.
  rewrite (psf_for_from L sh l _ _ E Q), (psf_for_from L' sh l _ _ E' Q'), S1, S2, HF.
  destruct (combine_split _ _ Q) as (E1 & E2 & E3). destruct (combine_split _ _ Q') as (E1' & E2' & E3').
  apply psf_from_perm; rewrite ?E1, ?E2, ?E3, ?E1', <- ?Q; assumption.
Qed.
