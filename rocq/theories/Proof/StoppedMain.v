(** Operations on two images that stopped before their end. *)
From Coq Require Import ZArith List Bool Arith Reals Lia Lra Permutation.
From Coquelicot Require Import Complex.
From Verif.Model Require Import Py Plane Ma Coadd.
From Verif.Spec Require Import Coadd.
From Verif.Proof Require Import Coadd CoaddThreads CoaddMain CoaddMore.
From Verif.Model Require Import Filter.
From Verif.Proof Require Import Filter FilterMain.
From Verif.Model Require Import Interp Subtract Filter Sources Stamps Transparency KL Session Chain ChainCoadd Again SubAgain Stopped.
From Verif.Spec Require Import Transparency Session Uses UsesCoadd Again SubAgain Stopped.
From Verif.Proof Require Import Transparency TransparencyMain TransparencyAgain StoppedMatch.
From Verif.Proof Require Import Session SessionBad SessionHist SessionMain SessionFrame SessionLm Chain ChainUnits Uses UsesCoadd UsesCoaddMain Again AgainMain SubAgain SubAgainMain SubAgainPair.
Import ListNotations.
Local Open Scope R_scope.
Set Bullet Behavior "Strict Subproofs".

(** An image between operations that finished or stopped. *)
Definition held_any (W : libs) (fuel : nat) (shp : nat * nat) (u : built * list call) (h : held) : Prop :=
  held_ok u h \/
  (exists cs, in_use W fuel shp (fst u, cs) /\ h = mkheld (after cs (fst u)) None) \/
  (exists cs left c, in_use W fuel shp (fst u, cs) /\ h = mkheld (with_best left (after cs (fst u))) (Some c)).

Lemma in_use_more W fuel shp x cs c : in_use W fuel shp (x, cs) -> plain c -> in_use W fuel shp (x, cs ++ [c]).
Proof. intros (A & B & D & E & F) P. repeat split; auto. apply Forall_app. split; [exact F|now repeat constructor]. Qed.

Lemma any_placed W fuel shp u h left : (forall n c, length (fst (l_eigh W n c)) = n) -> in_use W fuel shp u -> held_any W fuel shp u h ->
  exists Lp m, placed_at u h left Lp m.
Proof.
  intros EL Hu [H|[(cs & Hc & ->)|(cs & left0 & c & Hc & ->)]].
  - now apply (exists_placed W fuel shp).
  - destruct (exists_placed W fuel shp (fst u, cs) (mkheld (after cs (fst u)) None) left EL Hc (or_introl eq_refl)) as (Lp & m & P). exists Lp, m. exact P.
  - destruct (exists_placed W fuel shp (fst u, cs) (mkheld (after cs (fst u)) None) left EL Hc (or_introl eq_refl)) as (Lp & m & P). exists Lp, m. destruct P as (_ & P). split; [reflexivity|exact P].
Qed.

Lemma best_there (L : plib) s : best s <> None -> void _ _ _ (best_sources L) s = s.
Proof. intros H. unfold void, best_sources. destruct (best s) as [l|]; [reflexivity|now elim H]. Qed.

Lemma look_best (L : plib) s l : set_best _ _ _ (Some l) (void _ _ _ (best_sources L) s) = set_best _ _ _ (Some l) s.
Proof. unfold void, best_sources. destruct (best s) as [l1|] eqn:E; [reflexivity|]. destruct (select L); reflexivity. Qed.

Lemma look_again (L : plib) s : fst (best_sources L (void _ _ _ (best_sources L) s)) = fst (best_sources L s).
Proof.
  unfold void. unfold best_sources at 2 3. destruct (best s) as [l1|] eqn:E; [cbn [snd]; unfold best_sources; now rewrite E|].
  destruct (select L) as [l|e] eqn:S; cbn [snd fst]; unfold best_sources; [reflexivity|]. now rewrite E, S.
Qed.

Lemma view_zp l z z' m : view l z (recall (CSetZp z') m) = view l z m.
Proof. reflexivity. Qed.

Lemma view_set l z m : view l z (recall (CCoadd l z) m) = view l z m.
Proof. reflexivity. Qed.

Lemma self_cat c : mkcat (has_id c) (has_det c) (keep_rows (rows c) (map src_of (rows c))) = c.
Proof. rewrite keep_self. now destruct c. Qed.

Lemma settled_prefix (L : plib) l0 l z j s : settled _ _ _ L l0 s ->
  settled _ _ _ L l0 (exec_all L (firstn j [CSHat; CBasis; CAfields]) (exec L (CCoadd l z) s)).
Proof.
  intros H. assert (A : settled _ _ _ L l0 (exec L (CCoadd l z) s)) by (cbn [exec]; unfold void; apply st_fields; exact H).
  destruct j as [|[|[|j]]]; cbn [firstn].
  - exact A.
  - cbn [exec_all fold_left exec]. unfold void. now apply st_shat.
  - cbn [exec_all fold_left exec]. unfold void. now apply st_basis, st_shat.
  - rewrite firstn_nil. now apply settled_coadd.
Qed.

(** An image when an operation stopped. *)
Lemma image_part W fuel shp u h c Lp m k n z h1 : in_use W fuel shp u -> held_any W fuel shp u h -> placed_at u h (map src_of (rows c)) Lp m ->
  0 <= loss_asked k -> partway k n c z h = Ok h1 ->
  exists m1, held_any W fuel shp u h1 /\ placed_at u h1 (map src_of (rows c)) Lp m1 /\
    (forall l z', is_sub k \/ (l = loss_asked k /\ z' = z) -> view l z' m1 = view l z' m) /\
    ((h_cat h1 = h_cat h /\ catalogue_of h1 = catalogue_of h) \/
     exists kept, h_cat h1 = Some (mkcat (has_id c) (has_det c) (keep_rows (rows c) kept)) /\
       (settled _ _ _ (bu_lib (fst u)) (map src_of (rows c)) (set_best _ _ _ (Some (map src_of (rows c))) (bu_attr (h_img h))) -> kept = map src_of (rows c))).
Proof.
  intros Hu Ho Pa Hl E. pose proof Pa as (Ei & HLp & Pl & T). set (x := fst u) in *. set (sh := stamp_shape (bu_attr x)) in *.
  set (left := map src_of (rows c)) in *. set (s0 := set_best _ _ _ (Some left) (bu_attr (h_img h))) in *.
  assert (Given : forall cs h0, h0 = after cs x -> in_use W fuel shp (x, cs) -> held_any W fuel shp u (mkheld (with_best left h0) (Some c)))
    by (intros cs h0 -> Hc; right; right; exists cs, left, c; now split).
  assert (Given3 : forall cs h0, h0 = after cs x -> in_use W fuel shp (x, cs) -> held_any W fuel shp u (mkheld (given_zp c z h0) (Some c))).
  { intros cs h0 -> Hc. right; right. exists (cs ++ [CSetZp z]), left, c. split; [now apply in_use_more|].
    f_equal. unfold after. unfold exec_all. rewrite fold_left_app. reflexivity. }
  destruct n as [|[|[|[|n]]]]; cbn [partway] in E; cbv zeta in E.
  - injection E as <-. exists m. auto 8.
  - injection E as <-. exists m. split; [|split; [|split; [auto|left; cbn [h_cat]]]].
    + destruct Ho as [[->|(s & c0 & Lq & ma & la & qa & -> & HLq & Ua & Qa)]|[(cs & Hc & ->)|(cs & left0 & c0 & Hc & ->)]]; cbn [h_img h_cat].
      * right; left. exists (snd u ++ [CBestSources]). split; [apply in_use_more; [now destruct u|exact I]|].
        f_equal. unfold after. unfold exec_all. rewrite fold_left_app. reflexivity.
      * left. right. exists s, c0, Lq, ma, la, qa. split; [|auto]. f_equal.
        change (bu_lib (with_attr s (fst u))) with (bu_lib (fst u)). change (bu_attr (with_attr s (fst u))) with s.
        rewrite best_there; [reflexivity|]. exact (proj1 (proj2 Ua)).
      * right; left. exists (cs ++ [CBestSources]). split; [apply in_use_more; [exact Hc|exact I]|].
        f_equal. unfold after. unfold exec_all. rewrite fold_left_app. reflexivity.
      * right; right. exists cs, left0, c0. split; [exact Hc|]. f_equal.
    + unfold placed_at. cbv zeta. fold x sh. cbn [h_img].
      change (bu_attr (with_attr (void _ _ _ (best_sources (bu_lib (h_img h))) (bu_attr (h_img h))) (h_img h))) with (void _ _ _ (best_sources (bu_lib (h_img h))) (bu_attr (h_img h))).
      rewrite look_best. fold s0. split; [rewrite Ei; reflexivity|]. auto.
    + split; [reflexivity|]. unfold catalogue_of. cbn [h_cat h_img]. destruct (h_cat h); [reflexivity|].
      change (bu_lib (with_attr (void _ _ _ (best_sources (bu_lib (h_img h))) (bu_attr (h_img h))) (h_img h))) with (bu_lib (h_img h)).
      change (bu_attr (with_attr (void _ _ _ (best_sources (bu_lib (h_img h))) (bu_attr (h_img h))) (h_img h))) with (void _ _ _ (best_sources (bu_lib (h_img h))) (bu_attr (h_img h))).
      now rewrite look_again.
  - injection E as <-. exists m. split; [|split; [|split; [auto|right; exists left; split; [cbn [h_cat]; unfold left; now rewrite self_cat|auto]]]].
    + destruct Ho as [[->|(s & c0 & Lq & ma & la & qa & -> & HLq & Ua & Qa)]|[(cs & Hc & ->)|(cs & left0 & c0 & Hc & ->)]]; cbn [h_img].
      * apply (Given (snd u)); [reflexivity|]. now destruct u.
      * left. right. eexists _, c, Lq, ma, la, qa. split; [reflexivity|]. split; [exact HLq|]. split; [now apply usable_best|exact Qa].
      * now apply (Given cs).
      * exact (Given cs _ eq_refl Hc).
    + unfold placed_at. cbv zeta. fold x sh. cbn [h_img].
      split; [rewrite Ei; reflexivity|]. auto.
  - injection E as <-. exists (recall (CSetZp z) m). split; [|split; [|split; [intros; apply view_zp|right; exists left; split; [cbn [h_cat]; unfold left; now rewrite self_cat|auto]]]].
    + destruct Ho as [[->|(s & c0 & Lq & ma & la & qa & -> & HLq & Ua & Qa)]|[(cs & Hc & ->)|(cs & left0 & c0 & Hc & ->)]]; cbn [h_img].
      * apply (Given3 (snd u)); [reflexivity|]. now destruct u.
      * left. right. eexists _, c, Lq, _, la, qa. split; [reflexivity|]. split; [exact HLq|]. split; [|exact Qa].
        exact (usable_exec (fst u) _ Lq HLq (CSetZp z) _ _ I I (usable_best _ _ _ _ left Ua)).
      * now apply (Given3 cs).
      * exact (Given3 cs _ eq_refl Hc).
    + unfold placed_at. cbv zeta. fold x sh. cbn [h_img].
      split; [rewrite Ei; reflexivity|]. split; [exact HLp|]. split; [exact (placed_exec x sh Lp HLp (CSetZp z) s0 m I I Pl)|].
      exact T.
  - destruct k as [l b1 b2 b3|fu sc l np].
    + destruct (first_element l (given_zp c z (h_img h))) as [q0|] eqn:Fe; [|discriminate]. cbn [bind] in E. injection E as <-.
      destruct (image_task u h c Lp m (Sub l b1 b2 b3) z Pa Hl) as (s & m1 & q & kept & Eh & Ek & HL & U & Q & Es & V); [now exists q0|].
      cbn [img_after] in Eh. exists m1. rewrite Eh. fold x sh in U, Q. split; [|split; [|split; [exact V|right; exists kept; split; [reflexivity|]]]].
      * left. right. eexists s, _, Lp, m1, l, q. split; [reflexivity|auto].
      * now apply usable_at.
      * intros St. pose proof (settled_task _ _ (Sub l b1 b2 b3) z _ St) as B. cbv iota beta in B, Es. rewrite Ek. fold x left s0 in Es. rewrite <- Es in B. now rewrite B.
    + change (setup_kl_a_fields _ _ _ (bu_lib (h_img h)) (Some l) false (bu_attr (given_zp c z (h_img h)))) with (fields_set l c z (h_img h)) in E.
      destruct (fst (fields_set l c z (h_img h))) as [[]|] eqn:Fs; [|discriminate]. cbn [bind] in E.
      destruct (coadd_seen (with_attr (snd (fields_set l c z (h_img h))) (h_img h))) as [v|] eqn:Sv; [|discriminate]. cbn [bind] in E. injection E as <-.
      pose proof Sv as Sv'. rewrite Ei in Sv' at 2. fold x in Sv'.
      destruct (seen_needs u h c Lp m l z v Pa Hl) as [q Q]; [exact Sv'|]. fold x sh in Q.
      pose proof (placed_exec x sh Lp HLp (CCoadd l z) s0 m Hl I Pl) as P1.
      apply placed_usable in P1; [|exact (proj2 (T l z q Hl Q))].
      pose proof (usable_exec x sh Lp HLp CSHat _ _ I I P1) as X1. pose proof (usable_exec x sh Lp HLp CBasis _ _ I I X1) as X2.
      pose proof (usable_exec x sh Lp HLp CAfields _ _ I I X2) as X3.
      assert (Fx : snd (fields_set l c z (h_img h)) = exec (bu_lib x) (CCoadd l z) s0) by (unfold fields_set; rewrite Ei; reflexivity).
      assert (Lx : bu_lib (h_img h) = bu_lib x) by now rewrite Ei.
      rewrite Fx, Lx in *. set (s1 := exec_all (bu_lib x) (firstn n [CSHat; CBasis; CAfields]) (exec (bu_lib x) (CCoadd l z) s0)).
      assert (Wx : with_attr s1 (h_img h) = with_attr s1 x) by now rewrite Ei.
      rewrite Wx.
      assert (exists m1, usable sh Lp s1 m1 /\ view l z m1 = view l z m) as (m1 & U1 & V1).
      { destruct n as [|[|[|n]]]; unfold s1; cbn [firstn]; rewrite ?firstn_nil.
        - eexists. split; [exact P1|reflexivity].
        - eexists. split; [exact X1|exact (view_add l z m)].
        - eexists. split; [exact X2|exact (view_add l z m)].
        - eexists. split; [exact X3|exact (view_add l z m)]. }
      exists m1. split; [|split; [|split; [intros l' z' [[]|[-> ->]]; exact V1|right; eexists; split; [reflexivity|]]]].
      * left. right. eexists s1, _, Lp, m1, l, q. split; [reflexivity|auto].
      * now apply usable_at.
      * intros St. change (bu_attr (with_attr s1 x)) with s1. unfold s1. now rewrite (proj1 (settled_prefix _ _ l z n _ St)).
Qed.

(** The two images between operations that finished or stopped. *)
Record pair_any (W : libs) (fuel : nat) (shp : nat * nat) (u v : built * list call) (p : held * held) : Prop := {
  pa_ref : held_any W fuel shp u (fst p);
  pa_new : held_any W fuel shp v (snd p);
  pa_ids : match h_cat (fst p) with Some c => good_ids c | None => True end }.

Lemma any_start W fuel shp u v : pair_any W fuel shp u v (start_with u v).
Proof. constructor; [left; now left|left; now left|exact I]. Qed.

(** The catalogue of an image after an attempt that gave it the catalogue [k]. *)
Definition cat_then (x : built) (c k : cat) (h h1 : held) : Prop :=
  exists c1, catalogue_of h1 = Ok c1 /\
  (c1 = c \/ exists kept, c1 = mkcat (has_id k) (has_det k) (keep_rows (rows k) kept) /\
     (settled _ _ _ (bu_lib x) (map src_of (rows k)) (set_best _ _ _ (Some (map src_of (rows k))) (bu_attr (h_img h))) -> kept = map src_of (rows k))).

Record between (W : libs) (fuel : nat) (shp : nat * nat) (u v : built * list call) (k : task) (p p1 : held * held) (cr cn : cat) (t : outcome) (kn : cat)
  (Lp Lq : plib) (m n m1 n1 : memory) : Prop := {
  bw_cr : catalogue_of (fst p) = Ok cr;
  bw_cn : catalogue_of (snd p) = Ok cn;
  bw_t : transparency (l_query W) (l_sort W) (l_lsqr W) [cr; cn] None = Ok t;
  bw_kn : cats t = [kn];
  bw_good : good_ids cr;
  bw_ref : map place (rows (mcat t)) = map place (rows cr);
  bw_new : same_sources cn kn;
  bw_at : placed_at u (fst p) (map src_of (rows (mcat t))) Lp m;
  bw_at' : placed_at v (snd p) (map src_of (rows kn)) Lq n;
  bw_then : placed_at u (fst p1) (map src_of (rows (mcat t))) Lp m1;
  bw_then' : placed_at v (snd p1) (map src_of (rows kn)) Lq n1;
  bw_view : forall l z, is_sub k \/ (l = loss_asked k /\ z = nth 0 (zps t) 0) -> view l z m1 = view l z m;
  bw_view' : forall l z, is_sub k \/ (l = loss_asked k /\ z = nth 1 (zps t) 0) -> view l z n1 = view l z n;
  bw_a : cat_then (fst u) cr (mcat t) (fst p) (fst p1);
  bw_b : cat_then (fst v) cn kn (snd p) (snd p1);
  bw_ok : pair_any W fuel shp u v p1 }.

Lemma stop_step W fuel shp u v k i j p p1 : (forall n c, length (fst (l_eigh W n c)) = n) -> (forall r, Permutation (l_sort W r) r) ->
  in_use W fuel shp u -> in_use W fuel shp v -> pair_any W fuel shp u v p -> 0 <= loss_asked k -> stopped W k i j p = Ok p1 ->
  exists cr cn t kn Lp Lq m n m1 n1, between W fuel shp u v k p p1 cr cn t kn Lp Lq m n m1 n1.
Proof.
  intros EL SP Hu Hv [Ha Hb Hg] Hl E. unfold stopped in E.
  destruct (catalogue_of (fst p)) as [cr|] eqn:Cr; [|discriminate]. cbn [bind] in E.
  destruct (catalogue_of (snd p)) as [cn|] eqn:Cn; [|discriminate]. cbn [bind] in E.
  destruct (transparency _ _ _ _ _) as [t|] eqn:Et; [|discriminate]. cbn [bind] in E. cbv zeta in E.
  pose proof (good_first _ _ Hg Cr) as Gr.
  destruct (matched_again _ _ _ [cr; cn] t SP Gr Et) as (Lm & Gm & Hm).
  destruct (cats t) as [|kn [|? ?]] eqn:Ect; [discriminate| |discriminate].
  destruct (Hm 0%nat cr (mcat t) eq_refl eq_refl) as [_ Pr]. specialize (Pr eq_refl).
  destruct (Hm 1%nat cn kn eq_refl) as [Sn _]; [reflexivity|].
  destruct (partway k i _ _ (fst p)) as [a1|] eqn:Ea; [|discriminate]. cbn [bind] in E.
  destruct (partway k j _ _ (snd p)) as [b1|] eqn:Eb; [|discriminate]. cbn [bind] in E. injection E as <-.
  destruct (any_placed W fuel shp u (fst p) (map src_of (rows (mcat t))) EL Hu Ha) as (Lp & m & Pl).
  destruct (any_placed W fuel shp v (snd p) (map src_of (rows kn)) EL Hv Hb) as (Lq & n & Pl').
  destruct (image_part W fuel shp u (fst p) (mcat t) Lp m k i _ a1 Hu Ha Pl Hl Ea) as (m1 & O1 & P1 & V1 & C1).
  destruct (image_part W fuel shp v (snd p) kn Lq n k j _ b1 Hv Hb Pl' Hl Eb) as (n1 & O2 & P2 & V2 & C2).
  exists cr, cn, t, kn, Lp, Lq, m, n, m1, n1. constructor; cbn [fst snd]; auto.
  - destruct C1 as [[_ C1]|(kept & C1 & Kp)]; [exists cr; split; [congruence|now left]|].
    eexists. split; [unfold catalogue_of; rewrite C1; reflexivity|]. right. exists kept. now split.
  - destruct C2 as [[_ C2]|(kept & C2 & Kp)]; [exists cn; split; [congruence|now left]|].
    eexists. split; [unfold catalogue_of; rewrite C2; reflexivity|]. right. exists kept. now split.
  - constructor; cbn [fst snd]; auto. destruct C1 as [[C1 _]|(kept & C1 & _)]; rewrite C1; [exact Hg|]. apply keep_good. now destruct (mcat t).
Qed.

Lemma stop_cats W fuel shp u v k p p1 cr cn t kn Lp Lq m n m1 n1 : between W fuel shp u v k p p1 cr cn t kn Lp Lq m n m1 n1 ->
  exists a1 b1, catalogues p1 = Ok (a1, b1).
Proof. intros []. destruct bw_a0 as (a1 & A & _). destruct bw_b0 as (b1 & B & _). exists a1, b1. unfold catalogues. now rewrite A, B. Qed.

Lemma cat_same x c k h h1 c1 : cat_then x c k h h1 -> catalogue_of h1 = Ok c1 -> length (rows k) = length (rows c) -> stars c1 = stars c -> c1 = c \/ c1 = k.
Proof.
  intros (c2 & E2 & H) E1 Ln St. assert (c2 = c1) as -> by congruence. destruct H as [->|(kept & -> & _)]; [now left|right].
  unfold stars in St. cbn [rows] in St. rewrite <- Ln in St. apply keep_all in St. rewrite St. now destruct k.
Qed.

Lemma src_place l l' : map place l = map place l' -> map src_of l = map src_of l'.
Proof.
  intros H. assert (E : forall l, map src_of l = map (fun q => mksrc (fst (fst q)) (snd (fst q)) 0 (snd q) 0) (map place l)) by (intros x; rewrite map_map; reflexivity).
  now rewrite !E, H.
Qed.

(** Matching again after the operation stopped. *)
Lemma stop_again W fuel shp u v k p p1 cr cn t kn Lp Lq m n m1 n1 a1 b1 : nearest (l_query W) -> (forall r, Permutation (l_sort W r) r) -> canonical (l_sort W) ->
  between W fuel shp u v k p p1 cr cn t kn Lp Lq m n m1 n1 -> clear_match cr cn -> catalogues p1 = Ok (a1, b1) -> stars a1 = stars cr -> stars b1 = stars cn ->
  exists t1, transparency (l_query W) (l_sort W) (l_lsqr W) [a1; b1] None = Ok t1 /\ zps t1 = zps t /\ cats t1 = [kn] /\
    map src_of (rows (mcat t1)) = map src_of (rows (mcat t)).
Proof.
  intros Nq SP SC S Cl C La Lb. destruct (catalogues_are _ _ _ C) as [Ca Cb]. destruct S.
  assert (Ln : length (rows (mcat t)) = length (rows cr)) by (rewrite <- (map_length place), bw_ref0; apply map_length).
  pose proof (same_length _ _ bw_new0) as Ln'.
  destruct (matching_twice (l_query W) Nq (l_sort W) SP SC (l_lsqr W) cr [cn] t a1 [b1] bw_good0 (Forall_cons _ Cl (Forall_nil _)) bw_t0) as (t1 & E1 & Z1 & _ & C1 & P1).
  - exact (cat_same _ _ _ _ _ _ bw_a0 Ca Ln La).
  - reflexivity.
  - rewrite bw_kn0. intros [|[|?]] b c b' X Y Z; try discriminate. injection X as <-. injection Y as <-. injection Z as <-.
    exact (cat_same _ _ _ _ _ _ bw_b0 Cb Ln' Lb).
  - exists t1. split; [exact E1|]. split; [exact Z1|]. split; [congruence|]. apply src_place. congruence.
Qed.

(** A subtraction after an operation that stopped. *)
Lemma stop_subtract W fuel shp u v k i j p p1 a b a1 b1 l beta shift iterative :
  (forall n c, length (fst (l_eigh W n c)) = n) -> nearest (l_query W) -> (forall r, Permutation (l_sort W r) r) -> canonical (l_sort W) ->
  in_use W fuel shp u -> in_use W fuel shp v -> pair_any W fuel shp u v p -> 0 <= loss_asked k -> 0 <= l ->
  stopped W k i j p = Ok p1 ->
  catalogues p = Ok (a, b) -> catalogues p1 = Ok (a1, b1) ->
  clear_match a b -> stars a1 = stars a -> stars b1 = stars b ->
  result (subtract_run W l beta shift iterative (fst p1) (snd p1)) = result (subtract_run W l beta shift iterative (fst p) (snd p)).
Proof.
  intros EL Nq SP SC Hu Hv Pok Hk Hl Ek Ca Ca1 Cl La Lb.
  destruct (stop_step W fuel shp u v k i j p p1 EL SP Hu Hv Pok Hk Ek) as (cr & cn & t & kn & Lp & Lq & m & n & m1 & n1 & S).
  pose proof (catalogues_are _ _ _ Ca) as [X Y].
  pose proof (bw_cr _ _ _ _ _ _ _ _ _ _ _ _ _ _ _ _ _ _ S) as X'. pose proof (bw_cn _ _ _ _ _ _ _ _ _ _ _ _ _ _ _ _ _ _ S) as Y'.
  assert (cr = a) as -> by congruence. assert (cn = b) as -> by congruence.
  destruct (stop_again _ _ _ _ _ _ _ _ _ _ _ _ _ _ _ _ _ _ _ _ Nq SP SC S Cl Ca1 La Lb) as (t1 & Et1 & Ez & Ec1 & Es).
  destruct (catalogues_are _ _ _ Ca1) as [X1 Y1]. destruct S.
  rewrite (sub_is W u v _ _ a b t kn Lp Lq m n l beta shift iterative X' Y' bw_t0 bw_kn0 bw_at0 bw_at'0 Hl).
  rewrite <- Es in bw_then0.
  rewrite (sub_is W u v _ _ a1 b1 t1 kn Lp Lq m1 n1 l beta shift iterative X1 Y1 Et1 Ec1 bw_then0 bw_then'0 Hl).
  now rewrite Ez.
Qed.

Lemma any_attempts W fuel shp u v ks : forall p p1, (forall n c, length (fst (l_eigh W n c)) = n) -> (forall r, Permutation (l_sort W r) r) ->
  in_use W fuel shp u -> in_use W fuel shp v -> pair_any W fuel shp u v p -> Forall (fun a => 0 <= loss_asked (op_of a)) ks -> attempts W ks p = Ok p1 ->
  pair_any W fuel shp u v p1.
Proof.
  induction ks as [|[[k i] j] ks IH]; intros p p1 EL SP Hu Hv Hp Hk E; [now injection E as <-|].
  cbn [attempts] in E. destruct (stopped W k i j p) as [p2|] eqn:E2; [|discriminate]. inversion Hk as [|? ? Hl Hk']; subst.
  destruct (stop_step W fuel shp u v k i j p p2 EL SP Hu Hv Hp Hl E2) as (cr & cn & t & kn & Lp & Lq & m & n & m1 & n1 & S).
  exact (IH p2 p1 EL SP Hu Hv (bw_ok _ _ _ _ _ _ _ _ _ _ _ _ _ _ _ _ _ _ S) Hk' E).
Qed.

(** A subtraction of images that were in operations which finished or stopped, after one more
    that stopped. *)
Lemma C128_subtract_lm : forall W fuel shp u v ks p k i j p1 a b a1 b1 l beta shift iterative,
  (forall n c, length (fst (l_eigh W n c)) = n) -> nearest (l_query W) -> (forall r, Permutation (l_sort W r) r) -> canonical (l_sort W) ->
  in_use W fuel shp u -> in_use W fuel shp v -> Forall (fun a => 0 <= loss_asked (op_of a)) ks -> 0 <= loss_asked k -> 0 <= l ->
  attempts W ks (start_with u v) = Ok p -> stopped W k i j p = Ok p1 ->
  catalogues p = Ok (a, b) -> catalogues p1 = Ok (a1, b1) ->
  clear_match a b -> stars a1 = stars a -> stars b1 = stars b ->
  result (subtract_run W l beta shift iterative (fst p1) (snd p1)) = result (subtract_run W l beta shift iterative (fst p) (snd p)).
Proof.
  intros W fuel shp u v ks p k i j p1 a b a1 b1 l be sh it EL Nq SP SC Hu Hv Hks Hk Hl Eks Ek Ca Ca1 Cl La Lb.
  pose proof (any_attempts W fuel shp u v ks _ _ EL SP Hu Hv (any_start W fuel shp u v) Hks Eks) as Pok.
  exact (stop_subtract W fuel shp u v k i j p p1 a b a1 b1 l be sh it EL Nq SP SC Hu Hv Pok Hk Hl Ek Ca Ca1 Cl La Lb).
Qed.

(** An operation that finished is one that came to its last step. *)
Lemma C128_finished_lm : forall W k p p1, do_task W k p = Some (Ok p1) -> stopped W k 7 7 p = Ok p1.
Proof.
  intros W k p p1 E. destruct (task_is W k p p1 E) as (cr & cn & t & Cr & Cn & Et & H). cbv zeta in H. destruct H as (D & D' & ->).
  unfold stopped. rewrite Cr, Cn. cbn [bind]. rewrite Et. cbn [bind]. cbv zeta.
  set (kn := match cats t with [] => cn | c :: _ => c end) in *.
  assert (A : forall c z h, img_done k c z h -> partway k 7 c z h = Ok (img_after k c z h)).
  { intros c z h Dh. destruct k as [l ? ? ?|? ? l ?]; cbn [img_done img_after partway] in *; cbv zeta.
    - destruct Dh as [q ->]. reflexivity.
    - change (setup_kl_a_fields _ _ _ (bu_lib (h_img h)) (Some l) false (bu_attr (given_zp c z (h_img h)))) with (fields_set l c z (h_img h)).
      destruct Dh as (-> & v & Ev). cbn [bind]. rewrite Ev. reflexivity. }
  rewrite (A _ _ _ D). cbn [bind]. rewrite (A _ _ _ D'). reflexivity.
Qed.

(** An operation that finishes can stop at any step. *)
Lemma C128_anywhere_lm : forall W k p p1 i j, do_task W k p = Some (Ok p1) -> exists p2, stopped W k i j p = Ok p2.
Proof.
  intros W k p p1 i j E. apply C128_finished_lm in E. revert E. unfold stopped.
  destruct (catalogue_of (fst p)) as [cr|]; [|discriminate]. destruct (catalogue_of (snd p)) as [cn|]; [|discriminate]. cbn [bind].
  destruct (transparency _ _ _ _ _) as [t|]; [|discriminate]. cbn [bind]. cbv zeta. set (kn := match cats t with [] => cn | c :: _ => c end).
  assert (A : forall c z h h1 n, partway k 7 c z h = Ok h1 -> exists h2, partway k n c z h = Ok h2).
  { intros c z h h1 n. do 4 (destruct n as [|n]; [intros _; cbn; eauto|]). unfold partway. cbv zeta.
    destruct k as [l ? ? ?|? ? l ?].
    - destruct (first_element l _); [cbn [bind]; eauto|discriminate].
    - destruct (fst _); [|discriminate]. cbn [bind]. destruct (coadd_seen _); [cbn [bind]; eauto|discriminate]. }
  destruct (partway k 7 (mcat t) _ _) as [a|] eqn:Ea; [|discriminate]. cbn [bind].
  destruct (partway k 7 kn _ _) as [b|] eqn:Eb; [|discriminate]. intros _.
  destruct (A _ _ _ _ i Ea) as [a2 ->]. cbn [bind]. destruct (A _ _ _ _ j Eb) as [b2 ->]. cbn [bind]. eauto.
Qed.

Lemma any_settled W fuel shp u left : in_use W fuel shp u -> (length left < 15)%nat ->
  forall s : pstate, settled _ _ _ (bu_lib (fst u)) left (set_best _ _ _ (Some left) s).
Proof. intros Hu F s. split; [reflexivity|]. left. now apply (few_loyal W fuel shp u). Qed.

(** With less than 15 stars none is rejected. *)
Lemma stop_few W fuel shp u v k p p1 cr cn t kn Lp Lq m n m1 n1 a1 b1 : in_use W fuel shp u -> in_use W fuel shp v ->
  between W fuel shp u v k p p1 cr cn t kn Lp Lq m n m1 n1 -> catalogues p1 = Ok (a1, b1) -> (stars cr < 15 /\ stars cn < 15)%nat ->
  map place (rows a1) = map place (rows cr) /\ same_sources cn b1.
Proof.
  intros Hu Hv S C [Fa Fb]. destruct (catalogues_are _ _ _ C) as [Ca Cb]. destruct S.
  destruct bw_a0 as (a2 & Ea & Ha). destruct bw_b0 as (b2 & Eb & Hb). assert (a2 = a1) as -> by congruence. assert (b2 = b1) as -> by congruence.
  pose proof (same_length _ _ bw_new0) as Ln'.
  assert (Ln : length (rows (mcat t)) = length (rows cr)) by (rewrite <- (map_length place), bw_ref0; apply map_length).
  unfold stars in *. split.
  - destruct Ha as [->|(kept & -> & K)]; [reflexivity|]. rewrite K; [cbn [rows]; now rewrite keep_self|].
    apply (any_settled W fuel shp u); [exact Hu|]. rewrite map_length. lia.
  - destruct Hb as [->|(kept & -> & K)]; [apply Permutation_refl|]. rewrite K; [unfold same_sources; cbn [rows]; now rewrite keep_self|].
    apply (any_settled W fuel shp v); [exact Hv|]. rewrite map_length. lia.
Qed.

(** Any operations that finished or stopped, between two subtractions. *)
Lemma C128_attempts_lm : forall W fuel shp u v ks p a b again p1 l beta shift iterative,
  (forall n c, length (fst (l_eigh W n c)) = n) -> nearest (l_query W) -> (forall r, Permutation (l_sort W r) r) -> canonical (l_sort W) ->
  in_use W fuel shp u -> in_use W fuel shp v -> Forall (fun a => 0 <= loss_asked (op_of a)) (ks ++ again) -> 0 <= l ->
  attempts W ks (start_with u v) = Ok p -> catalogues p = Ok (a, b) -> clear_match a b -> (stars a < 15 /\ stars b < 15)%nat ->
  attempts W again p = Ok p1 ->
  result (subtract_run W l beta shift iterative (fst p1) (snd p1)) = result (subtract_run W l beta shift iterative (fst p) (snd p)).
Proof.
  intros W fuel shp u v ks p a b again p1 l be sh it EL Nq SP SC Hu Hv Hks Hl Eks Ca Cl Fw E.
  apply Forall_app in Hks as [Hks Hag].
  pose proof (any_attempts W fuel shp u v ks _ _ EL SP Hu Hv (any_start W fuel shp u v) Hks Eks) as Pok. clear Eks Hks ks.
  revert p a b Ca Cl Fw E Pok. induction again as [|[[k i] j] again IH]; intros p a b Ca Cl Fw E Pok; [now injection E as <-|].
  inversion Hag as [|? ? Hk Hag']; subst. cbn [attempts] in E.
  destruct (stopped W k i j p) as [p2|] eqn:Ek; [|discriminate]. cbn [bind] in E.
  destruct (stop_step W fuel shp u v k i j p p2 EL SP Hu Hv Pok Hk Ek) as (cr & cn & t & kn & Lp & Lq & m & n & m1 & n1 & S).
  destruct (stop_cats _ _ _ _ _ _ _ _ _ _ _ _ _ _ _ _ _ _ S) as (a2 & b2 & Ca2).
  pose proof (catalogues_are _ _ _ Ca) as [X Y].
  pose proof (bw_cr _ _ _ _ _ _ _ _ _ _ _ _ _ _ _ _ _ _ S) as X'. pose proof (bw_cn _ _ _ _ _ _ _ _ _ _ _ _ _ _ _ _ _ _ S) as Y'.
  assert (cr = a) as -> by congruence. assert (cn = b) as -> by congruence.
  destruct (stop_few _ _ _ _ _ _ _ _ _ _ _ _ _ _ _ _ _ _ _ _ Hu Hv S Ca2 Fw) as [Pa Pb].
  assert (La : stars a2 = stars a) by (unfold stars; rewrite <- (map_length place), Pa; apply map_length).
  assert (Lb : stars b2 = stars b) by now apply same_length.
  rewrite (IH Hag' p2 a2 b2 Ca2); try assumption.
  - exact (stop_subtract W fuel shp u v k i j p p2 a b a2 b2 l be sh it EL Nq SP SC Hu Hv Pok Hk Hl Ek Ca Ca2 Cl La Lb).
  - now apply (clear_same a a2 b b2).
  - now rewrite La, Lb.
  - exact (bw_ok _ _ _ _ _ _ _ _ _ _ _ _ _ _ _ _ _ _ S).
Qed.

Lemma run_two W f s l n a b r hs1 cr cn t kn : coadd_run W f s l n [a; b] = Some (Ok (r, hs1)) ->
  catalogue_of a = Ok cr -> catalogue_of b = Ok cn -> transparency (l_query W) (l_sort W) (l_lsqr W) [cr; cn] None = Ok t -> cats t = [kn] ->
  exists x y, hs1 = [x; y].
Proof.
  intros E Ca Cb Et Ek. destruct (run_parts _ _ _ _ _ _ _ _ E) as (_ & cs & t' & ws & vs & [Ec Et' Ew Ev Eh] & _).
  cbn [mapM] in Ec. rewrite Ca, Cb in Ec. cbn [bind] in Ec. injection Ec as <-. assert (t' = t) as -> by congruence.
  unfold seats in Ew. rewrite Ek in Ew, Eh. cbn [combine map fst snd set_up] in Ew.
  destruct (zps t) as [|z0 zs]; [discriminate|]. destruct (setup_kl_a_fields _ _ _ _ _ _ _) as [[?|] ?]; [|discriminate].
  destruct zs as [|z1 zs]; [discriminate|]. destruct (setup_kl_a_fields _ _ _ _ _ _ _) as [[?|] ?]; [|discriminate]. cbn [bind] in Ew. injection Ew as <-.
  rewrite Eh. cbn [combine map]. eauto.
Qed.

(** A coadd after an operation that stopped. *)
Lemma stop_coadd W fuel shp u v k i j p p1 a b a1 b1 f s l n r f' s' n' :
  (forall n c, length (fst (l_eigh W n c)) = n) -> nearest (l_query W) -> (forall r, Permutation (l_sort W r) r) -> canonical (l_sort W) ->
  in_use W fuel shp u -> in_use W fuel shp v -> pair_any W fuel shp u v p -> 0 <= loss_asked k -> 0 <= l ->
  stopped W k i j p = Ok p1 -> is_sub k \/ loss_asked k = l ->
  answer (coadd_run W f s l n [fst p; snd p]) = Some (Ok r) ->
  catalogues p = Ok (a, b) -> catalogues p1 = Ok (a1, b1) ->
  clear_match a b -> stars a1 = stars a -> stars b1 = stars b ->
  answer (coadd_run W f' s' l n' [fst p1; snd p1]) = answer (coadd_run W f' s' l n' [fst p; snd p]).
Proof.
  intros EL Nq SP SC Hu Hv Pok Hk Hl Ek Hkl Ec Ca Ca1 Cl La Lb.
  destruct (stop_step W fuel shp u v k i j p p1 EL SP Hu Hv Pok Hk Ek) as (cr & cn & t & kn & Lp & Lq & m & n0 & m1 & n1 & S).
  pose proof (catalogues_are _ _ _ Ca) as [X Y].
  pose proof (bw_cr _ _ _ _ _ _ _ _ _ _ _ _ _ _ _ _ _ _ S) as X'. pose proof (bw_cn _ _ _ _ _ _ _ _ _ _ _ _ _ _ _ _ _ _ S) as Y'.
  assert (cr = a) as -> by congruence. assert (cn = b) as -> by congruence.
  destruct (stop_again _ _ _ _ _ _ _ _ _ _ _ _ _ _ _ _ _ _ _ _ Nq SP SC S Cl Ca1 La Lb) as (t1 & Et1 & Ez & Ec1 & Es).
  destruct (catalogues_are _ _ _ Ca1) as [X1 Y1]. destruct S. rewrite <- Es in bw_then0.
  destruct (coadd_run W f s l n [fst p; snd p]) as [[[r0 hs]|]|] eqn:Er; try discriminate. clear Ec.
  destruct (run_two W f s l n _ _ r0 hs a b t kn Er X' Y' bw_t0 bw_kn0) as (hx & hy & ->).
  destruct (run_pair W f s l n _ _ r0 _ Er hx hy eq_refl) as (cr' & cn' & t' & kn' & A1 & A2 & A3 & A4 & A5 & A6 & _ & _ & va & vb & Va & Vb & Ck & z0 & z1 & zs & Ezs).
  assert (cr' = a) as -> by congruence. assert (cn' = b) as -> by congruence. assert (t' = t) as -> by congruence.
  rewrite bw_kn0 in A4. injection A4 as <-. rewrite Ezs in *. cbn [nth] in *.
  destruct A5 as [Fa _]. destruct A6 as [Fb _].
  rewrite (pair_run W f' s' l n' _ _ a b t kn va vb z0 z1 zs X' Y' bw_t0 bw_kn0 Ezs Fa Fb Va Vb).
  pose proof (proj1 bw_at0) as Ia. pose proof (proj1 bw_at'0) as Ib. rewrite Ia in Va at 2. rewrite Ib in Vb at 2.
  change (with_attr ?s1 (with_attr ?s2 ?x)) with (with_attr s1 x) in Va, Vb.
  destruct (seen_needs u (fst p) (mcat t) Lp m l z0 va bw_at0 Hl Va) as [q Q]. destruct (seen_needs v (snd p) kn Lq n0 l z1 vb bw_at'0 Hl Vb) as [q' Q'].
  destruct (seen_at u (fst p) (mcat t) Lp m l z0 q bw_at0 Hl Q) as [_ Sa]. destruct (seen_at v (snd p) kn Lq n0 l z1 q' bw_at'0 Hl Q') as [_ Sb].
  destruct (seen_at u (fst p1) (mcat t1) Lp m1 l z0 q bw_then0 Hl Q) as [Fa1 Sa1]. destruct (seen_at v (snd p1) kn Lq n1 l z1 q' bw_then'0 Hl Q') as [Fb1 Sb1].
  rewrite bw_view0 in Sa1 by (destruct Hkl; auto). rewrite bw_view'0 in Sb1 by (destruct Hkl; auto).
  rewrite <- Sa, Va in Sa1. rewrite <- Sb, Vb in Sb1.
  pose proof (proj1 bw_then0) as Ia1. pose proof (proj1 bw_then'0) as Ib1.
  apply (pair_run W f' s' l n' _ _ a1 b1 t1 kn va vb z0 z1 zs X1 Y1 Et1 Ec1); auto.
  - rewrite Ia1 at 2. exact Sa1.
  - rewrite Ib1 at 2. exact Sb1.
Qed.

(** A coadd of images that were in operations which finished or stopped, after one more that
    stopped: a subtraction, or a coadd for the same loss. *)
Lemma C128_coadd_lm : forall W fuel shp u v ks p k i j p1 a b a1 b1 f s l n r f' s' n',
  (forall n c, length (fst (l_eigh W n c)) = n) -> nearest (l_query W) -> (forall r, Permutation (l_sort W r) r) -> canonical (l_sort W) ->
  in_use W fuel shp u -> in_use W fuel shp v -> Forall (fun a => 0 <= loss_asked (op_of a)) ks -> 0 <= loss_asked k -> 0 <= l ->
  attempts W ks (start_with u v) = Ok p -> stopped W k i j p = Ok p1 -> is_sub k \/ loss_asked k = l ->
  answer (coadd_run W f s l n [fst p; snd p]) = Some (Ok r) ->
  catalogues p = Ok (a, b) -> catalogues p1 = Ok (a1, b1) ->
  clear_match a b -> stars a1 = stars a -> stars b1 = stars b ->
  answer (coadd_run W f' s' l n' [fst p1; snd p1]) = answer (coadd_run W f' s' l n' [fst p; snd p]).
Proof.
  intros W fuel shp u v ks p k i j p1 a b a1 b1 f s l n r f' s' n' EL Nq SP SC Hu Hv Hks Hk Hl Eks Ek Hkl Ec Ca Ca1 Cl La Lb.
  pose proof (any_attempts W fuel shp u v ks _ _ EL SP Hu Hv (any_start W fuel shp u v) Hks Eks) as Pok.
  exact (stop_coadd W fuel shp u v k i j p p1 a b a1 b1 f s l n r f' s' n' EL Nq SP SC Hu Hv Pok Hk Hl Ek Hkl Ec Ca Ca1 Cl La Lb).
Qed.

(** Any subtractions, and coadds for the same loss, that finished or stopped, between two
    coadds. *)
Lemma C128_coadds_lm : forall W fuel shp u v ks p a b again p1 f s l n r f' s' n',
  (forall n c, length (fst (l_eigh W n c)) = n) -> nearest (l_query W) -> (forall r, Permutation (l_sort W r) r) -> canonical (l_sort W) ->
  in_use W fuel shp u -> in_use W fuel shp v -> Forall (fun a => 0 <= loss_asked (op_of a)) (ks ++ again) -> 0 <= l ->
  attempts W ks (start_with u v) = Ok p -> catalogues p = Ok (a, b) -> clear_match a b -> (stars a < 15 /\ stars b < 15)%nat ->
  answer (coadd_run W f s l n [fst p; snd p]) = Some (Ok r) ->
  attempts W again p = Ok p1 -> Forall (fun a => is_sub (op_of a) \/ loss_asked (op_of a) = l) again ->
  answer (coadd_run W f' s' l n' [fst p1; snd p1]) = answer (coadd_run W f' s' l n' [fst p; snd p]).
Proof.
  intros W fuel shp u v ks p a b again p1 f s l n r f' s' n' EL Nq SP SC Hu Hv Hks Hl Eks Ca Cl Fw Ec E Hal.
  apply Forall_app in Hks as [Hks Hag].
  pose proof (any_attempts W fuel shp u v ks _ _ EL SP Hu Hv (any_start W fuel shp u v) Hks Eks) as Pok. clear Eks Hks ks.
  revert p a b Ca Cl Fw Ec E Pok. induction again as [|[[k i] j] again IH]; intros p a b Ca Cl Fw Ec E Pok; [now injection E as <-|].
  inversion Hag as [|? ? Hk Hag']; subst. inversion Hal as [|? ? Hkl Hal']; subst. cbn [attempts] in E.
  destruct (stopped W k i j p) as [p2|] eqn:Ek; [|discriminate]. cbn [bind] in E.
  destruct (stop_step W fuel shp u v k i j p p2 EL SP Hu Hv Pok Hk Ek) as (cr & cn & t & kn & Lp & Lq & m & n0 & m1 & n1 & S).
  destruct (stop_cats _ _ _ _ _ _ _ _ _ _ _ _ _ _ _ _ _ _ S) as (a2 & b2 & Ca2).
  pose proof (catalogues_are _ _ _ Ca) as [X Y].
  pose proof (bw_cr _ _ _ _ _ _ _ _ _ _ _ _ _ _ _ _ _ _ S) as X'. pose proof (bw_cn _ _ _ _ _ _ _ _ _ _ _ _ _ _ _ _ _ _ S) as Y'.
  assert (cr = a) as -> by congruence. assert (cn = b) as -> by congruence.
  destruct (stop_few _ _ _ _ _ _ _ _ _ _ _ _ _ _ _ _ _ _ _ _ Hu Hv S Ca2 Fw) as [Pa Pb].
  assert (La : stars a2 = stars a) by (unfold stars; rewrite <- (map_length place), Pa; apply map_length).
  assert (Lb : stars b2 = stars b) by now apply same_length.
  assert (Step : forall f' s' n', answer (coadd_run W f' s' l n' [fst p2; snd p2]) = answer (coadd_run W f' s' l n' [fst p; snd p])).
  { intros. exact (stop_coadd W fuel shp u v k i j p p2 a b a2 b2 f s l n r f'0 s'0 n'0 EL Nq SP SC Hu Hv Pok Hk Hl Ek Hkl Ec Ca Ca2 Cl La Lb). }
  rewrite (IH Hag' Hal' p2 a2 b2 Ca2); try assumption; [apply Step| | | |].
  - now apply (clear_same a a2 b b2).
  - now rewrite La, Lb.
  - now rewrite Step.
  - exact (bw_ok _ _ _ _ _ _ _ _ _ _ _ _ _ _ _ _ _ _ S).
Qed.
