(** Lemmas behind Props/FindS.v. *)
From Coq Require Import ZArith List Bool Arith Reals Lia Lra.
From Flocq Require Import Core.Raux.
From Verif.Model Require Import Py Plane FindS.
From Verif.Spec Require Import FindS.
Import ListNotations.
Local Open Scope R_scope.

Lemma joined_inside m c d : joined m c d -> inside m c /\ inside m d.
Proof. induction 1; tauto. Qed.

Lemma joined_true m c d : joined m c d ->
  px m (fst c) (snd c) = true /\ px m (fst d) (snd d) = true.
Proof. induction 1; tauto. Qed.

Lemma joined_trans m c d e : joined m c d -> joined m d e -> joined m c e.
Proof.
  intros H K. revert H. induction K as [d Hi Ht|d e g K IH A Hi Ht]; intros H; [exact H|].
  exact (J_step m c e g (IH H) A Hi Ht).
Qed.

Lemma adjacent_sym c d : adjacent c d -> adjacent d c.
Proof. unfold adjacent. intuition congruence. Qed.

Lemma joined_sym m c d : joined m c d -> joined m d c.
Proof.
  induction 1 as [c Hi Ht|c d e H IH A Hi Ht]; [now constructor|].
  apply joined_trans with d; [|exact IH].
  destruct (joined_inside _ _ _ H), (joined_true _ _ _ H).
  eapply J_step; [constructor; assumption|now apply adjacent_sym|assumption|assumption].
Qed.

Lemma mapM_ok {A B} (f : A -> res B) l r : mapM f l = Ok r ->
  length r = length l /\
  forall k a b, nth_error l k = Some a -> nth_error r k = Some b -> f a = Ok b.
Proof.
  revert r. induction l as [|a l IH]; cbn; intros r H.
  - injection H as <-. split; [reflexivity|]. intros [|k] ? ? E; discriminate E.
  - destruct (f a) as [b|] eqn:F; [|discriminate]. cbn in H.
    destruct (mapM f l) as [t|]; [|discriminate]. cbn in H. injection H as <-.
    destruct (IH t eq_refl) as [L N]. split; [cbn; lia|].
    intros [|k] x y E1 E2; cbn in *; [congruence|eauto].
Qed.

Lemma mapM_total {A B} (f : A -> res B) l :
  (forall a, In a l -> exists b, f a = Ok b) -> exists r, mapM f l = Ok r.
Proof.
  induction l as [|a l IH]; intros H; [now exists []|].
  destruct (H a (or_introl eq_refl)) as [b E].
  destruct IH as [r R]; [intros; apply H; now right|].
  exists (b :: r). cbn. rewrite E. cbn. now rewrite R.
Qed.

Lemma in_cells n m c : In c (list_prod (seq 0 n) (seq 0 m)) <-> (fst c < n /\ snd c < m)%nat.
Proof.
  destruct c as [i j]. rewrite in_prod_iff, !in_seq. cbn. lia.
Qed.

Lemma region_sum_over lab k f n m sel :
  nr lab = n -> nc lab = m ->
  (forall c, (fst c < n /\ snd c < m)%nat -> sel c = Nat.eqb (px lab (fst c) (snd c)) k) ->
  region_sum lab k f = sum_over n m sel f.
Proof.
  intros En Em H. unfold region_sum, sum_over, all_cells. rewrite En, Em.
  assert (G : forall c, In c (list_prod (seq 0 n) (seq 0 m)) ->
                sel c = Nat.eqb (px lab (fst c) (snd c)) k)
    by (intros c I; apply H; now apply in_cells).
  induction (list_prod (seq 0 n) (seq 0 m)) as [|c l IH]; [reflexivity|].
  cbn [fold_right filter]. rewrite (G c (or_introl eq_refl)), IH by (intros; apply G; now right).
  destruct (Nat.eqb _ _); cbn [map fold_right]; lra.
Qed.

Lemma pixel_at_ok {A} (S : plane A) i j v : pixel_at S i j = Ok v ->
  exists r c, inside S (r, c) /\ v = px S r c /\
    (i = Z.of_nat r \/ i = Z.of_nat r - Z.of_nat (nr S))%Z /\
    (j = Z.of_nat c \/ j = Z.of_nat c - Z.of_nat (nc S))%Z.
Proof.
  unfold pixel_at, py_index. intros H.
  destruct ((i <? - Z.of_nat (nr S)) || (Z.of_nat (nr S) <=? i))%Z eqn:Bi; [discriminate|].
  destruct ((j <? - Z.of_nat (nc S)) || (Z.of_nat (nc S) <=? j))%Z eqn:Bj;
    [destruct (i <? 0)%Z; discriminate|].
  apply orb_false_iff in Bi, Bj. destruct Bi as [B1 B2], Bj as [B3 B4].
  apply Z.ltb_ge in B1, B3. apply Z.leb_gt in B2, B4. unfold inside. cbn.
  destruct (i <? 0)%Z eqn:Ni, (j <? 0)%Z eqn:Nj; injection H as <-;
    apply Z.ltb_lt in Ni || apply Z.ltb_ge in Ni; apply Z.ltb_lt in Nj || apply Z.ltb_ge in Nj;
    do 2 eexists; (split; [|split; [reflexivity|]]); lia.
Qed.

Lemma pixel_at_nat {A} (S : plane A) r c : inside S (r, c) ->
  pixel_at S (Z.of_nat r) (Z.of_nat c) = Ok (px S r c).
Proof.
  intros [H1 H2]. cbn in *. unfold pixel_at, py_index.
  replace ((Z.of_nat r <? - Z.of_nat (nr S)) || (Z.of_nat (nr S) <=? Z.of_nat r))%Z with false
    by (symmetry; apply orb_false_iff; rewrite Z.ltb_ge, Z.leb_gt; lia).
  replace ((Z.of_nat c <? - Z.of_nat (nc S)) || (Z.of_nat (nc S) <=? Z.of_nat c))%Z with false
    by (symmetry; apply orb_false_iff; rewrite Z.ltb_ge, Z.leb_gt; lia).
  destruct (Z.of_nat r <? 0)%Z eqn:E; [apply Z.ltb_lt in E; lia|].
  destruct (Z.of_nat c <? 0)%Z eqn:E'; [apply Z.ltb_lt in E'; lia|].
  now rewrite !Nat2Z.id.
Qed.

Section Regions.
Variables (m : plane bool) (lab : plane nat) (num : nat).
Hypothesis L : labels m lab num.

Lemma lab_bound c : inside m c -> (px lab (fst c) (snd c) <= num)%nat.
Proof. destruct L as (_ & H & _). apply H. Qed.

Lemma firsts_exist : exists firsts : list (nat * nat), length firsts = num /\
  forall k f, nth_error firsts k = Some f ->
    first_of m f /\ px lab (fst f) (snd f) = S k.
Proof.
  destruct L as (_ & _ & _ & H & _ & _).
  assert (G : forall n, (n <= num)%nat -> exists firsts : list (nat * nat), length firsts = n /\
    forall k f, nth_error firsts k = Some f ->
      first_of m f /\ px lab (fst f) (snd f) = S k).
  { induction n as [|n IH]; intros Hn.
    - exists []. split; [reflexivity|]. intros [|k] f E; discriminate E.
    - destruct IH as [l [Hl Hf]]; [lia|]. destruct (H (S n)) as [c [Hc E]]; [lia|].
      exists (l ++ [c]). split; [rewrite app_length; cbn; lia|].
      intros k f E'. destruct (Nat.lt_ge_cases k n) as [K|K].
      + rewrite nth_error_app1 in E' by lia. eauto.
      + rewrite nth_error_app2 in E' by lia.
        destruct (k - length l)%nat as [|q] eqn:Q; cbn in E';
          [injection E' as <-; replace k with n by lia; auto|destruct q; discriminate]. }
  now apply G.
Qed.

Lemma lab_joined f c : inside m f -> inside m c -> px m (fst f) (snd f) = true ->
  (px lab (fst f) (snd f) = px lab (fst c) (snd c) <-> joined m f c).
Proof. destruct L as (_ & _ & _ & _ & H & _). apply H. Qed.

Lemma lab_pos c : inside m c -> px m (fst c) (snd c) = true -> (1 <= px lab (fst c) (snd c))%nat.
Proof.
  intros I T. destruct L as (_ & _ & H & _). specialize (H c I).
  destruct (px lab (fst c) (snd c)); [|lia]. destruct H as [H _]. rewrite H in T by reflexivity.
  discriminate.
Qed.

Lemma lab_order f g : first_of m f -> first_of m g ->
  (px lab (fst f) (snd f) < px lab (fst g) (snd g))%nat -> before f g.
Proof. destruct L as (_ & _ & _ & _ & _ & H). apply H. Qed.

Lemma region_sum_sel (f : nat * nat) sel g :
  joined m f f ->
  (forall c, inside m c -> (sel c = true <-> joined m f c)) ->
  region_sum lab (px lab (fst f) (snd f)) g = sum_over (nr m) (nc m) sel g.
Proof.
  intros J H. destruct L as (Sh & _). unfold shape in Sh. injection Sh as Hr Hc.
  apply region_sum_over; [assumption|assumption|].
  intros c I. destruct (joined_inside _ _ _ J) as [If _].
  destruct (joined_true _ _ _ J) as [Tf _].
  specialize (H c I). pose proof (lab_joined f c If I Tf) as K.
  destruct (sel c) eqn:E; symmetry.
  - apply Nat.eqb_eq. symmetry. apply K, H. reflexivity.
  - apply Nat.eqb_neq. intros Q. symmetry in Q. apply K, H in Q. discriminate.
Qed.
End Regions.

(** The catalogue has exactly one entry per connected region of pixels above the threshold,
    in the row-major order of the regions' first pixels, each at the weighted mean position. *)
Lemma C50_one_entry_per_region_lm : forall stats label (I : plane R) threshold ns mean med std cat,
  stats I = (mean, med, std) ->
  let m := pmap (detected mean std threshold) I in
  labels m (fst (label m)) (snd (label m)) ->
  find_S stats label I threshold ns = Ok cat ->
  exists firsts, length firsts = length cat /\
    (forall c, inside I c -> detected mean std threshold (px I (fst c) (snd c)) = true ->
       exists k f, nth_error firsts k = Some f /\ joined m f c) /\
    (forall j k f g, nth_error firsts j = Some f -> nth_error firsts k = Some g -> (j < k)%nat ->
       before f g /\ ~ joined m f g) /\
    (forall k f e, nth_error firsts k = Some f -> nth_error cat k = Some e ->
       first_of m f /\ entry_of m I (snr mean std) f e).
Proof.
  intros stats label I thr ns mean med std cat Hs m Hl H.
  unfold find_S in H. rewrite Hs in H. change (above mean std thr) with (detected mean std thr) in H. fold m in H.
  destruct (label m) as [lab num]. cbn [fst snd] in Hl.
  apply mapM_ok in H. destruct H as [Len Each]. rewrite seq_length in Len.
  destruct (firsts_exist m lab num Hl) as [fs [Lf Hf]].
  exists fs. split; [congruence|]. split; [|split].
  - intros c Ic Tc.
    assert (Tm : px m (fst c) (snd c) = true) by exact Tc.
    pose proof (lab_pos m lab num Hl c Ic Tm) as P.
    pose proof (lab_bound m lab num Hl c Ic) as B.
    set (q := px lab (fst c) (snd c)) in *.
    destruct (nth_error fs (q - 1)) as [f|] eqn:E; [|apply nth_error_None in E; lia].
    destruct (Hf _ _ E) as [F Ef]. exists (q - 1)%nat, f. split; [exact E|].
    destruct (joined_inside _ _ _ (proj1 F)), (joined_true _ _ _ (proj1 F)).
    apply (lab_joined m lab num Hl); try assumption. fold q. lia.
  - intros j k f g Ej Ek Hjk. destruct (Hf _ _ Ej) as [F Ef], (Hf _ _ Ek) as [G Eg]. split.
    + apply (lab_order m lab num Hl); [assumption|assumption|lia].
    + intros J. destruct (joined_inside _ _ _ J), (joined_true _ _ _ J).
      apply (lab_joined m lab num Hl) in J; try assumption. lia.
  - intros k f [[y x] s] Ef Ee. destruct (Hf _ _ Ef) as [F E]. split; [exact F|].
    assert (Kn : (k < num)%nat) by (rewrite <- Lf; apply nth_error_Some; congruence).
    assert (Sk : nth_error (seq 1 num) k = Some (S k)).
    { rewrite (nth_error_nth' _ 0%nat) by (rewrite seq_length; lia). now rewrite seq_nth by lia. }
    specialize (Each _ _ _ Sk Ee). cbn beta in Each.
    unfold region_com in Each. rewrite <- E in Each.
    destruct (Req_EM_T (region_sum lab (px lab (fst f) (snd f)) (px I)) 0) as [Z|NZ];
      [discriminate|].
    match type of Each with bind ?p _ = _ => destruct p as [v|] eqn:P; [|discriminate] end.
    cbn [bind] in Each. injection Each as Ey Ex Es. split.
    + intros sel Hsel. cbn zeta.
      change (nr I) with (nr m). change (nc I) with (nc m).
      rewrite <- !(region_sum_sel m lab num Hl f sel _ (proj1 F) Hsel).
      split; [exact NZ|]. rewrite <- Ex, <- Ey. split; field; exact NZ.
    + apply pixel_at_ok in P. destruct P as (r & c & In & Ev & Pi & Pj).
      exists r, c. split; [exact In|]. split; [rewrite <- Es, Ev; reflexivity|]. rewrite <- Ex, <- Ey. now split.
Qed.

(** neighborhood_size is ignored. *)
Lemma C50_neighborhood_ignored_lm : forall stats label I threshold n1 n2,
  find_S stats label I threshold n1 = find_S stats label I threshold n2.
Proof. reflexivity. Qed.

Lemma fold_mono (f g : nat * nat -> R) (cs : list (nat * nat)) :
  (forall c, In c cs -> f c <= g c) ->
  fold_right Rplus 0 (map f cs) <= fold_right Rplus 0 (map g cs).
Proof.
  induction cs as [|c cs IH]; intros H; cbn; [lra|].
  pose proof (H c (or_introl eq_refl)). specialize (IH (fun d I => H d (or_intror I))). lra.
Qed.

Lemma fold_scale (a : R) (f : nat * nat -> R) (cs : list (nat * nat)) :
  fold_right Rplus 0 (map (fun c => a * f c) cs) = a * fold_right Rplus 0 (map f cs).
Proof. induction cs as [|c cs IH]; cbn; [ring|rewrite IH; ring]. Qed.

Lemma fold_pos (f : nat * nat -> R) (cs : list (nat * nat)) :
  cs <> [] -> (forall c, In c cs -> 0 < f c) -> 0 < fold_right Rplus 0 (map f cs).
Proof.
  induction cs as [|c cs IH]; intros N H; [congruence|]. cbn.
  pose proof (H c (or_introl eq_refl)). destruct cs as [|d ds]; [cbn; lra|].
  specialize (IH ltac:(congruence) (fun d I => H d (or_intror I))). lra.
Qed.

(** A weighted mean with weights of one sign lies between the extremes. *)
Lemma weighted_mean_between (w g : nat * nat -> R) (cs : list (nat * nat)) lo hi :
  cs <> [] -> (forall c d, In c cs -> In d cs -> 0 < w c * w d) ->
  (forall c, In c cs -> lo <= g c <= hi) ->
  let T := fold_right Rplus 0 (map w cs) in
  T <> 0 /\ lo <= fold_right Rplus 0 (map (fun c => w c * g c) cs) / T <= hi.
Proof.
  intros N W G T.
  assert (D : (forall c, In c cs -> 0 < w c) \/ (forall c, In c cs -> 0 < - w c)).
  { destruct cs as [|a l]; [congruence|].
    destruct (Rlt_dec 0 (w a)) as [P|P].
    - left. intros c I. pose proof (W a c (or_introl eq_refl) I).
      destruct (Rlt_dec 0 (w c)) as [|Q]; [assumption|nra].
    - right. intros c I. pose proof (W a c (or_introl eq_refl) I). nra. }
  destruct D as [P|P].
  - assert (TP : 0 < T) by now apply fold_pos. split; [lra|].
    assert (A : lo * T <= fold_right Rplus 0 (map (fun c => w c * g c) cs) <= hi * T).
    { unfold T. rewrite <- !fold_scale. split; apply fold_mono; intros c I;
        specialize (P c I); specialize (G c I); nra. }
    split; apply (Rmult_le_reg_r T); try lra; unfold Rdiv;
      rewrite Rmult_assoc, Rinv_l by lra; lra.
  - assert (TP : 0 < - T).
    { unfold T. replace (- fold_right Rplus 0 (map w cs))
        with (fold_right Rplus 0 (map (fun c => -1 * w c) cs)) by (rewrite fold_scale; ring).
      apply fold_pos; [exact N|]. intros c I. specialize (P c I). lra. }
    split; [lra|].
    assert (A : hi * T <= fold_right Rplus 0 (map (fun c => w c * g c) cs) <= lo * T).
    { unfold T. rewrite <- !fold_scale. split; apply fold_mono; intros c I;
        specialize (P c I); specialize (G c I); nra. }
    split; apply (Rmult_le_reg_r (- T)); try lra; unfold Rdiv;
      rewrite Rmult_assoc; replace (/ T * - T) with (-1) by (field; lra); lra.
Qed.

Lemma Ztrunc_between x n : 0 <= x <= INR n ->
  exists i, (i <= n)%nat /\ Ztrunc x = Z.of_nat i /\ INR i <= x < INR i + 1.
Proof.
  intros [H0 H1]. exists (Z.to_nat (Ztrunc x)).
  rewrite Ztrunc_floor by exact H0.
  assert (F0 : (0 <= Zfloor x)%Z) by now apply Zfloor_lub.
  assert (F1 : (Zfloor x <= Z.of_nat n)%Z).
  { rewrite <- (Zfloor_IZR (Z.of_nat n)). apply Zfloor_le. now rewrite <- INR_IZR_INZ. }
  split; [lia|]. split; [lia|]. rewrite INR_IZR_INZ, Z2Nat.id by exact F0.
  split; [apply Zfloor_lb|apply Zfloor_ub].
Qed.

(** When the pixels of each region have values of one sign, the call succeeds and every
    reported position lies in the bounding box of its region; the significance is that of the
    pixel under the position. *)
Lemma C50_inside_box_lm : forall stats label (I : plane R) threshold ns mean med std,
  stats I = (mean, med, std) ->
  let m := pmap (detected mean std threshold) I in
  labels m (fst (label m)) (snd (label m)) ->
  (forall c d, joined m c d -> 0 < px I (fst c) (snd c) * px I (fst d) (snd d)) ->
  exists cat, find_S stats label I threshold ns = Ok cat /\
    forall k y x s, nth_error cat k = Some (y, x, s) ->
      exists f, first_of m f /\ entry_of m I (snr mean std) f (y, x, s) /\
        (forall r0 r1 c0 c1, (forall c, joined m f c -> r0 <= fst c <= r1 /\ c0 <= snd c <= c1)%nat ->
           INR r0 <= x <= INR r1 /\ INR c0 <= y <= INR c1) /\
        exists i j, inside I (i, j) /\ INR i <= x < INR i + 1 /\ INR j <= y < INR j + 1 /\
          s = snr mean std (px I i j).
Proof.
  intros stats label I thr ns mean med std Hs m Hl Sg.
  assert (Box : forall k, (1 <= k <= snd (label m))%nat -> exists f x y,
    first_of m f /\ px (fst (label m)) (fst f) (snd f) = k /\
    region_com I (fst (label m)) k = Some (x, y) /\
    (forall r0 r1 c0 c1, (forall c, joined m f c -> r0 <= fst c <= r1 /\ c0 <= snd c <= c1)%nat ->
           INR r0 <= x <= INR r1 /\ INR c0 <= y <= INR c1)).
  { intros k Hk. pose proof Hl as (Shp & _ & _ & Ex & _ & _).
    destruct (Ex k Hk) as [f [F Ef]].
    set (lab := fst (label m)) in *.
    set (sel := fun c : nat * nat => Nat.eqb (px lab (fst c) (snd c)) k).
    assert (Hr : nr lab = nr I /\ nc lab = nc I).
    { unfold shape in Shp. injection Shp as A B. split; [exact A|exact B]. }
    destruct Hr as [Hr Hc].
    assert (RS : forall g, region_sum lab k g = sum_over (nr I) (nc I) sel g)
      by (intros g; now apply region_sum_over).
    set (cs := filter sel (list_prod (seq 0 (nr I)) (seq 0 (nc I)))).
    destruct (joined_inside _ _ _ (proj1 F)) as [If _].
    destruct (joined_true _ _ _ (proj1 F)) as [Tf _].
    assert (InJ : forall c, In c cs -> joined m f c).
    { intros c Ic. apply filter_In in Ic. destruct Ic as [Ic Sc]. apply in_cells in Ic.
      apply Nat.eqb_eq in Sc. apply (lab_joined m lab _ Hl); [assumption|exact Ic|assumption|congruence]. }
    assert (Nn : cs <> []).
    { assert (In f cs).
      { apply filter_In. split; [apply in_cells; exact If|]. apply Nat.eqb_eq, Ef. }
      intros E. rewrite E in H. destruct H. }
    assert (Ws : forall c d, In c cs -> In d cs ->
       0 < px I (fst c) (snd c) * px I (fst d) (snd d)).
    { intros c d Ic Id. apply Sg. apply joined_trans with f; [apply joined_sym|]; auto. }
    assert (WM := fun g lo hi => weighted_mean_between
       (fun c => px I (fst c) (snd c)) g cs lo hi Nn Ws). cbn beta zeta in WM.
    assert (TN : region_sum lab k (px I) <> 0).
    { rewrite RS. unfold sum_over. fold cs. apply (WM (fun _ => 0) 0 0). intros; lra. }
    exists f. unfold region_com. destruct (Req_EM_T _ 0) as [Z|_]; [contradiction|].
    do 2 eexists. split; [exact F|]. split; [exact Ef|]. split; [reflexivity|].
    intros r0 r1 c0 c1 B. rewrite !RS. unfold sum_over. fold cs. split.
    - apply (WM (fun c => INR (fst c))). intros c Ic. specialize (B c (InJ c Ic)).
      split; apply le_INR; lia.
    - apply (WM (fun c => INR (snd c))). intros c Ic. specialize (B c (InJ c Ic)).
      split; apply le_INR; lia. }
  assert (Pix : forall f x y, first_of m f ->
    (forall r0 r1 c0 c1, (forall c, joined m f c -> r0 <= fst c <= r1 /\ c0 <= snd c <= c1)%nat ->
           INR r0 <= x <= INR r1 /\ INR c0 <= y <= INR c1) ->
    exists i j, inside I (i, j) /\ INR i <= x < INR i + 1 /\ INR j <= y < INR j + 1 /\
      pixel_at I (Ztrunc x) (Ztrunc y) = Ok (px I i j)).
  { intros f x y F B.
    destruct (joined_inside _ _ _ (proj1 F)) as [[If1 If2] _].
    change (nr m) with (nr I) in If1. change (nc m) with (nc I) in If2.
    destruct (B 0%nat (nr I - 1)%nat 0%nat (nc I - 1)%nat) as [Bx By].
    { intros c J. apply joined_inside in J. destruct J as [_ [J1 J2]].
      change (nr m) with (nr I) in J1. change (nc m) with (nc I) in J2. lia. }
    destruct (Ztrunc_between x _ Bx) as (i & Li & Ei & Ri).
    destruct (Ztrunc_between y _ By) as (j & Lj & Ej & Rj).
    assert (In : inside I (i, j)) by (split; cbn; lia).
    exists i, j. split; [exact In|]. split; [exact Ri|]. split; [exact Rj|].
    rewrite Ei, Ej. now apply pixel_at_nat. }
  assert (Good : exists cat, find_S stats label I thr ns = Ok cat).
  { unfold find_S. rewrite Hs. change (above mean std thr) with (detected mean std thr). fold m. destruct (label m) as [lab num]. cbn [fst snd] in *.
    apply mapM_total. intros k Ik. apply in_seq in Ik.
    destruct (Box k ltac:(lia)) as (f & x & y & F & _ & E & B). rewrite E.
    destruct (Pix f x y F B) as (i & j & _ & _ & _ & P). rewrite P. cbn. eauto. }
  destruct Good as [cat Hcat]. exists cat. split; [exact Hcat|].
  intros k y x s Ek.
  destruct (C50_one_entry_per_region_lm stats label I thr ns mean med std cat Hs Hl Hcat)
    as (fs & Lf & _ & _ & En).
  assert (Each := Hcat). unfold find_S in Each. rewrite Hs in Each. change (above mean std thr) with (detected mean std thr) in Each. fold m in Each.
  destruct (label m) as [lab num]. cbn [fst snd] in *. apply mapM_ok in Each.
  destruct Each as [Len Each]. rewrite seq_length in Len.
  assert (Kn : (k < num)%nat) by (rewrite <- Len; apply nth_error_Some; congruence).
  assert (Sk : nth_error (seq 1 num) k = Some (S k)).
  { rewrite (nth_error_nth' _ 0%nat) by (rewrite seq_length; lia). now rewrite seq_nth by lia. }
  specialize (Each _ _ _ Sk Ek). cbn beta in Each.
  destruct (Box (S k) ltac:(lia)) as (f & x' & y' & F & Lb & E & B). rewrite E in Each.
  destruct (Pix f x' y' F B) as (i & j & In & Rx & Ry & P). rewrite P in Each. cbn in Each.
  injection Each as -> -> Es.
  destruct (nth_error fs k) as [f'|] eqn:Ef; [|apply nth_error_None in Ef; lia].
  destruct (En _ _ _ Ef Ek) as [F' Ent].
  exists f. split; [exact F|]. split.
  - split; [|].
    + intros sel Hsel. cbn zeta. change (nr I) with (nr m). change (nc I) with (nc m).
      rewrite <- !(region_sum_sel m lab num Hl f sel _ (proj1 F) Hsel). rewrite Lb.
      unfold region_com in E. destruct (Req_EM_T _ 0) as [|NZ]; [discriminate|].
      injection E as <- <-. split; [exact NZ|]. split; field; exact NZ.
    + exists i, j. split; [exact In|]. split; [now symmetry|].
      apply pixel_at_ok in P. destruct P as (r & c & _ & _ & _ & _).
      assert (Tr : forall z n, INR n <= z < INR n + 1 -> Ztrunc z = Z.of_nat n).
      { intros z n [Z1 Z2]. rewrite Ztrunc_floor by (pose proof (pos_INR n); lra).
        apply Zfloor_imp. rewrite plus_IZR, <- INR_IZR_INZ. lra. }
      split; left; now apply Tr.
  - split; [exact B|]. exists i, j. repeat (split; [assumption|]). now symmetry.
Qed.

(** A ring of bright pixels around a dark one is reported at the dark pixel, with a
    significance below the threshold. *)
Definition ring : plane R := mkplane 3 3 (fun i j => if Nat.eqb i 1 && Nat.eqb j 1 then 0 else 10).
Definition ring_labels : plane nat := mkplane 3 3 (fun i j => if Nat.eqb i 1 && Nat.eqb j 1 then 0 else 1)%nat.

Lemma ring_mask i j : px (pmap (detected 0 1 3) ring) i j = negb (Nat.eqb i 1 && Nat.eqb j 1).
Proof.
  cbn. unfold detected. destruct (Req_EM_T 1 0) as [|_]; [lra|].
  destruct (Nat.eqb i 1 && Nat.eqb j 1); cbn; destruct (Rlt_dec _ _); try reflexivity; lra.
Qed.

Lemma ring_joined c : (fst c < 3)%nat -> (snd c < 3)%nat -> c <> (1, 1)%nat ->
  joined (pmap (detected 0 1 3) ring) (0, 0)%nat c.
Proof.
  set (m := pmap (detected 0 1 3) ring).
  assert (St : forall c d, joined m (0,0)%nat c -> adjacent c d -> (fst d < 3)%nat -> (snd d < 3)%nat ->
            d <> (1,1)%nat -> joined m (0,0)%nat d).
  { intros c1 d J A D1 D2 D3. eapply J_step; [exact J|exact A|split; assumption|].
    unfold m. rewrite ring_mask. destruct d as [[|[|[]]] [|[|[]]]]; cbn in *; try reflexivity; congruence || lia. }
  assert (J00 : joined m (0,0)%nat (0,0)%nat).
  { constructor; [split; cbn; lia|]. unfold m. now rewrite ring_mask. }
  assert (J01 : joined m (0,0)%nat (0,1)%nat) by (apply (St _ _ J00); unfold adjacent; cbn; [left; lia|lia|lia|congruence]).
  assert (J02 : joined m (0,0)%nat (0,2)%nat) by (apply (St _ _ J01); unfold adjacent; cbn; [left; lia|lia|lia|congruence]).
  assert (J12 : joined m (0,0)%nat (1,2)%nat) by (apply (St _ _ J02); unfold adjacent; cbn; [right; lia|lia|lia|congruence]).
  assert (J22 : joined m (0,0)%nat (2,2)%nat) by (apply (St _ _ J12); unfold adjacent; cbn; [right; lia|lia|lia|congruence]).
  assert (J21 : joined m (0,0)%nat (2,1)%nat) by (apply (St _ _ J22); unfold adjacent; cbn; [left; lia|lia|lia|congruence]).
  assert (J20 : joined m (0,0)%nat (2,0)%nat) by (apply (St _ _ J21); unfold adjacent; cbn; [left; lia|lia|lia|congruence]).
  assert (J10 : joined m (0,0)%nat (1,0)%nat) by (apply (St _ _ J20); unfold adjacent; cbn; [right; lia|lia|lia|congruence]).
  intros H1 H2 H3. destruct c as [[|[|[|i]]] [|[|[|j]]]]; cbn in *; try lia; try assumption.
  congruence.
Qed.

Lemma ring_labelled : labels (pmap (detected 0 1 3) ring) ring_labels 1.
Proof.
  set (m := pmap (detected 0 1 3) ring).
  assert (Not : forall c, px m (fst c) (snd c) = true -> c <> (1,1)%nat).
  { intros c T ->. unfold m in T. rewrite ring_mask in T. discriminate T. }
  assert (F00 : first_of m (0,0)%nat).
  { split; [apply ring_joined; cbn; [lia|lia|congruence]|].
    intros [i j] _. destruct i; [destruct j; [now left|]|]; right; unfold before; cbn; lia. }
  split; [reflexivity|]. split; [|split; [|split; [|split]]].
  - intros c _. cbn. destruct (_ && _); lia.
  - intros c _. unfold m. rewrite ring_mask. cbn. destruct (_ && _); cbn; split; congruence.
  - intros k Hk. exists (0,0)%nat. split; [exact F00|]. cbn. lia.
  - intros c d [C1 C2] [D1 D2] T. cbn in C1, C2, D1, D2. split.
    + intros E. apply joined_trans with (0,0)%nat; [apply joined_sym|]; apply ring_joined; auto.
      cbn in E. specialize (Not c T). intros ->. cbn in E.
      destruct c as [[|[|[|i]]] [|[|[|j]]]]; cbn in E; try lia; congruence.
    + intros J. destruct (joined_true _ _ _ J) as [_ Td].
      unfold m in T, Td. rewrite ring_mask in T, Td. cbn.
      destruct (Nat.eqb (fst c) 1 && Nat.eqb (snd c) 1); [discriminate|].
      destruct (Nat.eqb (fst d) 1 && Nat.eqb (snd d) 1); [discriminate|]. reflexivity.
  - intros c d F _. destruct (joined_true _ _ _ (proj1 F)) as [T _].
    unfold m in T. rewrite ring_mask in T. cbn.
    destruct (Nat.eqb (fst c) 1 && Nat.eqb (snd c) 1); [discriminate|].
    destruct (Nat.eqb (fst d) 1 && Nat.eqb (snd d) 1); lia.
Qed.

(** The reported significance can be below the threshold. *)
Lemma C50_below_threshold_refuted_lm : exists stats label (I : plane R) threshold mean med std y x s,
  stats I = (mean, med, std) /\
  (let m := pmap (detected mean std threshold) I in labels m (fst (label m)) (snd (label m))) /\
  (exists ns, find_S stats label I threshold ns = Ok [(y, x, Some s)]) /\ s < threshold.
Proof.
  exists (fun _ => (0, 0, 1)), (fun _ => (ring_labels, 1%nat)), ring, 3, 0, 0, 1, 1, 1, 0.
  split; [reflexivity|]. split; [exact ring_labelled|]. split; [|lra].
  exists 5. unfold find_S, region_com, region_sum, all_cells. cbn -[Ztrunc pixel_at significance].
  destruct (Req_EM_T _ 0) as [E|NE]; [lra|].
  match goal with |- context [pixel_at ring (Ztrunc ?a) (Ztrunc ?b)] =>
    replace a with 1 by field; replace b with 1 by field end.
  rewrite (Ztrunc_IZR 1). cbn. unfold significance. destruct (Req_EM_T 1 0) as [|_]; [lra|].
  do 4 f_equal. change (Pos.to_nat 1) with 1%nat. cbn. field.
Qed.
