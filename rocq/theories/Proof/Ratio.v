(** Zero points of two images in closed form, and the flux ratio that follows from them. *)
From Coq Require Import ZArith List Bool Arith Reals Lia Lra Permutation.
From Verif.Model Require Import Py Plane Ma Transparency Subtract.
From Verif.Spec Require Import Transparency Subtract Ratio.
From Verif.Proof Require Import LeastSquares Transparency TransparencyFresh TransparencyMain Nearest.
From Verif.Proof Require SubtractFit.
Import ListNotations.
Set Bullet Behavior "Strict Subproofs".
Local Open Scope R_scope.

Lemma map_nth_seq (l : list nat) : map (fun r => nth r l 0%nat) (seq 0 (length l)) = l.
Proof.
  induction l as [|x l IH]; [reflexivity|]. cbn [length seq map nth]. f_equal.
  rewrite <- seq_shift, map_map. exact IH.
Qed.

(** C92: the zero points of two images. *)
Lemma C92_zero_points_lm : forall query sort_cat lsqr images master a b l partner o,
  nearest query -> (forall l, Permutation (sort_cat l) l) -> solves lsqr ->
  roles images master a [b] -> has_id a = false -> positive a -> positive b ->
  common query a [b] l -> l <> [] -> (forall i, In i l -> matched query a b i (partner i)) ->
  transparency query sort_cat lsqr images master = Ok o ->
  let q := INR (length l) in
  let A := mean_mag a (fun i => i) l in
  let B := mean_mag b partner l in
  zps o = [A - (A + B) / (q + 2); B - (A + B) / (q + 2)].
Proof.
  intros query sort_cat lsqr images master a b l partner o N SP So Ro F _ _ C Hl Mt E0 q A B.
  rewrite (transparency_roles query sort_cat lsqr _ _ _ _ Ro) in E0.
  destruct (fresh_zps query N sort_cat SP lsqr a [b] l F C Hl) as (m & partner' & o' & E & Z & _ & Lm & M & V0 & V1).
  assert (o' = o) by congruence. subst o'. cbn [length] in *. set (n := length l) in *.
  assert (Hq : (0 < n)%nat) by (unfold n; destruct l; [congruence|cbn; lia]).
  assert (Hq' : 0 < q) by (unfold q; now apply lt_0_INR).
  rewrite (zps_value lsqr 2 n m So ltac:(lia) Hq Lm) in Z.
  assert (LZ : length (zps o) = 2%nat). { rewrite Z, firstn_length, closed_len. lia. }
  pose proof (zps_nth 2 n m 0 ltac:(lia)) as Z0. pose proof (zps_nth 2 n m 1 ltac:(lia)) as Z1.
  rewrite <- Z in Z0, Z1.
  assert (S0 : block_mean m n 0 = A).
  { unfold block_mean, A, mean_mag. f_equal.
    transitivity (sumR (fun r => mag_of a (nth r l 0%nat)) (seq 0 n)).
    - apply sumR_ext. intros r Hr. apply in_seq in Hr. cbn [Nat.mul Nat.add]. now rewrite V0 by lia.
    - rewrite <- (sumR_map (mag_of a) (fun r => nth r l 0%nat)). f_equal. apply map_nth_seq. }
  assert (S1 : block_mean m n 1 = B).
  { unfold block_mean, B, mean_mag. f_equal.
    transitivity (sumR (fun r => mag_of b (partner (nth r l 0%nat))) (seq 0 n)).
    - apply sumR_ext. intros r Hr. apply in_seq in Hr. specialize (V1 0%nat r ltac:(lia) ltac:(lia)).
      replace (n + r * 1 + 0)%nat with (1 * n + r)%nat in V1 by lia. rewrite V1. f_equal.
      assert (Il : In (nth r l 0%nat) l) by (apply nth_In; fold n; lia).
      exact (mutual_fun_r query _ _ _ _ _ _ (M 0%nat _ ltac:(lia) Il) (Mt _ Il)).
    - rewrite <- (sumR_map (fun i => mag_of b (partner i)) (fun r => nth r l 0%nat)). f_equal. apply map_nth_seq. }
  assert (Al : alpha 2 n m = (A + B) / (q + 2)).
  { unfold alpha, grand. cbn [seq sumR fold_right].
    change (rowmean n m 0) with (block_mean m n 0). change (rowmean n m 1) with (block_mean m n 1).
    rewrite S0, S1. change (INR 2) with (1 + 1). fold q. field. lra. }
  rewrite Al, S0 in Z0. rewrite Al, S1 in Z1.
  destruct (zps o) as [|z0 [|z1 [|]]]; try discriminate. cbn [nth] in Z0, Z1. now subst.
Qed.

Lemma measured_zps e x y a b l partner : measured e x y a b l partner ->
  let q := INR (length l) in
  let A := mean_mag a (fun i => i) l in
  let B := mean_mag b partner l in
  1 <= q /\ e_transp e x y = Ok (A - (A + B) / (q + 2), B - (A + B) / (q + 2)).
Proof.
  intros (F & Pa & Pb & Hl & query & sort_cat & lsqr & o & N & SP & So & C & Mt & E & T) q A B.
  split.
  - unfold q. change 1 with (INR 1). apply le_INR. destruct l; [congruence|cbn; lia].
  - rewrite T. rewrite (C92_zero_points_lm query sort_cat lsqr [a; b] None a b l partner o N SP So (or_introl (conj eq_refl eq_refl)) F Pa Pb C Hl Mt E).
    reflexivity.
Qed.

(** C92: the flux ratio of a subtraction that does not fit it. *)
Lemma C92_ratio_lm : forall e x y a b l partner shift it fitted k dx dy,
  measured e x y a b l partner ->
  ratio_and_shift e (Is x) (Is y) false false shift it fitted = Ok (k, dx, dy) ->
  let q := INR (length l) in
  let A := mean_mag a (fun i => i) l in
  let B := mean_mag b partner l in
  A * (q + 1) <> B ->
  k = (B * (q + 1) - A) / (A * (q + 1) - B).
Proof.
  intros e x y a b l partner shift it fitted k dx dy M H q A B NZ.
  destruct (measured_zps _ _ _ _ _ _ _ M) as (Q & T). fold q A B in Q, T.
  assert (K : k = (B - (A + B) / (q + 2)) / (A - (A + B) / (q + 2))).
  { destruct (SubtractFit.sources _ _ _ _ _ _ _ _ _ _ _ _ T H) as [(E & _)|[(E & _)|[(E & _)|[(E & _)|(_ & _ & E & _)]]]];
      try discriminate; exact E. }
  rewrite K. field. repeat split; try lra.
  all: intros Z; apply NZ; lra.
Qed.

Lemma mean_mag_lt a b (f g : nat -> nat) l : l <> [] ->
  (forall i, In i l -> 0 < flux_of a (f i) < flux_of b (g i)) -> mean_mag b g l < mean_mag a f l.
Proof.
  intros Hl H. unfold mean_mag.
  assert (L : 0 < ln 10) by (rewrite <- ln_1; apply ln_increasing; lra).
  assert (Mg : forall i, In i l -> mag_of b (g i) < mag_of a (f i)).
  { intros i Hi. destruct (H i Hi) as (P0 & P1). unfold mag_of. fold (flux_of a (f i)). fold (flux_of b (g i)).
    pose proof (ln_increasing _ _ P0 P1) as LN. pose proof (Rinv_0_lt_compat _ L) as LI.
    assert (ln (flux_of a (f i)) / ln 10 < ln (flux_of b (g i)) / ln 10) by (unfold Rdiv; now apply Rmult_lt_compat_r).
    lra. }
  assert (S : sumR (fun i => mag_of b (g i)) l < sumR (fun i => mag_of a (f i)) l).
  { clear H. induction l as [|i l IH]; [congruence|]. change (mag_of b (g i) + sumR (fun i => mag_of b (g i)) l < mag_of a (f i) + sumR (fun i => mag_of a (f i)) l).
    pose proof (Mg i (or_introl eq_refl)). destruct l as [|j l'].
    - change (mag_of b (g i) + 0 < mag_of a (f i) + 0). lra.
    - specialize (IH ltac:(congruence) (fun i' Hi' => Mg i' (or_intror Hi'))). lra. }
  assert (Q : 0 < INR (length l)) by (apply lt_0_INR; destruct l; [congruence|cbn; lia]).
  unfold Rdiv. apply Rmult_lt_compat_r; [now apply Rinv_0_lt_compat|exact S].
Qed.

Lemma positive_flux c i : positive c -> (i < length (rows c))%nat -> 0 < flux_of c i.
Proof. intros P H. unfold positive in P. rewrite Forall_forall in P. apply P. now apply nth_In. Qed.

Lemma measured_bounds e x y a b l partner i : measured e x y a b l partner -> In i l ->
  0 < flux_of a i /\ 0 < flux_of b (partner i).
Proof.
  intros (_ & Pa & Pb & _ & query & _ & _ & _ & N & _ & _ & _ & Mt & _) Hi.
  destruct (mutual_bounds query N _ _ _ _ _ (Mt i Hi)) as (H1 & H2). rewrite map_length in H1, H2.
  split; now apply positive_flux.
Qed.

(** C92: the zero points order the images the wrong way round. *)
Lemma C92_fainter_heavier_lm : forall e x y a b l partner zr zn,
  measured e x y a b l partner -> e_transp e x y = Ok (zr, zn) ->
  (forall i, In i l -> flux_of a i < flux_of b (partner i)) -> zn < zr.
Proof.
  intros e x y a b l partner zr zn M T H.
  assert (Hl : l <> []) by apply M.
  assert (AB := mean_mag_lt a b (fun i => i) partner l Hl
    (fun i Hi => conj (proj1 (measured_bounds _ _ _ _ _ _ _ i M Hi)) (H i Hi))).
  destruct (measured_zps _ _ _ _ _ _ _ M) as (_ & T'). rewrite T in T'. injection T' as -> ->. lra.
Qed.

(** C92: so a brighter new image gets a ratio below 1 (as long as the zero point of the
    reference is positive). *)
Lemma C92_opposite_lm : forall e x y a b l partner shift it fitted k dx dy,
  measured e x y a b l partner ->
  ratio_and_shift e (Is x) (Is y) false false shift it fitted = Ok (k, dx, dy) ->
  (forall i, In i l -> flux_of a i < flux_of b (partner i)) ->
  mean_mag b partner l < mean_mag a (fun i => i) l * (INR (length l) + 1) ->
  k < 1.
Proof.
  intros e x y a b l partner shift it fitted k dx dy M H Br Pos.
  assert (Hl : l <> []) by apply M.
  assert (AB := mean_mag_lt a b (fun i => i) partner l Hl
    (fun i Hi => conj (proj1 (measured_bounds _ _ _ _ _ _ _ i M Hi)) (Br i Hi))).
  rewrite (C92_ratio_lm _ _ _ _ _ _ _ _ _ _ _ _ _ M H) by lra.
  destruct (measured_zps _ _ _ _ _ _ _ M) as (Q & _).
  set (A := mean_mag a (fun i => i) l) in *. set (B := mean_mag b partner l) in *. set (q := INR (length l)) in *.
  apply (Rmult_lt_reg_r (A * (q + 1) - B)); [lra|]. unfold Rdiv. rewrite Rmult_assoc, Rinv_l by lra. nra.
Qed.

(** One source of flux 10^k. *)
Definition one_star (k : nat) : cat := mkcat false false [mkrow 0 0 (10 ^ k) 0 false].

Lemma one_star_matched query j k : nearest query -> matched query (one_star j) (one_star k) 0 0.
Proof.
  intros N. eapply C44_strict_nearest_lm; [exact N|reflexivity|reflexivity| | |].
  - cbn. unfold dist. cbn. replace ((0 - 0) * ((0 - 0) * 1) + (0 - 0) * ((0 - 0) * 1)) with 0 by lra. rewrite sqrt_0. lra.
  - intros [|j'] b' E Hn; [lia|destruct j'; discriminate].
  - intros [|j'] b' E Hn; [lia|destruct j'; discriminate].
Qed.

Lemma one_star_common query j k : nearest query -> common query (one_star j) [one_star k] [0%nat].
Proof.
  intros N. split; [repeat constructor; cbn; intuition lia|]. split.
  - intros [|a] [|b] i i' H Ea Eb; try lia; destruct b; discriminate.
  - intros i. cbn [rows one_star length]. split.
    + intros [<-|[]]. split; [lia|]. intros c [<-|[]]. exists 0%nat. now apply one_star_matched.
    + intros (Hi & _). cbn. lia.
Qed.


Lemma one_star_mean k : mean_mag (one_star k) (fun i => i) [0%nat] = 20 - 5 / 2 * INR k.
Proof.
  unfold mean_mag, mag_of. cbn [sumR fold_right length nth rows one_star r_flux].
  rewrite <- Rpower_pow by lra. unfold Rpower. rewrite ln_exp.
  assert (L : 0 < ln 10) by (rewrite <- ln_1; apply ln_increasing; lra).
  change (INR 1) with 1. field. lra.
Qed.

Lemma one_star_positive k : positive (one_star k).
Proof. repeat constructor. cbn. apply pow_lt. lra. Qed.

(** The surroundings in which the catalogues are those two stars. *)
Definition star_zps (j k : nat) : R * R :=
  match transparency nn_query (fun l => l) exact_lsqr [one_star j; one_star k] None with
  | Ok o => (nth 0 (zps o) 0, nth 1 (zps o) 0)
  | Raise _ => (0, 0)
  end.
Definition star_env (j k : nat) : env := ex_env (fst (star_zps j k)) (snd (star_zps j k)) ex_found.

Lemma star_measured j k x y : measured (star_env j k) x y (one_star j) (one_star k) [0%nat] (fun i => i).
Proof.
  split; [reflexivity|]. split; [apply one_star_positive|]. split; [apply one_star_positive|].
  split; [congruence|].
  destruct (C46_offset_lm nn_query (fun l => l) exact_lsqr [one_star j; one_star k] None (one_star j) (one_star k) [0%nat]
    nn_nearest (fun l => Permutation_refl l) exact_lsqr_solves (or_introl (conj eq_refl eq_refl)) eq_refl
    (one_star_positive j) (one_star_positive k) (one_star_common _ j k nn_nearest) ltac:(congruence))
    as (o & p & z0 & z1 & E & _).
  exists nn_query, (fun l => l), exact_lsqr, o.
  split; [exact nn_nearest|]. split; [intros; apply Permutation_refl|]. split; [exact exact_lsqr_solves|].
  split; [apply one_star_common, nn_nearest|]. split; [intros i [<-|[]]; apply one_star_matched, nn_nearest|].
  split; [exact E|]. unfold star_env, star_zps, ex_env. cbn [e_transp]. rewrite E. reflexivity.
Qed.

Lemma star_ratio j k : exists v,
  ratio_and_shift (star_env j k) (Is (ex_dimg 1 Nomask)) (Is (ex_dimg 2 Nomask)) false false false false true = Ok (v, 0, 0).
Proof. unfold ratio_and_shift. cbn -[star_zps Rdiv]. eexists. reflexivity. Qed.

Lemma star_value j k v : 
  ratio_and_shift (star_env j k) (Is (ex_dimg 1 Nomask)) (Is (ex_dimg 2 Nomask)) false false false false true = Ok (v, 0, 0) ->
  2 * (20 - 5 / 2 * INR j) <> 20 - 5 / 2 * INR k ->
  v = (2 * (20 - 5 / 2 * INR k) - (20 - 5 / 2 * INR j)) / (2 * (20 - 5 / 2 * INR j) - (20 - 5 / 2 * INR k)).
Proof.
  intros H NZ.
  pose proof (C92_ratio_lm _ _ _ _ _ _ _ _ _ _ _ _ _ (star_measured j k _ _) H) as K. cbn zeta in K.
  rewrite !one_star_mean in K. cbn [length] in K. change (INR 1) with 1 in K.
  rewrite K by (intros Z; apply NZ; lra). f_equal; [ring|]. f_equal. ring.
Qed.

(** C92: it is not the ratio of the fluxes, even when every source is exactly [f] times as
    bright in the new image. *)
Lemma C92_true_ratio_refuted_lm : ~ (forall e x y a b l partner shift it fitted k dx dy f,
  measured e x y a b l partner ->
  ratio_and_shift e (Is x) (Is y) false false shift it fitted = Ok (k, dx, dy) ->
  0 < f -> (forall i, In i l -> flux_of b (partner i) = f * flux_of a i) -> k = f).
Proof.
  intros H. destruct (star_ratio 0 1) as (v & E).
  pose proof (star_value 0 1 v E) as V. cbn [INR] in V. specialize (V ltac:(lra)).
  specialize (H _ _ _ _ _ _ _ _ _ _ _ _ _ 10 (star_measured 0 1 _ _) E ltac:(lra)).
  assert (v = 10); [|lra]. apply H. intros i [<-|[]]. unfold flux_of. cbn. lra.
Qed.

(** C92: it changes when both images are expressed in another unit of flux. *)
Lemma C92_units_refuted_lm : ~ (forall e e' x y a a' b b' l partner shift it fitted k k' dx dy dx' dy' u,
  measured e x y a b l partner -> measured e' x y a' b' l partner ->
  0 < u -> (forall i, flux_of a' i = u * flux_of a i /\ flux_of b' i = u * flux_of b i) ->
  ratio_and_shift e (Is x) (Is y) false false shift it fitted = Ok (k, dx, dy) ->
  ratio_and_shift e' (Is x) (Is y) false false shift it fitted = Ok (k', dx', dy') ->
  k' = k).
Proof.
  intros H. destruct (star_ratio 0 1) as (v & E). destruct (star_ratio 1 2) as (v' & E').
  pose proof (star_value 0 1 v E) as V. cbn [INR] in V. specialize (V ltac:(lra)).
  pose proof (star_value 1 2 v' E') as V'. cbn [INR] in V'. specialize (V' ltac:(lra)).
  assert (v' = v); [|lra].
  eapply (H (star_env 0 1) (star_env 1 2) _ _ (one_star 0) (one_star 1) (one_star 1) (one_star 2) [0%nat] (fun i => i)
            false false true v v' 0 0 0 0 10); [apply star_measured|apply star_measured|lra| |exact E|exact E'].
  intros [|[|i]]; unfold flux_of; cbn; lra.
Qed.

(** C92: it need not be positive. *)
Lemma C92_positive_refuted_lm : ~ (forall e x y a b l partner shift it fitted k dx dy,
  measured e x y a b l partner ->
  ratio_and_shift e (Is x) (Is y) false false shift it fitted = Ok (k, dx, dy) -> 0 <= k).
Proof.
  intros H. destruct (star_ratio 6 0) as (v & E).
  pose proof (star_value 6 0 v E) as V. cbn [INR] in V. specialize (V ltac:(lra)).
  specialize (H _ _ _ _ _ _ _ _ _ _ _ _ _ (star_measured 6 0 _ _) E). lra.
Qed.

Lemma C92_case_lm : let e := star_env 0 1 in let x := ex_dimg 1 Nomask in let y := ex_dimg 2 Nomask in
  measured e x y (one_star 0) (one_star 1) [0%nat] (fun i => i) /\
  flux_of (one_star 1) 0 = 10 * flux_of (one_star 0) 0 /\
  mean_mag (one_star 1) (fun i => i) [0%nat] < mean_mag (one_star 0) (fun i => i) [0%nat] * (INR (length [0%nat]) + 1) /\
  ratio_and_shift e (Is x) (Is y) false false false false true = Ok (2 / 3, 0, 0).
Proof.
  cbn zeta. split; [apply star_measured|]. split; [unfold flux_of; cbn; lra|]. split.
  - rewrite !one_star_mean. cbn. lra.
  - destruct (star_ratio 0 1) as (v & E). pose proof (star_value 0 1 v E) as V. cbn [INR] in V. specialize (V ltac:(lra)).
    rewrite E. do 3 f_equal. rewrite V. field.
Qed.
