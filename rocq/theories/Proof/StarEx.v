(** A stamp that passes the strict criteria. *)
From Coq Require Import ZArith List Bool Arith Reals Lia Lra.
From Flocq Require Import Core.Raux.
From Verif.Model Require Import Py Plane Sources FindS Stamps Interp Cut.
From Verif.Spec Require Import FindS Stamps Cut.
From Verif.Proof Require Import FindSMain SourcesMain Stamps StampsLoop StampsMain StampsExample Cut CutIntact CutLoop.
From Verif.Proof Require Import CutMain CutLeft CutEx.
Import ListNotations.
Local Open Scope R_scope.
Set Bullet Behavior "Strict Subproofs".

(** [stripes] with one more in the pixel of [mid]. *)
Definition starry : plane R := mkplane 20 20 (fun i j =>
  INR ((if Nat.even i then 1 else 0) + (if (i =? 10)%nat && (j =? 10)%nat then 1 else 0))).
Definition starv (c : nat * nat) : nat :=
  ((if Nat.odd (fst c) then 1 else 0) + (if (fst c =? 3)%nat && (snd c =? 3)%nat then 1 else 0))%nat.
Definition svals : list nat := map starv (list_prod (seq 0 7) (seq 0 7)).

Lemma starry_small i j : px starry i j <= 2.
Proof. cbn [starry px]. destruct (Nat.even i), (_ && _); cbn; lra. Qed.
Lemma good_starry : good starry mid.
Proof. apply (good_at _ _ 10); auto using starry_small; try (cbn; lia). exact start_mid. Qed.

Notation stwin := (window starry 1 one (10, 10) 3).

Lemma starry_px i j : (i < 7)%nat -> (j < 7)%nat -> px stwin i j = INR (starv (i, j)).
Proof.
  intros Hi Hj. rewrite (win_px starry 10 10) by (try reflexivity; try exact start_mid; cbn; lia).
  cbn [starry px]. unfold starv. cbn [fst snd]. apply f_equal.
  do 7 (destruct i as [|i]; [do 7 (destruct j as [|j]; [reflexivity|]); lia|]). lia.
Qed.

Lemma starry_values : values stwin = map INR svals.
Proof.
  unfold values, svals. rewrite map_map. apply map_ext_in. intros [i j] I. apply in_cells in I.
  cbn in I. cbn [fst snd]. apply starry_px; lia.
Qed.

Lemma starry_percentile : percentile 70 (values stwin) = 1.
Proof.
  unfold percentile. rewrite starry_values, sort_INR, map_length.
  replace (length svals) with 49%nat by reflexivity.
  replace (nsort svals) with (repeat 0%nat 28 ++ repeat 1%nat 20 ++ repeat 2%nat 1) by (vm_compute; reflexivity).
  replace (Zfloor (70 / 100 * INR (49 - 1))) with 33%Z.
  - change (Z.to_nat 33) with 33%nat. cbn -[IZR INR]. cbn [INR]. lra.
  - symmetry. apply Zfloor_imp. cbn. lra.
Qed.

Lemma starry_faint : faint (values stwin) = repeat 0 28.
Proof.
  unfold faint. rewrite starry_percentile, starry_values.
  assert (G : forall l, filter (fun x => if Rlt_dec x 1 then true else false) (map INR l) =
                        map INR (filter (fun n => (n =? 0)%nat) l)).
  { induction l as [|x l IH]; [reflexivity|]. cbn [map filter]. rewrite IH. destruct x as [|x].
    - cbn [INR Nat.eqb]. destruct (Rlt_dec 0 1); [reflexivity|lra].
    - cbn [Nat.eqb]. destruct (Rlt_dec (INR (S x)) 1) as [L|]; [|reflexivity].
      exfalso. rewrite S_INR in L. pose proof (pos_INR x). lra. }
  rewrite G. replace (filter (fun n => (n =? 0)%nat) svals) with (repeat 0%nat 28) by (vm_compute; reflexivity). reflexivity.
Qed.

Lemma starry_level : has_level starry 1 one mid /\ level_of starry 1 one mid = 0.
Proof.
  unfold has_level, level_of. change (stamp_window starry 1 one mid) with stwin. rewrite starry_faint.
  split; [discriminate|exact median_zeros].
Qed.

(** Quiet statistics, and nothing labelled. *)
Definition quiet : plane R -> R * R * R := fun _ => (0, 0, 1).
Definition none : plane bool -> plane nat * nat := fun p => (pmap (fun _ => 0%nat) p, 0%nat).

Lemma starry_strict p : plane_eq p (pmap (fun x => x - 0) stwin) -> strict quiet none (Some p) = Ok true.
Proof.
  intros E.
  assert (V : values p = map INR svals).
  { rewrite (values_ext _ _ E), values_pmap, starry_values.
    rewrite <- (map_id (map INR svals)) at 2. apply map_ext. intros; lra. }
  assert (T : sumR (values p) = 22).
  { rewrite V, sum_INR. replace (fold_right Nat.add 0%nat svals) with 22%nat by (vm_compute; reflexivity). cbn. lra. }
  pose proof E as [Sh Ep]. unfold shape in Sh. injection Sh as Sr Sc.
  change (nr (pmap (fun x => x - 0) stwin)) with 7%nat in Sr.
  change (nc (pmap (fun x => x - 0) stwin)) with 7%nat in Sc.
  unfold strict. rewrite T. destruct (Req_EM_T 22 0) as [Z|_]; [lra|].
  set (q := pmap (fun x => x / 22) p).
  assert (Q : forall i j, (i < 7)%nat -> (j < 7)%nat -> px q i j = INR (starv (i, j)) / 22).
  { intros i j Hi Hj. unfold q. cbn [px pmap]. rewrite Ep by lia. cbn [pmap px].
    rewrite starry_px by lia. lra. }
  assert (Am : argmax q = (3, 3)%nat).
  { destruct (argmax_spec q) as (A1 & A2 & A3); [unfold q; cbn; lia|unfold q; cbn; lia|].
    change (nr q) with (nr p) in *. change (nc q) with (nc p) in *. rewrite Sr in *. rewrite Sc in *.
    destruct (A3 3%nat 3%nat) as [L _]; [lia|lia|].
    rewrite !Q in L by lia. destruct (argmax q) as [a b]. cbn [fst snd] in *.
    assert (G : starv (a, b) = 2%nat).
    { assert (INR 2 <= INR (starv (a, b))) by (replace (INR 2) with (INR (starv (3, 3)%nat)) by reflexivity; lra).
      apply INR_le in H. clear - H. unfold starv in *. cbn [fst snd] in *.
      destruct (Nat.odd a), ((a =? 3)%nat && (b =? 3)%nat); cbn in *; lia. }
    unfold starv in G. cbn [fst snd] in G. destruct ((a =? 3)%nat && (b =? 3)%nat) eqn:X.
    - apply andb_true_iff in X. destruct X as [Xa Xb]. apply Nat.eqb_eq in Xa, Xb. now subst.
    - destruct (Nat.odd a); discriminate. }
  unfold strict_finite. rewrite Am.
  assert (Vq : values q = map (fun n => INR n / 22) svals).
  { unfold q. rewrite values_pmap, V, map_map. reflexivity. }
  assert (O : off_centre (shape q) (INR (fst (3, 3)%nat)) (INR (snd (3, 3)%nat)) = false).
  { unfold off_centre, PSF_CTR_TOL, shape. change (nr q) with (nr p). change (nc q) with (nc p).
    rewrite Sr, Sc. cbn [fst snd]. destruct (Rlt_dec _ _) as [L|]; [|reflexivity]. exfalso.
    replace (INR 7 / 5) with (sqrt ((7 / 5) * (7 / 5))) in L by (rewrite sqrt_square; cbn; lra).
    apply sqrt_lt_0_alt in L. cbn in L. lra. }
  rewrite O.
  destruct (Rlt_dec (15 / 100) (stdR (values q))) as [L|_].
  { exfalso. assert (M : meanR (values q) = 1 / 49).
    { unfold meanR. rewrite Vq, map_length. replace (length svals) with 49%nat by reflexivity.
      replace (sumR (map (fun n => INR n / 22) svals)) with 1; [cbn; lra|].
      vm_compute svals. cbn -[Rdiv]. cbn [INR]. lra. }
    unfold stdR in L. rewrite M in L.
    replace (15 / 100) with (sqrt ((15 / 100) * (15 / 100))) in L by (rewrite sqrt_square; lra).
    apply sqrt_lt_0_alt in L. unfold meanR in L. rewrite Vq, map_map, map_length in L.
    replace (length svals) with 49%nat in L by reflexivity. revert L. vm_compute svals.
    cbn -[Rdiv Rmult Rminus]. cbn [INR]. lra. }
  destruct (existsb _ (values q)) eqn:X.
  { exfalso. apply existsb_exists in X. destruct X as (x & I & Y). rewrite Vq in I. apply in_map_iff in I.
    destruct I as (n & <- & In). destruct (Rlt_dec (1 / 2) (INR n / 22)) as [L|]; [|discriminate].
    assert (n <= 2)%nat. { unfold svals in In. apply in_map_iff in In. destruct In as (c & <- & _). unfold starv. destruct (Nat.odd _), (_ && _); cbn; lia. }
    apply le_INR in H. cbn in H. lra. }
  reflexivity.
Qed.

(** The source is stored, its stamp is [star_like]; with a second source of [stripes] that is
    not. *)
Lemma star_accepted public : exists left ex p,
  cut_stamps quiet none (mkpicks true public) (intact starry) 1 one [mid] = (left, Ok ex) /\
  ex_stamps ex = [p] /\ apart one [mid].
Proof.
  assert (O : snd (cut_one quiet none (mkpicks true public) (intact starry) 1 one mid) =
              Ok (Some (tstamp starry 1 one (s_y mid, s_x mid)))).
  { destruct good_starry as (A & B & C). rewrite cut_normal by (try assumption; cbn; lia). cbn [snd private_pick].
    destruct (proj1 (tlev_level starry 1 one mid) (proj1 starry_level)) as (q & -> & P).
    rewrite (proj2 starry_level) in P. rewrite (starry_strict (tidy q)); [reflexivity|].
    eapply plane_eq_trans; [apply tidy_eq|exact P]. }
  destruct (cut_one quiet none (mkpicks true public) (intact starry) 1 one mid) as [left r] eqn:X. cbn [snd] in O. subst r.
  destruct (single_turn _ _ _ _ _ _ _ _ _ X) as (ex & Y & _ & S). exists left, ex. eexists. split; [exact Y|].
  split; [exact S|]. apply apart_single.
Qed.
