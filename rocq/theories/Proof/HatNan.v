(** The transform of an interpolated image that holds nan. *)
From Coq Require Import ZArith List Bool Arith Reals Lia Lra.
From Coquelicot Require Import Complex.
From Verif.Model Require Import Py Plane Sources FindS Stamps Interp Cut Hat.
From Verif.Spec Require Import FindS Stamps Cut Hat.
From Verif.Proof Require Import Stamps StampsExample SourcesMain Cut CutIntact CutLoop CutMain CutLeft CutEx HatMain.
Import ListNotations.
Set Bullet Behavior "Strict Subproofs".
Local Notation one := (1, 1)%nat.
Local Open Scope R_scope.

(** One nan at the time of the first reading and every cell of interped_hat is nan from then
    on; without one no cell ever is. *)
Lemma C134_nan_lm : forall stats label image cs,
  let s := steps_exec stats label cs (mkspectrum (intact image) None) in
  let seen := left_after stats label (until_asked cs) (intact image) in
  shape (fst (interped_hat s)) = shape seen /\
  (no_nan seen -> forall u v, px (fst (interped_hat s)) u v <> None) /\
  (forall i j, (i < nr seen)%nat -> (j < nc seen)%nat -> px seen i j = None ->
     forall u v, px (fst (interped_hat s)) u v = None).
Proof.
  intros stats label image cs s seen. unfold s. destruct (C134_first_read_lm stats label image cs) as [_ E]. cbv zeta in E.
  rewrite E. fold seen. clear E. unfold transform. split; [|split].
  - unfold whole. destruct (any_nan seen); reflexivity.
  - intros N. destruct (no_nan_whole seen N) as (p & W & _). rewrite W. discriminate.
  - intros i j Hi Hj P u v. unfold whole.
    replace (any_nan seen) with true; [reflexivity|]. symmetry. unfold any_nan. apply existsb_exists.
    exists i. split; [apply in_seq; lia|]. apply existsb_exists. exists j. split; [apply in_seq; lia|]. now rewrite P.
Qed.

(** An image that is the same everywhere. *)
Definition even_sky : plane R := mkplane 20 20 (fun _ _ => 1).

Lemma even_good : good even_sky mid.
Proof. apply (good_at _ _ 10); auto; try (cbn; lia); [exact start_mid|]. intros. cbn. lra. Qed.

Lemma even_level : ~ has_level even_sky 1 one mid.
Proof.
  unfold has_level. set (l := values _).
  assert (A : forall x, In x l -> 1 <= x <= 1).
  { intros x. unfold l, values. rewrite in_map_iff. intros ([i j] & <- & I). cbn [fst snd].
    unfold all_cells in I. apply in_prod_iff in I. rewrite !in_seq in I. cbn [stamp_window window nr nc fst snd] in I. unfold stamp_window. cbn [mid s_x s_y].
    rewrite (win_px even_sky 10 10 3) by (try reflexivity; try exact start_mid; try lia). cbn. lra. }
  assert (N : l <> []) by discriminate.
  intros F. apply F. unfold Verif.Spec.Stamps.faint. pose proof (percentile_between 70 l 1 1 N ltac:(lra) A) as P.
  revert P. generalize (percentile 70 l). intros p P. clear F N. clearbody l. induction l as [|x l IH]; [reflexivity|]. cbn [filter].
  pose proof (A x (or_introl eq_refl)) as X. destruct (Rlt_dec x p); [lra|]. apply IH. intros y I. apply A. now right.
Qed.

(** Extracting a stamp from it leaves nan, and a filter that asks afterwards gets nan only. *)
Lemma hat_even : forall stats label,
  let cut := Extract (mkpicks false None) 1 (1, 1)%nat [mid] in
  let seen := left_after stats label (until_asked [cut; AskHat]) (intact even_sky) in
  (10 < nr seen)%nat /\ (10 < nc seen)%nat /\ px seen 10 10 = None /\
  no_nan (left_after stats label (until_asked [AskHat; cut]) (intact even_sky)).
Proof.
  intros stats label. cbn [until_asked left_after]. destruct (one_cut stats label None even_sky mid even_good) as (left & ex & E & _ & L).
  rewrite E. cbn [fst]. destruct (C132_untouched_lm stats label (mkpicks false None) (intact even_sky) 1 one [mid] left (Ok ex) ltac:(cbn; lia) ltac:(cbn; lia) E) as [S _].
  unfold shape in S. cbn in S. injection S as S1 S2. rewrite S1, S2. split; [apply Nat.ltb_lt; reflexivity|]. split; [apply Nat.ltb_lt; reflexivity|]. split.
  - rewrite L. destruct even_good as (A & B & C).
    destruct (cut_writes stats label (mkpicks false None) even_sky 1 one ltac:(cbn; lia) ltac:(cbn; lia) mid A B C 10 10) as [W _];
      [cbn; lia|cbn; lia|now apply in_mid|]. destruct (W (inner_mid even_sky eq_refl eq_refl)) as [_ W2]. exact (W2 even_level).
  - intros i j _ _. discriminate.
Qed.
