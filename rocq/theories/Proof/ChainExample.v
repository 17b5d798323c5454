(** A small sep and small images for the statements about the way from pixels to results. *)
From Coq Require Import ZArith List Bool Arith Reals Lia Lra FunctionalExtensionality SpecFloat.
From Flocq Require Import Core.Core IEEE754.BinarySingleNaN.
From Coquelicot Require Import Complex.
From Verif.Model Require Import Py Plane Ma Image Interp FindS Sources Stamps KL Session Filter Transparency Subtract Chain.
From Verif.Spec Require Import Image ImageExample Chain Session.
From Verif.Proof Require Import Chain ChainStack.
Import ListNotations.
Set Bullet Behavior "Strict Subproofs".
Local Open Scope R_scope.

Definition frame_cells (p : plane (option R)) : list (nat * nat) := list_prod (seq 0 (nr p)) (seq 0 (nc p)).

Definition free_cells (p : plane (option R)) (m : option (plane bool)) : list (nat * nat) :=
  filter (fun c => match m with Some m => negb (px m (fst c) (snd c)) | None => true end) (frame_cells p).

(** The cells that are not masked, row by row. *)
Definition vis (p : plane (option R)) (m : option (plane bool)) : list (option R) :=
  map (fun c => px p (fst c) (snd c)) (free_cells p m).

(** The sky is the first of them, the noise its difference to the second. *)
Definition sky (p : plane (option R)) (m : option (plane bool)) : res backobj :=
  match vis p m with
  | Some a :: Some b :: _ => Ok (mkbackobj (mkplane (nr p) (nc p) (fun _ _ => a)) (Rabs (b - a)))
  | _ => Raise ValueError
  end.

(** Each cell above the threshold is a source. *)
Definition peak (p : plane (option R)) (t : R) (c : nat * nat) : list src :=
  match px p (fst c) (snd c) with
  | Some v => if Rlt_dec t v then [mksrc (INR (snd c)) (INR (fst c)) 9 v 0] else []
  | None => []
  end.
Definition peaks (p : plane (option R)) (t : R) (m : plane bool) : list src :=
  flat_map (peak p t) (free_cells p (Some m)).

Definition small : libs :=
  mklibs sky (fun _ p t m _ => Ok (peaks p t m))
    (fun p => mkplane (nr p) (nc p) (fun _ _ => Some 0)) (fun d => m_msk d) (fun _ => []) (fun _ => (0, 0, 0))
    (fun p => (pmap (fun _ => 0%nat) p, 0%nat))
    (fun n _ => (repeat 0 n, fun _ _ => 0)) None (fun _ _ _ _ => 0) (fun sh _ _ => mkplane (fst sh) (snd sh) (fun _ _ => 1))
    (fun _ _ _ => []) (fun l => l) (fun _ _ _ _ => []) (fun p => p)
    (mksolvers (fun _ _ _ _ => Raise ValueError) (fun _ lo _ => (false, lo))).

Lemma free_same m p q : shape p = shape q -> free_cells p (Some m) = free_cells q (Some m).
Proof. unfold shape, free_cells, frame_cells. intros [= -> ->]. reflexivity. Qed.

Lemma free_in m p c : In c (free_cells p (Some m)) ->
  (fst c < nr p)%nat /\ (snd c < nc p)%nat /\ px m (fst c) (snd c) = false.
Proof.
  unfold free_cells, frame_cells. rewrite filter_In. destruct c as [i j]. cbn [fst snd].
  rewrite in_prod_iff, !in_seq, negb_true_iff. intros [[A B] D]. repeat split; [lia|lia|exact D].
Qed.

Lemma small_skips : sep_skips_masked small.
Proof.
  split.
  - intros m p q [S V]. cbn [small l_background]. unfold sky.
    assert (E : vis p (Some m) = vis q (Some m)).
    { unfold vis. rewrite <- (free_same m p q S). apply map_ext_in. intros c Hc.
      destruct (free_in _ _ _ Hc) as (Hi & Hj & N). now apply V. }
    rewrite E. unfold shape in S. now injection S as -> ->.
  - intros st m p q t n [S V]. cbn [small l_extract]. f_equal. unfold peaks. rewrite <- (free_same m p q S).
    rewrite !flat_map_concat_map. f_equal. apply map_ext_in. intros c Hc.
    destruct (free_in _ _ _ Hc) as (Hi & Hj & N). unfold peak. now rewrite V.
Qed.

Lemma vis_map f p m : vis (pmap (option_map f) p) m = map (option_map f) (vis p m).
Proof. unfold vis. rewrite map_map. reflexivity. Qed.

Lemma small_sky : sep_follows_sky small.
Proof.
  intros c p m. cbn [small l_background]. unfold sky. rewrite vis_map.
  destruct (vis p m) as [|[a|] [|[b|] t]]; cbn [map option_map]; try reflexivity.
  replace (b + c - (a + c)) with (b - a) by ring. reflexivity.
Qed.

Lemma small_units : unit_free small.
Proof.
  intros k Kp times. unfold times. split; [|split].
  - intros p m. cbn [small l_background]. unfold sky. rewrite vis_map.
    destruct (vis p m) as [|[a|] [|[b|] t]]; cbn [map option_map]; try reflexivity.
    replace (k * b - k * a) with (k * (b - a)) by ring. rewrite Rabs_mult, (Rabs_pos_eq k) by lra. reflexivity.
  - intros st p t m n. cbn [small l_extract]. f_equal. unfold peaks.
    change (free_cells (pmap (option_map (fun x => k * x)) p) (Some m)) with (free_cells p (Some m)).
    induction (free_cells p (Some m)) as [|c l IH]; [reflexivity|]. cbn [flat_map]. rewrite map_app, IH. f_equal.
    unfold peak. cbn [px pmap]. destruct (px p (fst c) (snd c)) as [v|]; [|reflexivity]. cbn [option_map].
    destruct (Rlt_dec (k * t) (k * v)) as [H|H], (Rlt_dec t v) as [H'|H']; try reflexivity.
    + exfalso. apply H'. now apply Rmult_lt_reg_l in H.
    + exfalso. apply H. now apply Rmult_lt_compat_l.
  - intros p. apply plane_ext; [reflexivity|]. intros i j. cbn. now rewrite Rmult_0_r.
Qed.


(** Images of two rows and three columns. *)
Definition small_image (l m : list (list Z)) : image :=
  mkimage (Ndarray (zplane l)) None (pix_of_Z 1) false (pix_of_Z 16) (mkmarr (zplane l) (Full (bplane m))).

Definition hole : list (list Z) := [[0; 1; 0]; [0; 0; 0]]%Z.
Definition plainim : image := small_image [[1; 7; 3]; [40; 1; 60]]%Z hole.
Definition other : image := small_image [[1; 500; 3]; [40; 1; 60]]%Z hole.
Definition higher : image := small_image [[6; 7; 8]; [45; 6; 65]]%Z hole.
Definition doubled : image := small_image [[2; 7; 6]; [80; 2; 120]]%Z hole.

Ltac real_of := unfold to_real; match goal with |- context [finiteb ?v] =>
  let w := eval vm_compute in v in replace v with w by (vm_compute; reflexivity) end;
  cbn [finiteb SF2R]; f_equal; unfold F2R; simpl; lra.

Lemma r1 : to_real (pix_of_Z 1) = Some 1. Proof. real_of. Qed.
Lemma r2 : to_real (pix_of_Z 2) = Some 2. Proof. real_of. Qed.
Lemma r3 : to_real (pix_of_Z 3) = Some 3. Proof. real_of. Qed.
Lemma r6 : to_real (pix_of_Z 6) = Some 6. Proof. real_of. Qed.
Lemma r7 : to_real (pix_of_Z 7) = Some 7. Proof. real_of. Qed.
Lemma r8 : to_real (pix_of_Z 8) = Some 8. Proof. real_of. Qed.
Lemma r40 : to_real (pix_of_Z 40) = Some 40. Proof. real_of. Qed.
Lemma r45 : to_real (pix_of_Z 45) = Some 45. Proof. real_of. Qed.
Lemma r60 : to_real (pix_of_Z 60) = Some 60. Proof. real_of. Qed.
Lemma r65 : to_real (pix_of_Z 65) = Some 65. Proof. real_of. Qed.
Lemma r80 : to_real (pix_of_Z 80) = Some 80. Proof. real_of. Qed.
Lemma r120 : to_real (pix_of_Z 120) = Some 120. Proof. real_of. Qed.

Ltac cell i j := destruct i as [|[|i]]; [ | |cbn in *; lia]; (destruct j as [|[|[|j]]]; [ | | |cbn in *; lia]).

Lemma plain_other : alike plainim other.
Proof.
  split; [reflexivity|]. intros i j Hi Hj. change (i < 2)%nat in Hi. change (j < 3)%nat in Hj. split; [reflexivity|].
  cell i j; try reflexivity. intros H. exfalso. now apply H.
Qed.

Lemma plain_higher : raised_by 5 plainim higher.
Proof.
  split; [reflexivity|]. intros i j Hi Hj. change (i < 2)%nat in Hi. change (j < 3)%nat in Hj. split; [reflexivity|].
  intros H. cell i j; try (exfalso; now apply H); cbn [plainim higher small_image pixels im_data dat zplane px nth];
    rewrite ?r1, ?r3, ?r6, ?r7, ?r8, ?r40, ?r45, ?r60, ?r65; cbn [option_map]; f_equal; lra.
Qed.

Lemma plain_doubled : multiplied_by 2 plainim doubled.
Proof.
  split; [reflexivity|]. intros i j Hi Hj. change (i < 2)%nat in Hi. change (j < 3)%nat in Hj. split; [reflexivity|].
  intros H. cell i j; try (exfalso; now apply H); cbn [plainim doubled small_image pixels im_data dat zplane px nth];
    rewrite ?r1, ?r2, ?r3, ?r6, ?r40, ?r80, ?r60, ?r120; cbn [option_map]; f_equal; lra.
Qed.

(** Nothing chosen by the user, min_sources = 2. *)
Definition asis : choices := mkchoices None 2 false None 300000.

Lemma plain_sky : set_bkg small None (mdata plainim) = Ok (mkbackobj (mkplane 2 3 (fun _ _ => 1)) 2).
Proof.
  unfold set_bkg. replace (anyb (m_msk (mdata plainim))) with true by reflexivity.
  cbn [small l_background]. unfold sky.
  assert (E : vis (m_dat (mdata plainim)) (Some (m_msk (mdata plainim))) = [Some 1; Some 3; Some 40; Some 1; Some 60]).
  { rewrite <- r1, <- r3, <- r40, <- r60. reflexivity. }
  rewrite E. cbn [mdata m_dat tidy pmap nr nc plainim small_image im_data dat zplane length hd].
  replace (Rabs (3 - 1)) with 2; [reflexivity|]. rewrite Rabs_pos_eq; lra.
Qed.

Lemma plain_clean b : exists img, clean small 1 (mdata plainim) b = Some img.
Proof.
  unfold clean, Interp.interped, replace_nans.
  assert (E : any_nan (filled_nan (bkg_sub_img (mdata plainim) (b_back b))) = true) by reflexivity.
  rewrite E. cbn [replace_loop]. set (q := mkplane _ _ _).
  assert (F : any_nan q = false).
  { unfold any_nan. apply not_true_is_false. intros H. apply existsb_exists in H. destruct H as (i & _ & H).
    apply existsb_exists in H. destruct H as (j & _ & H). unfold q in H. cbn [px] in H.
    destruct (is_nan (px (filled_nan (bkg_sub_img (mdata plainim) (b_back b))) i j)) eqn:N;
      [discriminate H|congruence]. }
  rewrite F. eexists. reflexivity.
Qed.

(** The image can be built and has two sources. *)
Lemma plain_built : exists x, build small 1 asis (mdata plainim) = Some (Ok x) /\ var (bu_back x) <> 0 /\
  exists s s', fst (Session.best_sources _ _ _ (bu_lib x) (bu_attr x)) = Ok [s; s'].
Proof.
  set (b := mkbackobj (mkplane 2 3 (fun _ _ => 1)) 2).
  destruct (plain_clean b) as (img & C).
  assert (P : forall t n, l_extract small t (sub_data (mdata plainim) b) (thresh_default * b_rms b) (m_msk (mdata plainim)) n =
    Ok [mksrc 0 1 9 (40 - 1) 0; mksrc 2 1 9 (60 - 1) 0]).
  { intros t n. cbn [small l_extract]. f_equal. unfold peaks.
    replace (free_cells (sub_data (mdata plainim) b) (Some (m_msk (mdata plainim))))
      with [(0, 0); (0, 2); (1, 0); (1, 1); (1, 2)]%nat by reflexivity.
    cbn [flat_map fst snd]. unfold peak. cbn [fst snd].
    replace (px (sub_data (mdata plainim) b) 0 0) with (Some (1 - 1)) by (rewrite <- ?r1; cbn -[to_real pix_of_Z]; now rewrite r1).
    replace (px (sub_data (mdata plainim) b) 0 2) with (Some (3 - 1)) by (cbn -[to_real pix_of_Z]; now rewrite r3).
    replace (px (sub_data (mdata plainim) b) 1 0) with (Some (40 - 1)) by (cbn -[to_real pix_of_Z]; now rewrite r40).
    replace (px (sub_data (mdata plainim) b) 1 1) with (Some (1 - 1)) by (cbn -[to_real pix_of_Z]; now rewrite r1).
    replace (px (sub_data (mdata plainim) b) 1 2) with (Some (60 - 1)) by (cbn -[to_real pix_of_Z]; now rewrite r60).
    unfold thresh_default, b. cbn [b_rms].
    repeat (destruct (Rlt_dec _ _); try lra). reflexivity. }
  assert (K : catalogue small 300000 2 (mdata plainim) b = Ok [mksrc 0 1 9 (40 - 1) 0; mksrc 2 1 9 (60 - 1) 0]).
  { unfold catalogue, Sources.best_sources, detect, attempts_of. cbn [at_default]. rewrite P. cbn [orelse bind length].
    change (Z.of_nat 2 <? 2)%Z with false. cbv iota. cbn [bind]. now rewrite select_few by (cbn; lia). }
  unfold build. cbn [asis o_thresh o_stamp o_stack o_min o_pick]. rewrite plain_sky. fold b. rewrite C.
  change (Session.select _ _ _ (lib_of small ?st ?mn ?pk (mdata plainim) b img)) with (catalogue small st mn (mdata plainim) b).
  rewrite K. cbn [bind]. eexists. split; [reflexivity|]. split.
  - cbn. lra.
  - do 2 eexists. reflexivity.
Qed.
