(** The mask setter as a whole. *)
From Coq Require Import ZArith List Bool Arith String Reals Lia Lra.
From Coq Require Import SpecFloat.
From Flocq Require Import Core.Core IEEE754.BinarySingleNaN.
From Verif.Model Require Import Py Plane Ma Image.
From Verif.Spec Require Import Image.
From Verif.Proof Require Import Image.
Import ListNotations.
Set Bullet Behavior "Strict Subproofs".

Definition extend_of (hd : option header) : option bool :=
  match hd with Some (_, e) => e | None => None end.

Lemma assign_flat a q i j : wf a -> i < nr (dat a) -> j < nc (dat a) ->
  (masked_at (msk (assign_mask a (Full q))) i j = true <-> set_by q a i j).
Proof.
  intros W Hi Hj. unfold set_by, assign_mask, wf in *.
  destruct (msk a) as [|c] eqn:E; cbn [msk masked_at];
    unfold set_flat; destruct (Nat.eqb_spec (nr q * nc q) 0) as [Z|Z]; cbn [px pconst].
  - reflexivity.
  - reflexivity.
  - reflexivity.
  - injection W as _ Wc. rewrite Wc. reflexivity.
Qed.

Lemma thresh_flags m th : plane_eq (thresh_mask m th) (fits_flags m th) /\
  forall i j, px (thresh_mask m th) i j = px (fits_flags m th) i j.
Proof.
  unfold thresh_mask, fits_flags. destruct (feqb _ _); repeat split; reflexivity.
Qed.

Lemma set_by_thresh m th a i j : set_by (thresh_mask m th) a i j <-> set_by (fits_flags m th) a i j.
Proof.
  destruct (thresh_flags m th) as [[S _] V]. injection S as Sr Sc.
  unfold set_by, cyclic. rewrite V, Sr, Sc. reflexivity.
Qed.

Lemma saturation_spec guard a : wf a ->
  exists b, saturation guard a = Ok b /\ dat b = dat a /\ wf b /\
    forall i j, i < nr (dat a) -> j < nc (dat a) ->
      masked_at (msk b) i j || oobb (px (dat a) i j) = masked_at (msk a) i j || oobb (px (dat a) i j).
Proof.
  intros W. unfold saturation, masked_greater.
  destruct (masked_test_spec (fun x => fltb high_thresh x) a W) as (b & -> & D & W' & _ & V).
  cbn [bind]. destruct (_ <? _).
  - exists a. repeat split; trivial.
  - exists b. repeat split; trivial. intros i j Hi Hj. rewrite V by trivial. unfold oobb.
    destruct (fltb high_thresh _), (masked_at _ _ _), (fltb _ low_thresh); reflexivity.
Qed.

Section Choose.
Variable fs : string -> option (list hdu).

(** What [choose_mask] leaves: pixels, a well-formed mask, and its meaning up to
    out-of-range pixels. *)
Definition chosen_as (d : plane pix) (flag : nat -> nat -> Prop) (b : marr) : Prop :=
  dat b = d /\ wf b /\
  forall i j, i < nr d -> j < nc d ->
    (masked_at (msk b) i j = true \/ out_of_range (px d i j) <-> flag i j \/ out_of_range (px d i j)).

Lemma as_assign a q (flag : nat -> nat -> Prop) : wf a ->
  (forall i j, i < nr (dat a) -> j < nc (dat a) -> (set_by q a i j <-> flag i j)) ->
  chosen_as (dat a) flag (assign_mask a (Full q)).
Proof.
  intros W H. split; [apply dat_assign|]. split; [now apply wf_assign|].
  intros i j Hi Hj. rewrite assign_flat by trivial. rewrite H by trivial. reflexivity.
Qed.

Lemma as_sat guard a b : wf a -> saturation guard a = Ok b ->
  chosen_as (dat a) (fun i j => masked_at (msk a) i j = true) b.
Proof.
  intros W E. destruct (saturation_spec guard a W) as (b' & E' & D & W' & V).
  rewrite E in E'. injection E' as <-. split; [exact D|]. split; [exact W'|].
  intros i j Hi Hj. specialize (V i j Hi Hj). rewrite <- !oobb_spec, <- !orb_true_iff, V. reflexivity.
Qed.

Lemma as_invalid a b : wf a -> masked_invalid a = Ok b ->
  chosen_as (dat a) (fun i j => masked_at (msk a) i j = true \/ non_finite (px (dat a) i j)) b.
Proof.
  intros W E. destruct (masked_invalid_spec a W) as (b' & E' & D & W' & _ & V).
  rewrite E in E'. injection E' as <-. split; [exact D|]. split; [exact W'|].
  intros i j Hi Hj. rewrite V by trivial. rewrite orb_true_iff, nonfinite_spec. tauto.
Qed.

Lemma as_weaken d f g b : chosen_as d f b ->
  (forall i j, f i j <-> g i j) -> chosen_as d g b.
Proof.
  intros (A & B & C) H. split; [exact A|]. split; [exact B|]. intros i j Hi Hj.
  rewrite C by trivial. now rewrite H.
Qed.

Definition viafile (s : source) : Prop := (exists n, s = Path n /\ ~ class_name n) \/ (exists b, s = MaskedArr b) \/ s = Other.

Lemma not_mistaken n hd : mistaken (Path n) hd = None -> ~ class_name n.
Proof.
  unfold mistaken. destruct (String.eqb_spec n "PrimaryHDU"); [discriminate|]. destruct (String.eqb_spec n "ndarray"); [discriminate|].
  destruct (String.eqb_spec n "HDUList"); [destruct hd as [[? [?|]]|]; discriminate|]. intros _ [H|[H|H]]; contradiction.
Qed.

Lemma no_mistake n hd : ~ class_name n -> mistaken (Path n) hd = None.
Proof.
  intros H. unfold mistaken, class_name in *. destruct (String.eqb_spec n "PrimaryHDU"); [tauto|]. destruct (String.eqb_spec n "ndarray"); [tauto|].
  destruct (String.eqb_spec n "HDUList"); [tauto|reflexivity].
Qed.

Lemma choose_spec guard s hd guess th arg a b : wf a ->
  choose_mask fs guard s hd guess th arg a = Ok b ->
  exists d flag, chosen fs s (extend_of hd) guess th a arg d flag /\ chosen_as d flag b.
Proof.
  intros W E. destruct arg as [n|m| |]; cbn [choose_mask] in E.
  - unfold open_primary in E. destruct (fs n) as [[|h rest]|] eqn:F; try discriminate.
    cbn [bind] in E. injection E as <-. eexists; eexists. split; [eapply ch_file; exact F|].
    apply as_assign; trivial. intros. apply set_by_thresh.
  - injection E as <-. eexists; eexists. split; [apply ch_array|].
    apply as_assign; trivial. tauto.
  - destruct guess.
    2:{ eexists; eexists. split; [now apply ch_noguess|]. eapply as_sat; eassumption. }
    assert (VF : viafile s -> match fs (attached_to s) with
            | Some (h :: rest) =>
                match h_extend h with
                | Some true =>
                    match rest with
                    | e :: _ => Ok (assign_mask a (Full (thresh_mask (h_data e) th)))
                    | [] => masked_invalid (mkmarr (dat a) Nomask)
                    end
                | Some false => Ok a
                | None => saturation guard a
                end
            | _ => masked_invalid a
            end = Ok b ->
       exists d flag, chosen fs s (extend_of hd) true th a MNone d flag /\ chosen_as d flag b).
    { intros VS E'. destruct (fs (attached_to s)) as [[|h rest]|] eqn:F.
      - eexists; eexists. split; [apply ch_nofile; auto|]. now apply as_invalid.
      - destruct (h_extend h) as [[|]|] eqn:X.
        + destruct rest as [|e rest].
          * eexists; eexists. split; [eapply ch_path_one; eauto|].
            pose proof (as_invalid (mkmarr (dat a) Nomask) b I E') as K.
            eapply as_weaken; [exact K|]. cbn. intros i j. split; [intros [H|H]; [discriminate|trivial]|tauto].
          * injection E' as <-. eexists; eexists. split; [eapply ch_path_ext; eauto|].
            apply as_assign; trivial. intros. apply set_by_thresh.
        + injection E' as <-. eexists; eexists. split.
          { eapply ch_path_none; eauto. rewrite X. discriminate. }
          split; [reflexivity|]. split; [exact W|]. tauto.
        + eexists; eexists. split.
          { eapply ch_path_none; eauto. rewrite X. discriminate. }
          eapply as_sat; eassumption.
      - eexists; eexists. split; [apply ch_nofile; auto|]. now apply as_invalid. }
    destruct s as [n|d|m|l|h|].
    + destruct (mistaken (Path n) hd) eqn:Mi; [discriminate|]. apply VF; [left; exists n; split; [reflexivity|now apply (not_mistaken n hd)]|exact E].
    + eexists; eexists. split; [now apply ch_nd|].
      pose proof (as_invalid (mkmarr d Nomask) b I E) as K.
      eapply as_weaken; [exact K|]. cbn. intros i j. split; [intros [H|H]; [discriminate|trivial]|tauto].
    + apply VF; [right; left; eauto|exact E].
    + destruct hd as [[g [[|]|]]|]; try discriminate.
      * destruct l as [|h [|e rest]]; cbn [nth_error] in E; try discriminate. injection E as <-.
        eexists; eexists. split; [eapply ch_hdulist_ext; reflexivity|].
        apply as_assign; trivial. intros. apply set_by_thresh.
      * destruct l as [|h rest]; try discriminate.
        eexists; eexists. split; [eapply ch_hdulist; reflexivity|].
        pose proof (as_invalid (mkmarr (h_data h) Nomask) b I E) as K.
        eapply as_weaken; [exact K|]. cbn. intros i j. split; [intros [H|H]; [discriminate|trivial]|tauto].
    + eexists; eexists. split; [now apply ch_primary|].
      pose proof (as_invalid (mkmarr (h_data h) Nomask) b I E) as K.
      eapply as_weaken; [exact K|]. cbn. intros i j. split; [intros [H|H]; [discriminate|trivial]|tauto].
    + apply VF; [right; right; reflexivity|exact E].
  - eexists; eexists. split; [apply ch_other|]. eapply as_sat; eassumption.
Qed.

Lemma finish_spec a : wf a ->
  exists b, bind (add_out_of_range a) grow_mask = Ok b /\ dat b = dat a /\ wf b /\
    final_mask (dat a) (fun i j => masked_at (msk a) i j = true) b /\
    exists q, msk b = Full q /\ shape q = shape (dat a) /\
      forall i j, i < nr (dat a) -> j < nc (dat a) ->
        px q i j = grown (shape (dat a)) 7 (fun i j => masked_at (msk a) i j || oobb (px (dat a) i j)) i j.
Proof.
  intros W. destruct (add_oor_spec a W) as (c & -> & D & Wc & V). cbn [bind].
  destruct (grow_mask_spec c Wc) as (b & q & -> & Db & Eq & S & G).
  rewrite D in *. exists b. split; [reflexivity|]. split; [now rewrite Db|].
  split. { unfold wf. now rewrite Eq, Db. }
  assert (G' : forall i j, i < nr (dat a) -> j < nc (dat a) ->
     px q i j = grown (shape (dat a)) 7 (fun i j => masked_at (msk a) i j || oobb (px (dat a) i j)) i j).
  { intros i j Hi Hj. rewrite G by trivial. apply grown_ext; trivial. }
  split; [|now exists q].
  split. { split; [now rewrite Db|]. now rewrite Db. }
  exists q, (fun i j => masked_at (msk a) i j || oobb (px (dat a) i j)).
  repeat split; trivial.
  - rewrite orb_true_iff, oobb_spec. tauto.
  - rewrite orb_true_iff, oobb_spec. tauto.
Qed.

Lemma final_weaken d f g b :
  (forall i j, i < nr d -> j < nc d -> (f i j \/ out_of_range (px d i j) <-> g i j \/ out_of_range (px d i j))) ->
  final_mask d f b -> final_mask d g b.
Proof.
  intros H (P & q & init & Eq & S & I & G). split; [exact P|]. exists q, init.
  split; [exact Eq|]. split; [exact S|]. split; [|exact G]. intros i j Hi Hj. rewrite I by trivial. now apply H.
Qed.

Theorem set_mask_spec guard s hd guess th arg a b : wf a ->
  set_mask_with fs guard s hd guess th arg a = Ok b ->
  wf b /\ exists d flag, chosen fs s (extend_of hd) guess th a arg d flag /\ final_mask d flag b.
Proof.
  intros W E. unfold set_mask_with in E.
  destruct (choose_mask fs guard s hd guess th arg a) as [c|] eqn:C; [|discriminate]. cbn [bind] in E.
  destruct (choose_spec _ _ _ _ _ _ _ _ W C) as (d & flag & K & D & Wc & M).
  destruct (finish_spec c Wc) as (b' & E' & Db & Wb & F & _). rewrite E in E'. injection E' as <-.
  split; [exact Wb|]. exists d, flag. split; [exact K|]. subst d.
  eapply final_weaken; [|exact F]. exact M.
Qed.

(** Only the choice can raise. *)
Lemma set_mask_ok guard s hd guess th arg a c : wf a ->
  choose_mask fs guard s hd guess th arg a = Ok c ->
  exists b, set_mask_with fs guard s hd guess th arg a = Ok b.
Proof.
  intros W C. unfold set_mask_with. rewrite C. cbn [bind].
  destruct (choose_spec _ _ _ _ _ _ _ _ W C) as (d & flag & K & D & Wc & M).
  destruct (finish_spec c Wc) as (b & -> & _). now exists b.
Qed.

(** The guard plays no role. *)
Definition same_choice (x y : res marr) : Prop :=
  match x, y with
  | Ok b, Ok b' => dat b = dat b' /\ wf b /\ wf b' /\ forall i j, i < nr (dat b) -> j < nc (dat b) ->
      masked_at (msk b) i j || oobb (px (dat b) i j) = masked_at (msk b') i j || oobb (px (dat b) i j)
  | Raise e, Raise e' => e = e'
  | _, _ => False
  end.

Lemma same_choice_refl x : (forall b, x = Ok b -> wf b) -> same_choice x x.
Proof. destruct x as [b|e]; intros H; cbn; [|reflexivity]. repeat split; auto. Qed.

Lemma choose_guard g g' s hd guess th arg a : wf a ->
  same_choice (choose_mask fs g s hd guess th arg a) (choose_mask fs g' s hd guess th arg a).
Proof.
  intros W.
  assert (S : same_choice (saturation g a) (saturation g' a)).
  { destruct (saturation_spec g a W) as (b & -> & D & Wb & V).
    destruct (saturation_spec g' a W) as (b' & -> & D' & Wb' & V').
    split; [congruence|]. split; [trivial|]. split; [trivial|]. rewrite D. intros. now rewrite V, V'. }
  assert (Q : forall guard b, choose_mask fs guard s hd guess th arg a = Ok b -> wf b).
  { intros guard b E. apply choose_spec in E; trivial. now destruct E as (d & f & _ & _ & H & _). }
  specialize (Q g). revert Q.
  destruct arg as [n|m| |]; cbn [choose_mask]; intros Q.
  - apply same_choice_refl, Q.
  - apply same_choice_refl, Q.
  - destruct guess; [|exact S].
    destruct s; try (apply same_choice_refl, Q); try (destruct (mistaken (Path _) hd); [apply same_choice_refl, Q|]);
      (destruct (fs _) as [[|h rest]|]; [apply same_choice_refl, Q| |apply same_choice_refl, Q];
       destruct (h_extend h) as [[|]|]; [apply same_choice_refl, Q|apply same_choice_refl, Q|exact S]).
  - exact S.
Qed.

Theorem guard_moot g g' s hd guess th arg a : wf a ->
  match set_mask_with fs g s hd guess th arg a, set_mask_with fs g' s hd guess th arg a with
  | Ok b, Ok b' => plane_eq (dat b) (dat b') /\
      exists q q', msk b = Full q /\ msk b' = Full q' /\ plane_eq q q'
  | Raise e, Raise e' => e = e'
  | _, _ => False
  end.
Proof.
  intros W. unfold set_mask_with. pose proof (choose_guard g g' s hd guess th arg a W) as H.
  destruct (choose_mask fs g s hd guess th arg a) as [b|e], (choose_mask fs g' s hd guess th arg a) as [b'|e']; cbn [bind]; try exact H; try (now elim H).
  destruct H as (D & Wb & Wb' & V).
  destruct (finish_spec b Wb) as (x & -> & Dx & _ & _ & q & Eq & Sq & G).
  destruct (finish_spec b' Wb') as (x' & -> & Dx' & _ & _ & q' & Eq' & Sq' & G').
  split. { split; rewrite Dx, Dx', D; reflexivity. }
  exists q, q'. split; [exact Eq|]. split; [exact Eq'|]. split; [congruence|].
  pose proof Sq as Sq2. injection Sq2 as Sr Sc.
  intros i j Hi Hj.
  assert (Hi' : i < nr (dat b)) by lia. assert (Hj' : j < nc (dat b)) by lia.
  rewrite G by trivial. rewrite G' by now rewrite <- D.
  rewrite <- D. apply grown_ext; [exact V|exact Hi'|exact Hj'].
Qed.

End Choose.
