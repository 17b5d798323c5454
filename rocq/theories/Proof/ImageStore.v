(** A stored mask read back. *)
From Coq Require Import ZArith List Bool Arith String Reals Lia Lra.
From Coq Require Import SpecFloat.
From Flocq Require Import Core.Core IEEE754.BinarySingleNaN.
From Verif.Model Require Import Py Plane Ma Image.
From Verif.Spec Require Import Image.
From Verif.Proof Require Import Image ImageMask ImageGrow ImageBorder ImageBuild.
Import ListNotations.
Set Bullet Behavior "Strict Subproofs".

Definition idb (b : bool) : bool := b.
Definition bit (b : bool) : pix := if b then fone else fzero.

Lemma insert_zero z o : insert_pix fzero (repeat fzero z ++ repeat fone o) = repeat fzero (S z) ++ repeat fone o.
Proof. destruct z; [destruct o|]; reflexivity. Qed.

Lemma insert_one z o : insert_pix fone (repeat fzero z ++ repeat fone o) = repeat fzero z ++ repeat fone (S o).
Proof.
  induction z as [|z IH].
  - destruct o; reflexivity.
  - cbn [repeat app insert_pix]. replace (fleb fone fzero) with false by reflexivity. now rewrite IH.
Qed.

Lemma sort_bits l : sort_pix (map bit l) =
  repeat fzero (List.length (filter negb l)) ++ repeat fone (List.length (filter idb l)).
Proof.
  induction l as [|b l IH]; [reflexivity|]. unfold sort_pix in *. cbn [map fold_right]. rewrite IH.
  destruct b; cbn [bit filter negb idb]; [apply insert_one|apply insert_zero].
Qed.

Lemma cells_pmap {A B} (f : A -> B) p : cells (pmap f p) = map f (cells p).
Proof.
  unfold cells. cbn [pmap nr nc px]. rewrite flat_map_concat_map, flat_map_concat_map, concat_map, map_map.
  f_equal. apply map_ext. intros i. now rewrite map_map.
Qed.

Lemma cells_count m : List.length (filter idb (cells m)) = set_cells m.
Proof.
  unfold cells, set_cells. generalize (seq 0 (nr m)). intros l. induction l as [|i l IH]; [reflexivity|].
  cbn [flat_map list_prod]. rewrite !filter_app, !app_length. f_equal; [|exact IH].
  generalize (seq 0 (nc m)). intros k. induction k as [|j k IHk]; [reflexivity|].
  cbn [map filter fst snd]. change (idb (px m i j)) with (px m i j).
  destruct (px m i j); cbn [List.length]; rewrite <- IHk; reflexivity.
Qed.

Lemma cells_length {A} (p : plane A) : List.length (cells p) = nr p * nc p.
Proof.
  unfold cells. rewrite <- (seq_length (nr p) 0) at 2. generalize (seq 0 (nr p)). intros l.
  induction l as [|i l IH]; [reflexivity|]. cbn [flat_map]. rewrite app_length, map_length, seq_length, IH. cbn. lia.
Qed.

Lemma filter_split (l : list bool) : List.length (filter negb l) + List.length (filter idb l) = List.length l.
Proof. induction l as [|b l IH]; [reflexivity|]. destruct b; cbn in *; lia. Qed.

Lemma nth_zo k z o : k < z + o -> nth k (repeat fzero z ++ repeat fone o) S754_nan = if k <? z then fzero else fone.
Proof.
  intros H. destruct (Nat.ltb_spec k z) as [L|L].
  - rewrite app_nth1 by now rewrite repeat_length. rewrite (nth_indep _ S754_nan fzero) by now rewrite repeat_length.
    apply nth_repeat.
  - rewrite app_nth2 by now rewrite repeat_length. rewrite repeat_length.
    rewrite (nth_indep _ S754_nan fone) by (rewrite repeat_length; lia). apply nth_repeat.
Qed.

Lemma median_bits m : feqb (median (pmap bit m)) fzero = (2 * set_cells m <? nr m * nc m).
Proof.
  unfold median. cbv zeta. rewrite cells_pmap.
  replace (existsb is_nanb (map bit (cells m))) with false.
  2:{ symmetry. apply not_true_is_false. intros H. apply existsb_exists in H as (x & Hx & N).
      apply in_map_iff in Hx as ([|] & <- & _); discriminate. }
  rewrite map_length. rewrite sort_bits.
  rewrite <- cells_count. pose proof (filter_split (cells m)) as FS. rewrite <- (cells_length m).
  set (z := List.length (filter negb (cells m))) in *. set (o := List.length (filter idb (cells m))) in *.
  rewrite <- FS. clear FS.
  destruct (Nat.eqb_spec (z + o) 0) as [Z|Z].
  { replace z with 0 by lia. replace o with 0 by lia. reflexivity. }
  destruct (Nat.odd (z + o)) eqn:Od.
  - apply Nat.odd_spec in Od as [k K]. rewrite K. replace ((2 * k + 1) / 2) with k.
    2:{ rewrite Nat.add_comm, Nat.mul_comm, Nat.div_add by lia. reflexivity. }
    rewrite nth_zo by lia. destruct (Nat.ltb_spec k z), (Nat.ltb_spec (2 * o) (2 * k + 1)); try reflexivity; lia.
  - rewrite <- Nat.negb_even in Od. apply negb_false_iff, Nat.even_spec in Od as [k K]. rewrite K.
    rewrite Nat.mul_comm, Nat.div_mul by lia.
    rewrite !nth_zo by lia.
    destruct (Nat.ltb_spec (k - 1) z), (Nat.ltb_spec k z), (Nat.ltb_spec (o * 2) (k * 2)); try lia; try (vm_compute; reflexivity);
    rewrite (Nat.mul_comm 2 o).
    all: destruct (Nat.ltb_spec (o * 2) (k * 2)); try lia; vm_compute; reflexivity.
Qed.

(** The flags read from a stored mask. *)
Lemma fone_val : finiteb fone = true /\ SF2R radix2 fone = 1%R.
Proof. split; [reflexivity|]. cbn. unfold F2R. cbn. lra. Qed.
Lemma fzero_val : finiteb fzero = true /\ SF2R radix2 fzero = 0%R.
Proof. split; reflexivity. Qed.

Lemma flags_small m th i j : finiteb th = true -> 2 * set_cells m < nr m * nc m -> (0 < SF2R radix2 th <= 1)%R ->
  px (fits_flags (pmap bit m) th) i j = px m i j.
Proof.
  intros Ft S T. unfold fits_flags. rewrite median_bits. apply Nat.ltb_lt in S. rewrite S. cbn [pmap px].
  destruct fone_val as [F1 V1], fzero_val as [F0 V0].
  destruct (px m i j); cbn [bit].
  - apply fleb_finite; trivial. lra.
  - apply not_true_is_false. intros H. apply fleb_finite in H; trivial. lra.
Qed.

Lemma flags_none m th i j : finiteb th = true -> 2 * set_cells m < nr m * nc m -> (1 < SF2R radix2 th)%R ->
  px (fits_flags (pmap bit m) th) i j = false.
Proof.
  intros Ft S T. unfold fits_flags. rewrite median_bits. apply Nat.ltb_lt in S. rewrite S. cbn [pmap px].
  destruct fone_val as [F1 V1], fzero_val as [F0 V0].
  destruct (px m i j); cbn [bit]; apply not_true_is_false; intros H; apply fleb_finite in H; trivial; lra.
Qed.

Lemma flags_all m th i j : finiteb th = true -> nr m * nc m <= 2 * set_cells m -> (1 <= SF2R radix2 th)%R ->
  px (fits_flags (pmap bit m) th) i j = true.
Proof.
  intros Ft S T. unfold fits_flags. rewrite median_bits. apply Nat.ltb_ge in S. rewrite S. cbn [pmap px].
  destruct fone_val as [F1 V1], fzero_val as [F0 V0].
  destruct (px m i j); cbn [bit]; apply fleb_finite; trivial; lra.
Qed.

Lemma flags_complement m th i j : finiteb th = true -> nr m * nc m <= 2 * set_cells m -> (0 <= SF2R radix2 th < 1)%R ->
  px (fits_flags (pmap bit m) th) i j = negb (px m i j).
Proof.
  intros Ft S T. unfold fits_flags. rewrite median_bits. apply Nat.ltb_ge in S. rewrite S. cbn [pmap px].
  destruct fone_val as [F1 V1], fzero_val as [F0 V0].
  destruct (px m i j); cbn [bit negb].
  - apply not_true_is_false. intros H. apply fleb_finite in H; trivial. lra.
  - apply fleb_finite; trivial; lra.
Qed.

Section Round.
Variable fs : string -> option (list hdu).
Variable nsum : list pix -> pix.

(** The loaded image: same pixels (as float32, times the gain), and the flags of the
    extension. *)
Lemma stored_build src d m th g im :
  (src = HduList (store_img d m) \/ exists n, src = Path n /\ fs n = Some (store_img d m)) ->
  shape m = shape d ->
  construct fs nsum (mkargs src MNone th true false ((0,0),(0,0))%Z g) = Ok im ->
  exists d',
  shape d' = shape d /\ plane_eq (pixels im) d' /\
  final_mask d' (fun i j => px (fits_flags (pmap bit m) (thresh_of th)) i j = true) (im_data im).
Proof.
  intros Hs S E.
  assert (W : wf_source (a_img (mkargs src MNone th true false ((0,0),(0,0))%Z g))) by (destruct Hs as [->|(n & -> & _)]; exact I).
  destruct (construct_inv fs nsum _ _ W E) as (hd & a0 & H1 & H2 & H3 & Wa & H5 & H6 & H7 & _).
  cbn [a_img a_mask a_thresh a_guess a_borders a_crop] in *.
  destruct (set_data_plain fs nsum src _ a0 W H3) as (o & O & P).
  destruct (set_mask_spec fs _ _ _ _ _ _ _ _ Wa H5) as (_ & d' & flag & K & F).
  assert (O' : o = pmap to_f4 d).
  { destruct Hs as [->|(n & -> & Fn)]; cbn in O; [|rewrite Fn in O]; injection O as <-; reflexivity. }
  assert (Sa : shape (dat a0) = shape d) by (rewrite (proj1 P), O'; reflexivity).
  exists (dat a0). split; [exact Sa|].
  assert (J : final_mask (dat a0) (set_by (fits_flags (pmap bit m) (thresh_of th)) a0) (im_data im)).
  { assert (Hd : extend_of hd = Some true).
    { destruct Hs as [->|(n & -> & Fn)]; cbn [get_header] in H1.
      - cbn in H1. injection H1 as <-. reflexivity.
      - unfold open_primary in H1. rewrite Fn in H1. cbn in H1. injection H1 as <-. reflexivity. }
    rewrite Hd in K.
    assert (C : d' = dat a0 /\ flag = set_by (fits_flags (pmap bit m) (thresh_of th)) a0).
    { destruct Hs as [->|(n & -> & Fn)]; inversion K; subst; try discriminate; try easy.
      - match goal with H : HduList _ = HduList _ |- _ => injection H as <- <- <- end. split; reflexivity.
      - match goal with H : _ \/ _ |- _ => destruct H as [[? [H _]]|[[? H]|H]]; discriminate end.
      - match goal with H : _ \/ _ |- _ => destruct H as [[? [H _]]|[[? H]|H]]; discriminate end.
      - match goal with H : _ \/ _ |- _ => destruct H as [[? [H _]]|[[? H]|H]]; discriminate end.
      - match goal with H : _ \/ _ |- _ => destruct H as [[? [H _]]|[[? H]|H]]; discriminate end.
      - cbn [attached_to] in *. match goal with H : fs n = None \/ _ |- _ => rewrite Fn in H; destruct H; discriminate end.
      - cbn [attached_to] in *. match goal with H : fs n = Some _, H' : h_extend _ = _ |- _ => rewrite Fn in H; injection H as <- <- end. split; reflexivity.
      - cbn [attached_to] in *. match goal with H : fs n = Some [_] |- _ => rewrite Fn in H; discriminate end.
      - cbn [attached_to] in *. exfalso. match goal with H : fs n = Some (?h :: _), H' : h_extend ?h <> _ |- _ => rewrite Fn in H; injection H as <- _; apply H'; reflexivity end. }
    destruct C as [-> ->]. exact F. }
  split; [exact (proj1 J)|].
  eapply final_weaken; [|exact J]. intros i j Hi Hj. unfold set_by.
  set (fl := fits_flags (pmap bit m) (thresh_of th)).
  assert (Sf : shape fl = shape (dat a0)) by (rewrite Sa, <- S; reflexivity).
  pose proof (f_equal fst Sf : nr fl = nr (dat a0)) as Fr. pose proof (f_equal snd Sf : nc fl = nc (dat a0)) as Fc.
  destruct (Nat.eqb_spec (nr fl * nc fl) 0) as [Z|Z]; [apply Nat.eq_mul_0 in Z; lia|].
  rewrite cyclic_same by (trivial; lia). reflexivity.
Qed.

End Round.
