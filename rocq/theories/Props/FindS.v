(** C50: find_S_local_maxima. *)
From Coq Require Import ZArith List Bool Arith Reals Lia Lra.
From Verif.Model Require Import Py Plane FindS.
From Verif.Spec Require Import FindS.
From Verif.Proof Require Import FindSMain.
Import ListNotations.
Local Open Scope R_scope.

(** The catalogue has exactly one entry per connected region of pixels above the threshold,
    in the row-major order of the regions' first pixels, each at the weighted mean position. *)
Theorem C50_one_entry_per_region : forall stats label (I : plane R) threshold ns mean med std cat,
  stats I = (mean, med, std) ->
  let m := pmap (detected mean std threshold) I in
  labels m (fst (label m)) (snd (label m)) ->
  find_S stats label I threshold ns = Ok cat ->
  exists firsts, length firsts = length cat /\
    (forall c, inside I c -> detected mean std threshold (px I (fst c) (snd c)) = true ->
       exists k f, nth_error firsts k = Some f /\ joined m f c) /\
    (forall j k f g, nth_error firsts j = Some f -> nth_error firsts k = Some g -> (j < k)%nat ->
       before f g /\ ~ joined m f g) /\
    (forall k f e, nth_error firsts k = Some f -> nth_error cat k = Some e ->
       first_of m f /\ entry_of m I (snr mean std) f e).
Proof. exact C50_one_entry_per_region_lm. Qed.
Print Assumptions C50_one_entry_per_region.

(** When the pixels of each region have values of one sign, the call succeeds and every
    reported position lies in the bounding box of its region; the significance is that of the
    pixel under the position. *)
Theorem C50_inside_box : forall stats label (I : plane R) threshold ns mean med std,
  stats I = (mean, med, std) ->
  let m := pmap (detected mean std threshold) I in
  labels m (fst (label m)) (snd (label m)) ->
  (forall c d, joined m c d -> 0 < px I (fst c) (snd c) * px I (fst d) (snd d)) ->
  exists cat, find_S stats label I threshold ns = Ok cat /\
    forall k y x s, nth_error cat k = Some (y, x, s) ->
      exists f, first_of m f /\ entry_of m I (snr mean std) f (y, x, s) /\
        (forall r0 r1 c0 c1, (forall c, joined m f c -> r0 <= fst c <= r1 /\ c0 <= snd c <= c1)%nat ->
           INR r0 <= x <= INR r1 /\ INR c0 <= y <= INR c1) /\
        exists i j, inside I (i, j) /\ INR i <= x < INR i + 1 /\ INR j <= y < INR j + 1 /\
          s = snr mean std (px I i j).
Proof. exact C50_inside_box_lm. Qed.
Print Assumptions C50_inside_box.

(** The 3x3 image [ring] (10 everywhere but 0 in the middle), with mean 0, standard deviation
    1 and threshold 3, is one region. *)
Example C50_case :
  let m := pmap (detected 0 1 3) ring in
  labels m ring_labels 1 /\
  (forall c d, joined m c d -> 0 < px ring (fst c) (snd c) * px ring (fst d) (snd d)) /\
  joined m (0, 0)%nat (2, 2)%nat /\
  exists cat, find_S (fun _ => (0, 0, 1)) (fun _ => (ring_labels, 1%nat)) ring 3 5 = Ok cat.
Proof.
  assert (P : forall c d, joined (pmap (detected 0 1 3) ring) c d ->
            0 < px ring (fst c) (snd c) * px ring (fst d) (snd d)).
  { intros c d J. destruct (joined_true _ _ _ J) as [T U].
    rewrite ring_mask in T, U. cbn [ring px].
    destruct (Nat.eqb (fst c) 1 && Nat.eqb (snd c) 1); [discriminate|].
    destruct (Nat.eqb (fst d) 1 && Nat.eqb (snd d) 1); [discriminate|]. lra. }
  split; [exact ring_labelled|]. split; [exact P|]. split.
  - apply ring_joined; cbn; [lia|lia|congruence].
  - destruct (C50_inside_box_lm (fun _ => (0, 0, 1)) (fun _ => (ring_labels, 1%nat)) ring 3 5 0 0 1)
      as (cat & E & _); [reflexivity|exact ring_labelled|exact P|]. now exists cat.
Qed.

(** neighborhood_size is ignored. *)
Theorem C50_neighborhood_ignored : forall stats label I threshold n1 n2,
  find_S stats label I threshold n1 = find_S stats label I threshold n2.
Proof. exact C50_neighborhood_ignored_lm. Qed.
Print Assumptions C50_neighborhood_ignored.

(** The reported significance can be below the threshold. *)
Theorem C50_below_threshold_refuted : exists stats label (I : plane R) threshold mean med std y x s,
  stats I = (mean, med, std) /\
  (let m := pmap (detected mean std threshold) I in labels m (fst (label m)) (snd (label m))) /\
  (exists ns, find_S stats label I threshold ns = Ok [(y, x, Some s)]) /\ s < threshold.
Proof. exact C50_below_threshold_refuted_lm. Qed.
Print Assumptions C50_below_threshold_refuted.
