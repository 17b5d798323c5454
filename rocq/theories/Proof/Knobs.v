(** The tunable values. *)
From Coq Require Import ZArith List.
From Verif.Model Require Import Knobs.
Import ListNotations.
Set Bullet Behavior "Strict Subproofs".

Section Knobs.
Variable V : Type.
Variables twenty sixteen one : V.

Lemma turn_app l1 l2 k : turn_all V sixteen (l1 ++ l2) k = turn_all V sixteen l2 (turn_all V sixteen l1 k).
Proof. unfold turn_all. apply fold_left_app. Qed.

Lemma keep_min l : forall k, (forall v, ~ In (KMin V v) l) -> k_min V (turn_all V sixteen l k) = k_min V k.
Proof.
  induction l as [|a l IH]; intros k H; [reflexivity|]. unfold turn_all in *. cbn [fold_left].
  rewrite IH by (intros v X; apply (H v); now right). destruct a; try reflexivity. exfalso. apply (H v). now left.
Qed.

Lemma keep_mask l : forall k, (forall v, ~ In (KMask V v) l) -> k_mask V (turn_all V sixteen l k) = k_mask V k.
Proof.
  induction l as [|a l IH]; intros k H; [reflexivity|]. unfold turn_all in *. cbn [fold_left].
  rewrite IH by (intros v X; apply (H v); now right). destruct a; try reflexivity. exfalso. apply (H v). now left.
Qed.

Lemma keep_zp l : forall k, (forall v, ~ In (KZp V v) l) -> k_zp V (turn_all V sixteen l k) = k_zp V k.
Proof.
  induction l as [|a l IH]; intros k H; [reflexivity|]. unfold turn_all in *. cbn [fold_left].
  rewrite IH by (intros v X; apply (H v); now right). destruct a; try reflexivity. exfalso. apply (H v). now left.
Qed.
End Knobs.

(** Values never assigned. *)
Lemma C64_defaults_lm : forall V (twenty sixteen one : V) min mask l,
  let k := turn_all V sixteen l (build V sixteen one min mask) in
  ((forall v, ~ In (KMin V v) l) -> min_sources V twenty k = Some (match min with Some x => x | None => twenty end)) /\
  ((forall v, ~ In (KMask V v) l) -> maskthresh V sixteen k = Some (match mask with Some x => x | None => sixteen end)) /\
  ((forall v, ~ In (KZp V v) l) -> zp V one k = Some one).
Proof.
  intros V twenty sixteen one min mask l k. subst k. split; [|split]; intros H.
  - unfold min_sources. rewrite (keep_min V sixteen l _ H). destruct min; reflexivity.
  - unfold maskthresh. rewrite (keep_mask V sixteen l _ H). destruct min, mask; reflexivity.
  - unfold zp. rewrite (keep_zp V sixteen l _ H). destruct min, mask; reflexivity.
Qed.

(** Values assigned: the last one counts; None is kept as it is, except for the mask
    threshold, where it stands for 16. *)
Lemma C64_assigned_lm : forall V (twenty sixteen one : V) k l1 l2 v,
  ((forall w, ~ In (KMin V w) l2) -> min_sources V twenty (turn_all V sixteen (l1 ++ KMin V v :: l2) k) = v) /\
  ((forall w, ~ In (KMask V w) l2) ->
     maskthresh V sixteen (turn_all V sixteen (l1 ++ KMask V v :: l2) k) = match v with Some x => Some x | None => Some sixteen end) /\
  ((forall w, ~ In (KZp V w) l2) -> zp V one (turn_all V sixteen (l1 ++ KZp V v :: l2) k) = v).
Proof.
  intros V twenty sixteen one k l1 l2 v. rewrite !turn_app. split; [|split]; intros H.
  - unfold min_sources. change (turn_all V sixteen (KMin V v :: l2) ?x) with (turn_all V sixteen l2 (set_min V v x)).
    now rewrite keep_min.
  - unfold maskthresh. change (turn_all V sixteen (KMask V v :: l2) ?x) with (turn_all V sixteen l2 (set_mask V sixteen v x)).
    rewrite keep_mask by exact H. destruct v; reflexivity.
  - unfold zp. change (turn_all V sixteen (KZp V v :: l2) ?x) with (turn_all V sixteen l2 (set_zp V v x)).
    now rewrite keep_zp.
Qed.
