(** When a history leaves nan in the interpolated image. *)
From Coq Require Import ZArith List Bool Arith Reals Lia.
From Coquelicot Require Import Complex.
From Verif.Model Require Import Py Plane Ma Interp FindS Sources Stamps Cut KL Session Filter Chain CutChain Live.
From Verif.Spec Require Import Stamps Chain Session Cut CutCoadd Live.
From Verif.Proof Require Import Session SessionLm Chain ChainMain ChainUnits Cut CutMain CutLeft CutChain CutChainLeft Live LiveMain.
Import ListNotations.
Set Bullet Behavior "Strict Subproofs".
Local Open Scope R_scope.

Lemma some_or_none {A} (P : A -> Prop) (l : list A) : (forall a, P a \/ ~ P a) ->
  (exists a, In a l /\ P a) \/ (forall a, In a l -> ~ P a).
Proof.
  intros D. induction l as [|a l IH]; [right; intros ? []|]. destruct (D a) as [H|H]; [left; exists a; split; [now left|exact H]|].
  destruct IH as [(b & I & Hb)|N]; [left; exists b; split; [now right|exact Hb]|]. right. intros b [<-|I]; [exact H|now apply N].
Qed.

Lemma inner_dec im sh t : inner im sh t \/ ~ inner im sh t.
Proof.
  assert (D : (3 <= start (s_y t) (fst sh) /\ start (s_y t) (fst sh) + Z.of_nat (fst sh) + 3 <= Z.of_nat (nr im) /\
     3 <= start (s_x t) (snd sh) /\ start (s_x t) (snd sh) + Z.of_nat (snd sh) + 3 <= Z.of_nat (nc im))%Z \/
    ~ (3 <= start (s_y t) (fst sh) /\ start (s_y t) (fst sh) + Z.of_nat (fst sh) + 3 <= Z.of_nat (nr im) /\
     3 <= start (s_x t) (snd sh) /\ start (s_x t) (snd sh) + Z.of_nat (snd sh) + 3 <= Z.of_nat (nc im))%Z) by lia.
  destruct D as [D|D]; [left; intros ? [<-|[]]; exact D|right; intros H; apply D, (H t), or_introl, eq_refl].
Qed.

(** The pixels that are nan afterwards are those of the stamps inside the frame without a cell
    below their 70th percentile; in such a history there are none before the extraction. *)
Lemma C136_nan_lm : forall W fuel o d x c ex,
  build W fuel o d = Some (Ok x) -> fst (Session.best_sources (bu_lib x) (bu_attr x)) = Ok c ->
  snd (first_cut W o x c) = Ok ex ->
  let sh := stamp_shape (bu_attr x) in
  let im := bu_clean x in
  (0 < fst sh)%nat -> (0 < snd sh)%nat -> apart sh c ->
  forall cs, Forall same_stamps cs ->
  let s := lived W o cs x in
  forall i j, (i < nr im)%nat -> (j < nc im)%nat ->
  (px (pic_now (fst s)) i j = None <->
   pos (snd s) <> None /\
   exists t, In t c /\ in_stamp sh t (Z.of_nat i) (Z.of_nat j) /\ inner im sh t /\ ~ has_level im (var (bu_back x)) sh t).
Proof.
  intros W fuel o d x c ex E B F sh im Hr Hc Ap cs Hs s i j Hi Hj.
  destruct (C136_history_lm _ _ _ _ _ _ _ E B F cs Hs) as (A1 & A2 & _). fold s in A1, A2. rewrite A2, A1.
  destruct (pos (bu_attr (after cs (opened W o c x)))) as [ps|].
  - assert (Cu : first_cut W o x c = (fst (first_cut W o x c), Ok ex)) by (rewrite <- F; apply surjective_pairing).
    unfold first_cut in Cu. destruct (C132_left_lm _ _ _ _ _ _ _ _ _ Hr Hc Ap Cu i j Hi Hj) as [I O]. fold (first_cut W o x c) in I, O.
    split.
    + intros N. split; [discriminate|].
      destruct (some_or_none (fun t => in_stamp sh t (Z.of_nat i) (Z.of_nat j) /\ inner im sh t) c) as [(t & It & St & Nt)|No].
      { intros t. unfold in_stamp. destruct (inner_dec im sh t); [|tauto].
        assert (D : forall a b c0 : Z, (a <= b < c0)%Z \/ ~ (a <= b < c0)%Z) by (intros; lia).
        destruct (D (start (s_y t) (fst sh) - 3) (Z.of_nat i) (start (s_y t) (fst sh) + Z.of_nat (fst sh) + 3))%Z,
          (D (start (s_x t) (snd sh) - 3) (Z.of_nat j) (start (s_x t) (snd sh) + Z.of_nat (snd sh) + 3))%Z; tauto. }
      * exists t. split; [exact It|]. split; [exact St|]. split; [exact Nt|]. intros H.
        destruct (I t It St Nt) as [I1 _]. specialize (I1 H). unfold im in N. congruence.
      * rewrite O in N; [discriminate|]. intros t It St Nt. apply (No t It). now split.
    + intros (_ & t & It & St & Nt & H). destruct (I t It St Nt) as [_ I2]. now apply I2.
  - split; [discriminate|]. intros [N _]. now contradiction N.
Qed.
