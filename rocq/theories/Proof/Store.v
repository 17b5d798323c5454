From Coq Require Import ZArith List Bool String Ascii DecimalString DecimalZ DecimalPos DecimalFacts Lia.
From Verif.Model Require Import Py Store.
From Verif.Spec Require Import Store.
Import ListNotations.
Local Open Scope string_scope.

Lemma ascii_app a b : list_ascii_of_string (a ++ b) = (list_ascii_of_string a ++ list_ascii_of_string b)%list.
Proof. induction a; simpl; [reflexivity|]. now rewrite IHa. Qed.

Lemma append_inj a b d : a ++ b = a ++ d -> b = d.
Proof.
  intros H. apply (f_equal list_ascii_of_string) in H. rewrite !ascii_app in H.
  apply app_inv_head in H. apply (f_equal string_of_list_ascii) in H.
  now rewrite !string_of_list_ascii_of_string in H.
Qed.

Lemma append_inj_r a b c : a ++ c = b ++ c -> a = b.
Proof.
  intros H. apply (f_equal list_ascii_of_string) in H. rewrite !ascii_app in H.
  apply app_inv_tail in H. apply (f_equal string_of_list_ascii) in H.
  now rewrite !string_of_list_ascii_of_string in H.
Qed.

Lemma to_int_nonnil z : Z.to_int z <> Decimal.Pos Decimal.Nil /\ Z.to_int z <> Decimal.Neg Decimal.Nil.
Proof.
  destruct z as [|p|p]; simpl; split; try discriminate; intros [= H]; now apply Unsigned.to_uint_nonnil in H.
Qed.

Lemma str_Z_inj i j : str_Z i = str_Z j -> i = j.
Proof.
  unfold str_Z. intros H. apply (f_equal NilZero.int_of_string) in H.
  destruct (to_int_nonnil i), (to_int_nonnil j). rewrite !NilZero.isi in H by assumption.
  injection H as H. now apply to_int_inj.
Qed.

Lemma dbname_inj tmp i j : dbname tmp i = dbname tmp j -> i = j.
Proof.
  unfold dbname. intros H. do 2 apply append_inj in H. apply append_inj_r in H. now apply str_Z_inj.
Qed.

(** The names of the two files of a database end differently. *)
Lemma dat_not_map a b : a ++ ".dat" <> b ++ ".map".
Proof.
  intros H. apply (f_equal (fun s => hd_error (rev (list_ascii_of_string s)))) in H.
  rewrite !ascii_app, !rev_app_distr in H. simpl in H. discriminate.
Qed.

Lemma dat_inj a b : a ++ ".dat" = b ++ ".dat" -> a = b.
Proof. apply append_inj_r. Qed.
Lemma map_inj a b : a ++ ".map" = b ++ ".map" -> a = b.
Proof. apply append_inj_r. Qed.

Section S.
Context {A : Type}.

Lemma write_same (fs : fsys A) n c : write fs n c n = c.
Proof. unfold write. now rewrite String.eqb_refl. Qed.
Lemma write_other (fs : fsys A) n c f : f <> n -> write fs n c f = fs f.
Proof. unfold write. intros H. apply String.eqb_neq in H. now rewrite H. Qed.

(** The part of the disk that belongs to the image [i]. *)
Definition part (tmp : string) (i : Z) (s : disk A) :=
  (d_db s i, d_files s (dbname tmp i ++ ".dat"), d_files s (dbname tmp i ++ ".map")).

Definition named (tmp : string) (s : disk A) : Prop :=
  forall i d, d_db s i = Some d -> db_name d = dbname tmp i.

Ltac neq_names :=
  match goal with
  | |- ?a ++ ".dat" <> ?b ++ ".map" => apply dat_not_map
  | |- ?a ++ ".map" <> ?b ++ ".dat" => apply not_eq_sym, dat_not_map
  | H : ?i <> ?j |- dbname _ ?i ++ ".dat" <> dbname _ ?j ++ ".dat" =>
      let E := fresh in intros E; apply dat_inj in E; apply dbname_inj in E; contradiction
  | H : ?i <> ?j |- dbname _ ?i ++ ".map" <> dbname _ ?j ++ ".map" =>
      let E := fresh in intros E; apply map_inj in E; apply dbname_inj in E; contradiction
  end.

Lemma clean_files (fs : fsys A) n f :
  clean fs n f =
  match fs (n ++ ".dat") with
  | None => fs f
  | Some _ => if String.eqb f (n ++ ".dat") then None
              else if String.eqb f (n ++ ".map") then None else fs f
  end.
Proof.
  unfold clean, os_remove. destruct (fs (n ++ ".dat")) eqn:E; [|reflexivity].
  rewrite write_other by (apply not_eq_sym, dat_not_map).
  destruct (fs (n ++ ".map")) eqn:E2; unfold snd, write.
  - destruct (String.eqb f (n ++ ".map")) eqn:Em; destruct (String.eqb f (n ++ ".dat")); reflexivity.
  - destruct (String.eqb_spec f (n ++ ".dat")); [reflexivity|].
    destruct (String.eqb_spec f (n ++ ".map")); [subst; assumption|reflexivity].
Qed.

Lemma named_step tmp s i (a : act A) : named tmp s -> named tmp (snd (act_step tmp s i a)).
Proof.
  intros H j d. destruct a; cbn.
  - destruct (Z.eqb_spec j i); [intros [= <-]; subst; reflexivity|apply H].
  - destruct (d_db s i) eqn:E; cbn; [|apply H].
    destruct (Z.eqb_spec j i); [intros [= <-]; subst; cbn; now apply H|apply H].
  - apply H.
  - apply H.
Qed.

Lemma named_run tmp h : forall s, named tmp s -> named tmp (run_acts (A:=A) tmp s h).
Proof.
  induction h as [|[j a] h IH]; intros s H; simpl; [assumption|]. apply IH. now apply named_step.
Qed.

(** Another image's action leaves the part of [i] as it is. *)
Lemma step_other tmp s i j (a : act A) :
  named tmp s -> j <> i -> part tmp i (snd (act_step tmp s j a)) = part tmp i s.
Proof.
  intros N Hne. assert (Hne' : i <> j) by congruence. unfold part.
  destruct a; cbn.
  - apply Z.eqb_neq in Hne'. rewrite Hne'. apply Z.eqb_neq in Hne'.
    rewrite !write_other by neq_names. reflexivity.
  - destruct (d_db s j) as [d|] eqn:E; [|reflexivity]. cbn. rewrite (N _ _ E).
    apply Z.eqb_neq in Hne'. rewrite Hne'. apply Z.eqb_neq in Hne'.
    rewrite !write_other by neq_names. reflexivity.
  - reflexivity.
  - rewrite !clean_files. destruct (d_files s (dbname tmp j ++ ".dat")); [|reflexivity].
    repeat match goal with |- context [String.eqb ?a ?b] =>
      let H := fresh in assert (H : a <> b) by neq_names; apply String.eqb_neq in H; rewrite H; clear H end.
    reflexivity.
Qed.

(** The effect of an action of [i] on its part, and the answer, depend on its part only. *)
Lemma step_part tmp s s' i (a : act A) :
  named tmp s -> named tmp s' -> part tmp i s = part tmp i s' ->
  fst (act_step tmp s i a) = fst (act_step tmp s' i a) /\
  part tmp i (snd (act_step tmp s i a)) = part tmp i (snd (act_step tmp s' i a)).
Proof.
  intros N N' H. unfold part in *. injection H as Hd Hdat Hmap.
  destruct a; cbn.
  - rewrite !Z.eqb_refl. rewrite !write_same.
    rewrite !(write_other _ (dbname tmp i ++ ".map") _ (dbname tmp i ++ ".dat")) by neq_names.
    rewrite !write_same. split; reflexivity.
  - rewrite <- Hd. destruct (d_db s i) as [d|] eqn:E; cbn.
    + rewrite (N _ _ E), !Z.eqb_refl. unfold dat_of, map_of. rewrite <- Hdat, <- Hmap.
      rewrite !(write_other _ (dbname tmp i ++ ".map") _ (dbname tmp i ++ ".dat")) by neq_names.
      rewrite !write_same. split; reflexivity.
    + rewrite E, <- Hd, Hdat, Hmap. split; reflexivity.
  - split; [|now rewrite Hd, Hdat, Hmap]. rewrite <- Hd. destruct (d_db s i) as [d|] eqn:E; [|reflexivity].
    unfold db_load. rewrite (N _ _ E). now rewrite Hdat.
  - split; [reflexivity|]. rewrite !clean_files, Hd, Hdat, Hmap. reflexivity.
Qed.

Lemma run_part tmp i h : forall s s', named tmp s -> named tmp s' -> part tmp i s = part tmp i s' ->
  part tmp i (run_acts (A:=A) tmp s h) =
  part tmp i (run_acts tmp s' (filter (fun e => Z.eqb (fst e) i) h)).
Proof.
  induction h as [|[j a] h IH]; intros s s' N N' H; cbn [run_acts filter fst]; [assumption|].
  destruct (Z.eqb_spec j i) as [->|Hne].
  - cbn [run_acts]. apply IH; try (now apply named_step). now apply step_part.
  - apply IH; [now apply named_step|assumption|]. now rewrite step_other.
Qed.

Lemma answers_part tmp i h : forall s s', named tmp s -> named tmp s' -> part tmp i s = part tmp i s' ->
  answers (A:=A) tmp i s h = answers tmp i s' (filter (fun e => Z.eqb (fst e) i) h).
Proof.
  induction h as [|[j a] h IH]; intros s s' N N' H; cbn [answers filter fst]; [reflexivity|].
  destruct (Z.eqb_spec j i) as [->|Hne].
  - cbn [answers]. destruct (step_part tmp s s' i a N N' H) as [E1 E2].
    pose proof (named_step tmp s i a N) as M1. pose proof (named_step tmp s' i a N') as M2.
    destruct (act_step tmp s i a) as [r t], (act_step tmp s' i a) as [r' t']. cbn in *. subst r'.
    rewrite Z.eqb_refl. destruct r; [f_equal|]; now apply IH.
  - pose proof (step_other tmp s i j a N Hne) as E. pose proof (named_step tmp s j a N) as M.
    destruct (act_step tmp s j a) as [r t]. cbn [snd] in *.
    assert (IH' : answers tmp i t h = answers tmp i s' (filter (fun e => Z.eqb (fst e) i) h)).
    { apply IH; [assumption|assumption|]. now rewrite E. }
    now destruct r.
Qed.

Lemma fresh_named tmp (s : disk A) : fresh s -> named tmp s.
Proof. intros H i d E. now rewrite H in E. Qed.

(** *** One extraction *)

Lemma filter_mine i (h : list (Z * act A)) :
  filter (fun e => Z.eqb (fst e) i) h = map (fun a => (i, a)) (acts_of i h).
Proof.
  unfold acts_of. induction h as [|[j a] h IH]; cbn [filter fst map]; [reflexivity|].
  destruct (Z.eqb_spec j i) as [->|_]; [cbn [map snd]; now f_equal|assumption].
Qed.

Lemma run_app tmp h1 : forall s h2, run_acts (A:=A) tmp s (h1 ++ h2)%list = run_acts tmp (run_acts tmp s h1) h2.
Proof. induction h1 as [|[j a] h1 IH]; intros; simpl; [reflexivity|apply IH]. Qed.

Definition lines (k n : nat) : list (nat * string) :=
  map (fun p => (p, str_Z (Z.of_nat p))) (seq k n).

Lemma dumps_part tmp i : forall (stamps done : list A) s,
  part tmp i s = (Some (mknpdb (dbname tmp i) (lines 0 (List.length done))),
                  Some (Dat done), Some (Map (lines 0 (List.length done)))) ->
  part tmp i (run_acts tmp s (map (fun a => (i, a))
     (map (fun p => Dump (snd p) (Z.of_nat (fst p))) (combine (seq (List.length done) (List.length stamps)) stamps)))) =
  (Some (mknpdb (dbname tmp i) (lines 0 (List.length (done ++ stamps)%list))),
   Some (Dat (done ++ stamps)%list), Some (Map (lines 0 (List.length (done ++ stamps)%list)))).
Proof.
  induction stamps as [|a stamps IH]; intros done s H.
  - simpl. now rewrite List.app_nil_r.
  - cbn [List.length seq combine map run_acts]. specialize (IH (done ++ [a])%list).
    rewrite List.app_length in IH. cbn [List.length] in IH. rewrite Nat.add_1_r in IH.
    rewrite IH.
    + rewrite <- List.app_assoc. reflexivity.
    + unfold part in H |- *. injection H as Hd Hdat Hmap. cbn [snd fst].
      unfold act_step. rewrite Hd. cbn -[lines].
      rewrite Z.eqb_refl, write_same.
      rewrite (write_other _ (dbname tmp i ++ ".map") _ (dbname tmp i ++ ".dat")) by apply dat_not_map.
      rewrite write_same. unfold dat_of, map_of. rewrite Hdat, Hmap.
      assert (E : lines 0 (S (List.length done)) =
        (lines 0 (List.length done) ++ [(List.length done, str_Z (Z.of_nat (List.length done)))])%list)
        by (unfold lines; rewrite seq_S, map_app; reflexivity).
      now rewrite E.
Qed.

Lemma extraction_part tmp i (stamps : list A) s : named tmp s ->
  part tmp i (run_acts tmp s (map (fun a => (i, a)) (extraction stamps))) =
  (Some (mknpdb (dbname tmp i) (lines 0 (List.length stamps))),
   Some (Dat stamps), Some (Map (lines 0 (List.length stamps)))).
Proof.
  intros N. unfold extraction. cbn [map run_acts].
  apply (dumps_part tmp i stamps []). unfold part. cbn.
  rewrite Z.eqb_refl, write_same.
  rewrite (write_other _ (dbname tmp i ++ ".map") _ (dbname tmp i ++ ".dat")) by apply dat_not_map.
  now rewrite write_same.
Qed.

Lemma find_lines (k : Z) : forall n b,
  find (fun e : nat * string => String.eqb (snd e) (str_Z k)) (lines b n) =
  if ((Z.of_nat b <=? k) && (k <? Z.of_nat (b + n)))%Z then Some (Z.to_nat k, str_Z k) else None.
Proof.
  induction n as [|n IH]; intros b.
  - simpl. destruct (Z.leb_spec (Z.of_nat b) k), (Z.ltb_spec k (Z.of_nat (b + 0))); try reflexivity; lia.
  - unfold lines. cbn [seq map find snd].
    destruct (String.eqb_spec (str_Z (Z.of_nat b)) (str_Z k)) as [E|E].
    + apply str_Z_inj in E. subst k.
      destruct (Z.leb_spec (Z.of_nat b) (Z.of_nat b)), (Z.ltb_spec (Z.of_nat b) (Z.of_nat (b + S n))); try lia.
      simpl. now rewrite Nat2Z.id.
    + fold (lines (S b) n). rewrite IH.
      destruct (Z.leb_spec (Z.of_nat (S b)) k), (Z.leb_spec (Z.of_nat b) k),
        (Z.ltb_spec k (Z.of_nat (S b + n))), (Z.ltb_spec k (Z.of_nat (b + S n))); try reflexivity; try lia.
      exfalso. apply E. f_equal. lia.
Qed.
End S.
