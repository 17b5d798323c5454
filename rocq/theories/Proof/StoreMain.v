(** The lemmas behind Props/Store.v. *)
From Coq Require Import ZArith List Bool String Lia.
From Verif.Model Require Import Py Store.
From Verif.Spec Require Import Store.
From Verif.Proof Require Import Store.
Import ListNotations.
Local Open Scope string_scope.

Lemma clean_removed {A} (fs : fsys A) n : fs (n ++ ".dat") <> None ->
  removed [n ++ ".dat"; n ++ ".map"] fs (clean fs n).
Proof.
  intros H f. rewrite clean_files. destruct (fs (n ++ ".dat")); [|contradiction].
  destruct (in_dec string_dec f [n ++ ".dat"; n ++ ".map"]) as [I|I].
  - destruct I as [<-|[<-|[]]]; rewrite String.eqb_refl; [reflexivity|]. now destruct (_ =? _)%string.
  - destruct (String.eqb_spec f (n ++ ".dat")) as [->|_]; [exfalso; apply I; now left|].
    destruct (String.eqb_spec f (n ++ ".map")) as [->|_]; [exfalso; apply I; right; now left|reflexivity].
Qed.

(** C59: when both files exist at the end of the block, both are removed and nothing else
    changes; the result of the block or its exception goes on unchanged. *)
Lemma C59_block_cleans_lm : forall (A T : Type) (name : string) (body : fsys A -> res T * fsys A)
  (fs : fsys A) (r : res T) (fs1 : fsys A),
  body fs = (r, fs1) -> fs1 (name ++ ".dat") <> None -> fs1 (name ++ ".map") <> None ->
  exists fs2, with_block name body fs = (r, fs2) /\ removed [name ++ ".dat"; name ++ ".map"] fs1 fs2.
Proof.
  intros A T name body fs r fs1 E H1 H2. unfold with_block. rewrite E.
  eexists. split; [reflexivity|]. now apply clean_removed.
Qed.

(** C59: in every other case too the outcome of the block goes on; the files of the image
    are removed if the .dat file exists and the disk is left as it is otherwise. *)
Lemma C59_block_outcome_lm : forall (A T : Type) (name : string) (body : fsys A -> res T * fsys A)
  (fs : fsys A) (r : res T) (fs1 : fsys A),
  body fs = (r, fs1) ->
  exists fs2, with_block name body fs = (r, fs2) /\
    (fs1 (name ++ ".dat") <> None -> removed [name ++ ".dat"; name ++ ".map"] fs1 fs2) /\
    (fs1 (name ++ ".dat") = None -> same_files fs1 fs2).
Proof.
  intros A T name body fs r fs1 E. unfold with_block. rewrite E.
  eexists. split; [reflexivity|]. split; [apply clean_removed|].
  intros H f. rewrite clean_files. now rewrite H.
Qed.

(** C59: cleaning a second time changes nothing. *)
Lemma C59_clean_twice_lm : forall (A : Type) (name : string) (fs : fsys A),
  same_files (clean fs name) (clean (clean fs name) name).
Proof.
  intros A name fs f. rewrite (clean_files (clean fs name) name f).
  rewrite (clean_files fs name (name ++ ".dat")).
  destruct (fs (name ++ ".dat")) eqn:E; [now rewrite String.eqb_refl|reflexivity].
Qed.

(** C59: a crash during the cleaning of an image with both files leaves one of three
    disks: both files, only the .map file, or none; cleaning again then removes both, keeps
    the .map file for ever, or finds nothing to do. *)
Lemma C59_crash_lm : forall (A : Type) (name : string) (fs st : fsys A),
  fs (name ++ ".dat") <> None -> fs (name ++ ".map") <> None -> In st (clean_states fs name) ->
  (removed [] fs st /\ removed [name ++ ".dat"; name ++ ".map"] fs (clean st name)) \/
  (removed [name ++ ".dat"] fs st /\ removed [name ++ ".dat"] fs (clean st name)) \/
  (removed [name ++ ".dat"; name ++ ".map"] fs st /\
   removed [name ++ ".dat"; name ++ ".map"] fs (clean st name)).
Proof.
  intros A name fs st H1 H2 I. pose proof (clean_removed fs name H1) as R.
  pose proof (C59_clean_twice_lm A name fs) as T2.
  unfold clean_states in I. unfold clean at 1 in R.
  pose proof (eq_refl (clean fs name)) as C. unfold clean at 2 in C.
  unfold os_remove in I at 1. unfold os_remove in C at 1.
  destruct (fs (name ++ ".dat")) eqn:E; [|contradiction].
  destruct I as [<-|[<-|[<-|[]]]].
  - left. split; [intros f; reflexivity|]. now apply clean_removed; rewrite E.
  - right. left. split.
    + intros f. unfold write. destruct (String.eqb_spec f (name ++ ".dat")) as [->|Hn].
      * destruct in_dec as [_|I]; [reflexivity|]. exfalso. apply I. now left.
      * destruct in_dec as [I|_]; [|reflexivity]. destruct I as [<-|[]]. contradiction.
    + intros f. rewrite clean_files, write_same. unfold write.
      destruct (String.eqb_spec f (name ++ ".dat")) as [->|Hn].
      * destruct in_dec as [_|I]; [reflexivity|]. exfalso. apply I. now left.
      * destruct in_dec as [I|_]; [|reflexivity]. destruct I as [<-|[]]. contradiction.
  - right. right. rewrite <- C. split; [apply clean_removed; now rewrite E|].
    intros f. rewrite <- (T2 f). apply clean_removed. now rewrite E.
Qed.

(** C59: the lone .map file is left behind by every later cleaning. *)
Lemma C59_lone_map_left_lm : forall (A : Type) (name : string) (fs : fsys A),
  fs (name ++ ".dat") = None -> same_files fs (clean fs name).
Proof. intros A name fs H f. rewrite clean_files. now rewrite H. Qed.

(** C60: what an image reads is a function of its own actions: in two histories in which
    the image [i] does the same, whatever the others do in between, it reads the same. *)
Lemma C60_isolation_lm : forall (A : Type) (tmp : string) (i : Z) (s : disk A) (h h' : list (Z * act A)),
  fresh s -> acts_of i h = acts_of i h' -> answers tmp i s h = answers tmp i s h'.
Proof.
  intros A tmp i s h h' F H. pose proof (fresh_named tmp s F) as N.
  rewrite (answers_part tmp i h s s), (answers_part tmp i h' s s) by (assumption || reflexivity).
  now rewrite !filter_mine, H.
Qed.

Lemma last_part {A} tmp (i : Z) (s : disk A) h pre (stamps : list A) :
  fresh s -> acts_of i h = (pre ++ extraction stamps)%list ->
  part tmp i (run_acts tmp s h) =
  (Some (mknpdb (dbname tmp i) (lines 0 (List.length stamps))),
   Some (Dat stamps), Some (Map (lines 0 (List.length stamps)))).
Proof.
  intros F H. pose proof (fresh_named tmp s F) as N.
  rewrite (run_part tmp i h s s) by (assumption || reflexivity).
  rewrite filter_mine, H, map_app, run_app. apply extraction_part. now apply named_run.
Qed.

(** C60: once the image has extracted its stamps, and whatever the others do before, in
    between or afterwards, it reads under k the k-th stamp of its last extraction; under
    other numbers it finds nothing. *)
Lemma C60_reads_last_stored_lm : forall (A : Type) (tmp : string) (i : Z) (s : disk A)
  (h : list (Z * act A)) (pre : list (act A)) (stamps : list A) (k : Z),
  fresh s -> acts_of i h = (pre ++ extraction stamps)%list ->
  fst (act_step tmp (run_acts tmp s h) i (Load k)) =
  Some (Ok (if (k <? 0)%Z then None else nth_error stamps (Z.to_nat k))).
Proof.
  intros A tmp i s h pre stamps k F H. pose proof (last_part tmp i s h pre stamps F H) as P.
  unfold part in P. injection P as Pd Pdat _. cbn [act_step fst]. rewrite Pd. unfold db_load.
  cbn [db_name db_pos]. rewrite Pdat, find_lines. cbn [Nat.add].
  destruct (Z.ltb_spec k 0).
  - destruct (Z.leb_spec (Z.of_nat 0) k); [lia|]. reflexivity.
  - destruct (Z.leb_spec (Z.of_nat 0) k); [|lia]. cbn [andb].
    destruct (Z.ltb_spec k (Z.of_nat (List.length stamps))) as [L|L].
    + destruct (nth_error stamps (Z.to_nat k)) eqn:E; [reflexivity|].
      apply nth_error_None in E. lia.
    + assert (E : nth_error stamps (Z.to_nat k) = None) by (apply nth_error_None; lia). now rewrite E.
Qed.

(** C60: cleaning one image leaves every file of the others. *)
Lemma C60_clean_only_own_lm : forall (A : Type) (tmp : string) (i j : Z) (fs : fsys A),
  i <> j ->
  clean fs (dbname tmp i) (dbname tmp j ++ ".dat") = fs (dbname tmp j ++ ".dat") /\
  clean fs (dbname tmp i) (dbname tmp j ++ ".map") = fs (dbname tmp j ++ ".map").
Proof.
  intros A tmp i j fs H.
  assert (N : named tmp (mkdisk fs (fun _ => None))) by (intros ? ? [=]).
  pose proof (step_other tmp _ j i Clean N H) as P. unfold part in P. cbn in P. now injection P.
Qed.
