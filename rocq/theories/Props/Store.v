(** C59, C60: the temporary stamp files. *)
From Coq Require Import ZArith List Bool String Lia.
From Verif.Model Require Import Py Store.
From Verif.Spec Require Import Store.
From Verif.Proof Require Import Store StoreMain.
Import ListNotations.
Local Open Scope string_scope.

(** C59: when both files exist at the end of the block, both are removed and nothing else
    changes; the result of the block or its exception goes on unchanged. *)
Theorem C59_block_cleans : forall (A T : Type) (name : string) (body : fsys A -> res T * fsys A)
  (fs : fsys A) (r : res T) (fs1 : fsys A),
  body fs = (r, fs1) -> fs1 (name ++ ".dat") <> None -> fs1 (name ++ ".map") <> None ->
  exists fs2, with_block name body fs = (r, fs2) /\ removed [name ++ ".dat"; name ++ ".map"] fs1 fs2.
Proof. exact C59_block_cleans_lm. Qed.
Print Assumptions C59_block_cleans.

(** A disk with the files of two images; the block of the first one raises. *)
Definition disk0 : fsys nat := fun f =>
  if f =? "/tmp/7_SingleImage.dat" then Some (Dat [10])
  else if f =? "/tmp/7_SingleImage.map" then Some (Map [(0, "0")])
  else if f =? "/tmp/8_SingleImage.dat" then Some (Dat [20]) else None.

Example C59_case :
  disk0 (dbname "/tmp" 7 ++ ".dat") <> None /\ disk0 (dbname "/tmp" 7 ++ ".map") <> None /\
  let (r, fs) := with_block (dbname "/tmp" 7) (fun fs => (@Raise nat ValueError, fs)) disk0 in
  r = Raise ValueError /\ fs "/tmp/7_SingleImage.dat" = None /\ fs "/tmp/7_SingleImage.map" = None /\
  fs "/tmp/8_SingleImage.dat" = Some (Dat [20]).
Proof. repeat split; vm_compute; congruence. Qed.

(** C59: in every other case too the outcome of the block goes on; the files of the image
    are removed if the .dat file exists and the disk is left as it is otherwise. *)
Theorem C59_block_outcome : forall (A T : Type) (name : string) (body : fsys A -> res T * fsys A)
  (fs : fsys A) (r : res T) (fs1 : fsys A),
  body fs = (r, fs1) ->
  exists fs2, with_block name body fs = (r, fs2) /\
    (fs1 (name ++ ".dat") <> None -> removed [name ++ ".dat"; name ++ ".map"] fs1 fs2) /\
    (fs1 (name ++ ".dat") = None -> same_files fs1 fs2).
Proof. exact C59_block_outcome_lm. Qed.
Print Assumptions C59_block_outcome.

(** C59: cleaning a second time changes nothing. *)
Theorem C59_clean_twice : forall (A : Type) (name : string) (fs : fsys A),
  same_files (clean fs name) (clean (clean fs name) name).
Proof. exact C59_clean_twice_lm. Qed.
Print Assumptions C59_clean_twice.

(** C59: a crash during the cleaning of an image with both files leaves one of three
    disks: both files, only the .map file, or none; cleaning again then removes both, keeps
    the .map file for ever, or finds nothing to do. *)
Theorem C59_crash : forall (A : Type) (name : string) (fs st : fsys A),
  fs (name ++ ".dat") <> None -> fs (name ++ ".map") <> None -> In st (clean_states fs name) ->
  (removed [] fs st /\ removed [name ++ ".dat"; name ++ ".map"] fs (clean st name)) \/
  (removed [name ++ ".dat"] fs st /\ removed [name ++ ".dat"] fs (clean st name)) \/
  (removed [name ++ ".dat"; name ++ ".map"] fs st /\
   removed [name ++ ".dat"; name ++ ".map"] fs (clean st name)).
Proof. exact C59_crash_lm. Qed.
Print Assumptions C59_crash.

Example C59_crash_case : exists st, In st (clean_states disk0 (dbname "/tmp" 7)) /\
  st "/tmp/7_SingleImage.dat" = None /\ clean st (dbname "/tmp" 7) "/tmp/7_SingleImage.map" = Some (Map [(0, "0")]).
Proof. eexists. split; [right; left; reflexivity|]. split; vm_compute; reflexivity. Qed.

(** C59: the lone .map file is left behind by every later cleaning. *)
Theorem C59_lone_map_left : forall (A : Type) (name : string) (fs : fsys A),
  fs (name ++ ".dat") = None -> same_files fs (clean fs name).
Proof. exact C59_lone_map_left_lm. Qed.
Print Assumptions C59_lone_map_left.

(** C60: what an image reads is a function of its own actions: in two histories in which
    the image [i] does the same, whatever the others do in between, it reads the same. *)
Theorem C60_isolation : forall (A : Type) (tmp : string) (i : Z) (s : disk A) (h h' : list (Z * act A)),
  fresh s -> acts_of i h = acts_of i h' -> answers tmp i s h = answers tmp i s h'.
Proof. exact C60_isolation_lm. Qed.
Print Assumptions C60_isolation.

(** Two images whose extractions overlap in time; the second one is cleaned at the end. *)
Definition history : list (Z * act nat) :=
  [(7%Z, Open); (8%Z, Open); (7%Z, Dump 10 0); (8%Z, Dump 20 0); (7%Z, Dump 11 1); (8%Z, Clean);
   (7%Z, Load 0); (7%Z, Load 1); (8%Z, Load 0)].

Example C60_case :
  acts_of 7 history = acts_of 7 (filter (fun e => (fst e =? 7)%Z) history) /\
  answers "/tmp" 7 (mkdisk (fun _ => None) (fun _ => None)) history = [Ok (Some 10); Ok (Some 11)] /\
  answers "/tmp" 8 (mkdisk (fun _ => None) (fun _ => None)) history = [Raise IOError].
Proof. repeat split; vm_compute; reflexivity. Qed.

(** C60: once the image has extracted its stamps, and whatever the others do before, in
    between or afterwards, it reads under k the k-th stamp of its last extraction; under
    other numbers it finds nothing. *)
Theorem C60_reads_last_stored : forall (A : Type) (tmp : string) (i : Z) (s : disk A)
  (h : list (Z * act A)) (pre : list (act A)) (stamps : list A) (k : Z),
  fresh s -> acts_of i h = (pre ++ extraction stamps)%list ->
  fst (act_step tmp (run_acts tmp s h) i (Load k)) =
  Some (Ok (if (k <? 0)%Z then None else nth_error stamps (Z.to_nat k))).
Proof. exact C60_reads_last_stored_lm. Qed.
Print Assumptions C60_reads_last_stored.

Example C60_read_case : acts_of 7 (firstn 6 history) = ([] ++ extraction [10; 11])%list.
Proof. reflexivity. Qed.

(** C60: cleaning one image leaves every file of the others. *)
Theorem C60_clean_only_own : forall (A : Type) (tmp : string) (i j : Z) (fs : fsys A),
  i <> j ->
  clean fs (dbname tmp i) (dbname tmp j ++ ".dat") = fs (dbname tmp j ++ ".dat") /\
  clean fs (dbname tmp i) (dbname tmp j ++ ".map") = fs (dbname tmp j ++ ".map").
Proof. exact C60_clean_only_own_lm. Qed.
Print Assumptions C60_clean_only_own.
