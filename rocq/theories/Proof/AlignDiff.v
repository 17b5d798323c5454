(** Proofs about [_align_for_diff]. *)
From Coq Require Import ZArith List Bool Arith Lia Ascii String Permutation.
From Verif.Model Require Import Py Plane Ma Image AlignDiff.
From Verif.Spec Require Import AlignDiff.
Import ListNotations.
Local Open Scope string_scope.
Set Bullet Behavior "Strict Subproofs".

(* ---- strings ---- *)
Lemma app_nil s : s ++ "" = s.
Proof. induction s as [|c s IH]; cbn; [reflexivity|]. now rewrite IH. Qed.
Lemma app_assoc a b c : (a ++ b) ++ c = a ++ (b ++ c).
Proof. induction a as [|x a IH]; cbn; [reflexivity|]. now rewrite IH. Qed.

Lemma name_cons c n : name (String c n) -> c <> "/"%char /\ name n.
Proof. intros H. split; [specialize (H 0%nat); cbn in H; congruence|]. intros k. exact (H (S k)). Qed.
Lemma cons_name c n : c <> "/"%char -> name n -> name (String c n).
Proof. intros H N [|k]; cbn; [congruence|apply N]. Qed.
Lemma app_name a b : name a -> name b -> name (a ++ b).
Proof. induction a as [|c a IH]; cbn; [auto|]. intros H Hb. apply name_cons in H as [H1 H2]. apply cons_name; auto. Qed.

Lemma rsplit_name n : name n -> rsplit n = ("", n).
Proof.
  induction n as [|c n IH]; [reflexivity|]. intros H. apply name_cons in H as [Hc Hn]. cbn. rewrite (IH Hn).
  destruct (Ascii.eqb c slash) eqn:E; [|reflexivity]. apply Ascii.eqb_eq in E. now subst.
Qed.

Lemma rsplit_app d n : name n -> rsplit (d ++ String slash n) = (d ++ "/", n).
Proof.
  intros N. induction d as [|c d IH].
  - cbn [append rsplit]. rewrite (rsplit_name n N). reflexivity.
  - cbn [append rsplit]. rewrite IH. destruct (d ++ "/") eqn:E; [|reflexivity]. now destruct d.
Qed.

(** Every path is of one of these forms. *)
Lemma rsplit_eq p h t : rsplit p = (h, t) -> p = h ++ t /\ name t /\ (h = "" \/ exists d, h = d ++ "/").
Proof.
  revert h t. induction p as [|c p IH]; intros h t; cbn.
  - intros X. injection X as <- <-. split; [reflexivity|]. split; [|now left]. intros [|k]; cbn; discriminate.
  - destruct (rsplit p) as [h0 t0]. destruct (IH h0 t0 eq_refl) as (E & N & H). subst p. destruct h0 as [|c0 h0].
    + destruct (Ascii.eqb c slash) eqn:Ec; intros X; injection X as <- <-.
      * apply Ascii.eqb_eq in Ec as ->. split; [reflexivity|]. split; [exact N|]. right. now exists "".
      * split; [reflexivity|]. split; [|now left]. apply cons_name; [|exact N]. intros ->. discriminate.
    + intros X. injection X as <- <-. split; [reflexivity|]. split; [exact N|]. right. destruct H as [H|(d & H)]; [discriminate|].
      exists (String c d). cbn. now rewrite H.
Qed.

Lemma ends_app d c : ends_slash (d ++ String c "") = Ascii.eqb c slash.
Proof. induction d as [|x d IH]; [reflexivity|]. cbn. rewrite IH. now destruct (d ++ String c "") eqn:E; [destruct d|]. Qed.

Lemma rstrip_app d c : c <> "/"%char -> rstrip (d ++ String c "") = d ++ String c "".
Proof.
  intros H. induction d as [|x d IH]; cbn.
  - destruct (Ascii.eqb c slash) eqn:E; [|reflexivity]. apply Ascii.eqb_eq in E. now subst.
  - rewrite IH. destruct (d ++ String c "") eqn:E; [now destruct d|reflexivity].
Qed.

Lemma rstrip_slashes d k : rstrip (d ++ slashes k) = rstrip d.
Proof.
  induction d as [|x d IH]; cbn.
  - induction k as [|k IH]; [reflexivity|]. cbn. now rewrite IH.
  - now rewrite IH.
Qed.

Lemma only_app d e : only_slashes (d ++ e) = only_slashes d && only_slashes e.
Proof. induction d as [|x d IH]; [reflexivity|]. cbn. rewrite IH. apply Bool.andb_assoc. Qed.
Lemma only_k k : only_slashes (slashes k) = true.
Proof. induction k as [|k IH]; [reflexivity|]. exact IH. Qed.

Lemma slashes_end k : slashes (S k) = slashes k ++ "/".
Proof. induction k as [|k IH]; [reflexivity|]. cbn [slashes]. cbn [slashes] in IH. now rewrite IH at 1. Qed.

Lemma slash_app d k n : d ++ slashes (S k) ++ n = (d ++ slashes k) ++ String slash n.
Proof. rewrite slashes_end, !app_assoc. reflexivity. Qed.

Lemma folder_only d : folder d -> only_slashes d = false.
Proof.
  intros (c & e & -> & H). rewrite only_app. cbn. destruct (Ascii.eqb c slash) eqn:E; [apply Ascii.eqb_eq in E; now subst|].
  apply Bool.andb_false_r.
Qed.
Lemma folder_strip d : folder d -> rstrip d = d.
Proof. intros (c & e & -> & H). now apply rstrip_app. Qed.
Lemma folder_end d : folder d -> ends_slash d = false.
Proof. intros (c & e & -> & H). rewrite ends_app. destruct (Ascii.eqb c slash) eqn:E; [apply Ascii.eqb_eq in E; now subst|reflexivity]. Qed.
Lemma folder_some d : folder d -> (d =? "") = false.
Proof. intros (c & [|x e] & -> & H); reflexivity. Qed.

Lemma join_name a b : name b -> path_join a b = if (a =? "") || ends_slash a then a ++ b else a ++ "/" ++ b.
Proof.
  intros N. destruct b as [|c b]; [reflexivity|]. unfold path_join. destruct (Ascii.eqb c slash) eqn:E; [|reflexivity].
  apply Ascii.eqb_eq in E. subst. now destruct (name_cons _ _ N).
Qed.

Lemma aligned_name n : name n -> name ("aligned_" ++ n).
Proof.
  intros N. apply app_name; [|exact N]. intros k. do 8 (destruct k as [|k]; [cbn; congruence|]). cbn. destruct k; discriminate.
Qed.

(** Where the aligned image goes, for paths as they are written. *)
Lemma C129_dest_lm : forall d n k, folder d -> name n ->
  dest_file n = "aligned_" ++ n /\
  dest_file (slashes (S k) ++ n) = slashes (S k) ++ "aligned_" ++ n /\
  dest_file (d ++ slashes (S k) ++ n) = d ++ "/aligned_" ++ n.
Proof.
  intros d n k D N. pose proof (aligned_name n N) as A. unfold dest_file, dirname, basename. repeat split.
  - rewrite (rsplit_name n N). cbn [fst snd only_slashes]. now rewrite join_name.
  - assert (E : rsplit (slashes (S k) ++ n) = (slashes k ++ "/", n)) by (rewrite slashes_end, app_assoc; now apply rsplit_app).
    rewrite E. cbn [fst snd]. rewrite <- slashes_end. rewrite only_k, join_name by exact A.
    rewrite slashes_end, ends_app. now rewrite Bool.orb_true_r.
  - rewrite slash_app, rsplit_app by exact N. cbn [fst snd].
    assert (E : (d ++ slashes k) ++ "/" = d ++ slashes (S k)) by now rewrite slashes_end, app_assoc. rewrite E.
    rewrite only_app, (folder_only d D). cbn [andb]. rewrite rstrip_slashes, (folder_strip d D), join_name by exact A.
    rewrite (folder_some d D), (folder_end d D). reflexivity.
Qed.

Lemma usual_dest p : usual p -> exists n, name n /\ ((p = n /\ dest_file p = "aligned_" ++ n) \/
  (p = "/" ++ n /\ dest_file p = "/aligned_" ++ n) \/ exists d, folder d /\ p = d ++ "/" ++ n /\ dest_file p = d ++ "/aligned_" ++ n).
Proof.
  assert (F : folder "a") by (exists "a"%char, ""; split; [reflexivity|discriminate]).
  intros (n & N & [->|[->|(d & D & ->)]]); exists n; (split; [exact N|]).
  - left. split; [reflexivity|]. now apply (C129_dest_lm "a" n 0).
  - right. left. split; [reflexivity|]. exact (proj1 (proj2 (C129_dest_lm "a" n 0 F N))).
  - right. right. exists d. split; [exact D|]. split; [reflexivity|]. exact (proj2 (proj2 (C129_dest_lm d n 0 D N))).
Qed.

Lemma app_inj a b c : a ++ b = a ++ c -> b = c.
Proof. induction a as [|x a IH]; cbn; [auto|]. intros H. injection H as H. auto. Qed.

(** A path is its part up to the last slash and its name, in one way. *)
Lemma last_slash d n d' n' : name n -> name n' -> d ++ String slash n = d' ++ String slash n' -> d = d' /\ n = n'.
Proof.
  intros N N' E. apply (f_equal rsplit) in E. rewrite !rsplit_app in E by assumption. injection E as E1 E2. split; [|exact E2].
  clear - E1. revert d' E1. induction d as [|x d IH]; intros [|y d'] E; cbn in E; try reflexivity.
  - injection E as E1 E2. now destruct d'.
  - injection E as E1 E2. now destruct d.
  - injection E as E1 E2. f_equal; auto.
Qed.

Lemma name_slash d n m : name m -> m <> d ++ String slash n.
Proof. intros N ->. induction d as [|x d IH]; [apply (N 0%nat); reflexivity|]. apply name_cons in N as [_ N]. auto. Qed.

Lemma aligned_longer n : n <> "aligned_" ++ n.
Proof. intros E. apply (f_equal String.length) in E. cbn in E. lia. Qed.

(** Two images that are aligned get two files, and neither is the image itself. *)
Lemma C129_distinct_lm : forall p q, usual p -> usual q ->
  (dest_file p = dest_file q <-> p = q) /\ dest_file p <> p.
Proof.
  intros p q Hp Hq. assert (Fn : ~ folder "").
  { intros (c & e & E & _). now destruct e. }
  split.
  - split; [|now intros ->]. destruct (usual_dest p Hp) as (n & N & Dp). destruct (usual_dest q Hq) as (m & M & Dq).
    pose proof (aligned_name n N) as An. pose proof (aligned_name m M) as Am.
    destruct Dp as [(-> & ->)|[(-> & ->)|(d & D & -> & ->)]]; destruct Dq as [(-> & ->)|[(-> & ->)|(e & E & -> & ->)]]; intros X.
    + now apply app_inj in X.
    + exfalso. apply (name_slash "" ("aligned_" ++ m) _ An). exact X.
    + exfalso. apply (name_slash e ("aligned_" ++ m) _ An). exact X.
    + exfalso. apply (name_slash "" ("aligned_" ++ n) _ Am). symmetry. exact X.
    + f_equal. change (String slash ("aligned_" ++ n) = String slash ("aligned_" ++ m)) in X. injection X as X. exact X.
    + apply (last_slash "" ("aligned_" ++ n) e ("aligned_" ++ m) An Am) in X as [<- _]. now destruct Fn.
    + exfalso. apply (name_slash d ("aligned_" ++ n) _ Am). symmetry. exact X.
    + apply (last_slash d ("aligned_" ++ n) "" ("aligned_" ++ m) An Am) in X as [-> _]. now destruct Fn.
    + apply (last_slash d ("aligned_" ++ n) e ("aligned_" ++ m) An Am) in X as [-> X]. apply app_inj in X. now rewrite X.
  - destruct (usual_dest p Hp) as (n & N & Dp). pose proof (aligned_name n N) as An. destruct Dp as [(-> & ->)|[(-> & ->)|(d & D & -> & ->)]]; intros X.
    + symmetry in X. now apply aligned_longer in X.
    + apply (last_slash "" ("aligned_" ++ n) "" n An N) in X as [_ X]. symmetry in X. now apply aligned_longer in X.
    + apply (last_slash d ("aligned_" ++ n) d n An N) in X as [_ X]. symmetry in X. now apply aligned_longer in X.
Qed.
