(** Proofs about what [_align_for_diff] registers. *)
From Coq Require Import ZArith List Bool Arith Lia Ascii String.
From Coq Require Import SpecFloat.
From Verif.Model Require Import Py Plane Ma Image AlignDiff.
From Verif.Spec Require Import Image ImageExample AlignDiff.
From Verif.Proof Require Import Image AlignDiff AlignDiffMain.
Import ListNotations.
Local Open Scope string_scope.
Set Bullet Behavior "Strict Subproofs".

Lemma nonzero_true v : nonzero v = true <-> forall s, v <> S754_zero s.
Proof. destruct v; cbn; split; intros; try congruence; try discriminate; auto. exfalso. now apply (H s). Qed.

Lemma given_is d m a : given_mask d m = Ok a ->
  (nr m * nc m = 1 \/ nr m * nc m = nr d * nc d)%nat /\ dat a = d /\ exists q, msk a = Full q /\ shape q = shape d /\
  forall i j, (i < nr d)%nat -> (j < nc d)%nat -> px q i j = nonzero (cyclic m (i * nc d + j)).
Proof.
  unfold given_mask. destruct (Nat.eqb_spec (nr m * nc m) 1) as [A|A]; destruct (Nat.eqb_spec (nr m * nc m) (nr d * nc d)) as [B|B]; cbn [orb]; try discriminate;
    intros X; injection X as <-; cbn [dat msk].
  all: split; [tauto|]; split; [reflexivity|]; eexists; split; [reflexivity|]; split; [now rewrite set_flat_shape|].
  all: intros i j Hi Hj; rewrite set_flat_px; [reflexivity|cbn [pmap nr nc]; nia].
Qed.

Lemma given_ok d m : (nr m * nc m = 1 \/ nr m * nc m = nr d * nc d)%nat -> exists a, given_mask d m = Ok a.
Proof.
  unfold given_mask. intros H. destruct (Nat.eqb_spec (nr m * nc m) 1) as [A|A]; destruct (Nat.eqb_spec (nr m * nc m) (nr d * nc d)) as [B|B]; cbn [orb]; eauto. exfalso; tauto.
Qed.

(** What is registered: the finite pixels of the reference, to the pixels of the new image with
    the masked ones replaced by the median, and once more to the masked image itself if that gives
    a ValueError and no other error. What comes out is written, or is the error raised. *)
Lemma C129_registered_lm : forall register median fs r n m hr rr hn rn,
  fs r = Some (hr :: rr) -> fs n = Some (hn :: rn) -> mask_fits_file fs m (h_data hn) ->
  exists ref new f, masked_file fs r ref /\ masked_new fs n m new /\ filled_with (median new) new f /\
    comes_out (align_for_diff register median fs r n m) (dest_file n)
      (match register ref f with Raise ValueError => register ref new | x => x end).
Proof.
  intros register median fs r n m hr rr hn rn Fr Fn Fm.
  destruct (masked_invalid_spec (mkmarr (h_data hr) Nomask) I) as (ref & Er & _).
  assert (N : exists new, match m with
        | Some k => bind (open_primary fs k) (fun hm => given_mask (h_data hn) (h_data hm))
        | None => masked_invalid (mkmarr (h_data hn) Nomask) end = Ok new /\ masked_new fs n m new).
  { destruct m as [k|]; cbn [mask_fits_file] in Fm.
    - destruct Fm as (hm & rest & Fk & S). destruct (given_ok _ _ S) as [a Ea]. exists a. unfold open_primary. rewrite Fk. cbn [bind]. split; [exact Ea|].
      destruct (given_is _ _ _ Ea) as (_ & D & q & Q1 & Q2 & Q3). exists hn, rn. split; [exact Fn|]. split; [exact D|]. exists q. split; [exact Q1|]. split; [exact Q2|].
      intros i j Hi Hj. rewrite (Q3 i j Hi Hj), nonzero_true. split.
      + intros A. exists hm, rest. split; [exact Fk|exact A].
      + intros (h' & rest' & F' & A). assert (h' = hm) as -> by congruence. exact A.
    - destruct (masked_invalid_spec (mkmarr (h_data hn) Nomask) I) as (a & Ea & _). exists a. split; [exact Ea|].
      destruct (invalid_is _ _ Ea) as (D & q & Q1 & Q2 & Q3). exists hn, rn. split; [exact Fn|]. split; [exact D|]. exists q. split; [exact Q1|]. split; [exact Q2|].
      intros i j Hi Hj. rewrite (Q3 i j Hi Hj). now rewrite negb_true_iff. }
  destruct N as (new & En & Mn). exists ref, new, (filled new (median new)). split; [|split; [exact Mn|split]].
  - destruct (invalid_is _ _ Er) as (D & q & Q). exists hr, rr. split; [exact Fr|]. split; [now rewrite D; split|]. exists q. exact Q.
  - split; [reflexivity|]. split; reflexivity.
  - unfold align_for_diff. unfold open_primary at 1 2. rewrite Fr, Fn. cbn [bind]. rewrite Er. cbn [bind]. rewrite En. cbn [bind]. unfold registered_with.
    destruct (register ref (filled new (median new))) as [x|e]; cbn [bind comes_out]; [eexists; split; [reflexivity|apply shows_hdus]|].
    destruct e; cbn [bind comes_out]; try reflexivity.
    destruct (register ref new) as [x|e]; cbn [bind comes_out]; [eexists; split; [reflexivity|apply shows_hdus]|reflexivity].
Qed.

(** A file that is missing is an IOError, and a mask of another size a ValueError. *)
Lemma C129_missing_lm : forall register median fs r n m,
  (fs r = None \/ fs n = None \/ (exists k, m = Some k /\ fs k = None) -> align_for_diff register median fs r n m = Raise IOError) /\
  (forall k hr rr hn rn hm rm, fs r = Some (hr :: rr) -> fs n = Some (hn :: rn) -> m = Some k -> fs k = Some (hm :: rm) ->
     ~ mask_fits_file fs m (h_data hn) -> align_for_diff register median fs r n m = Raise ValueError).
Proof.
  intros register median fs r n m. split.
  - intros H. unfold align_for_diff. unfold open_primary at 1. destruct (fs r) as [[|hr rr]|] eqn:Fr; cbn [bind]; try reflexivity.
    destruct (masked_invalid_spec (mkmarr (h_data hr) Nomask) I) as (ref & Er & _). rewrite Er. cbn [bind].
    unfold open_primary at 1. destruct (fs n) as [[|hn rn]|] eqn:Fn; cbn [bind]; try reflexivity.
    destruct H as [H|[H|(k & -> & Fk)]]; try discriminate. unfold open_primary. rewrite Fk. reflexivity.
  - intros k hr rr hn rn hm rm Fr Fn -> Fk B. unfold align_for_diff. unfold open_primary at 1 2 3. rewrite Fr, Fn, Fk. cbn [bind].
    destruct (masked_invalid_spec (mkmarr (h_data hr) Nomask) I) as (ref & Er & _). rewrite Er. cbn [bind].
    destruct (given_mask (h_data hn) (h_data hm)) as [a|e] eqn:G.
    + exfalso. apply B. destruct (given_is _ _ _ G) as (S & _). exists hm, rm. auto.
    + cbn [bind]. revert G. unfold given_mask. destruct (_ || _)%bool; [discriminate|]. now intros X; injection X as <-.
Qed.

(** An [aa.register] that cannot work without a mask. *)
Definition picky (s t : marr) : res registered :=
  match msk t with Nomask => Raise ValueError | Full q => Ok (Masked (dat s) q) end.
Definition three_files : files := fun n =>
  if n =? "ref.fits" then Some [mkhdu None (Some true) (zplane [[1; 2]]%Z)]
  else if n =? "new.fits" then Some [mkhdu (Some (pix_of_Z 2)) None (zplane [[7; 8]]%Z)]
  else if n =? "mask.fits" then Some [mkhdu None None (zplane [[0; 4]]%Z)] else None.

(** The mask file is used: the second pixel is masked. A mask of two values does not fit an image of three pixels. *)
Lemma C129_masked_case_lm :
  mask_fits_file three_files (Some "mask.fits") (zplane [[7; 8]]%Z) /\ ~ mask_fits_file three_files (Some "mask.fits") (zplane [[7; 8; 9]]%Z) /\
  mask_fits_file three_files None (zplane [[7; 8]]%Z) /\
  exists l h e, align_for_diff picky (fun _ => fzero) three_files "ref.fits" "new.fits" (Some "mask.fits") = Ok ("aligned_new.fits", l) /\ l = [h; e] /\
    h_data h = zplane [[1; 2]]%Z /\ h_extend h = Some true /\ px (h_data e) 0 0 = fzero /\ px (h_data e) 0 1 = fone.
Proof.
  split; [|split; [|split; [exact I|]]].
  - eexists _, _. split; [reflexivity|]. right. reflexivity.
  - intros (h & rest & F & S). cbn in F. injection F as <- <-. cbn in S. lia.
  - eexists _, _, _. split; [reflexivity|]. repeat split; reflexivity.
Qed.
