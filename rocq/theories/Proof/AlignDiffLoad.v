(** Loading what [_align_for_diff] wrote, and examples. *)
From Coq Require Import ZArith List Bool Arith Ascii String Reals Lia Lra.
From Coq Require Import SpecFloat.
From Flocq Require Import Core.Core IEEE754.BinarySingleNaN.
From Verif.Model Require Import Py Plane Ma Image AlignDiff.
From Verif.Spec Require Import Image ImageExample AlignDiff.
From Verif.Proof Require Import Image ImageMask ImageGrow ImageBorder ImageBuild ImageStore ImageSum AlignDiff AlignDiffMain.
Import ListNotations.
Local Open Scope string_scope.
Set Bullet Behavior "Strict Subproofs".

Lemma written_build fs nsum n h m th g im :
  fs n = Some [h; mkhdu None None (pmap bit m)] -> h_extend h = Some true -> shape m = shape (h_data h) ->
  construct fs nsum (mkargs (Path n) MNone th true false ((0,0),(0,0))%Z g) = Ok im ->
  exists d',
  shape d' = shape (h_data h) /\ plane_eq (pixels im) d' /\
  final_mask d' (fun i j => px (fits_flags (pmap bit m) (thresh_of th)) i j = true) (im_data im).
Proof.
  intros Fn He S E.
  assert (W : wf_source (a_img (mkargs (Path n) MNone th true false ((0,0),(0,0))%Z g))) by exact I.
  destruct (construct_inv fs nsum _ _ W E) as (hd & a0 & H1 & H2 & H3 & Wa & H5 & H6 & H7 & _).
  cbn [a_img a_mask a_thresh a_guess a_borders a_crop] in *.
  destruct (set_data_plain fs nsum (Path n) _ a0 W H3) as (o & O & P).
  destruct (set_mask_spec fs _ _ _ _ _ _ _ _ Wa H5) as (_ & d' & flag & K & F).
  assert (O' : o = h_data h) by (cbn in O; rewrite Fn in O; now injection O as <-).
  assert (Sa : shape (dat a0) = shape (h_data h)) by (rewrite (proj1 P), O'; reflexivity).
  exists (dat a0). split; [exact Sa|].
  assert (J : final_mask (dat a0) (set_by (fits_flags (pmap bit m) (thresh_of th)) a0) (im_data im)).
  { assert (Hd : extend_of hd = Some true).
    { cbn [get_header] in H1. unfold open_primary in H1. rewrite Fn in H1. cbn in H1. injection H1 as <-. exact He. }
    rewrite Hd in K.
    assert (C : d' = dat a0 /\ flag = set_by (fits_flags (pmap bit m) (thresh_of th)) a0).
    { inversion K; subst; try discriminate; try easy.
      - cbn [attached_to] in *. match goal with H : fs n = None \/ _ |- _ => rewrite Fn in H; destruct H; discriminate end.
      - cbn [attached_to] in *. match goal with H : fs n = Some _, H' : h_extend _ = _ |- _ => rewrite Fn in H; injection H as <- <- end. split; reflexivity.
      - cbn [attached_to] in *. match goal with H : fs n = Some [_] |- _ => rewrite Fn in H; discriminate end.
      - cbn [attached_to] in *. exfalso. match goal with H : fs n = Some (?h :: _), H' : h_extend ?h <> _ |- _ => rewrite Fn in H; injection H as <- _; apply H'; exact He end. }
    destruct C as [-> ->]. exact F. }
  split; [exact (proj1 J)|].
  eapply final_weaken; [|exact J]. intros i j Hi Hj. unfold set_by.
  set (fl := fits_flags (pmap bit m) (thresh_of th)).
  assert (Sf : shape fl = shape (dat a0)) by (rewrite Sa, <- S; reflexivity).
  pose proof (f_equal fst Sf : nr fl = nr (dat a0)) as Fr. pose proof (f_equal snd Sf : nc fl = nc (dat a0)) as Fc.
  destruct (Nat.eqb_spec (nr fl * nc fl) 0) as [Z|Z]; [apply Nat.eq_mul_0 in Z; lia|].
  rewrite cyclic_same by (trivial; lia). reflexivity.
Qed.

(** The aligned image loaded with a threshold of at most 1, less than half of it masked: the mask
    of the registered image. With the default threshold none of it is left. *)
Lemma C129_loaded_lm : forall register median fs nsum ref new mask dest l d m t g im,
  align_for_diff register median fs ref new mask = Ok (dest, l) -> shows l (Masked d m) -> shape m = shape d ->
  2 * set_cells m < nr m * nc m ->
  construct (files_after register median fs ref new mask) nsum (mkargs (Path dest) MNone t true false ((0,0),(0,0))%Z g) = Ok im ->
  shape (pixels im) = shape d /\
  (forall v, t = Some v -> finiteb v = true -> (0 < SF2R radix2 v <= 1)%R -> final_mask (pixels im) (fun i j => px m i j = true) (im_data im)) /\
  (t = None -> final_mask (pixels im) (fun i j => False) (im_data im)).
Proof.
  intros register median fs nsum ref new mask dest l d m t g im E Sh S C Ec.
  destruct (C129_files_lm register median fs ref new mask) as [A _]. destruct (A dest l E) as (Ed & Fd & _ & _).
  destruct (align_parts _ _ _ _ _ _ _ _ E) as (hr & hn & rf & nw & x & _ & _ & _ & _ & _ & _ & El).
  destruct x as [d0|d0 m0]; [subst l; now cbn in Sh|]. subst l. cbn [shows hdus h_data h_extend] in Sh. destruct Sh as (-> & _ & Q).
  assert (Sm : shape m0 = shape d) by (transitivity (shape m); [exact (proj1 Q)|exact S]).
  assert (V : forall i j, i < nr m -> j < nc m -> px m0 i j = px m i j).
  { intros i j Hi Hj. destruct Q as [Q1 Q2]. cbn in Q1, Q2. injection Q1 as R1 R2. specialize (Q2 i j). rewrite R1, R2 in Q2. specialize (Q2 Hi Hj).
    destruct (px m0 i j), (px m i j); try reflexivity; discriminate. }
  assert (C0 : 2 * set_cells m0 < nr m0 * nc m0).
  { destruct Q as [Q1 _]. cbn in Q1. injection Q1 as R1 R2. replace (set_cells m0) with (set_cells m); [now rewrite R1, R2|].
    unfold set_cells. rewrite R1, R2. f_equal. apply filter_ext_in. intros [i j] Hij. apply in_prod_iff in Hij as [Hi Hj]. apply in_seq in Hi, Hj. cbn [fst snd]. symmetry. apply V; cbn [fst snd] in *; lia. }
  pose proof (written_build (files_after register median fs ref new mask) nsum dest (mkhdu (h_gain hn) (Some true) d) m0 t g im Fd eq_refl Sm Ec) as (d' & Sd & P & F).
  cbn [h_data] in Sd. split; [now rewrite (proj1 P)|].
  destruct P as [Sp Vp]. destruct F as (_ & q & init & Eq & Sq & Ii & G).
  pose proof (f_equal fst Sp : nr (pixels im) = nr d') as Pr. pose proof (f_equal snd Sp : nc (pixels im) = nc d') as Pc.
  pose proof (f_equal fst Sd : nr d' = nr d) as Dr. pose proof (f_equal snd Sd : nc d' = nc d) as Dc.
  pose proof (f_equal fst S : nr m = nr d) as Mr. pose proof (f_equal snd S : nc m = nc d) as Mc.
  split.
  - intros v -> Fv T. split; [apply plane_eq_refl|]. exists q, init. split; [exact Eq|]. split; [congruence|]. rewrite Sp. split.
    + intros i j Hi Hj. rewrite Ii by lia. rewrite Vp by trivial. cbn [thresh_of]. rewrite flags_small by trivial. rewrite V by lia. reflexivity.
    + intros i j Hi Hj. apply G; lia.
  - intros ->. assert (T : finiteb (thresh_of None) = true /\ (1 < SF2R radix2 (thresh_of None))%R).
    { cbn [thresh_of]. replace (pix_of_Z 16) with (S754_finite false 4503599627370496 (-48)) by (vm_compute; reflexivity).
      split; [reflexivity|]. cbn [SF2R]. unfold F2R. simpl. lra. }
    destruct T as [T1 T2].
    split; [apply plane_eq_refl|]. exists q, init. split; [exact Eq|]. split; [congruence|]. rewrite Sp. split.
    + intros i j Hi Hj. rewrite Ii by lia. rewrite Vp by trivial. rewrite flags_none by trivial. split; intros [H|H]; auto; discriminate.
    + intros i j Hi Hj. apply G; lia.
Qed.

(** Already aligned images: the transformation changes nothing. *)
Definition still (x : unit) (a : marr) (sh : nat * nat) : registered := Bare (dat a).

(** If the transformation changes nothing the file has the pixels of the reference. *)
Lemma C129_unmoved_lm : forall T (find : marr -> marr -> res T) resample register median fs r n m d l,
  moves find resample register -> (forall x a, resample x a (shape (dat a)) = Bare (dat a)) ->
  align_for_diff register median fs r n m = Ok (d, l) ->
  forall hr rr hn rn, fs r = Some (hr :: rr) -> fs n = Some (hn :: rn) -> shape (h_data hr) = shape (h_data hn) ->
  exists p, l = [p] /\ plane_eq (h_data p) (h_data hr).
Proof.
  intros T find resample register median fs r n m d l M I E hr rr hn rn Fr Fn S.
  destruct (C129_reference_lm T find resample register median fs r n m d l M E) as (ref & h & rest & x & (h' & rest' & Fr' & P & _) & Fn' & Sh).
  rewrite Fr in Fr'. injection Fr' as <- <-. rewrite Fn in Fn'. injection Fn' as <- <-.
  rewrite <- S, <- (proj1 P), I in Sh. destruct l as [|p [|? ?]]; try contradiction. cbn in Sh. exists p. split; [reflexivity|]. now rewrite Sh.
Qed.

Definition steady (s t : marr) : res registered := Ok (Bare (dat s)).
Definition two_files : files := fun f =>
  if f =? "ref.fits" then Some [mkhdu None None (zplane [[1; 2]]%Z)]
  else if f =? "night/a.fits" then Some [mkhdu (Some (pix_of_Z 2)) None (zplane [[3; 4]]%Z)]
  else if f =? "night/b.fits" then Some [mkhdu None (Some true) (zplane [[5; 6]]%Z)]
  else if f =? "night/aligned_a.fits" then Some [mkhdu None None (zplane [[7; 8]]%Z)] else None.

(** The image that is written is not the new image: here the transformation is the identity, and
    the pixels are those of the reference. *)
Lemma C129_new_refuted_lm : ~ (forall T (find : marr -> marr -> res T) resample register median fs r n m d l,
  moves find resample register -> (forall x a, resample x a (shape (dat a)) = Bare (dat a)) ->
  align_for_diff register median fs r n m = Ok (d, l) ->
  exists h rest p, fs n = Some (h :: rest) /\ l = [p] /\ plane_eq (h_data p) (h_data h)).
Proof.
  intros H. destruct (H unit (fun _ _ => Ok tt) still steady (fun _ => fzero) two_files "ref.fits" "night/a.fits" None
    "night/aligned_a.fits" [mkhdu (Some (pix_of_Z 2)) None (zplane [[1; 2]]%Z)]) as (h & rest & p & Fn & El & P).
  - intros s t. reflexivity.
  - reflexivity.
  - reflexivity.
  - vm_compute in Fn. injection Fn as <- <-. injection El as <-. destruct P as [_ P]. specialize (P 0 0). cbn [h_data] in P.
    assert (X : px (zplane [[1; 2]]%Z) 0 0 = px (zplane [[3; 4]]%Z) 0 0) by (apply P; vm_compute; lia). vm_compute in X. discriminate.
Qed.

(** A reference called like the file to be written is lost. *)
Lemma C129_overwritten_lm : forall register median fs n m d l r,
  align_for_diff register median fs r n m = Ok (d, l) -> r = dest_file n -> files_after register median fs r n m r = Some l.
Proof.
  intros register median fs n m d l r E ->. destruct (C129_files_lm register median fs (dest_file n) n m) as [A _].
  destruct (A d l E) as (Ed & F & _). now rewrite Ed in F.
Qed.

(** Two images of one night. *)
Lemma C129_case_lm :
  let js := [("ref.fits", "night/a.fits", None); ("ref.fits", "night/b.fits", Some "ref.fits")] in
  folder "night" /\ name "a.fits" /\ usual "night/a.fits" /\ usual "night/b.fits" /\ apart js /\ NoDup (map writes js) /\
  moves (fun _ _ => Ok tt) still steady /\
  align_for_diff steady (fun _ => fzero) two_files "ref.fits" "night/a.fits" None =
    Ok ("night/aligned_a.fits", [mkhdu (Some (pix_of_Z 2)) None (zplane [[1; 2]]%Z)]) /\
  align_all steady (fun _ => fzero) two_files js "night/aligned_b.fits" = Some [mkhdu None (Some true) (zplane [[1; 2]]%Z)] /\
  align_for_diff steady (fun _ => fzero) two_files "ref.fits" "night/c.fits" None = Raise IOError /\
  files_after steady (fun _ => fzero) two_files "night/aligned_a.fits" "night/a.fits" None "night/aligned_a.fits" =
    Some [mkhdu (Some (pix_of_Z 2)) None (zplane [[7; 8]]%Z)].
Proof.
  cbv zeta. assert (Fo : folder "night") by (exists "t"%char, "nigh"; split; [reflexivity|discriminate]).
  assert (Na : name "a.fits").
  { intros k. do 6 (destruct k as [|k]; [cbn; congruence|]). cbn. destruct k; discriminate. }
  assert (Nb : name "b.fits").
  { intros k. do 6 (destruct k as [|k]; [cbn; congruence|]). cbn. destruct k; discriminate. }
  split; [exact Fo|]. split; [exact Na|].
  split; [exists "a.fits"; split; [exact Na|]; right; right; exists "night"; split; [exact Fo|reflexivity]|].
  split; [exists "b.fits"; split; [exact Nb|]; right; right; exists "night"; split; [exact Fo|reflexivity]|].
  split.
  { intros j k [<-|[<-|[]]] [<-|[<-|[]]]; cbn; intros H; repeat (destruct H as [H|H]; [discriminate|]); contradiction. }
  split.
  { constructor; [|constructor; [intros []|constructor]]. cbn. intros [H|[]]. discriminate. }
  repeat split.
Qed.
