(** C06-C13, C62, C67, C68: [coadd]. *)
From Coq Require Import Arith ZArith List Bool Reals Lia Lra Permutation.
From Coquelicot Require Import Complex.
From Verif.Model Require Import Py Plane Ma Chunk Coadd.
From Verif.Spec Require Import Coadd CoaddExample.
From Verif.Proof Require Import CoaddMain CoaddFail CoaddMore CoaddList.
Import ListNotations.
Set Bullet Behavior "Strict Subproofs".

(** C06: once the images are prepared (converted, aligned, given zero points) a run with n
    workers gives, under every schedule, either nothing yet or the result of the sequential
    run; and it does give it when each task gets enough steps. *)
Theorem C06_parallel_equals_sequential : forall mk reg transp fuel sched fuel1 sched1 w l align loss n ids h l' sh,
  prepare mk reg transp w l align loss = (Ok (ids, h), l') -> NoDup ids -> images_fit h ids sh ->
  (2 <= n <= Z.of_nat (length ids))%Z -> (Z.of_nat (length ids) < 2 ^ 52)%Z -> 5 * Z.to_nat n + 1 <= fuel ->
  exists r1, fst (coadd mk reg transp fuel1 sched1 w l align loss 1) = Some (Ok r1) /\
  (fst (coadd mk reg transp fuel sched w l align loss n) = None \/
   exists r2, fst (coadd mk reg transp fuel sched w l align loss n) = Some (Ok r2) /\ result_eq r1 r2) /\
  (fair sched (length ids) (8 * length ids + 9) ->
   fst (coadd mk reg transp fuel sched w l align loss n) <> None).
Proof. exact coadd_parallel. Qed.
Print Assumptions C06_parallel_equals_sequential.

(** ... and images that cannot be prepared give the same exception with any number of workers. *)
Theorem C06_same_exception : forall mk reg transp fuel sched w l align loss n e l',
  prepare mk reg transp w l align loss = (Raise e, l') ->
  coadd mk reg transp fuel sched w l align loss n = (Some (Raise e), l').
Proof. exact coadd_unprepared. Qed.
Print Assumptions C06_same_exception.

Example C06_case : exists h,
  prepare ex_mk ex_reg ex_transp ex_world [Img 0; Img 1; Other 7] false (1 / 4) =
    (Ok ([0; 1; 2], h), [Img 0; Img 1; Img 2]) /\
  NoDup [0; 1; 2] /\ images_fit h [0; 1; 2] (2, 3) /\ 5 * Z.to_nat 2 + 1 <= 11 /\
  fair (concat (repeat [2; 0; 1] 33)) 3 33.
Proof.
  eexists. split; [reflexivity|]. split; [repeat constructor; cbn; intuition lia|]. split; [|split].
  - intros i [<-|[<-|[<-|[]]]]; (split; [reflexivity|split; [try exact Logic.I; reflexivity|cbn; congruence]]).
  - cbn. lia.
  - intros k Hk. destruct k as [|[|[|k]]]; [vm_compute; lia|vm_compute; lia|vm_compute; lia|lia].
Qed.

(** C07: with more workers than images one of the chunks is empty and every finished run is an
    IndexError; with at most as many, no chunk is empty and every finished run succeeds. *)
Theorem C07_more_workers_than_images : forall mk reg transp fuel sched w l align loss n ids h l' sh,
  prepare mk reg transp w l align loss = (Ok (ids, h), l') -> NoDup ids -> images_fit h ids sh ->
  (2 <= n <= 2 ^ 52)%Z -> (Z.of_nat (length ids) < 2 ^ 52)%Z -> 5 * Z.to_nat n + 1 <= fuel ->
  let out := fst (coadd mk reg transp fuel sched w l align loss n) in
  exists chunks, chunk_it Nat.eqb img_lt fuel ids n = Some (Ok chunks) /\
  ((Z.of_nat (length ids) < n)%Z -> In [] chunks /\ (out = None \/ out = Some (Raise IndexError))) /\
  ((n <= Z.of_nat (length ids))%Z -> ~ In [] chunks /\ (out = None \/ exists r, out = Some (Ok r))) /\
  (fair sched (length chunks) (8 * length ids + 9) -> out <> None).
Proof. exact workers_iff. Qed.
Print Assumptions C07_more_workers_than_images.

Example C07_case : exists h l',
  prepare ex_mk ex_reg ex_transp ex_world [Img 0; Img 1] false (1 / 4) = (Ok ([0; 1], h), l') /\
  NoDup [0; 1] /\ images_fit h [0; 1] (2, 3) /\
  fst (coadd ex_mk ex_reg ex_transp 16 (concat (repeat [2; 0; 1] 25)) ex_world [Img 0; Img 1] false (1 / 4) 3)
    <> None.
Proof.
  assert (exists h l', prepare ex_mk ex_reg ex_transp ex_world [Img 0; Img 1] false (1 / 4) = (Ok ([0; 1], h), l') /\
    NoDup [0; 1] /\ images_fit h [0; 1] (2, 3)) as [h [l' [E [N F]]]].
  { eexists. eexists. split; [reflexivity|]. split; [repeat constructor; cbn; intuition lia|].
    intros i [<-|[<-|[]]]; (split; [reflexivity|split; [try exact Logic.I; reflexivity|cbn; congruence]]). }
  exists h, l'. split; [exact E|]. split; [exact N|]. split; [exact F|].
  destruct (C07_more_workers_than_images ex_mk ex_reg ex_transp 16 (concat (repeat [2; 0; 1] 25)) ex_world
    [Img 0; Img 1] false (1 / 4)%R 3 [0; 1] h l' (2, 3) E N F) as [chunks [Ec [_ [_ H]]]];
    [lia|cbn; lia|cbn; lia|].
  apply H. assert (chunks = [[]; [0]; [1]]) as ->.
  { vm_compute in Ec. now injection Ec as <-. }
  intros k Hk. destruct k as [|[|[|k]]]; [vm_compute; lia|vm_compute; lia|vm_compute; lia|cbn in Hk; lia].
Qed.

(** C08 *)
Theorem C08_mask_is_union : forall mk reg transp fuel sched w l align loss n ids h l' sh R P m,
  prepare mk reg transp w l align loss = (Ok (ids, h), l') -> images_fit h ids sh -> run_limits fuel ids n ->
  fst (coadd mk reg transp fuel sched w l align loss n) = Some (Ok (R, P, m)) ->
  is_union (fun i => si_mask (h i)) ids sh m.
Proof. exact coadd_mask. Qed.
Print Assumptions C08_mask_is_union.

(** Two images, one of them with a bad pixel: the result exists, and its mask is not nomask. *)
Example C08_case : exists R P m,
  fst (coadd ex_mk ex_reg ex_transp 0 [] ex_world [Img 0; Img 1] false (1 / 4) 1) = Some (Ok (R, P, m)) /\
  masked_at m 1 2 = true /\ masked_at m 0 0 = false.
Proof.
  unfold coadd. cbn -[seq_loop finish].
  match goal with |- context [seq_loop ?hh ?ii ?aa] =>
    destruct (seq_spec 0 [] hh ii (2, 3) 1) as [ps [a [E [Ep [_ [_ [U _]]]]]]];
      [lia|discriminate|
       intros i [<-|[<-|[]]]; (split; [reflexivity|split; [try exact Logic.I; reflexivity|cbn; congruence]])|]
  end.
  cbn -[seq_loop finish] in E. rewrite E. cbn in Ep. injection Ep as <-. unfold finish.
  do 3 eexists. split; [reflexivity|]. split; rewrite (proj2 U); cbn; auto.
Qed.

(** C09: the outputs have the common shape; different shapes are a ValueError; an empty list
    is a ValueError without and an IndexError with alignment. *)
Theorem C09_result_shape : forall mk reg transp fuel sched w l align loss n ids h l' sh R P m,
  prepare mk reg transp w l align loss = (Ok (ids, h), l') -> images_fit h ids sh -> run_limits fuel ids n ->
  fst (coadd mk reg transp fuel sched w l align loss n) = Some (Ok (R, P, m)) -> shape R = sh /\ shape P = sh.
Proof. exact coadd_shapes. Qed.
Print Assumptions C09_result_shape.

Theorem C09_different_shapes_fail : forall mk reg transp w l align loss ids h l' i j,
  prepare mk reg transp w l align loss = (Ok (ids, h), l') ->
  In i ids -> In j ids -> si_shape (h i) <> si_shape (h j) ->
  (forall k, In k ids -> 0 < fst (si_shape (h k)) /\ 0 < snd (si_shape (h k))) ->
  (forall k, In k ids -> si_shat (h k) <> None -> si_shat_loss (h k) <> None) ->
  (forall fuel sched n, (n <= 1)%Z ->
     fst (coadd mk reg transp fuel sched w l align loss n) = Some (Raise ValueError)) /\
  (forall fuel sched n, NoDup ids -> (2 <= n <= Z.of_nat (length ids))%Z ->
     (Z.of_nat (length ids) < 2 ^ 52)%Z -> 5 * Z.to_nat n + 1 <= fuel ->
     let out := fst (coadd mk reg transp fuel sched w l align loss n) in
     (out = None \/ out = Some (Raise ValueError)) /\
     (fair sched (length ids) (8 * length ids + 9) -> out <> None)).
Proof. exact coadd_mismatch. Qed.
Print Assumptions C09_different_shapes_fail.

Theorem C09_empty_list : forall mk reg transp fuel sched w align loss n,
  coadd mk reg transp fuel sched w [] align loss n =
  (Some (Raise (if align then IndexError else ValueError)), []).
Proof. exact coadd_empty. Qed.
Print Assumptions C09_empty_list.

Example C09_case : exists h l',
  let w := mkworld (fun i => if i =? 1 then mksimg (2, 4) Nomask 1%R 1%R 0%R 5 (fun _ _ _ => RtoC 0) (fun _ _ _ => RtoC 1) None None false true
                             else ex_img Nomask) 2 in
  prepare ex_mk ex_reg ex_transp w [Img 0; Img 1] false 0 = (Ok ([0; 1], h), l') /\
  si_shape (h 0) = (2, 3) /\ si_shape (h 1) = (2, 4) /\
  (forall k, In k [0; 1] -> 0 < fst (si_shape (h k)) /\ 0 < snd (si_shape (h k))) /\
  (forall k, In k [0; 1] -> si_shat (h k) <> None -> si_shat_loss (h k) <> None).
Proof.
  eexists. eexists. cbn zeta. split; [reflexivity|]. split; [reflexivity|]. split; [reflexivity|].
  split; intros k [<-|[<-|[]]]; cbn; try lia; congruence.
Qed.

(** C10: permuted images (with their zero points), any worker counts, any schedules. *)
Theorem C10_order_irrelevant : forall fuel sched fuel' sched' h ids ids' sh n n' r r',
  ids <> [] -> Permutation ids ids' -> run_limits fuel ids n -> run_limits fuel' ids' n' ->
  images_fit h ids sh ->
  coadd_core fuel sched h ids n = Some (Ok r) -> coadd_core fuel' sched' h ids' n' = Some (Ok r') ->
  result_eq r r'.
Proof. exact order_irrelevant. Qed.
Print Assumptions C10_order_irrelevant.

Example C10_case : Permutation [0; 1; 2] [2; 0; 1] /\
  images_fit (objs ex_world) [0; 1; 2] (2, 3) /\ run_limits 0 [0; 1; 2] 1 /\
  (exists r, coadd_core 0 [] (objs ex_world) [0; 1; 2] 1 = Some (Ok r)) /\
  (exists r, coadd_core 0 [] (objs ex_world) [2; 0; 1] 1 = Some (Ok r)).
Proof.
  assert (images_fit (objs ex_world) [0; 1; 2] (2, 3)) as F.
  { intros i [<-|[<-|[<-|[]]]]; (split; [reflexivity|split; [try exact Logic.I; reflexivity|cbn; congruence]]). }
  assert (Permutation [0; 1; 2] [2; 0; 1]) as P.
  { apply (Permutation_app_comm [0; 1] [2]). }
  split; [exact P|]. split; [exact F|]. split; [left; lia|]. split.
  - destruct (seq_spec 0 [] (objs ex_world) [0; 1; 2] (2, 3) 1) as [ps [a [E _]]]; [lia|discriminate|exact F|eauto].
  - destruct (seq_spec 0 [] (objs ex_world) [2; 0; 1] (2, 3) 1) as [ps [a [E _]]]; [lia|discriminate| |eauto].
    intros i Hi. apply F. now apply (Permutation_in _ (Permutation_sym P)).
Qed.

(** C11: the hypotheses on zp, var and the PSF transform say that no division by zero
    occurs. *)
Theorem C11_copies_scale_sqrt : forall fuel sched fuel1 sched1 h ids i0 x sh n R1 P1 m1 Rn Pn mn,
  ids <> [] -> run_limits fuel ids n -> (forall i, In i ids -> h i = x) -> h i0 = x ->
  images_fit h [i0] sh -> 0 < fst sh -> 0 < snd sh ->
  si_zp x <> 0%R -> si_var x <> 0%R ->
  (forall r c, r < fst sh -> c < snd sh -> si_sq x (si_loss x) r c <> RtoC 0) ->
  coadd_core fuel1 sched1 h [i0] 1 = Some (Ok (R1, P1, m1)) ->
  coadd_core fuel sched h ids n = Some (Ok (Rn, Pn, mn)) ->
  plane_eq Rn (pmap (fun z => (RtoC (sqrt (INR (length ids))) * z)%C) R1) /\
  plane_eq Pn P1 /\ mask_eq mn m1.
Proof. exact copies. Qed.
Print Assumptions C11_copies_scale_sqrt.

Example C11_case : exists R1 P1 m1 Rn Pn mn,
  let h := fun _ => ex_img ex_mask in
  images_fit h [0] (2, 3) /\ si_zp (h 0) <> 0%R /\ si_var (h 0) <> 0%R /\
  (forall r c, si_sq (h 0) (si_loss (h 0)) r c <> RtoC 0) /\
  coadd_core 0 [] h [0] 1 = Some (Ok (R1, P1, m1)) /\
  coadd_core 0 [] h [0; 1; 2; 3; 4] 1 = Some (Ok (Rn, Pn, mn)).
Proof.
  set (h := fun _ : nat => ex_img ex_mask).
  assert (forall l, images_fit h l (2, 3)) as F.
  { intros l i _. split; [reflexivity|]. split; [reflexivity|cbn; congruence]. }
  destruct (seq_spec 0 [] h [0] (2, 3) 1) as [ps [a [E _]]]; [lia|discriminate|apply F|].
  destruct (seq_spec 0 [] h [0; 1; 2; 3; 4] (2, 3) 1) as [ps' [a' [E' _]]]; [lia|discriminate|apply F|].
  unfold finish in E, E'. do 6 eexists. cbn zeta. split; [apply F|].
  split; [cbn; lra|]. split; [cbn; lra|]. split; [|split; [exact E|exact E']].
  intros r c H. cbn in H. injection H as H. lra.
Qed.

(** C12: the condition is on the zero-frequency term of the sum of squared PSF transforms. *)
Theorem C12_psf_sums_to_one : forall mk reg transp fuel sched w l align loss n ids h l' sh R P m,
  prepare mk reg transp w l align loss = (Ok (ids, h), l') -> images_fit h ids sh -> run_limits fuel ids n ->
  0 < fst sh -> 0 < snd sh ->
  total (fun i => (RtoC ((si_zp (h i) / si_var (h i)) ^ 2) * si_sq (h i) (si_loss (h i)) 0%nat 0%nat)%C) ids <> RtoC 0 ->
  fst (coadd mk reg transp fuel sched w l align loss n) = Some (Ok (R, P, m)) -> psum P = RtoC 1.
Proof. exact coadd_psf_sum. Qed.
Print Assumptions C12_psf_sums_to_one.

Example C12_case : exists h l' r,
  prepare ex_mk ex_reg ex_transp ex_world [Img 0; Img 1] false (1 / 4) = (Ok ([0; 1], h), l') /\
  images_fit h [0; 1] (2, 3) /\
  total (fun i => (RtoC ((si_zp (h i) / si_var (h i)) ^ 2) * si_sq (h i) (si_loss (h i)) 0%nat 0%nat)%C) [0; 1] <> RtoC 0 /\
  fst (coadd ex_mk ex_reg ex_transp 0 [] ex_world [Img 0; Img 1] false (1 / 4) 1) = Some (Ok r).
Proof.
  assert (exists h l', prepare ex_mk ex_reg ex_transp ex_world [Img 0; Img 1] false (1 / 4) = (Ok ([0; 1], h), l') /\
    images_fit h [0; 1] (2, 3) /\ (forall i, In i [0; 1] -> si_zp (h i) = 1%R /\ si_var (h i) = 1%R /\
      forall l a b, si_sq (h i) l a b = RtoC 1)) as [h [l' [E [F V]]]].
  { eexists. eexists. split; [reflexivity|]. split.
    - intros i [<-|[<-|[]]]; (split; [reflexivity|split; [try exact Logic.I; reflexivity|cbn; congruence]]).
    - intros i [<-|[<-|[]]]; repeat split. }
  destruct (seq_spec 0 [] h [0; 1] (2, 3) 1) as [ps [a [Ec _]]]; [lia|discriminate|exact F|].
  exists h, l', (finish ps a). split; [exact E|]. split; [exact F|]. split.
  - unfold total. cbn. destruct (V 0) as [-> [-> H0]]; [cbn; auto|]. destruct (V 1) as [-> [-> H1]]; [cbn; auto|].
    rewrite H0, H1. intros H. unfold RtoC, Cplus, Cmult in H. cbn in H. injection H as H _. lra.
  - unfold coadd. rewrite E. exact Ec.
Qed.

(** C13: the caller's list after the call, whatever the outcome. *)
Theorem C13_caller_list : forall mk reg transp fuel sched w l align loss n,
  list_after (built mk) (next w) l (snd (coadd mk reg transp fuel sched w l align loss n)).
Proof. exact caller_list. Qed.
Print Assumptions C13_caller_list.

Example C13_case : snd (coadd (fun r => if r =? 9 then Raise IOError else ex_mk r) ex_reg ex_transp 0 [] ex_world
    [Other 3; Img 1; Other 9; Other 4] false 0 1) = [Img 2; Img 1; Other 9; Other 4].
Proof. reflexivity. Qed.

(** C62: the reference is the caller's own first image, the others are new and distinct
    objects of the same class, registered on the reference; objects that existed are unchanged. *)
Theorem C62_alignment : forall reg w i ids r w', align_for_coadd reg w (i :: ids) = (r, w') ->
  (forall k, In k (i :: ids) -> k < next w) ->
  (forall k, k < next w -> objs w' k = objs w k) /\
  (forall out, r = Ok out -> exists rest, out = i :: rest /\ length rest = length ids /\
     NoDup out /\ (forall k, In k rest -> next w <= k) /\
     forall k j o, nth_error ids k = Some j -> nth_error rest k = Some o ->
       exists x, reg (objs w j) (objs w i) = Ok x /\ objs w' o = with_class (si_gauss (objs w j)) x).
Proof. exact align_spec. Qed.
Print Assumptions C62_alignment.

(** ... so, when registering gives frames of the target's shape, all have the reference's. *)
Theorem C62_reference_shape : forall reg w i ids out w', align_for_coadd reg w (i :: ids) = (Ok out, w') ->
  (forall k, In k (i :: ids) -> k < next w) ->
  (forall x r y, reg x r = Ok y -> si_shape y = si_shape r) ->
  forall o, In o out -> si_shape (objs w' o) = si_shape (objs w i).
Proof. exact align_shapes. Qed.
Print Assumptions C62_reference_shape.

Example C62_case : exists w', align_for_coadd ex_reg ex_world [0; 1; 1] = (Ok [0; 2; 3], w') /\
  forall k, In k [0; 1; 1] -> k < next ex_world.
Proof. eexists. split; [reflexivity|]. intros k [<-|[<-|[<-|[]]]]; cbn; lia. Qed.

(** C67: one image object given twice, two workers: a schedule on which coadd raises
    AttributeError, although the sequential run succeeds. *)
Theorem C67_shared_image_race : forall h sh, images_fit h [0; 0] sh ->
  si_shat (h 0) = None -> si_shat_loss (h 0) = None ->
  (exists r, coadd_core 11 [] h [0; 0] 1 = Some (Ok r)) /\
  exists sched, coadd_core 11 sched h [0; 0] 2 = Some (Raise AttributeError).
Proof. exact shared_race. Qed.
Print Assumptions C67_shared_image_race.

Example C67_case : images_fit (objs ex_world) [0; 0] (2, 3) /\
  si_shat (objs ex_world 0) = None /\ si_shat_loss (objs ex_world 0) = None.
Proof.
  split; [|split; reflexivity].
  intros i [<-|[<-|[]]]; (split; [reflexivity|split; [exact Logic.I|cbn; congruence]]).
Qed.

(** C68: with align=True the first image must already have its sources detected (it has
    not, when it was built with an explicit stamp_shape and nothing asked for them). *)
Theorem C68_align_needs_sources : forall mk reg transp fuel sched w i l loss n, i < next w ->
  si_has_sources (objs w i) = false ->
  (forall k, In (Img k) l -> k < next w) ->
  (forall r, In (Other r) l -> exists x, mk r = Ok x) ->
  (forall x r, exists y, reg x r = Ok y) ->
  fst (coadd mk reg transp fuel sched w (Img i :: l) true loss n) = Some (Raise AttributeError).
Proof. exact align_needs_sources. Qed.
Print Assumptions C68_align_needs_sources.

Example C68_case :
  let w := mkworld (fun _ => mksimg (2, 3) Nomask 1%R 1%R 0%R 5 (fun _ _ _ => RtoC 1) (fun _ _ _ => RtoC 1) None None false false) 2 in
  si_has_sources (objs w 0) = false /\ (forall x r, exists y, ex_reg x r = Ok y) /\
  fst (coadd ex_mk ex_reg ex_transp 0 [] w [Img 0; Img 1] true 0 1) = Some (Raise AttributeError).
Proof.
  cbn zeta. split; [reflexivity|]. split; [|reflexivity]. intros x r. exists x. reflexivity.
Qed.
