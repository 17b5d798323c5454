(** Images that a coadd cannot tell apart. *)
From Coq Require Import ZArith List Bool Arith Reals Lia Lra.
From Verif.Model Require Import Py Plane Ma Image Interp FindS Sources Stamps KL Session Filter Transparency Subtract Chain ChainCoadd.
From Verif.Spec Require Import Image ImageExample Chain Session ChainCoadd.
From Verif.Proof Require Import Session SessionLm Chain ChainStack ChainExample ChainCoadd.
Import ListNotations.
Set Bullet Behavior "Strict Subproofs".
Local Open Scope R_scope.

(** Two images, the sources of the second were asked for. *)
Definition pair_of (a b : image) : list used_image := [(asis, a, []); (asis, b, [CBestSources])].

Lemma C117_case_lm : sep_skips_masked small /\ sep_follows_sky small /\
  Forall2 (used_alike alike) (pair_of plainim plainim) (pair_of other plainim) /\
  Forall2 (used_alike (fun im im' => exists c, raised_by c im im')) (pair_of plainim plainim) (pair_of higher higher) /\
  px (pixels plainim) 0 1 <> px (pixels other) 0 1 /\
  exists x y, build_all small 1 (loaded (pair_of plainim plainim)) = Some (Ok [x; y]) /\
    exists s s', fst (best_sources (bu_lib x) (bu_attr x)) = Ok [s; s'].
Proof.
  split; [exact small_skips|]. split; [exact small_sky|]. split; [|split; [|split; [vm_compute; discriminate|]]].
  - constructor; [split; [reflexivity|split; [reflexivity|exact plain_other]]|].
    constructor; [|constructor]. split; [reflexivity|]. split; [reflexivity|]. split; [reflexivity|]. intros i j Hi Hj. now split.
  - constructor; [split; [reflexivity|split; [reflexivity|exists 5; exact plain_higher]]|].
    constructor; [|constructor]. split; [reflexivity|]. split; [reflexivity|]. exists 5. exact plain_higher.
  - destruct plain_built as (x & E & V & s & s' & B). exists x, (after [CBestSources] x). split; [|eauto].
    cbn [loaded pair_of map build_all]. rewrite E. cbn [bind]. f_equal. destruct x. reflexivity.
Qed.
