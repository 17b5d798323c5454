(** C140: subtract on images that were used before, with what cutting their stamps leaves of
    them. *)
From Coq Require Import ZArith List Bool Arith Reals Permutation.
From Coquelicot Require Import Complex.
From Verif.Model Require Import Py Plane Ma Image Interp Coadd FindS Sources Stamps Cut KL Session Filter Transparency Subtract Chain Again SubAgain CutChain Live LiveSub.
From Verif.Spec Require Import Image Stamps Chain Session Uses Cut CutCoadd Live.
From Verif.Proof Require Import Coadd Stamps StampsExample Session SessionLm Chain ChainMain ChainUnits ChainExample Uses UsesEx UsesCoaddEx CutIntact CutEx CutChain CutChainLeft CutCoaddEx CutUses CutUsesEx Live LiveMain LiveSub LiveSubEx.
Import ListNotations.
Local Open Scope R_scope.

(** What a subtraction of two images uses of each, after any history of plain calls on both, and
    what it leaves of their interpolated images. The stamps are those of the sources found in the
    image if the history has asked for stamps, and otherwise those of the sources that the
    matching left. *)
Theorem C140_uses : forall W fuel o o' d d' x y cs cs' c c' l beta shift iterative D P S m s' t',
  (forall n a, length (fst (l_eigh W n a)) = n) -> (forall r, Permutation (l_sort W r) r) ->
  build W fuel o d = Some (Ok x) -> build W fuel o' d' = Some (Ok y) -> 0 <= l ->
  fst (Session.best_sources (bu_lib x) (bu_attr x)) = Ok c -> fst (Session.best_sources (bu_lib y) (bu_attr y)) = Ok c' ->
  Forall plain cs -> Forall plain cs' ->
  let asked := stamps_read (looked_at (bu_attr x)) cs in
  let asked' := stamps_read (looked_at (bu_attr y)) cs' in
  (asked = true -> exists ex, snd (first_cut W o x c) = Ok ex) ->
  (asked' = true -> exists ex, snd (first_cut W o' y c') = Ok ex) ->
  subtract_live W o o' l beta shift iterative x y (lived W o cs x) (lived W o' cs' y) = Ok ((D, P, S, m), (s', t')) ->
  exists cr cn left left' t e u v,
    fst (l_best_sources (live_lib W o x) (lived W o cs x)) = Ok cr /\
    fst (l_best_sources (live_lib W o' y) (lived W o' cs' y)) = Ok cn /\
    transparency (l_query W) (l_sort W) (l_lsqr W)
      [mkcat false false (map row_of cr); mkcat false false (map row_of cn)] None = Ok t /\
    map spot left = map spot cr /\ Permutation (map spot left') (map spot cn) /\
    (let x1 := opened W o (if asked then c else left) x in
     let y1 := opened W o' (if asked' then c' else left') y in
     reads l x1 cs left u /\ reads l y1 cs' left' v /\
     numbers (pic_now (fst s')) = bu_clean x1 /\ pic_hat (fst s') = Some (pic_now (fst s')) /\
     numbers (pic_now (fst t')) = bu_clean y1 /\ pic_hat (fst t') = Some (pic_now (fst t'))) /\
    e_transp e u v = Ok (nth 0 (zps t) 0, nth 1 (zps t) 0) /\ e_back e = l_back W /\ e_solve e = l_solve W /\
    subtract e (Is u) (Is v) false beta shift iterative false = Ok (D, P, S, m).
Proof. exact C140_uses_lm. Qed.
Print Assumptions C140_uses.

(** The result does not depend on what was asked of the images before, as long as they know the
    same sources and stamps had been asked for in the same images. *)
Theorem C140_history : forall W fuel o o' d d' x y c c' l beta shift iterative cs1 cs2 cs1' cs2',
  (forall n a, length (fst (l_eigh W n a)) = n) ->
  build W fuel o d = Some (Ok x) -> build W fuel o' d' = Some (Ok y) -> 0 <= l ->
  fst (Session.best_sources (bu_lib x) (bu_attr x)) = Ok c -> fst (Session.best_sources (bu_lib y) (bu_attr y)) = Ok c' ->
  Forall plain cs1 -> Forall plain cs2 -> Forall plain cs1' -> Forall plain cs2' ->
  let asked := stamps_read (looked_at (bu_attr x)) in
  let asked' := stamps_read (looked_at (bu_attr y)) in
  asked cs1 = asked cs2 -> asked' cs1' = asked' cs2' ->
  (asked cs1 = true -> exists ex, snd (first_cut W o x c) = Ok ex) ->
  (asked' cs1' = true -> exists ex, snd (first_cut W o' y c') = Ok ex) ->
  fst (l_best_sources (live_lib W o x) (lived W o cs1 x)) = fst (l_best_sources (live_lib W o x) (lived W o cs2 x)) ->
  fst (l_best_sources (live_lib W o' y) (lived W o' cs1' y)) = fst (l_best_sources (live_lib W o' y) (lived W o' cs2' y)) ->
  let result r := bind r (fun a : (plane C * plane R * plane (option R) * mask) * (lstate * lstate) => Ok (fst a)) in
  result (subtract_live W o o' l beta shift iterative x y (lived W o cs1 x) (lived W o' cs1' y)) =
  result (subtract_live W o o' l beta shift iterative x y (lived W o cs2 x) (lived W o' cs2' y)).
Proof. exact C140_history_lm. Qed.
Print Assumptions C140_history.

Example C140_case : exists x c ex D P S m s' t',
  build striped 1 schosen sdata = Some (Ok x) /\ fst (best_sources (bu_lib x) (bu_attr x)) = Ok c /\
  snd (first_cut striped schosen x c) = Ok ex /\ (forall r, Permutation (l_sort striped r) r) /\
  (forall n c, length (fst (l_eigh striped n c)) = n) /\
  Forall plain [CBestSources] /\ Forall plain [CBestSources; CGetPSF (Some (1 / 2)) None] /\
  stamps_read (looked_at (bu_attr x)) [CBestSources] = false /\
  stamps_read (looked_at (bu_attr x)) [CBestSources; CGetPSF (Some (1 / 2)) None] = true /\
  subtract_live striped schosen schosen (2 / 10) false false false x x (lived striped schosen [CBestSources] x)
    (lived striped schosen [CBestSources; CGetPSF (Some (1 / 2)) None] x) = Ok ((D, P, S, m), (s', t')).
Proof. exact C140_case_lm. Qed.

Example C140_history_case : exists x c ex kept,
  build striped 1 schosen sdata = Some (Ok x) /\ fst (best_sources (bu_lib x) (bu_attr x)) = Ok c /\
  snd (first_cut striped schosen x c) = Ok ex /\ (forall n c, length (fst (l_eigh striped n c)) = n) /\
  let asked := stamps_read (looked_at (bu_attr x)) in
  let known cs := fst (l_best_sources (live_lib striped schosen x) (lived striped schosen cs x)) in
  Forall plain [CSetZp 3] /\ Forall plain [CBestSources] /\ asked [CSetZp 3] = false /\ asked [CBestSources] = false /\
  known [CSetZp 3] = Ok c /\ known [CBestSources] = Ok c /\
  Forall plain [CStampsPos] /\ Forall plain [CBestSources; CStampsPos; CSetZp 3] /\ asked [CStampsPos] = true /\
  asked [CBestSources; CStampsPos; CSetZp 3] = true /\
  known [CStampsPos] = Ok kept /\ known [CBestSources; CStampsPos; CSetZp 3] = Ok kept.
Proof. exact C140_history_case_lm. Qed.
