(** C142: images whose stamps have been cut, used again with other sources and in more
    subtractions. *)
From Coq Require Import ZArith List Bool Arith Reals Permutation.
From Coquelicot Require Import Complex.
From Verif.Model Require Import Py Plane Ma Image Interp Coadd FindS Sources Stamps Cut KL Session Filter Transparency Subtract Chain Again CutChain Live LiveSub LiveRounds.
From Verif.Spec Require Import Image Stamps Chain Session Again Uses Cut CutCoadd Live LiveMore LiveRounds.
From Verif.Proof Require Import Coadd Stamps StampsExample Session SessionLm Chain ChainMain ChainUnits ChainExample Uses UsesEx UsesCoaddEx CutIntact CutEx CutChain CutChainLeft CutCoaddEx CutUses CutUsesEx Live LiveMain LiveSub LiveSubEx LiveMore LiveRounds LiveRoundsEx LiveRoundsCalls LiveRoundsCallsEx.
Import ListNotations.
Local Open Scope R_scope.

(** The stamps of an image are cut once, also when it is given other sources again and again.
    After any plain calls the image is given the sources [left] and a zero point, as a matching
    does, and its PSF is asked for. From then on, whatever sources it is given or told to look for
    and whatever plain calls are made, its PSF for every loss and its stamps stay those of one
    extraction from the image as it was built, and its pixels those that this extraction left. *)
Theorem C142_psf : forall W fuel o d x pre c ex left z l0 post,
  (forall n m, length (fst (l_eigh W n m)) = n) ->
  build W fuel o d = Some (Ok x) -> fst (Session.best_sources (bu_lib x) (bu_attr x)) = Ok c ->
  Forall plain pre -> 0 <= l0 -> Forall later post ->
  let k := if stamps_read (looked_at (bu_attr x)) pre then c else left in
  snd (first_cut W o x k) = Ok ex ->
  let s := lived W o (pre ++ [CBestSources; CUpdateSources (Some left); CSetZp z; CGetPSF (Some l0) None] ++ post) x in
  (forall l, 0 <= l -> fst (l_get_variable_psf (live_lib W o x) (Some l) None s) =
     psf_for (given (bu_lib (opened W o k x)) k) (stamp_shape (bu_attr x)) l) /\
  fst (l_stamps_pos (live_lib W o x) s) = Ok (ex_pos ex) /\
  pic_now (fst s) = fst (first_cut W o x k) /\ spectral (fst s) = fst (first_cut W o x k).
Proof. exact C142_psf_lm. Qed.
Print Assumptions C142_psf.

(** A subtraction after others of the same two images, with any plain calls on each before, and
    any plain calls and other sources in between. Its matching is of the sources that the images have by then. But the PSF and the
    interpolated image it uses of each are those of the stamps that were cut when they were first
    asked for: of the sources found in the image if that was before the first subtraction, and
    otherwise of those that the matching of the first subtraction left. *)
Theorem C142_subtract : forall W fuel o o' d d' x y pre pre' c c' l0 b0 h0 i0 A hs rs hs1 l beta shift iterative D hs2,
  (forall n a, length (fst (l_eigh W n a)) = n) -> (forall r, Permutation (l_sort W r) r) ->
  build W fuel o d = Some (Ok x) -> build W fuel o' d' = Some (Ok y) -> 0 <= l0 -> 0 <= l ->
  fst (Session.best_sources (bu_lib x) (bu_attr x)) = Ok c -> fst (Session.best_sources (bu_lib y) (bu_attr y)) = Ok c' ->
  Forall plain pre -> Forall plain pre' ->
  let asked := stamps_read (looked_at (bu_attr x)) pre in
  let asked' := stamps_read (looked_at (bu_attr y)) pre' in
  (asked = true -> exists ex, snd (first_cut W o x c) = Ok ex) ->
  (asked' = true -> exists ex, snd (first_cut W o' y c') = Ok ex) ->
  subtract_held W o o' l0 b0 h0 i0 x y ((lived W o pre x, None), (lived W o' pre' y, None)) = Ok (A, hs) ->
  Forall usual rs -> play_all W o o' x y rs hs = Ok hs1 ->
  subtract_held W o o' l beta shift iterative x y hs1 = Ok (D, hs2) ->
  exists known known' left left' now now' cr cn t e u v,
    fst (l_best_sources (live_lib W o x) (lived W o pre x)) = Ok known /\
    fst (l_best_sources (live_lib W o' y) (lived W o' pre' y)) = Ok known' /\
    map spot left = map spot known /\ Permutation (map spot left') (map spot known') /\
    fst (l_best_sources (live_lib W o x) (fst (fst hs1))) = Ok now /\ fst (l_best_sources (live_lib W o' y) (fst (snd hs1))) = Ok now' /\
    map place (rows cr) = map (fun s => (s_x s, s_y s, s_flux s)) now /\ map place (rows cn) = map (fun s => (s_x s, s_y s, s_flux s)) now' /\
    transparency (l_query W) (l_sort W) (l_lsqr W) [cr; cn] None = Ok t /\
    (let k := if asked then c else left in
     let k' := if asked' then c' else left' in
     reads l (opened W o k x) [] k u /\ reads l (opened W o' k' y) [] k' v) /\
    e_transp e u v = Ok (nth 0 (zps t) 0, nth 1 (zps t) 0) /\ e_back e = l_back W /\ e_solve e = l_solve W /\
    subtract e (Is u) (Is v) false beta shift iterative false = Ok D.
Proof. exact C142_subtract_lm. Qed.
Print Assumptions C142_subtract.

(** Between two subtractions of the same two images, plain calls that do not look for the sources
    again change nothing of what the next subtraction returns or raises. *)
Theorem C142_calls : forall W fuel o o' d d' x y pre pre' c c' l0 b0 h0 i0 A hs rs hs1 cs cs' l beta shift iterative,
  (forall n a, length (fst (l_eigh W n a)) = n) -> (forall r, Permutation (l_sort W r) r) ->
  build W fuel o d = Some (Ok x) -> build W fuel o' d' = Some (Ok y) -> 0 <= l0 -> 0 <= l ->
  fst (Session.best_sources (bu_lib x) (bu_attr x)) = Ok c -> fst (Session.best_sources (bu_lib y) (bu_attr y)) = Ok c' ->
  Forall plain pre -> Forall plain pre' ->
  (stamps_read (looked_at (bu_attr x)) pre = true -> exists ex, snd (first_cut W o x c) = Ok ex) ->
  (stamps_read (looked_at (bu_attr y)) pre' = true -> exists ex, snd (first_cut W o' y c') = Ok ex) ->
  subtract_held W o o' l0 b0 h0 i0 x y ((lived W o pre x, None), (lived W o' pre' y, None)) = Ok (A, hs) ->
  Forall usual rs -> play_all W o o' x y rs hs = Ok hs1 ->
  Forall plain cs -> Forall plain cs' -> ~ In (CUpdateSources None) cs -> ~ In (CUpdateSources None) cs' ->
  let again h := bind (subtract_held W o o' l beta shift iterative x y h) (fun a => Ok (fst a)) in
  bind (play_all W o o' x y (rs ++ [Calls cs cs']) hs) again = again hs1.
Proof. exact C142_calls_lm. Qed.
Print Assumptions C142_calls.

Example C142_psf_case : exists x c ex,
  build striped 1 schosen sdata = Some (Ok x) /\ fst (best_sources (bu_lib x) (bu_attr x)) = Ok c /\
  (forall n c, length (fst (l_eigh striped n c)) = n) /\ Forall plain [CBestSources] /\
  Forall later [CUpdateSources (Some [mid]); CGetPSF (Some (1 / 2)) None; CUpdateSources None; CSHat] /\
  stamps_read (looked_at (bu_attr x)) [CBestSources] = false /\
  snd (first_cut striped schosen x (if stamps_read (looked_at (bu_attr x)) [CBestSources] then c else [mid'; mid])) = Ok ex /\
  exists f q t, psf_for (given (bu_lib (opened striped schosen [mid'; mid] x)) [mid'; mid]) (stamp_shape (bu_attr x)) (2 / 10) = Ok (f, q :: t).
Proof. exact C142_psf_case_lm. Qed.

Example C142_subtract_case : exists x c ex A hs hs1 D hs2,
  let rs := [Calls [CSHat; CUpdateSources (Some [mid])] [CStampsPos]] in
  let pre := [CBestSources] in
  let pre' := [CBestSources; CGetPSF (Some (1 / 2)) None] in
  build striped 1 schosen sdata = Some (Ok x) /\ fst (best_sources (bu_lib x) (bu_attr x)) = Ok c /\
  snd (first_cut striped schosen x c) = Ok ex /\ (forall r, Permutation (l_sort striped r) r) /\
  (forall n c, length (fst (l_eigh striped n c)) = n) /\ Forall plain pre /\ Forall plain pre' /\
  stamps_read (looked_at (bu_attr x)) pre = false /\ stamps_read (looked_at (bu_attr x)) pre' = true /\
  subtract_held striped schosen schosen (2 / 10) false false false x x
    ((lived striped schosen pre x, None), (lived striped schosen pre' x, None)) = Ok (A, hs) /\
  Forall usual rs /\ play_all striped schosen schosen x x rs hs = Ok hs1 /\
  subtract_held striped schosen schosen (2 / 10) false false false x x hs1 = Ok (D, hs2).
Proof. exact C142_subtract_case_lm. Qed.

Example C142_calls_case : exists x c ex A hs hs1 D hs2,
  let rs := [Calls [CSHat; CUpdateSources (Some [mid])] [CStampsPos]] in
  let pre := [CBestSources] in
  let pre' := [CBestSources; CGetPSF (Some (1 / 2)) None] in
  build striped 1 schosen sdata = Some (Ok x) /\ fst (best_sources (bu_lib x) (bu_attr x)) = Ok c /\
  snd (first_cut striped schosen x c) = Ok ex /\ (forall r, Permutation (l_sort striped r) r) /\
  (forall n c, length (fst (l_eigh striped n c)) = n) /\ Forall plain pre /\ Forall plain pre' /\
  stamps_read (looked_at (bu_attr x)) pre = false /\ stamps_read (looked_at (bu_attr x)) pre' = true /\
  subtract_held striped schosen schosen (2 / 10) false false false x x
    ((lived striped schosen pre x, None), (lived striped schosen pre' x, None)) = Ok (A, hs) /\
  Forall usual rs /\ play_all striped schosen schosen x x rs hs = Ok hs1 /\
  subtract_held striped schosen schosen (2 / 10) false false false x x hs1 = Ok (D, hs2) /\
  Forall plain [CSHat; CSetZp 3; CGetPSF (Some (1 / 2)) None] /\ Forall plain [CStampsPos; CBasis] /\
  ~ In (CUpdateSources None) [CSHat; CSetZp 3; CGetPSF (Some (1 / 2)) None] /\ ~ In (CUpdateSources None) [CStampsPos; CBasis].
Proof. exact C142_calls_case_lm. Qed.
