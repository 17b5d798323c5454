(** From the pixels of an image to its sources, its PSF and its subtractions: the values under
    the mask, the level of the sky, the unit of the pixels and the history of the process. *)
From Coq Require Import ZArith List Bool Arith Reals.
From Coquelicot Require Import Complex.
From Verif.Model Require Import Py Plane Ma Image Interp Sources KL Session Subtract Chain.
From Verif.Spec Require Import Image ImageExample Session Chain.
From Verif.Proof Require Import ImageSum Session SessionLm ChainMain ChainUnits ChainStack ChainExample.
Import ListNotations.
Local Open Scope R_scope.

(** Two arrays with the same mask that differ only under the mask give images with the same
    mask and the same values outside it. *)
Theorem C93_construct : forall fs nsum d d' m th guess gain im im',
  shape m = shape d -> same_off m d d' ->
  construct fs nsum (mkargs (Ndarray d) (MArray m) th guess false ((0, 0), (0, 0))%Z gain) = Ok im ->
  construct fs nsum (mkargs (Ndarray d') (MArray m) th guess false ((0, 0), (0, 0))%Z gain) = Ok im' ->
  alike im im'.
Proof. exact C93_construct_lm. Qed.
Print Assumptions C93_construct.

(** Two masked arrays that differ under the mask. *)
Example C93_construct_case :
  let arr l := mkargs (Ndarray (zplane l)) (MArray (bplane hole)) None false false ((0, 0), (0, 0))%Z None in
  let a := [[1; 7; 3]; [40; 1; 60]]%Z in
  let a' := [[1; 500; 3]; [40; 1; 60]]%Z in
  same_off (bplane hole) (zplane a) (zplane a') /\
  match construct nofs seq_sum (arr a), construct nofs seq_sum (arr a') with
  | Ok im, Ok im' => px (pixels im) 0 1 <> px (pixels im') 0 1
  | _, _ => False
  end.
Proof.
  intros arr a a'. split.
  - split; [reflexivity|]. intros [|[|i]] [|[|[|j]]] Hi Hj M; try reflexivity; try discriminate M;
      exfalso; cbn in Hi, Hj; repeat (apply le_S_n in Hi || apply le_S_n in Hj); (inversion Hi || inversion Hj).
  - vm_compute. discriminate.
Qed.

(** Every attribute of the two images, after any history of calls, is the same. *)
Theorem C93_history : forall W fuel o im im', sep_skips_masked W -> alike im im' ->
  match build W fuel o (mdata im), build W fuel o (mdata im') with
  | Some (Ok x), Some (Ok x') =>
      background (bu_back x') = background (bu_back x) /\ var (bu_back x') = var (bu_back x) /\
      bu_clean x' = bu_clean x /\ bu_lib x' = bu_lib x /\
      forall cs, bu_attr (after cs x') = bu_attr (after cs x)
  | Some (Raise e), Some (Raise e') => e = e'
  | None, None => True
  | _, _ => False
  end.
Proof. exact C93_history_lm. Qed.
Print Assumptions C93_history.

(** A sep, two images that differ under the mask, and their sources. *)
Example C93_history_case : sep_skips_masked small /\ alike plainim other /\
  px (pixels plainim) 0 1 <> px (pixels other) 0 1 /\
  exists x, build small 1 asis (mdata plainim) = Some (Ok x) /\ var (bu_back x) <> 0 /\
    exists s s', fst (Session.best_sources (bu_lib x) (bu_attr x)) = Ok [s; s'].
Proof.
  split; [exact small_skips|]. split; [exact plain_other|]. split; [vm_compute; discriminate|exact plain_built].
Qed.

(** The subtraction of two pairs of such images is the same, or raises the same exception. *)
Theorem C93_subtract : forall W fuel o o' l beta shift iterative ref ref' new new',
  sep_skips_masked W -> alike ref ref' -> alike new new' ->
  subtract_pixels W fuel o o' l beta shift iterative (mdata ref') (mdata new') =
  subtract_pixels W fuel o o' l beta shift iterative (mdata ref) (mdata new).
Proof. exact C93_subtract_lm. Qed.
Print Assumptions C93_subtract.

(** Everything an image computes after construction, but for its pixels and its background,
    is the same at another level of the sky. *)
Theorem C94_history : forall W c fuel o im im', sep_skips_masked W -> sep_follows_sky W ->
  raised_by c im im' ->
  match build W fuel o (mdata im), build W fuel o (mdata im') with
  | Some (Ok x), Some (Ok x') =>
      (forall i j, px (background (bu_back x')) i j = px (background (bu_back x)) i j + c) /\
      var (bu_back x') = var (bu_back x) /\
      bu_clean x' = bu_clean x /\ bu_lib x' = bu_lib x /\
      forall cs, bu_attr (after cs x') = bu_attr (after cs x)
  | Some (Raise e), Some (Raise e') => e = e'
  | None, None => True
  | _, _ => False
  end.
Proof. exact C94_history_lm. Qed.
Print Assumptions C94_history.

(** D, P and the mask of a subtraction do not depend on the levels of the two skies. *)
Theorem C94_subtract : forall W c c' fuel o o' l beta shift iterative ref ref' new new',
  sep_skips_masked W -> sep_follows_sky W -> raised_by c ref ref' -> raised_by c' new new' ->
  match subtract_pixels W fuel o o' l beta shift iterative (mdata ref) (mdata new),
        subtract_pixels W fuel o o' l beta shift iterative (mdata ref') (mdata new') with
  | Some (Ok (D, P, _, m)), Some (Ok (D', P', _, m')) => D = D' /\ P = P' /\ m = m'
  | Some (Raise e), Some (Raise e') => e = e'
  | None, None => True
  | _, _ => False
  end.
Proof. exact C94_subtract_lm. Qed.
Print Assumptions C94_subtract.

(** A background that follows the sky, and an image at two levels. *)
Example C94_case : sep_skips_masked small /\ sep_follows_sky small /\ raised_by 5 plainim higher /\
  exists x, build small 1 asis (mdata plainim) = Some (Ok x) /\ var (bu_back x) <> 0 /\
    exists s s', fst (Session.best_sources (bu_lib x) (bu_attr x)) = Ok [s; s'].
Proof.
  split; [exact small_skips|]. split; [exact small_sky|]. split; [exact plain_higher|exact plain_built].
Qed.

(** The second image has [k] times the background, the noise and the interpolated image of the
    first; the same sources, with fluxes [k] times as large; the same stamp_shape. It cannot be
    built exactly when the first cannot, for the same reason. *)
Theorem C95_construct : forall W k fuel o im im', 0 < k -> sep_skips_masked W -> unit_free W ->
  multiplied_by k im im' ->
  match build W fuel o (mdata im), build W fuel o (mdata im') with
  | Some (Ok x), Some (Ok x') =>
      (forall i j, px (background (bu_back x')) i j = k * px (background (bu_back x)) i j) /\
      var (bu_back x') = k * var (bu_back x) /\
      (forall i j, px (bu_clean x') i j = k * px (bu_clean x) i j) /\
      fst (Session.best_sources (bu_lib x') (bu_attr x')) =
        match fst (Session.best_sources (bu_lib x) (bu_attr x)) with
        | Ok l => Ok (map (brighter k) l)
        | Raise e => Raise e
        end /\
      stamp_shape (bu_attr x') = stamp_shape (bu_attr x)
  | Some (Raise e), Some (Raise e') => e = e'
  | None, None => True
  | _, _ => False
  end.
Proof. exact C95_construct_lm. Qed.
Print Assumptions C95_construct.

(** The PSF and its stamps are the same, for every history of calls. *)
Theorem C95_psf : forall W k fuel o im im' x x', 0 < k -> sep_skips_masked W -> unit_free W ->
  (forall n c, length (fst (l_eigh W n c)) = n) -> multiplied_by k im im' ->
  build W fuel o (mdata im) = Some (Ok x) -> build W fuel o (mdata im') = Some (Ok x') ->
  (forall sh, stamps_of _ _ _ (bu_lib x') sh = stamps_of _ _ _ (bu_lib x) sh) /\
  forall cs, Forall plain cs -> forall l, match l with Some l => 0 <= l | None => True end ->
    fst (get_variable_psf (bu_lib x') l None (bu_attr (after cs x'))) =
    fst (get_variable_psf (bu_lib x) l None (bu_attr (after cs x))).
Proof. exact C95_psf_lm. Qed.
Print Assumptions C95_psf.

(** The matched filter is divided by [k], for every history of calls: like every S of the
    package it is signal over variance. *)
Theorem C95_filter : forall W k fuel o im im' x x', 0 < k -> sep_skips_masked W -> unit_free W ->
  (forall n c, length (fst (l_eigh W n c)) = n) -> multiplied_by k im im' ->
  build W fuel o (mdata im) = Some (Ok x) -> build W fuel o (mdata im') = Some (Ok x') ->
  var (bu_back x) <> 0 ->
  forall cs, Forall plain cs ->
    match fst (s_hat_comp (bu_lib x) (bu_attr (after cs x))),
          fst (s_hat_comp (bu_lib x') (bu_attr (after cs x'))) with
    | Ok (Ok h), Ok (Ok h') => shape h' = shape h /\ forall u v, px h' u v = (px h u v / RtoC k)%C
    | Ok (Raise e), Ok (Raise e') => e = e'
    | Raise e, Raise e' => e = e'
    | _, _ => False
    end.
Proof. exact C95_filter_lm. Qed.
Print Assumptions C95_filter.

(** An image in two units. *)
Example C95_case : sep_skips_masked small /\ unit_free small /\
  (forall n c, length (fst (l_eigh small n c)) = n) /\ multiplied_by 2 plainim doubled /\
  exists x x', build small 1 asis (mdata plainim) = Some (Ok x) /\ var (bu_back x) <> 0 /\
    build small 1 asis (mdata doubled) = Some (Ok x').
Proof.
  split; [exact small_skips|]. split; [exact small_units|].
  split; [intros n c; exact (repeat_length _ _)|]. split; [exact plain_doubled|].
  destruct plain_built as (x & E & V & _). exists x.
  pose proof (C95_construct_lm small 2 1 asis plainim doubled Rlt_0_2 small_skips small_units plain_doubled) as H.
  rewrite E in H. destruct (build small 1 asis (mdata doubled)) as [[x'|e]|]; [|contradiction|contradiction].
  exists x'. auto.
Qed.

(** The sources of an image and the pixel stack it leaves behind are those of the search. *)
Theorem C96_search : forall W stack mn d b,
  exists r, searched (fun st k minarea => l_extract W st (sub_data d b) (k * b_rms b) (m_msk d) minarea) mn stack
              r (stack_after stack (attempts_of W stack d b) mn) /\
    (forall e, r = Raise e -> catalogue W stack mn d b = Raise e) /\
    (forall l, r = Ok l -> (length l < 2)%nat -> catalogue W stack mn d b = Raise ValueError) /\
    (forall l, r = Ok l -> (2 <= length l)%nat -> catalogue W stack mn d b = Ok (Sources.select (l_choice W) l)).
Proof. exact C96_search_lm. Qed.
Print Assumptions C96_search.

(** Whatever was done before, the pixel stack has the size it had or one of two others. *)
Theorem C96_sizes : forall W stack l,
  let st := stack_run W stack l in st = stack \/ st = 3600000%Z \/ st = 900000%Z.
Proof. exact C96_sizes_lm. Qed.
Print Assumptions C96_sizes.

(** An image for which the first stack is large enough, for the bright sources and, if they
    are too few, for the faint ones, has the same sources whatever images were looked at
    before it. *)
Theorem C96_enough : forall W d b mn l srcs, stack_only_overflows W ->
  at_default (attempts_of W 300000 d b) = Ok srcs ->
  ((Z.of_nat (length srcs) < mn)%Z -> exists low, at_low5 (attempts_of W 300000 d b) = Ok low) ->
  catalogue W (stack_run W 300000 l) mn d b = catalogue W 300000 mn d b.
Proof. exact C96_enough_lm. Qed.
Print Assumptions C96_enough.

(** An image that fits the first stack, after one that does not. *)
Example C96_enough_case : stack_only_overflows stub /\ stack_run stub 300000 [(grey 1, dark, 30%Z)] = 3600000%Z /\
  at_default (attempts_of stub 300000 (grey 2) dark) = Ok (fill 2) /\ (Z.of_nat (length (fill 2)) >= 2)%Z.
Proof. split; [exact stub_overflows|]. split; [reflexivity|]. split; [reflexivity|easy]. Qed.

(** Otherwise the sources of an image depend on what the process did before it was looked
    at. *)
Theorem C96_history_refuted : exists W d d' b mn, stack_only_overflows W /\
  exists l l', catalogue W (stack_run W 300000 []) mn d b = Ok l /\
    catalogue W (stack_run W 300000 [(d', b, mn)]) mn d b = Ok l' /\ length l <> length l'.
Proof. exact C96_history_refuted_lm. Qed.
Print Assumptions C96_history_refuted.
