(** Model of the way from the pixels of an image to what the operations use: [_bkg],
    [background], [var], [bkg_sub_img], the calls of sep.extract in [best_sources], the first
    stamp_shape (properimage/single_image.py 137-140, 505-569, 571-739, 1253-1256) and, put
    together from the other models, [subtract] on two images that were just built
    (operations.py 56-426).

    Exact real numbers, [None] is nan. A plane made here holds a fixed value outside its
    shape, where numpy has no cell. *)
From Coq Require Import ZArith List Bool Arith Reals SpecFloat.
From Flocq Require Import Core.Core IEEE754.BinarySingleNaN.
From Coquelicot Require Import Complex.
From Verif.Model Require Import Py Plane Ma Image Interp Sources Stamps KL Session Filter Transparency Subtract.
Import ListNotations.
Local Open Scope R_scope.

(** A plane with the value [d] outside its shape. *)
Definition tidy {A} (d : A) (p : plane A) : plane A :=
  mkplane (nr p) (nc p) (fun i j => if (i <? nr p)%nat && (j <? nc p)%nat then px p i j else d).

(** The number a pixel stands for. *)
Definition to_real (v : pix) : option R := if finiteb v then Some (SF2R radix2 v) else None.

(** The masked array [data] of a constructed image (Model/Image.v). *)
Definition mdata (im : image) : mimg :=
  let d := dat (im_data im) in
  mkmimg (tidy None (pmap to_real d))
         (tidy false (mkplane (nr d) (nc d) (masked_at (msk (im_data im))))).

(** A sep.Background object: [back()], [globalrms]. ([globalback] is only logged.) *)
Record backobj : Type := mkbackobj { b_back : plane R; b_rms : R }.

(** Library functions. *)
Record libs : Type := mklibs {
  (** sep.Background(data, mask=mask) *)
  l_background : plane (option R) -> option (plane bool) -> res backobj;
  (** sep.extract(data, thresh, mask=mask, minarea=n) with the size of sep's pixel stack *)
  l_extract : Z -> plane (option R) -> R -> plane bool -> nat -> res (list src);
  (** the convolution of interpolate_replace_nans, detect_cosmics, np.random.choice *)
  l_conv : plane (option R) -> plane (option R);
  l_cosmics : mimg -> plane bool;
  l_choice : nat -> list nat;
  (** sigma_clipped_stats and ndimage.label in find_S_local_maxima *)
  l_stats : plane R -> R * R * R;
  l_label : plane bool -> plane nat * nat;
  (** numpy.linalg.eigh, skimage's filter, astropy's fitter *)
  l_eigh : nat -> (nat -> nat -> R) -> list R * (nat -> nat -> R);
  l_smooth : option (plane (option R) -> plane (option R));
  l_fit : list (R * R) -> (nat -> R) -> field;
  (** the convolutions of normal_image, for an image of the given shape *)
  l_normal : nat * nat -> fieldset -> list (plane (option R)) -> plane R;
  (** cKDTree, ndarray.sort, lsqr in transparency *)
  l_query : list pt -> list pt -> R -> list (option nat);
  l_sort : list row -> list row;
  l_lsqr : nat -> nat -> (nat -> nat -> R) -> list R -> list R;
  (** sep.Background(x).back() of an image without nan, in subtract *)
  l_back : plane R -> plane R;
  l_solve : solvers }.

Section Chain.
Variable W : libs.

(** single_image.py:524-543, the setter of [_bkg]; both branches on [maskthresh] are the
    same. *)
Definition set_bkg (maskthresh : option R) (d : mimg) : res backobj :=
  if anyb (m_msk d) then
    match maskthresh with
    | Some _ => l_background W (m_dat d) (Some (m_msk d))
    | None => l_background W (m_dat d) (Some (m_msk d))
    end
  else l_background W (m_dat d) None.

(** single_image.py:505-516 [background] and 1253-1256 [var]. *)
Definition background (b : backobj) : plane R := b_back b.
Definition var (b : backobj) : R := b_rms b.

(** [bkg_sub_img.data] (545-548): numpy.ma leaves the masked cells of the first operand as
    they were. *)
Definition sub_data (d : mimg) (b : backobj) : plane (option R) :=
  tidy None (mkplane (nr (m_dat d)) (nc (m_dat d)) (fun i j =>
    if px (m_msk d) i j then px (m_dat d) i j
    else option_map (fun x => x - px (b_back b) i j) (px (m_dat d) i j))).

Definition failed {A} (r : res A) : bool := match r with Ok _ => false | Raise _ => true end.

(** SEP_THRESH (single_image.py:65-69) *)
Definition thresh_default : R := 8.
Definition thresh_high : R := 35.
Definition thresh_low : R := 3.

(** single_image.py:583-665: the four calls of sep.extract that can happen. [stack] is the
    size of sep's pixel stack when best_sources is read; it is set to 3600000 before the
    second call (607) and to 900000 before the fourth (653), for the whole process. *)
Definition attempts_of (stack : Z) (d : mimg) (b : backobj) : attempts :=
  let call st k minarea := l_extract W st (sub_data d b) (k * b_rms b) (m_msk d) minarea in
  let first := call stack thresh_default 9%nat in
  let stack' := if failed first then 3600000%Z else stack in
  mkattempts first (call 3600000%Z thresh_high 9%nat)
             (call stack' thresh_low 5%nat) (call 900000%Z thresh_low 9%nat).

(** The pixel stack afterwards. *)
Definition stack_after (stack : Z) (a : attempts) (min_sources : Z) : Z :=
  let stack' := if failed (at_default a) then 3600000%Z else stack in
  match orelse (at_default a) (at_high a) with
  | Raise _ => stack'
  | Ok srcs => if (Z.of_nat (length srcs) <? min_sources)%Z && failed (at_low5 a)
               then 900000%Z else stack'
  end.

(** best_sources at its first access. *)
Definition catalogue (stack min_sources : Z) (d : mimg) (b : backobj) : res (list src) :=
  Sources.best_sources (l_choice W) (attempts_of stack d b) min_sources.

(** interped at its first access; [None]: the loop does not end within [fuel] rounds. The
    result has no nan (see the property about interped). Simplified: the extraction of stamps
    takes copies of it here, so it stays as it is (Model/Cut.v has what the extraction does to
    it). *)
Definition clean (fuel : nat) (d : mimg) (b : backobj) : option (plane R) :=
  option_map (fun p => tidy 0 (pmap (fun x => match x with Some x => x | None => 0 end) p))
    (Interp.interped fuel (l_conv W) (l_cosmics W) d (b_back b)).

(** A stamp without nan. *)
Definition numbers (p : plane (option R)) : plane R :=
  pmap (fun x => match x with Some x => x | None => 0 end) p.

(** single_image.py:801-924: the stamps written to the file, also when the loop raises; the
    positions and the numbers of the rejected sources. *)
Fixpoint dump_loop (pk : picks) (image : plane R) (rms : R) (sh : nat * nat) (srcs : list src)
  (jj : nat) : list (plane (option R)) * res (list (R * R) * list nat) :=
  match srcs with
  | [] => ([], Ok ([], []))
  | s :: rest =>
      match one_stamp (l_stats W) (l_label W) pk image rms sh s with
      | Raise e => ([], Raise e)
      | Ok o =>
          let '(stamps, r) := dump_loop pk image rms sh rest (S jj) in
          match o with
          | None => (stamps, bind r (fun pd => Ok (fst pd, jj :: snd pd)))
          | Some p => (p :: stamps, bind r (fun pd => Ok ((s_y s, s_x s) :: fst pd, snd pd)))
          end
      end
  end.

(** The loop of stamps_pos as Model/Session.v wants it (765-944). *)
Definition extract_for (pk : picks) (image : plane R) (rms : R) (sh : nat * nat) (srcs : list src)
  : list (plane R) * res (list (R * R) * list src) :=
  let '(stamps, r) := dump_loop pk image rms sh srcs 0 in
  (map numbers stamps,
   bind r (fun '(pos, to_del) =>
     Ok (pos, if Nat.leb 15 (length srcs - length to_del) then np_delete 0 to_del srcs else srcs))).

(** The coefficient fields on the pixels of the image (get_afield_domain, 1096-1099). *)
Definition on_pixels (a : fieldset) : option (list (nat -> nat -> R)) :=
  match a with
  | NoField => None
  | Fields l => Some (map (fun f i j => f (INR i) (INR j)) l)
  end.

(** What the cached attributes are computed from. *)
Definition lib_of (stack min_sources : Z) (pk : picks) (d : mimg) (b : backobj) (img : plane R)
  : lib (plane R) (res (plane C)) (res (plane R)) :=
  mklib (plane R) (res (plane C)) (res (plane R))
    (catalogue stack min_sources d b)
    (extract_for pk img (b_rms b))
    (l_eigh W) (l_smooth W) (l_fit W)
    (l_normal W (shape (m_dat d)))
    (fun z a basis n => Filter.s_hat (mkfimg (shape (m_dat d)) (px img) (b_rms b) z) (px n)
                          (on_pixels a) (map numbers basis))
    (fun s => bind s (fun s => Ok (pmap fst (ifft2_ortho s)))).

(** What the user chose when building the image: stamp_shape, min_sources, strict_star_pick,
    maskthresh; and the size of the pixel stack at that time. *)
Record choices : Type := mkchoices {
  o_stamp : option (nat * nat); o_min : Z; o_pick : bool; o_thresh : option R; o_stack : Z }.

(** An image after its constructor: what its attributes are computed from, those attributes,
    and interped. *)
Record built : Type := mkbuilt {
  bu_data : mimg;
  bu_back : backobj;
  bu_clean : plane R;
  bu_lib : lib (plane R) (res (plane C)) (res (plane R));
  bu_attr : si (plane R) (res (plane C)) (res (plane R)) }.

(** single_image.py:136-140: background, then stamp_shape (550-569), which reads
    best_sources when the user gave none. interped is computed on demand; here at once, and
    nothing is returned when it does not end. *)
Definition build (fuel : nat) (o : choices) (d : mimg) : option (res built) :=
  match set_bkg (o_thresh o) d with
  | Raise e => Some (Raise e)
  | Ok b =>
      match clean fuel d b with
      | None => None
      | Some img =>
          let L := lib_of (o_stack o) (o_min o) (mkpicks (o_pick o) None) d b img in
          Some match o_stamp o with
               | Some sh => Ok (mkbuilt d b img L (fresh _ _ _ sh None))
               | None =>
                   bind (Session.select _ _ _ L) (fun srcs =>
                   let side := Z.to_nat (default_side srcs) in
                   Ok (mkbuilt d b img L (fresh _ _ _ (side, side) (Some srcs))))
               end
      end
  end.

(** The answers and attributes after a history of calls. *)
Definition after (cs : list call) (x : built) : built :=
  mkbuilt (bu_data x) (bu_back x) (bu_clean x) (bu_lib x)
    (exec_all _ _ _ (bu_lib x) cs (bu_attr x)).

(** The rows transparency reads, and the catalogue an image is given back: positions and
    fluxes (the other columns are not read again). *)
Definition row_of (s : src) : row := mkrow (s_x s) (s_y s) (s_flux s) 0 false.
Definition src_of (r : row) : src := mksrc (r_x r) (r_y r) 0 (r_flux r) 0.

(** What subtract reads of an image once its PSF is known (operations.py:141-201, 400-411). *)
Definition seen (x : built) (p : plane R) : dimg :=
  let d := bu_data x in
  mkdimg (shape (m_dat d))
    (fun i j => if px (m_msk d) i j then 0
                else match px (m_dat d) i j with Some v => v | None => 0 end)
    (Full (m_msk d)) (px (bu_clean x)) (b_rms (bu_back x)) p (fun _ _ => 0).

(** [img.get_variable_psf(inf_loss)[1][0]] *)
Definition first_element (inf_loss : R) (x : built) : res (plane R) :=
  bind (fst (get_variable_psf _ _ _ (bu_lib x) (Some inf_loss) None (bu_attr x))) (fun ab =>
  match snd ab with [] => Raise IndexError | p :: _ => Ok (numbers p) end).

Definition with_best (l : list src) (x : built) : built :=
  mkbuilt (bu_data x) (bu_back x) (bu_clean x) (bu_lib x) (set_best _ _ _ (Some l) (bu_attr x)).

(** operations.py:56-426 with align=False and fitted_psf=False, on two images that subtract
    finds as [ref] and [new]: transparency reads the two catalogues and leaves the matched
    ones in the images (utils.py:166-243), then the PSFs, then the subtraction proper
    (Model/Subtract.v). The catalogue of the reference stays as it was when no source is
    common. *)
Definition subtract_built (inf_loss : R) (beta shift iterative : bool) (ref new : built)
  : res (plane C * plane R * plane (option R) * mask) :=
  if negb (shape_eqb (shape (m_dat (bu_data new))) (shape (m_dat (bu_data ref)))) then Raise ValueError
  else
  bind (fst (Session.best_sources _ _ _ (bu_lib ref) (bu_attr ref))) (fun cr =>
  bind (fst (Session.best_sources _ _ _ (bu_lib new) (bu_attr new))) (fun cn =>
  bind (transparency (l_query W) (l_sort W) (l_lsqr W)
          [mkcat false false (map row_of cr); mkcat false false (map row_of cn)] None) (fun t =>
  let ref' := with_best (map src_of (rows (mcat t))) ref in
  let new' := with_best (match cats t with c :: _ => map src_of (rows c) | [] => cn end) new in
  bind (first_element inf_loss ref') (fun pr =>
  bind (first_element inf_loss new') (fun pn =>
  subtract (mkenv (fun _ => Raise TypeError) (fun _ => Raise TypeError)
              (fun _ _ => Raise ValueError)
              (fun _ _ => Ok (nth 0 (zps t) 0, nth 1 (zps t) 0)) (l_back W) (l_solve W))
    (Is (seen ref' pr)) (Is (seen new' pn)) false beta shift iterative false))))).

(** The same from the pixels: two images are built and subtracted. *)
Definition subtract_pixels (fuel : nat) (o o' : choices) (inf_loss : R) (beta shift iterative : bool)
  (ref new : mimg) : option (res (plane C * plane R * plane (option R) * mask)) :=
  match build fuel o ref, build fuel o' new with
  | Some r, Some n => Some (bind r (fun r => bind n (fun n =>
                        subtract_built inf_loss beta shift iterative r n)))
  | _, _ => None
  end.
End Chain.
