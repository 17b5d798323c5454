(** Model of catalogue matching and of the relative transparencies
    (properimage/utils.py 69-243).

    Coordinates, fluxes and magnitudes are exact real numbers. A structured array is the
    list of its rows, together with the knowledge of which of the two fields the code
    adds ("sourceid", "detected") it has. The images given to [transparency] are distinct
    objects that do not share catalogues: each is represented by its [best_sources]. *)
From Coq Require Import ZArith List Bool Arith Reals.
From Verif.Model Require Import Py.
Import ListNotations.

Definition pt : Type := (R * R)%type.

(** One row of a catalogue; [r_id] and [r_det] mean something only if the catalogue has
    the fields. *)
Record row : Type := mkrow { r_x : R; r_y : R; r_flux : R; r_id : Z; r_det : bool }.

Record cat : Type := mkcat { has_id : bool; has_det : bool; rows : list row }.

Definition xy (r : row) : pt := (r_x r, r_y r).
Definition with_id (z : Z) (r : row) : row := mkrow (r_x r) (r_y r) (r_flux r) z (r_det r).
Definition with_det (b : bool) (r : row) : row := mkrow (r_x r) (r_y r) (r_flux r) (r_id r) b.

(** [cat["sourceid"] = ids] for a list of as many ids as rows. *)
Definition set_ids (ids : list Z) (l : list row) : list row :=
  map (fun p => with_id (fst p) (snd p)) (combine ids l).
Definition set_dets (bs : list bool) (l : list row) : list row :=
  map (fun p => with_det (fst p) (snd p)) (combine bs l).

(** [append_fields(cat, "sourceid", ids)]: ValueError if the field exists. *)
Definition append_ids (ids : list Z) (c : cat) : res cat :=
  if has_id c then Raise ValueError else Ok (mkcat true (has_det c) (set_ids ids (rows c))).
Definition append_dets (bs : list bool) (c : cat) : res cat :=
  if has_det c then Raise ValueError else Ok (mkcat (has_id c) true (set_dets bs (rows c))).

Section Matching.

(** [cKDTree(X2).query(X1, k=1, distance_upper_bound=r)]: for each point of X1 the index
    of the neighbour found in X2, [None] when the distance returned is inf. *)
Variable query : list pt -> list pt -> R -> list (option nat).

(** utils.py 69-105; the points are all 2-d, so the dimension check never fails. *)
Definition crossmatch (X1 X2 : list pt) (radius : R) : list (option nat) := query X1 X2 radius.

(** The identifier of sources without partner, utils.py 126. *)
Definition sentinel : Z := (-13133)%Z.

(** The body of the loop at utils.py 127-133, for source [i] of the second catalogue. *)
Definition match_one (ids : list Z) (ind ind_ : list (option nat)) (i : nat) : Z :=
  match nth i ind_ None with
  | None => sentinel
  | Some ind_o =>
      match nth ind_o ind None with
      | None => sentinel
      | Some ind_s => if ind_s =? i then nth ind_o ids sentinel else sentinel
      end
  end.

(** utils.py 108-138, for a master catalogue that has the field named by [masteridskey];
    the second component is the mask returned when [masked=True]. *)
Definition matching (master : list pt) (ids : list Z) (im : list pt) (radius : R)
  : list Z * list bool :=
  let ind := crossmatch master im radius in
  let ind_ := crossmatch im master radius in
  let IDs := map (match_one ids ind ind_) (seq 0 (length im)) in
  (IDs, map (fun z => (0 <? z)%Z) IDs).

(** [newcat.sort(order="sourceid")] *)
Variable sort_cat : list row -> list row.

(** [scipy.sparse.linalg.lsqr(H, m)[0]] for a matrix of the given numbers of rows and
    columns. *)
Variable lsqr : nat -> nat -> (nat -> nat -> R) -> list R -> list R.

(** One turn of the loop at utils.py 182-200: the identifiers, and the catalogue the image
    ends up with. [newcat["sourceid"] = ids] writes the same identifiers as
    [append_fields]. *)
Definition process_image (master : cat) (newcat : cat) : list Z * cat :=
  let ids := fst (matching (map xy (rows master)) (map r_id (rows master))
                           (map xy (rows newcat)) 2%R) in
  let c := match append_ids ids newcat with
           | Ok c => c
           | Raise _ => mkcat (has_id newcat) (has_det newcat) (set_ids ids (rows newcat))
           end in
  (ids, mkcat (has_id c) (has_det c) (sort_cat (rows c))).

(** utils.py 170-180: the master catalogue with its identifiers 0, 1, ... unless it has
    the field already. *)
Definition with_source_ids (c : cat) : cat :=
  match append_ids (map Z.of_nat (seq 0 (length (rows c)))) c with
  | Ok c' => c'
  | Raise _ => c
  end.

(** [-2.5 * np.log10(flux) + 20.0]; for a flux that is not positive numpy gives nan or
    inf, the theorems are about positive fluxes. *)
Definition mag (f : R) : R := (- (5 / 2) * (ln f / ln 10) + 20)%R.

(** [cat[cat["sourceid"] == id]["flux"][0]] *)
Definition flux_of (id : Z) (c : cat) : res R :=
  match filter (fun r => Z.eqb (r_id r) id) (rows c) with
  | r :: _ => Ok (r_flux r)
  | [] => Raise IndexError
  end.

Fixpoint mapM {A B} (f : A -> res B) (l : list A) : res (list B) :=
  match l with
  | [] => Ok []
  | a :: t => bind (f a) (fun b => bind (mapM f t) (fun r => Ok (b :: r)))
  end.

(** The matrix H of utils.py 225-234: block row k has a column of ones at k and an
    identity at the columns p.. . *)
Definition design (p q : nat) (a b : nat) : R :=
  if b <? p then (if b =? a / q then 1 else 0)%R
  else (if b - p =? a mod q then 1 else 0)%R.

(** What [transparency] returns and leaves behind: zero points, mean magnitudes ([None]
    is NaN), catalogues of the non-master images and of the master. *)
Record outcome : Type := mkout {
  zps : list R; meanmags : option (list R); cats : list cat; mcat : cat }.

(** utils.py 166-243 (when no source is common the master keeps its catalogue, except that
    an existing "detected" field of an array that had both fields is overwritten in
    place), [master] being images[0] and [imglist] the others, or the separate
    master and all the images. *)
Definition transparency_of (master : cat) (imglist : list cat) : res outcome :=
  let p := S (length imglist) in
  let mc := with_source_ids master in
  let done := map (process_image mc) imglist in
  let newcats := map snd done in
  let detect := map (fun r => forallb (fun d => existsb (Z.eqb (r_id r)) (fst d)) done) (rows mc) in
  let mc' := match append_dets detect mc with
             | Ok c => c
             | Raise _ => mkcat (has_id mc) (has_det mc) (set_dets detect (rows mc))
             end in
  let found := filter r_det (rows mc') in
  let q := length found in
  if q =? 0 then Ok (mkout (repeat 1%R p) None newcats (if has_id master && has_det master then mc' else master))
  else
    bind (mapM (fun r => mapM (fun c => bind (flux_of (r_id r) c) (fun f => Ok (mag f))) newcats) found)
      (fun mm =>
    let m := map (fun r => mag (r_flux r)) found ++ concat mm in
    let P := lsqr (p * q) (p + q) (design p q) m in
    Ok (mkout (firstn p P) (Some (skipn p P)) newcats mc')).

(** utils.py 141-243. With a list and no master the first image is the master; the list
    must not be empty (IndexError otherwise). *)
Definition transparency (images : list cat) (master : option cat) : res outcome :=
  match master with
  | Some mc => transparency_of mc images
  | None => match images with
            | mc :: imgs => transparency_of mc imgs
            | [] => Raise IndexError
            end
  end.

End Matching.
