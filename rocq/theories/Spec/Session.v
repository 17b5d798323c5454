(** What a user should know about the answers of an image after a history of calls. *)
From Coq Require Import List Bool Arith Reals.
From Verif.Model Require Import Py Plane Sources KL Session.
From Verif.Spec Require Import KL.
Import ListNotations.
Local Open Scope R_scope.

Section Spec.
Variables NI FT IM : Type.
Variable L : lib NI FT IM.
(** stamp_shape of the new image *)
Variable sh : nat * nat.

(** The stamps and positions of the image, computed from nothing. *)
Definition stamps_of : res (list (plane R) * list (R * R)) :=
  match select _ _ _ L with
  | Raise e => Raise e
  | Ok cat => match extract _ _ _ L sh cat with
              | (_, Raise e) => Raise e
              | (stamps, Ok (positions, _)) => Ok (stamps, positions)
              end
  end.

(** The PSF of the image for the loss [l], computed from nothing: the basis of the stamps and
    either no field (one element) or, for each element, a fit to the components of its
    eigenvector at the positions of the stamps. *)
Definition psf_for (l : R) : res (fieldset * list (plane (option R))) :=
  bind stamps_of (fun sp =>
  let '(stamps, positions) := sp in
  let size := (fst sh + 6, snd sh + 6)%nat in
  bind (KL.kl_basis (eigh _ _ _ L) (smooth _ _ _ L) size stamps l) (fun b =>
  if Nat.eqb (length b) 1 then Ok (NoField, b)
  else if Nat.eqb (length positions) 0 then Raise IndexError
  else bind (KL.eigenv (eigh _ _ _ L) size stamps) (fun e =>
       Ok (Fields (map (fun k => fit _ _ _ L positions (eigen_component (length stamps) (snd e) k))
                       (seq 0 (length b))), b)))).

(** Reading properties, asking for the PSF without a shape and with a loss that is not
    negative, coadding, setting the zero point, resetting the sources. *)
Definition plain (c : call) : Prop :=
  match c with
  | CGetPSF (Some l) sh => 0 <= l /\ sh = None
  | CGetPSF None sh => sh = None
  | CCoadd l _ => 0 <= l
  | CUpdateSources new => new = None
  | CSetInfLoss _ | CSetStampShape _ | CClean => False
  | _ => True
  end.

(** The loss asked for last: 0.2 in a new image. *)
Definition loss_of (c : call) (l : R) : R :=
  match c with CGetPSF (Some l') _ => l' | CCoadd l' _ => l' | _ => l end.
Definition last_loss (cs : list call) : R := fold_left (fun l c => loss_of c l) cs (2 / 10).

(** The zero point set last: 1 in a new image. *)
Definition zp_of (c : call) (z : R) : R :=
  match c with CSetZp z' => z' | CCoadd _ z' => z' | _ => z end.
Definition last_zp (cs : list call) : R := fold_left (fun z c => zp_of c z) cs 1.

(** What a user has to remember of the history to know which PSF and zero point are in the
    images handed out. *)
Record memory : Type := remember {
  m_loss : R;                       (* the loss in force *)
  m_zp : R;                         (* the zero point in force *)
  m_norm : option R;                (* the loss in force when normal_image was first needed *)
  m_filt : option (R * R);          (* the loss and the zero point of the filtered image *)
  m_comp : option (R * (R * R)) }.  (* the loss at the first s_component, and the loss and the
                                       zero point of the filtered image it was last made from *)

(** normal_image is made once. *)
Definition need_norm (m : memory) : memory :=
  match m_norm m with
  | Some _ => m
  | None => remember (m_loss m) (m_zp m) (Some (m_loss m)) (m_filt m) (m_comp m)
  end.

(** s_hat_comp is made again when the loss is no longer that of its last making. *)
Definition need_filt (m : memory) : memory :=
  match m_filt m with
  | Some (l, _) => if Req_EM_T l (m_loss m) then m
                   else let m := need_norm m in
                        remember (m_loss m) (m_zp m) (m_norm m) (Some (m_loss m, m_zp m)) (m_comp m)
  | None => let m := need_norm m in
            remember (m_loss m) (m_zp m) (m_norm m) (Some (m_loss m, m_zp m)) (m_comp m)
  end.

Definition made_of (m : memory) : R * R := match m_filt m with Some x => x | None => (m_loss m, m_zp m) end.

(** s_component is made again when the loss is not that of its first making. *)
Definition need_comp (m : memory) : memory :=
  match m_comp m with
  | None => let m := need_filt m in
            remember (m_loss m) (m_zp m) (m_norm m) (m_filt m) (Some (m_loss m, made_of m))
  | Some (first, _) =>
      if Req_EM_T first (m_loss m) then m
      else let m := need_filt m in
           remember (m_loss m) (m_zp m) (m_norm m) (m_filt m) (Some (first, made_of m))
  end.

Definition recall (c : call) (m : memory) : memory :=
  let m := match c with
           | CNormal => need_norm m
           | CSHat => need_filt m
           | CSComponent => need_comp m
           | _ => m
           end in
  remember (loss_of c (m_loss m)) (zp_of c (m_zp m)) (m_norm m) (m_filt m) (m_comp m).

Definition history (cs : list call) : memory :=
  fold_left (fun m c => recall c m) cs (remember (2 / 10) 1 None None None).

(** The three images for the losses and the zero point remembered. *)
Definition norm_for (l : R) : res NI :=
  bind (psf_for l) (fun psf => Ok (normal_of _ _ _ L (fst psf) (snd psf))).

Definition filt_for (l z ln : R) : res FT :=
  bind (psf_for l) (fun psf => bind (norm_for ln) (fun nrm =>
  Ok (shat_of _ _ _ L z (fst psf) (snd psf) nrm))).

Definition comp_for (l z ln : R) : res IM :=
  bind (filt_for l z ln) (fun h => Ok (ifft_real _ _ _ L h)).

Definition norm_loss (m : memory) : R := match m_norm m with Some l => l | None => m_loss m end.
End Spec.

(** What the library functions promise: one position for each stamp that was kept (proved of
    the extraction model, see the property on stamps), as many eigenvalues as rows. *)
Definition lib_ok {NI FT IM} (L : lib NI FT IM) : Prop :=
  (forall sh cat stamps positions kept,
     extract _ _ _ L sh cat = (stamps, Ok (positions, kept)) -> length stamps = length positions) /\
  (forall n c, length (fst (eigh _ _ _ L n c)) = n).

(** What the constructor leaves: best_sources not looked at, or computed. *)
Definition new_image {NI FT IM} (L : lib NI FT IM) (sh : nat * nat) (s : si NI FT IM) : Prop :=
  s = fresh _ _ _ sh None \/ exists cat, select _ _ _ L = Ok cat /\ s = fresh _ _ _ sh (Some cat).

(** The loss in force at the first access to s_component in a history, if any. *)
Fixpoint first_component (l : R) (cs : list call) : option R :=
  match cs with
  | [] => None
  | CSComponent :: _ => Some l
  | c :: cs => first_component (loss_of c l) cs
  end.

(** The number of coefficient fields fits the basis: none for one element, else one each. *)
Definition fields_fit (psf : fieldset * list (plane (option R))) : Prop :=
  match fst psf with
  | NoField => length (snd psf) = 1%nat
  | Fields fs => length fs = length (snd psf) /\ (2 <= length fs)%nat
  end.

(** Plain calls, and removals of the temporary files among them. *)
Definition plain_or_clean (c : call) : Prop := c = CClean \/ plain c.

Definition is_clean (c : call) : bool := match c with CClean => true | _ => false end.

(** The same history without the removals. *)
Definition without_cleaning (cs : list call) : list call := filter (fun c => negb (is_clean c)) cs.

(** Calls that look at the stars, and at nothing computed from their stamps. *)
Definition only_stars (c : call) : Prop :=
  match c with
  | CBestSources | CStampsPos | CNSources | CSetZp _ | CUpdateSources None => True
  | _ => False
  end.
