(** Model of the lazily computed attributes of a SingleImage
    (properimage/single_image.py 550-569, 571-751, 753-968, 970-1137, 1139-1311): what is
    cached, when it is recomputed, and what is left behind when a step raises.

    What each step computes is taken from the other models or left to functions of the
    record [lib]; here only the attributes matter. The pixels, the mask, the background, the
    interpolated image and var never change after construction and are part of [lib]. *)
From Coq Require Import ZArith List Bool Arith Reals.
From Verif.Model Require Import Py Plane Sources KL.
Import ListNotations.
Local Open Scope R_scope.

Notation field := (R -> R -> R).

(** The coefficient fields: [[None]] or a list of fitted models. *)
Inductive fieldset : Type := NoField | Fields (l : list field).

Section Session.
(** Normalisation images, Fourier images and images. *)
Variables NI FT IM : Type.

Record lib : Type := mklib {
  (** best_sources of the image, 583-737 *)
  select : res (list src);
  (** the loop of stamps_pos, 784-944: the stamps dumped (also when it raises), then the
      positions and the sources kept *)
  extract : nat * nat -> list src -> list (plane R) * res (list (R * R) * list src);
  (** numpy.linalg.eigh *)
  eigh : nat -> (nat -> nat -> R) -> list R * (nat -> nat -> R);
  (** skimage's gaussian filter, when smooth_psf was given *)
  smooth : option (plane (option R) -> plane (option R));
  (** LinearLSQFitter on a Polynomial2D of degree 3: positions and values of the stamps *)
  fit : list (R * R) -> (nat -> R) -> field;
  (** 1201-1211: the convolutions *)
  normal_of : fieldset -> list (plane (option R)) -> NI;
  (** 1266-1293: the matched filter, from the zero point, the PSF and the normalisation *)
  shat_of : R -> fieldset -> list (plane (option R)) -> NI -> FT;
  (** the real part of the inverse transform *)
  ifft_real : FT -> IM }.

Variable L : lib.

(** The attributes; [None]: not set (hasattr is False). *)
Record si : Type := mksi {
  inf_loss : R;
  zp : option R;
  req_shape : option (nat * nat);       (* _shape *)
  stamp_shape : nat * nat;
  best : option (list src);             (* _best_sources *)
  pos : option (list (R * R));          (* _stamps_pos *)
  nsrc : option nat;                    (* _n_sources *)
  db : option (list (plane R));         (* the stamps in the file of self.db, if it exists *)
  cov : option (nat * (nat -> nat -> R)); (* _covMat, with its size *)
  mcols : option (nat * list (plane R)); (* _m: rows, and the stamps in its columns *)
  eig : option (list R * (nat -> nat -> R)); (* _eigenv *)
  basis : option (list (plane (option R))); (* _kl_basis *)
  fields : option fieldset;             (* _a_fields *)
  normal : option NI;                   (* _normal_image *)
  shat : option (FT * R);               (* _s_hat_comp, _s_hat_inf_loss *)
  scomp : option (IM * R) }.            (* _s_component, _s_inf_loss *)

Definition set_inf_loss l s := mksi l (zp s) (req_shape s) (stamp_shape s) (best s) (pos s) (nsrc s)
  (db s) (cov s) (mcols s) (eig s) (basis s) (fields s) (normal s) (shat s) (scomp s).
Definition set_zp z s := mksi (inf_loss s) z (req_shape s) (stamp_shape s) (best s) (pos s) (nsrc s)
  (db s) (cov s) (mcols s) (eig s) (basis s) (fields s) (normal s) (shat s) (scomp s).
Definition set_req_shape r s := mksi (inf_loss s) (zp s) r (stamp_shape s) (best s) (pos s) (nsrc s)
  (db s) (cov s) (mcols s) (eig s) (basis s) (fields s) (normal s) (shat s) (scomp s).
Definition set_stamp_shape sh s := mksi (inf_loss s) (zp s) (req_shape s) sh (best s) (pos s) (nsrc s)
  (db s) (cov s) (mcols s) (eig s) (basis s) (fields s) (normal s) (shat s) (scomp s).
Definition set_best b s := mksi (inf_loss s) (zp s) (req_shape s) (stamp_shape s) b (pos s) (nsrc s)
  (db s) (cov s) (mcols s) (eig s) (basis s) (fields s) (normal s) (shat s) (scomp s).
Definition set_pos p n s := mksi (inf_loss s) (zp s) (req_shape s) (stamp_shape s) (best s) p n
  (db s) (cov s) (mcols s) (eig s) (basis s) (fields s) (normal s) (shat s) (scomp s).
Definition set_db d s := mksi (inf_loss s) (zp s) (req_shape s) (stamp_shape s) (best s) (pos s) (nsrc s)
  d (cov s) (mcols s) (eig s) (basis s) (fields s) (normal s) (shat s) (scomp s).
Definition set_cov c m s := mksi (inf_loss s) (zp s) (req_shape s) (stamp_shape s) (best s) (pos s) (nsrc s)
  (db s) c m (eig s) (basis s) (fields s) (normal s) (shat s) (scomp s).
Definition set_eig e s := mksi (inf_loss s) (zp s) (req_shape s) (stamp_shape s) (best s) (pos s) (nsrc s)
  (db s) (cov s) (mcols s) e (basis s) (fields s) (normal s) (shat s) (scomp s).
Definition set_basis b s := mksi (inf_loss s) (zp s) (req_shape s) (stamp_shape s) (best s) (pos s) (nsrc s)
  (db s) (cov s) (mcols s) (eig s) b (fields s) (normal s) (shat s) (scomp s).
Definition set_fields f s := mksi (inf_loss s) (zp s) (req_shape s) (stamp_shape s) (best s) (pos s) (nsrc s)
  (db s) (cov s) (mcols s) (eig s) (basis s) f (normal s) (shat s) (scomp s).
Definition set_normal n s := mksi (inf_loss s) (zp s) (req_shape s) (stamp_shape s) (best s) (pos s) (nsrc s)
  (db s) (cov s) (mcols s) (eig s) (basis s) (fields s) n (shat s) (scomp s).
Definition set_shat h s := mksi (inf_loss s) (zp s) (req_shape s) (stamp_shape s) (best s) (pos s) (nsrc s)
  (db s) (cov s) (mcols s) (eig s) (basis s) (fields s) (normal s) h (scomp s).
Definition set_scomp c s := mksi (inf_loss s) (zp s) (req_shape s) (stamp_shape s) (best s) (pos s) (nsrc s)
  (db s) (cov s) (mcols s) (eig s) (basis s) (fields s) (normal s) (shat s) c.

(** A method call: the answer or exception, and the attributes afterwards. *)
Definition M (A : Type) : Type := si -> res A * si.
Definition ret {A} (a : A) : M A := fun s => (Ok a, s).
Definition raise {A} (e : exn) : M A := fun s => (Raise e, s).
Definition mbind {A B} (m : M A) (k : A -> M B) : M B :=
  fun s => match m s with (Ok a, s') => k a s' | (Raise e, s') => (Raise e, s') end.
Definition get : M si := fun s => (Ok s, s).
Definition upd (f : si -> si) : M unit := fun s => (Ok tt, f s).

Local Notation "'do' x <- m ; k" := (mbind m (fun x => k)) (at level 200, x pattern, m at level 100, k at level 200).

(** A new image: stamp_shape as given or computed by the constructor, which looks at
    best_sources when it was not given (140, 555-569). *)
Definition fresh (sh : nat * nat) (b : option (list src)) : si :=
  mksi (2 / 10) (Some 1) None sh b None None None None None None None None None None None.

(** single_image.py:571-739 *)
Definition best_sources : M (list src) := fun s =>
  match best s with
  | Some c => (Ok c, s)
  | None => match select L with
            | Ok c => (Ok c, set_best (Some c) s)
            | Raise e => (Raise e, s)
            end
  end.

Definition shape_eqb (a b : nat * nat) : bool := Nat.eqb (fst a) (fst b) && Nat.eqb (snd a) (snd b).

(** single_image.py:756-760 *)
Definition reshaped (s : si) : bool :=
  match req_shape s with Some sh => negb (shape_eqb sh (stamp_shape s)) | None => false end.

(** single_image.py:753-959. NumPyDB in mode "store" empties the file. *)
Definition stamps_pos : M (list (R * R)) := fun s =>
  match pos s, reshaped s with
  | Some p, false => (Ok p, s)
  | _, cond =>
      let s := if cond then set_stamp_shape (match req_shape s with Some sh => sh | None => stamp_shape s end) s
               else s in
      (do cat <- best_sources;
       do s <- get;
       let sh := stamp_shape s in
       let '(stamps, r) := extract L sh cat in
       do _ <- upd (set_db (Some stamps));
       match r with
       | Raise e => raise e
       | Ok (p, kept) =>
           do _ <- upd (set_best (Some kept));
           do _ <- upd (set_stamp_shape (fst sh + 6, snd sh + 6)%nat);
           do _ <- upd (set_pos (Some p) (Some (length p)));
           ret p
       end) (set_db (Some []) s)
  end.

(** single_image.py:961-968 *)
Definition n_sources : M nat := fun s =>
  match nsrc s with
  | Some n => (Ok n, s)
  | None => (do _ <- stamps_pos;
             do s <- get;
             match nsrc s with Some n => ret n | None => raise AttributeError end) s
  end.

(** The stamps in the file, and whether a reading of the first of [n] stamps finds no file
    (tinynpydb opens it for each reading). *)
Definition stored (s : si) : list (plane R) := match db s with Some l => l | None => [] end.
Definition no_file (n : nat) (s : si) : bool :=
  match db s with Some _ => false | None => negb (Nat.eqb n 0) end.

(** single_image.py:970-1007. A missing stamp loads as None, which has no flatten. *)
Definition cov_matrix : M (nat * (nat -> nat -> R)) := fun s =>
  match cov s with
  | Some c => (Ok c, s)
  | None =>
      (do n <- n_sources;
       do s <- get;
       if no_file n s then raise IOError
       else if Nat.ltb (length (stored s)) n then raise AttributeError
       else
         let stamps := firstn n (stored s) in
         match KL.cov_matrix (stamp_shape s) stamps with
         | Raise e => raise e
         | Ok c =>
             do _ <- upd (set_cov (Some (n, c))
                       (if Nat.leb n 250 then Some (fst (stamp_shape s) * snd (stamp_shape s), stamps)%nat
                        else mcols s));
             ret (n, c)
         end) s
  end.

(** single_image.py:1009-1019 *)
Definition eigenv : M (list R * (nat -> nat -> R)) := fun s =>
  match eig s with
  | Some e => (Ok e, s)
  | None =>
      (do c <- cov_matrix;
       if Nat.eqb (fst c) 1 then raise ValueError
       else
         let e := eigh L (fst c) (snd c) in
         do _ <- upd (set_eig (Some e));
         ret e) s
  end.

(** single_image.py:1038-1087: the elements, from the attributes. With [_m] (at most 250
    stamps) its rows must fit stamp_shape; otherwise the stamps are read again, and where they
    are missing, too many or of another shape one of TypeError, IndexError and ValueError is
    raised (ValueError here). *)
Definition build_basis (e : list R * (nat -> nat -> R)) : M (list (plane (option R))) := fun s =>
  let '(valh, vech) := e in
  let sh := stamp_shape s in
  let cut := kl_cut (inf_loss s) valh in
  let finish (b : list (plane (option R))) :=
    let psf_basis := rev b in
    let psf_basis := match smooth L with
                     | Some g => map (fun p => unit_total (g p)) psf_basis
                     | None => psf_basis
                     end in
    match psf_basis with [p] => [unit_total p] | l => l end in
  match mcols s with
  | Some (rows, stamps) =>
      let n := length stamps in
      let lo := (n - cut)%nat in
      if Nat.eqb (n - lo) 0 || Nat.eqb rows (fst sh * snd sh)
      then (Ok (finish (map (fun i => reshape sh (fun p => Some (combination n stamps vech (lo + i) p)))
                            (seq 0 (n - lo)))), s)
      else (Raise ValueError, s)
  | None =>
      (do n <- n_sources;
       do s <- get;
       let stamps := firstn n (stored s) in
       let lo := (length valh - cut)%nat in
       if no_file n s then raise IOError
       else if Nat.ltb (length valh) cut then raise IndexError
       else if negb (Nat.eqb (length stamps) n) || Nat.ltb (length valh) n ||
          negb (forallb (fun p => shape_eqb (shape p) sh) stamps) then raise ValueError
       else ret (finish (map (fun i =>
              unit_total (lower (unit_total
                (reshape sh (fun p => Some (combination n stamps vech (lo + i) p))))))
              (seq 0 cut)))) s
  end.

Definition differs (l : option R) (s : si) : bool :=
  match l with Some l => if Req_EM_T (inf_loss s) l then false else true | None => false end.

(** single_image.py:1028-1087 *)
Definition setup_kl_basis (l : option R) : M unit := fun s =>
  let update := differs l s in
  if (match basis s with None => true | Some _ => false end) || update then
    (do _ <- match l with Some l => upd (set_inf_loss l) | None => ret tt end;
     do e <- eigenv;
     do b <- build_basis e;
     upd (set_basis (Some b))) s
  else (Ok tt, s).

(** single_image.py:1021-1026 *)
Definition kl_basis : M (list (plane (option R))) := fun s =>
  (do _ <- match basis s with None => setup_kl_basis None | Some _ => ret tt end;
   do s <- get;
   match basis s with Some b => ret b | None => raise AttributeError end) s.

(** single_image.py:1101-1137. [positions[:, 0]] of an empty array is an IndexError; the
    fitter wants as many positions as values. *)
Definition setup_kl_a_fields (l : option R) (updating : bool) : M unit := fun s =>
  let update := differs l s in
  if (match fields s with None => true | Some _ => false end) || update || updating then
    (do _ <- match l with
             | Some l => do _ <- setup_kl_basis (Some l); upd (set_inf_loss l)
             | None => ret tt
             end;
     do psf_basis <- kl_basis;
     let n_fields := length psf_basis in
     if Nat.eqb n_fields 1 then upd (set_fields (Some NoField))
     else
       do _ <- best_sources;
       do positions <- stamps_pos;
       if Nat.eqb (length positions) 0 then raise IndexError
       else
         do e <- eigenv;
         let n := length (fst e) in
         if negb (Nat.eqb n_fields 0) && negb (Nat.eqb (length positions) n) then raise ValueError
         else upd (set_fields (Some (Fields
                (map (fun k => fit L positions (measures n (snd e) k)) (seq 0 n_fields)))))) s
  else (Ok tt, s).

(** single_image.py:1089-1094 *)
Definition kl_afields : M fieldset := fun s =>
  (do _ <- match fields s with None => setup_kl_a_fields None false | Some _ => ret tt end;
   do s <- get;
   match fields s with Some f => ret f | None => raise AttributeError end) s.

(** single_image.py:1139-1191. The normalisation at 1189 is stored in the cached list. *)
Definition get_variable_psf (l : option R) (sh : option (nat * nat)) : M (fieldset * list (plane (option R))) :=
  fun s =>
  (do _ <- match sh with Some sh => upd (set_req_shape (Some sh)) | None => ret tt end;
   do s <- get;
   let updating := differs l s in
   do _ <- setup_kl_basis l;
   do _ <- setup_kl_a_fields l updating;
   do a <- kl_afields;
   do b <- kl_basis;
   match a, b with
   | Fields [], _ => raise IndexError
   | NoField, [] => raise IndexError
   | NoField, p :: t =>
       let b := unit_total p :: t in
       do _ <- upd (set_basis (Some b));
       ret (a, b)
   | _, _ => ret (a, b)
   end) s.

(** single_image.py:1193-1212 *)
Definition normal_image : M NI := fun s =>
  match normal s with
  | Some n => (Ok n, s)
  | None =>
      (do psf <- get_variable_psf None None;
       let n := normal_of L (fst psf) (snd psf) in
       do _ <- upd (set_normal (Some n));
       ret n) s
  end.

(** single_image.py:1241-1247 *)
Definition get_zp (s : si) : R := match zp s with Some z => z | None => 1 end.

(** single_image.py:1258-1296 *)
Definition s_hat_comp : M FT := fun s =>
  let stale := match shat s with
               | None => true
               | Some (_, l) => if Req_EM_T l (inf_loss s) then false else true
               end in
  if stale then
    (do psf <- get_variable_psf None None;
     do nrm <- normal_image;
     do s <- get;
     let h := shat_of L (get_zp s) (fst psf) (snd psf) nrm in
     do _ <- upd (set_shat (Some (h, inf_loss s)));
     ret h) s
  else match shat s with Some (h, _) => (Ok h, s) | None => (Raise AttributeError, s) end.

(** single_image.py:1298-1311 *)
Definition s_component : M IM := fun s =>
  (do _ <- match scomp s with
           | None =>
               do h <- s_hat_comp;
               do s <- get;
               upd (set_scomp (Some (ifft_real L h, inf_loss s)))
           | Some _ => ret tt
           end;
   do s <- get;
   match scomp s with
   | None => raise AttributeError
   | Some (c, l) =>
       if Req_EM_T l (inf_loss s) then ret c
       else
         do h <- s_hat_comp;
         let c := ifft_real L h in
         do _ <- upd (set_scomp (Some (c, l)));
         ret c
   end) s.

(** single_image.py:741-751 *)
Definition update_sources (new : option (list src)) : M unit := fun s =>
  match best s with
  | None => (Raise AttributeError, s)
  | Some _ =>
      (do _ <- upd (set_best None);
       match new with
       | None => do _ <- best_sources; do _ <- n_sources; ret tt
       | Some c => upd (set_best (Some c))
       end) s
  end.

(** What a user of the image can do, step by step. *)
Inductive call : Type :=
| CBestSources | CStampsPos | CNSources | CCov | CEigenv | CBasis | CAfields
| CGetPSF (l : option R) (sh : option (nat * nat))
| CNormal | CSHat | CSComponent
| CCoadd (l z : R)           (* operations.py:507-508: coadd sets zp, then the fields *)
| CSetZp (z : R)
| CUpdateSources (new : option (list src))
| CSetInfLoss (l : R)
| CSetStampShape (sh : nat * nat)
| CClean.                    (* 152-166: the end of a with block; operations.py:129: subtract with
                                align=True, on the new image *)

Definition void {A} (m : M A) : si -> si := fun s => snd (m s).

(** An exception is caught by the user, who goes on. *)
Definition exec (c : call) : si -> si :=
  match c with
  | CBestSources => void best_sources
  | CStampsPos => void stamps_pos
  | CNSources => void n_sources
  | CCov => void cov_matrix
  | CEigenv => void eigenv
  | CBasis => void kl_basis
  | CAfields => void kl_afields
  | CGetPSF l sh => void (get_variable_psf l sh)
  | CNormal => void normal_image
  | CSHat => void s_hat_comp
  | CSComponent => void s_component
  | CCoadd l z => fun s => void (setup_kl_a_fields (Some l) false) (set_zp (Some z) s)
  | CSetZp z => set_zp (Some z)
  | CUpdateSources new => void (update_sources new)
  | CSetInfLoss l => set_inf_loss l
  | CSetStampShape sh => set_stamp_shape sh
  | CClean => set_db None
  end.

Definition exec_all (cs : list call) (s : si) : si := fold_left (fun s c => exec c s) cs s.
End Session.
