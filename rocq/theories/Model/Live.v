(** Model of the attributes of a SingleImage together with its interpolated image, from which
    the stamps are cut in place (properimage/single_image.py 571-959, 961-1311, 1376-1382):
    Model/Session.v once more, with every extraction done on the image as it is at that time
    and what it leaves there kept for what comes after.

    Only stamps_pos writes to the image and only s_hat_comp reads it otherwise; the methods in
    between are those of Model/Session.v, run on both states. *)
From Coq Require Import ZArith List Bool Arith Reals.
From Coquelicot Require Import Complex.
From Verif.Model Require Import Py Plane Ma Interp Sources Stamps Cut KL Session Filter Chain CutChain.
Import ListNotations.
Local Open Scope R_scope.

Section Live.
Variables PIC NI FT IM : Type.
Local Notation si := (si NI FT IM).

(** [base]: what does not look at the interpolated image; its [extract] and [shat_of] are not
    used. *)
Record llib : Type := mkllib {
  base : lib NI FT IM;
  (** 784-944, on the image as it is: the image afterwards, the stamps dumped, the positions
      and the sources kept *)
  cutting : PIC -> nat * nat -> list src -> PIC * (list (plane R) * res (list (R * R) * list src));
  (** 1266-1293; interped_hat may be cached *)
  filtering : PIC -> R -> fieldset -> list (plane (option R)) -> NI -> PIC * FT }.

Variable L : llib.

(** The interpolated image and the other attributes. *)
Definition live : Type := PIC * si.

Definition LM (A : Type) : Type := live -> res A * live.
Definition lret {A} (a : A) : LM A := fun s => (Ok a, s).
Definition lraise {A} (e : exn) : LM A := fun s => (Raise e, s).
Definition lbind {A B} (m : LM A) (k : A -> LM B) : LM B :=
  fun s => match m s with (Ok a, s') => k a s' | (Raise e, s') => (Raise e, s') end.
Definition lget : LM si := fun s => (Ok (snd s), s).
Definition lupd (f : si -> si) : LM unit := fun s => (Ok tt, (fst s, f (snd s))).

Local Notation "'do' x <- m ; k" := (lbind m (fun x => k)) (at level 200, x pattern, m at level 100, k at level 200).

(** single_image.py:571-739: the interpolated image is not looked at. *)
Definition l_best_sources : LM (list src) := fun s =>
  let '(r, a) := best_sources _ _ _ (base L) (snd s) in (r, (fst s, a)).

(** single_image.py:753-959 *)
Definition l_stamps_pos : LM (list (R * R)) := fun s =>
  match pos _ _ _ (snd s), reshaped _ _ _ (snd s) with
  | Some p, false => (Ok p, s)
  | _, cond =>
      let a := snd s in
      let a := if cond
               then set_stamp_shape _ _ _ (match req_shape _ _ _ a with Some sh => sh | None => stamp_shape _ _ _ a end) a
               else a in
      (do cat <- l_best_sources;
       do s <- lget;
       let sh := stamp_shape _ _ _ s in
       do x <- (fun s => let '(p, x) := cutting L (fst s) sh cat in (Ok x, (p, snd s)));
       let '(stamps, r) := x in
       do _ <- lupd (set_db _ _ _ (Some stamps));
       match r with
       | Raise e => lraise e
       | Ok (p, kept) =>
           do _ <- lupd (set_best _ _ _ (Some kept));
           do _ <- lupd (set_stamp_shape _ _ _ (fst sh + 6, snd sh + 6)%nat);
           do _ <- lupd (set_pos _ _ _ (Some p) (Some (length p)));
           lret p
       end) (fst s, set_db _ _ _ (Some []) a)
  end.

(** single_image.py:961-968 *)
Definition l_n_sources : LM nat := fun s =>
  match nsrc _ _ _ (snd s) with
  | Some n => (Ok n, s)
  | None => (do _ <- l_stamps_pos;
             do s <- lget;
             match nsrc _ _ _ s with Some n => lret n | None => lraise AttributeError end) s
  end.

(** single_image.py:970-1007 *)
Definition l_cov_matrix : LM (nat * (nat -> nat -> R)) := fun s =>
  match cov _ _ _ (snd s) with
  | Some c => (Ok c, s)
  | None =>
      (do n <- l_n_sources;
       do s <- lget;
       if no_file _ _ _ n s then lraise IOError
       else if Nat.ltb (length (stored _ _ _ s)) n then lraise AttributeError
       else
         let stamps := firstn n (stored _ _ _ s) in
         match KL.cov_matrix (stamp_shape _ _ _ s) stamps with
         | Raise e => lraise e
         | Ok c =>
             do _ <- lupd (set_cov _ _ _ (Some (n, c))
                       (if Nat.leb n 250
                        then Some (fst (stamp_shape _ _ _ s) * snd (stamp_shape _ _ _ s), stamps)%nat
                        else mcols _ _ _ s));
             lret (n, c)
         end) s
  end.

(** single_image.py:1009-1019 *)
Definition l_eigenv : LM (list R * (nat -> nat -> R)) := fun s =>
  match eig _ _ _ (snd s) with
  | Some e => (Ok e, s)
  | None =>
      (do c <- l_cov_matrix;
       if Nat.eqb (fst c) 1 then lraise ValueError
       else
         let e := eigh _ _ _ (base L) (fst c) (snd c) in
         do _ <- lupd (set_eig _ _ _ (Some e));
         lret e) s
  end.

(** single_image.py:1038-1087 *)
Definition l_build_basis (e : list R * (nat -> nat -> R)) : LM (list (plane (option R))) := fun s =>
  let '(valh, vech) := e in
  let sh := stamp_shape _ _ _ (snd s) in
  let cut := kl_cut (inf_loss _ _ _ (snd s)) valh in
  let finish (b : list (plane (option R))) :=
    let psf_basis := rev b in
    let psf_basis := match smooth _ _ _ (base L) with
                     | Some g => map (fun p => unit_total (g p)) psf_basis
                     | None => psf_basis
                     end in
    match psf_basis with [p] => [unit_total p] | l => l end in
  match mcols _ _ _ (snd s) with
  | Some (rows, stamps) =>
      let n := length stamps in
      let lo := (n - cut)%nat in
      if Nat.eqb (n - lo) 0 || Nat.eqb rows (fst sh * snd sh)
      then (Ok (finish (map (fun i => reshape sh (fun p => Some (combination n stamps vech (lo + i) p)))
                            (seq 0 (n - lo)))), s)
      else (Raise ValueError, s)
  | None =>
      (do n <- l_n_sources;
       do s <- lget;
       let stamps := firstn n (stored _ _ _ s) in
       let lo := (length valh - cut)%nat in
       if no_file _ _ _ n s then lraise IOError
       else if Nat.ltb (length valh) cut then lraise IndexError
       else if negb (Nat.eqb (length stamps) n) || Nat.ltb (length valh) n ||
          negb (forallb (fun p => shape_eqb (shape p) sh) stamps) then lraise ValueError
       else lret (finish (map (fun i =>
              unit_total (lower (unit_total
                (reshape sh (fun p => Some (combination n stamps vech (lo + i) p))))))
              (seq 0 cut)))) s
  end.

(** single_image.py:1028-1087 *)
Definition l_setup_kl_basis (l : option R) : LM unit := fun s =>
  let update := differs _ _ _ l (snd s) in
  if (match basis _ _ _ (snd s) with None => true | Some _ => false end) || update then
    (do _ <- match l with Some l => lupd (set_inf_loss _ _ _ l) | None => lret tt end;
     do e <- l_eigenv;
     do b <- l_build_basis e;
     lupd (set_basis _ _ _ (Some b))) s
  else (Ok tt, s).

(** single_image.py:1021-1026 *)
Definition l_kl_basis : LM (list (plane (option R))) := fun s =>
  (do _ <- match basis _ _ _ (snd s) with None => l_setup_kl_basis None | Some _ => lret tt end;
   do s <- lget;
   match basis _ _ _ s with Some b => lret b | None => lraise AttributeError end) s.

(** single_image.py:1101-1137 *)
Definition l_setup_kl_a_fields (l : option R) (updating : bool) : LM unit := fun s =>
  let update := differs _ _ _ l (snd s) in
  if (match fields _ _ _ (snd s) with None => true | Some _ => false end) || update || updating then
    (do _ <- match l with
             | Some l => do _ <- l_setup_kl_basis (Some l); lupd (set_inf_loss _ _ _ l)
             | None => lret tt
             end;
     do psf_basis <- l_kl_basis;
     let n_fields := length psf_basis in
     if Nat.eqb n_fields 1 then lupd (set_fields _ _ _ (Some NoField))
     else
       do _ <- l_best_sources;
       do positions <- l_stamps_pos;
       if Nat.eqb (length positions) 0 then lraise IndexError
       else
         do e <- l_eigenv;
         let n := length (fst e) in
         if negb (Nat.eqb n_fields 0) && negb (Nat.eqb (length positions) n) then lraise ValueError
         else lupd (set_fields _ _ _ (Some (Fields
                (map (fun k => Session.fit _ _ _ (base L) positions (measures n (snd e) k))
                     (seq 0 n_fields)))))) s
  else (Ok tt, s).

(** single_image.py:1089-1094 *)
Definition l_kl_afields : LM fieldset := fun s =>
  (do _ <- match fields _ _ _ (snd s) with None => l_setup_kl_a_fields None false | Some _ => lret tt end;
   do s <- lget;
   match fields _ _ _ s with Some f => lret f | None => lraise AttributeError end) s.

(** single_image.py:1139-1191 *)
Definition l_get_variable_psf (l : option R) (sh : option (nat * nat))
  : LM (fieldset * list (plane (option R))) := fun s =>
  (do _ <- match sh with Some sh => lupd (set_req_shape _ _ _ (Some sh)) | None => lret tt end;
   do s <- lget;
   let updating := differs _ _ _ l s in
   do _ <- l_setup_kl_basis l;
   do _ <- l_setup_kl_a_fields l updating;
   do a <- l_kl_afields;
   do b <- l_kl_basis;
   match a, b with
   | Fields [], _ => lraise IndexError
   | NoField, [] => lraise IndexError
   | NoField, p :: t =>
       let b := unit_total p :: t in
       do _ <- lupd (set_basis _ _ _ (Some b));
       lret (a, b)
   | _, _ => lret (a, b)
   end) s.

(** single_image.py:1193-1212 *)
Definition l_normal_image : LM NI := fun s =>
  match normal _ _ _ (snd s) with
  | Some n => (Ok n, s)
  | None =>
      (do psf <- l_get_variable_psf None None;
       let n := normal_of _ _ _ (base L) (fst psf) (snd psf) in
       do _ <- lupd (set_normal _ _ _ (Some n));
       lret n) s
  end.

(** single_image.py:1258-1296 *)
Definition l_s_hat_comp : LM FT := fun s =>
  let stale := match shat _ _ _ (snd s) with
               | None => true
               | Some (_, l) => if Req_EM_T l (inf_loss _ _ _ (snd s)) then false else true
               end in
  if stale then
    (do psf <- l_get_variable_psf None None;
     do nrm <- l_normal_image;
     do s <- lget;
     do h <- (fun x => let '(p, h) := filtering L (fst x) (get_zp _ _ _ s) (fst psf) (snd psf) nrm in
                       (Ok h, (p, snd x)));
     do _ <- lupd (set_shat _ _ _ (Some (h, inf_loss _ _ _ s)));
     lret h) s
  else match shat _ _ _ (snd s) with Some (h, _) => (Ok h, s) | None => (Raise AttributeError, s) end.

(** single_image.py:1298-1311 *)
Definition l_s_component : LM IM := fun s =>
  (do _ <- match scomp _ _ _ (snd s) with
           | None =>
               do h <- l_s_hat_comp;
               do s <- lget;
               lupd (set_scomp _ _ _ (Some (ifft_real _ _ _ (base L) h, inf_loss _ _ _ s)))
           | Some _ => lret tt
           end;
   do s <- lget;
   match scomp _ _ _ s with
   | None => lraise AttributeError
   | Some (c, l) =>
       if Req_EM_T l (inf_loss _ _ _ s) then lret c
       else
         do h <- l_s_hat_comp;
         let c := ifft_real _ _ _ (base L) h in
         do _ <- lupd (set_scomp _ _ _ (Some (c, l)));
         lret c
   end) s.

(** single_image.py:741-751 *)
Definition l_update_sources (new : option (list src)) : LM unit := fun s =>
  match best _ _ _ (snd s) with
  | None => (Raise AttributeError, s)
  | Some _ =>
      (do _ <- lupd (set_best _ _ _ None);
       match new with
       | None => do _ <- l_best_sources; do _ <- l_n_sources; lret tt
       | Some c => lupd (set_best _ _ _ (Some c))
       end) s
  end.

Definition lvoid {A} (m : LM A) : live -> live := fun s => snd (m s).

(** The calls of Model/Session.v. An exception is caught by the user, who goes on. *)
Definition l_exec (c : call) : live -> live :=
  match c with
  | CBestSources => lvoid l_best_sources
  | CStampsPos => lvoid l_stamps_pos
  | CNSources => lvoid l_n_sources
  | CCov => lvoid l_cov_matrix
  | CEigenv => lvoid l_eigenv
  | CBasis => lvoid l_kl_basis
  | CAfields => lvoid l_kl_afields
  | CGetPSF l sh => lvoid (l_get_variable_psf l sh)
  | CNormal => lvoid l_normal_image
  | CSHat => lvoid l_s_hat_comp
  | CSComponent => lvoid l_s_component
  | CCoadd l z => fun s => lvoid (l_setup_kl_a_fields (Some l) false) (fst s, set_zp _ _ _ (Some z) (snd s))
  | CSetZp z => fun s => (fst s, set_zp _ _ _ (Some z) (snd s))
  | CUpdateSources new => lvoid (l_update_sources new)
  | CSetInfLoss l => fun s => (fst s, set_inf_loss _ _ _ l (snd s))
  | CSetStampShape sh => fun s => (fst s, set_stamp_shape _ _ _ sh (snd s))
  | CClean => fun s => (fst s, set_db _ _ _ None (snd s))
  end.

Definition l_exec_all (cs : list call) (s : live) : live := fold_left (fun s c => l_exec c s) cs s.
End Live.

(** The interpolated image as it is, and the image interped_hat was computed from, if it was
    read (single_image.py:1313-1382). *)
Record picture : Type := mkpicture { pic_now : plane (option R); pic_hat : option (plane (option R)) }.

Section Pixels.
Variable W : libs.

(** An image made by the constructor of Model/Chain.v, whose stamps are cut from its
    interpolated image. A cell that is nan counts as 0 in the stamps and in s_hat_comp (they
    are nan in the code). *)
Definition live_lib (o : choices) (x : built) : llib picture (plane R) (res (plane C)) (res (plane R)) :=
  let pk := mkpicks (o_pick o) None in
  let rms := b_rms (bu_back x) in
  mkllib _ _ _ _ (bu_lib x)
    (fun pic sh srcs =>
       let '(now, (stamps, r)) := cut_dump W pk (pic_now pic) rms sh srcs 0 in
       (mkpicture now (pic_hat pic),
        (map numbers stamps,
         bind r (fun '(pos, to_del) =>
           Ok (pos, if Nat.leb 15 (length srcs - length to_del) then np_delete 0 to_del srcs else srcs)))))
    (fun pic z a basis n =>
       let filtered img := Filter.s_hat (mkfimg (shape (m_dat (bu_data x))) (px (numbers img)) rms z)
                             (px n) (on_pixels a) (map numbers basis) in
       match a with
       | NoField =>
           let read := match pic_hat pic with Some h => h | None => pic_now pic end in
           (mkpicture (pic_now pic) (Some read), filtered read)
       | Fields _ => (pic, filtered (pic_now pic))
       end).

Definition untouched (x : built) : picture := mkpicture (pmap Some (bu_clean x)) None.

(** The interpolated image and the attributes of [x] after a history of calls. *)
Definition lived (o : choices) (cs : list call) (x : built)
  : live picture (plane R) (res (plane C)) (res (plane R)) :=
  l_exec_all _ _ _ _ (live_lib o x) cs (untouched x, bu_attr x).
End Pixels.
