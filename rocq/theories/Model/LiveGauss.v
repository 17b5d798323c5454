(** Model of a SingleImageGaussPSF (properimage/single_image.py 1441-1507) together with its
    interpolated image, from which the stamps are cut in place: the methods of
    Model/GaussImage.v, with every extraction done on the image as it is, as in Model/Live.v. *)
From Coq Require Import ZArith List Bool Arith Reals.
From Coquelicot Require Import Complex.
From Verif.Model Require Import Py Plane Ma Interp Sources Stamps Cut KL Session Filter Chain CutChain Gauss Live.
Import ListNotations.
Local Open Scope R_scope.

Section LiveGauss.
Variables PIC NI FT IM : Type.
Variable L : llib PIC NI FT IM.
Variable fitter : start -> plane R -> gaussian.
Variable stats : list R -> R * R * R.
Variable render : R -> R -> R -> R -> plane (option R).

Local Notation LMt := (LM PIC NI FT IM).
Local Notation "'do' x <- m ; k" := (lbind PIC NI FT IM m (fun x => k)) (at level 200, x pattern, m at level 100, k at level 200).

(** single_image.py:1469-1507 *)
Definition lg_psf (l : option R) (sh : option (nat * nat)) : LMt (fieldset * list (plane (option R))) := fun s =>
  match l_n_sources _ _ _ _ L s with
  | (Raise e, s1) => (Raise e, s1)
  | (Ok n, s1) =>
      (if no_file _ _ _ n (snd s1) then Raise IOError else
       match fit_all fitter (firstn n (stored _ _ _ (snd s1))) with
       | Raise e => Raise e
       | Ok gs =>
           if Nat.ltb (length (stored _ _ _ (snd s1))) n then Raise AttributeError
           else
             let mean f := fst (fst (stats (map f gs))) in
             Ok (NoField, [render (mean xw) (mean yw) (mean th) 1])
       end, s1)
  end.

(** single_image.py:1193-1212 *)
Definition lg_normal_image : LMt NI := fun s =>
  match normal _ _ _ (snd s) with
  | Some n => (Ok n, s)
  | None =>
      (do psf <- lg_psf None None;
       let n := normal_of _ _ _ (base _ _ _ _ L) (fst psf) (snd psf) in
       do _ <- lupd _ _ _ _ (set_normal _ _ _ (Some n));
       lret _ _ _ _ n) s
  end.

(** single_image.py:1258-1296 *)
Definition lg_s_hat_comp : LMt FT := fun s =>
  let stale := match shat _ _ _ (snd s) with
               | None => true
               | Some (_, l) => if Req_EM_T l (inf_loss _ _ _ (snd s)) then false else true
               end in
  if stale then
    (do psf <- lg_psf None None;
     do nrm <- lg_normal_image;
     do s <- lget _ _ _ _;
     do h <- (fun x => let '(p, h) := filtering _ _ _ _ L (fst x) (get_zp _ _ _ s) (fst psf) (snd psf) nrm in
                       (Ok h, (p, snd x)));
     do _ <- lupd _ _ _ _ (set_shat _ _ _ (Some (h, inf_loss _ _ _ s)));
     lret _ _ _ _ h) s
  else match shat _ _ _ (snd s) with Some (h, _) => (Ok h, s) | None => (Raise AttributeError, s) end.

(** single_image.py:1298-1311 *)
Definition lg_s_component : LMt IM := fun s =>
  (do _ <- match scomp _ _ _ (snd s) with
           | None =>
               do h <- lg_s_hat_comp;
               do s <- lget _ _ _ _;
               lupd _ _ _ _ (set_scomp _ _ _ (Some (ifft_real _ _ _ (base _ _ _ _ L) h, inf_loss _ _ _ s)))
           | Some _ => lret _ _ _ _ tt
           end;
   do s <- lget _ _ _ _;
   match scomp _ _ _ s with
   | None => lraise _ _ _ _ AttributeError
   | Some (c, l) =>
       if Req_EM_T l (inf_loss _ _ _ s) then lret _ _ _ _ c
       else
         do h <- lg_s_hat_comp;
         let c := ifft_real _ _ _ (base _ _ _ _ L) h in
         do _ <- lupd _ _ _ _ (set_scomp _ _ _ (Some (c, l)));
         lret _ _ _ _ c
   end) s.

(** The calls of Model/Session.v on an image of this class. *)
Definition lg_exec (c : call) : live PIC NI FT IM -> live PIC NI FT IM :=
  match c with
  | CGetPSF l sh => lvoid _ _ _ _ (lg_psf l sh)
  | CNormal => lvoid _ _ _ _ lg_normal_image
  | CSHat => lvoid _ _ _ _ lg_s_hat_comp
  | CSComponent => lvoid _ _ _ _ lg_s_component
  | c => l_exec _ _ _ _ L c
  end.

Definition lg_exec_all (cs : list call) (s : live PIC NI FT IM) : live PIC NI FT IM :=
  fold_left (fun s c => lg_exec c s) cs s.
End LiveGauss.

(** The interpolated image and the attributes of an image of this class after the calls [cs]. *)
Definition lg_lived (W : libs) (fitter : start -> plane R -> gaussian) (stats : list R -> R * R * R)
  (render : R -> R -> R -> R -> plane (option R)) (o : choices) (cs : list call) (x : built)
  : live picture (plane R) (res (plane C)) (res (plane R)) :=
  lg_exec_all _ _ _ _ (live_lib W o x) fitter stats render cs (untouched x, bu_attr x).
