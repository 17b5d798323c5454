(** Model of the attributes of a SingleImageGaussPSF (properimage/single_image.py 1441-1507): the
    class redefines get_variable_psf only, so normal_image, s_hat_comp and s_component
    (1193-1212, 1258-1311) use the Gaussian, while kl_basis, kl_afields, psf_hat_sqnorm and what
    coadd sets up (operations.py 506-508) are those of SingleImage. *)
From Coq Require Import ZArith List Bool Arith Reals.
From Coquelicot Require Import Complex.
From Verif.Model Require Import Py Plane Ma Interp Coadd Subtract Filter Sources Stamps KL Session Transparency Chain ChainCoadd Gauss.
Import ListNotations.
Local Open Scope R_scope.

Section GaussImage.
Variables NI FT IM : Type.
Variable L : lib NI FT IM.
Variable fitter : start -> plane R -> gaussian.
Variable stats : list R -> R * R * R.
Variable render : R -> R -> R -> R -> plane (option R).

Local Notation "'do' x <- m ; k" := (mbind NI FT IM m (fun x => k)) (at level 200, x pattern, m at level 100, k at level 200).

(** single_image.py:1193-1212 *)
Definition g_normal_image : M NI FT IM NI := fun s =>
  match normal NI FT IM s with
  | Some n => (Ok n, s)
  | None =>
      (do psf <- gauss_psf NI FT IM L fitter stats render None None;
       let n := normal_of NI FT IM L (fst psf) (snd psf) in
       do _ <- upd NI FT IM (set_normal NI FT IM (Some n));
       ret NI FT IM n) s
  end.

(** single_image.py:1258-1296 *)
Definition g_s_hat_comp : M NI FT IM FT := fun s =>
  let stale := match shat NI FT IM s with
               | None => true
               | Some (_, l) => if Req_EM_T l (inf_loss NI FT IM s) then false else true
               end in
  if stale then
    (do psf <- gauss_psf NI FT IM L fitter stats render None None;
     do nrm <- g_normal_image;
     do s <- get NI FT IM;
     let h := shat_of NI FT IM L (get_zp NI FT IM s) (fst psf) (snd psf) nrm in
     do _ <- upd NI FT IM (set_shat NI FT IM (Some (h, inf_loss NI FT IM s)));
     ret NI FT IM h) s
  else match shat NI FT IM s with Some (h, _) => (Ok h, s) | None => (Raise AttributeError, s) end.

(** single_image.py:1298-1311 *)
Definition g_s_component : M NI FT IM IM := fun s =>
  (do _ <- match scomp NI FT IM s with
           | None =>
               do h <- g_s_hat_comp;
               do s <- get NI FT IM;
               upd NI FT IM (set_scomp NI FT IM (Some (ifft_real NI FT IM L h, inf_loss NI FT IM s)))
           | Some _ => ret NI FT IM tt
           end;
   do s <- get NI FT IM;
   match scomp NI FT IM s with
   | None => raise NI FT IM AttributeError
   | Some (c, l) =>
       if Req_EM_T l (inf_loss NI FT IM s) then ret NI FT IM c
       else
         do h <- g_s_hat_comp;
         let c := ifft_real NI FT IM L h in
         do _ <- upd NI FT IM (set_scomp NI FT IM (Some (c, l)));
         ret NI FT IM c
   end) s.

(** The calls of Model/Session.v on an image of this class. *)
Definition g_exec (c : call) : si NI FT IM -> si NI FT IM :=
  match c with
  | CGetPSF l sh => void NI FT IM (gauss_psf NI FT IM L fitter stats render l sh)
  | CNormal => void NI FT IM g_normal_image
  | CSHat => void NI FT IM g_s_hat_comp
  | CSComponent => void NI FT IM g_s_component
  | c => exec NI FT IM L c
  end.

Definition g_exec_all (cs : list call) (s : si NI FT IM) : si NI FT IM := fold_left (fun s c => g_exec c s) cs s.
End GaussImage.

(** An image of this class built from pixels, after the calls [cs]. *)
Definition g_after (fitter : start -> plane R -> gaussian) (stats : list R -> R * R * R)
  (render : R -> R -> R -> R -> plane (option R)) (cs : list call) (x : built) : built :=
  with_attr (g_exec_all _ _ _ (bu_lib x) fitter stats render cs (bu_attr x)) x.
