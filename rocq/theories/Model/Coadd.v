(** Model of [coadd], [process_chunk_joblib] (/repo/properimage/operations.py:440-577) and
    [_align_for_coadd] (/repo/properimage/utils.py:301-330).

    Exact arithmetic. Images live in a heap of objects, because they cache what they
    compute and because worker threads share them. *)
From Coq Require Import Arith ZArith List Bool Reals.
From Coquelicot Require Import Complex.
From Verif.Model Require Import Py Plane Ma Chunk.
Import ListNotations.

(** The part of a SingleImage that coadd looks at.
    - [si_shape] single_image.py:184-187, data.shape
    - [si_mask] single_image.py:313-316
    - [si_var] single_image.py:1253-1256, [si_zp] 1241-1251, [si_loss] the inf_loss attribute
    - [si_stamp] stamp_shape[0] (550-569)
    - [si_base l] the cells of "s_hat" of s_hat_comp (1266-1291), before the factor
      zp/var^2, for inf_loss = l; the s_hat array has the shape of the data
    - [si_sq l] the cells of psf_hat_sqnorm() (1389-1404) for inf_loss = l
    - [si_shat], [si_shat_loss] the attributes _s_hat_comp and _s_hat_inf_loss, [None] when
      not set yet
    - [si_gauss] whether the class is SingleImageGaussPSF
    - [si_has_sources] whether the attribute _best_sources exists (571-582) *)
Record simg : Type := mksimg {
  si_shape : nat * nat;
  si_mask : mask;
  si_var : R;
  si_zp : R;
  si_loss : R;
  si_stamp : nat;
  si_base : R -> nat -> nat -> C;
  si_sq : R -> nat -> nat -> C;
  si_shat : option (nat -> nat -> C);
  si_shat_loss : option R;
  si_gauss : bool;
  si_has_sources : bool }.

Definition with_shat (v : option (nat -> nat -> C)) (x : simg) : simg :=
  mksimg (si_shape x) (si_mask x) (si_var x) (si_zp x) (si_loss x) (si_stamp x) (si_base x)
         (si_sq x) v (si_shat_loss x) (si_gauss x) (si_has_sources x).
Definition with_shat_loss (v : option R) (x : simg) : simg :=
  mksimg (si_shape x) (si_mask x) (si_var x) (si_zp x) (si_loss x) (si_stamp x) (si_base x)
         (si_sq x) (si_shat x) v (si_gauss x) (si_has_sources x).
Definition with_zp_loss (z l : R) (x : simg) : simg :=
  mksimg (si_shape x) (si_mask x) (si_var x) z l (si_stamp x) (si_base x)
         (si_sq x) (si_shat x) (si_shat_loss x) (si_gauss x) (si_has_sources x).

Definition with_class (g : bool) (x : simg) : simg :=
  mksimg (si_shape x) (si_mask x) (si_var x) (si_zp x) (si_loss x) (si_stamp x) (si_base x)
         (si_sq x) (si_shat x) (si_shat_loss x) g (si_has_sources x).

Definition heap : Type := nat -> simg.
Definition upd (h : heap) (i : nat) (x : simg) : heap :=
  fun k => if k =? i then x else h k.

Definition arr (sh : nat * nat) (f : nat -> nat -> C) : plane C := mkplane (fst sh) (snd sh) f.

(** single_image.py:1293, the value stored in _s_hat_comp. *)
Definition shat_value (x : simg) : nat -> nat -> C :=
  fun i j => (RtoC (si_zp x / (si_var x ^ 2)) * si_base x (si_loss x) i j)%C.

(** operations.py:449 and 560: ((zp / var) ** 2) * psf_hat_sqnorm(). *)
Definition psf_term (x : simg) : plane C :=
  arr (si_shape x) (fun i j => (RtoC ((si_zp x / si_var x) ^ 2) * si_sq x (si_loss x) i j)%C).

(** single_image.py:1258-1296, the property s_hat_comp, executed without interruption:
    what is read and the object afterwards. Reading _s_hat_inf_loss when it is not set is
    an AttributeError. *)
Definition s_hat_comp (x : simg) : res (plane C) * simg :=
  let compute :=
    (Ok (arr (si_shape x) (shat_value x)),
     with_shat_loss (Some (si_loss x)) (with_shat (Some (shat_value x)) x)) in
  match si_shat x with
  | None => compute
  | Some v =>
      match si_shat_loss x with
      | None => (Raise AttributeError, x)
      | Some l => if Req_EM_T l (si_loss x) then (Ok (arr (si_shape x) v), x) else compute
      end
  end.

Definition zeros (sh : nat * nat) : plane C := pconst sh (RtoC 0).

(** The three accumulators S_hat, P_hat (psf_hat_sum) and mix_mask. *)
Record acc : Type := mkacc { aS : plane C; aP : plane C; aM : mask }.

(** ** Sequential accumulation *)

(** operations.py:557-564, body of the loop for one image, given the value read from
    s_hat_comp. *)
Definition accumulate (x : simg) (shat : plane C) (a : acc) : res acc :=
  bind (add_out Cplus shat (aS a)) (fun S' =>
  bind (add_out Cplus (psf_term x) (aP a)) (fun P' =>
  bind (mask_or (aM a) (si_mask x)) (fun M' => Ok (mkacc S' P' M')))).

Fixpoint seq_loop (h : heap) (ids : list nat) (a : acc) : res acc * heap :=
  match ids with
  | [] => (Ok a, h)
  | i :: rest =>
      match s_hat_comp (h i) with
      | (Raise e, x') => (Raise e, upd h i x')
      | (Ok p, x') =>
          match accumulate (h i) p a with
          | Raise e => (Raise e, upd h i x')
          | Ok a' => seq_loop (upd h i x') rest a'
          end
      end
  end.

(** ** Worker threads *)

(** Where a worker is. [WHas]: about to evaluate hasattr(img, "_s_hat_comp");
    [WLoss]: about to compare _s_hat_inf_loss; [WCompute]: about to compute; [WStore],
    [WStoreLoss]: about to assign _s_hat_comp (1293) and _s_hat_inf_loss (1294); [WLoad]:
    about to execute "return self._s_hat_comp" and the first np.add; [WPsf], [WMask]: the
    second np.add and mask_or. The computation of the value (1266-1291) is one step. *)
Inductive pc : Type :=
| WStart | WHas | WLoss | WCompute | WStore (v : nat -> nat -> C) | WStoreLoss
| WLoad | WPsf | WMask | WDone | WFail (e : exn).

Record worker : Type := mkw { w_pc : pc; w_todo : list nat; w_acc : acc }.

Definition goto (p : pc) (w : worker) : worker := mkw p (w_todo w) (w_acc w).

(** One step of [process_chunk_joblib] (operations.py:440-454). *)
Definition step (h : heap) (w : worker) : worker * heap :=
  match w_todo w with
  | [] =>
      match w_pc w with
      | WStart => (goto (WFail IndexError) w, h)   (* chunk[0] of an empty chunk, line 443 *)
      | WDone => (w, h)
      | WFail e => (w, h)
      | _ => (goto WDone w, h)
      end
  | i :: rest =>
      let x := h i in
      match w_pc w with
      | WStart => (mkw WHas (w_todo w) (mkacc (aS (w_acc w)) (aP (w_acc w)) (si_mask x)), h)
      | WHas => (goto (match si_shat x with None => WCompute | Some _ => WLoss end) w, h)
      | WLoss =>
          (match si_shat_loss x with
           | None => goto (WFail AttributeError) w
           | Some l => if Req_EM_T l (si_loss x) then goto WLoad w else goto WCompute w
           end, h)
      | WCompute => (goto (WStore (shat_value x)) w, h)
      | WStore v => (goto WStoreLoss w, upd h i (with_shat (Some v) x))
      | WStoreLoss => (goto WLoad w, upd h i (with_shat_loss (Some (si_loss x)) x))
      | WLoad =>
          (match si_shat x with
           | None => goto (WFail AttributeError) w
           | Some v =>
               match add_out Cplus (arr (si_shape x) v) (aS (w_acc w)) with
               | Raise e => goto (WFail e) w
               | Ok S' => mkw WPsf (w_todo w) (mkacc S' (aP (w_acc w)) (aM (w_acc w)))
               end
           end, h)
      | WPsf =>
          (match add_out Cplus (psf_term x) (aP (w_acc w)) with
           | Raise e => goto (WFail e) w
           | Ok P' => mkw WMask (w_todo w) (mkacc (aS (w_acc w)) P' (aM (w_acc w)))
           end, h)
      | WMask =>
          (match mask_or (aM (w_acc w)) (si_mask x) with
           | Raise e => goto (WFail e) w
           | Ok M' => mkw WHas rest (mkacc (aS (w_acc w)) (aP (w_acc w)) M')
           end, h)
      | WDone => (w, h)
      | WFail e => (w, h)
      end
  end.

(** The worker given a chunk (operations.py:441-442). *)
Definition start (sh : nat * nat) (chunk : list nat) : worker :=
  mkw WStart chunk (mkacc (zeros sh) (zeros sh) Nomask).

Fixpoint set_nth {A} (k : nat) (x : A) (l : list A) : list A :=
  match l, k with
  | [], _ => []
  | _ :: l', O => x :: l'
  | y :: l', S k' => y :: set_nth k' x l'
  end.

(** A schedule is the list of the workers that take a step, in time order. joblib runs
    at most n_jobs tasks at a time; the model lets any task run at any time, which
    includes what joblib does. *)
Fixpoint run (sched : list nat) (h : heap) (ws : list worker) : list worker * heap :=
  match sched with
  | [] => (ws, h)
  | k :: sched' =>
      match nth_error ws k with
      | None => run sched' h ws
      | Some w => let (w', h') := step h w in run sched' h' (set_nth k w' ws)
      end
  end.

(** What joblib.Parallel gives back: the results in task order; or, once a task has
    failed, its exception (here the first failed one in task order; joblib raises that of
    some failed task); or [None] while tasks are still running. *)
Fixpoint gather (ws : list worker) : option (res (list acc)) :=
  match ws with
  | [] => Some (Ok [])
  | w :: ws' =>
      match w_pc w with
      | WFail e => Some (Raise e)
      | WDone =>
          match gather ws' with
          | None => None
          | Some (Raise e) => Some (Raise e)
          | Some (Ok l) => Some (Ok (w_acc w :: l))
          end
      | _ => match gather ws' with Some (Raise e) => Some (Raise e) | _ => None end
      end
  end.

(** operations.py:529-543: the results are added part by part. *)
Record parts : Type := mkparts {
  pSr : plane R; pSi : plane R; pPr : plane R; pPi : plane R; pM : mask }.

Definition re (p : plane C) : plane R := pmap fst p.
Definition im (p : plane C) : plane R := pmap snd p.

Fixpoint combine_results (rs : list acc) (a : parts) : res parts :=
  match rs with
  | [] => Ok a
  | r :: rs' =>
      bind (add_out Rplus (re (aS r)) (pSr a)) (fun Sr =>
      bind (add_out Rplus (im (aS r)) (pSi a)) (fun Si =>
      bind (add_out Rplus (re (aP r)) (pPr a)) (fun Pr =>
      bind (add_out Rplus (im (aP r)) (pPi a)) (fun Pi =>
      bind (mask_or (pM a) (aM r)) (fun M =>
      combine_results rs' (mkparts Sr Si Pr Pi M))))))
  end.

Definition parts0 (sh : nat * nat) : parts :=
  mkparts (pconst sh 0%R) (pconst sh 0%R) (pconst sh 0%R) (pconst sh 0%R) (Full (pconst sh false)).

Definition cplx (a b : plane R) : plane C := pmap2 (fun x y => (x, y)) a b.

Definition acc_of_parts (a : parts) : acc :=
  mkacc (cplx (pSr a) (pSi a)) (cplx (pPr a) (pPi a)) (pM a).

(** ** The end of coadd: operations.py:546-549 and 571-574 (the same computation). *)
Definition finish (psf_shape : nat) (a : acc) : plane C * plane C * mask :=
  let P_r_hat := pmap csqrt (aP a) in
  let P_r := ifft2 (fourier_shift P_r_hat (INR psf_shape) (INR psf_shape)) in
  let s := psum P_r in
  let P_r' := pmap (fun z => Cdiv z s) P_r in
  let R := ifft2 (pmap2 Cdiv (aS a) P_r_hat) in
  (R, P_r', aM a).

(** [np.min] of a list of integers: ValueError on an empty list. *)
Definition np_min (l : list nat) : res nat :=
  match l with [] => Raise ValueError | a :: l' => Ok (fold_left Nat.min l' a) end.
Definition np_max (l : list nat) : res nat :=
  match l with [] => Raise ValueError | a :: l' => Ok (fold_left Nat.max l' a) end.

(** Images do not define "<" (TypeError) and compare equal only to themselves. *)
Definition img_lt (a b : nat) : option bool := None.

(** operations.py:499-577, from the list of (aligned) images whose zero points are set.
    [sched] is used only when n_procs > 1; [fuel] bounds the loop of chunk_it. [None]:
    the schedule or the fuel stops before the end. *)
Definition coadd_core (fuel : nat) (sched : list nat) (h : heap) (ids : list nat) (n_procs : Z)
  : option (res (plane C * plane C * mask)) :=
  match np_min (map (fun i => fst (si_shape (h i))) ids),
        np_min (map (fun i => snd (si_shape (h i))) ids),
        np_max (map (fun i => si_stamp (h i)) ids) with
  | Ok sx, Ok sy, Ok ps =>
      if (1 <? n_procs)%Z then
        match chunk_it Nat.eqb img_lt fuel ids n_procs with
        | None => None
        | Some (Raise e) => Some (Raise e)
        | Some (Ok chunks) =>
            match gather (fst (run sched h (map (start (sx, sy)) chunks))) with
            | None => None
            | Some (Raise e) => Some (Raise e)
            | Some (Ok rs) =>
                Some (bind (combine_results rs (parts0 (sx, sy)))
                           (fun a => Ok (finish ps (acc_of_parts a))))
            end
        end
      else
        match ids with
        | [] => Some (Raise IndexError)
        | i0 :: _ =>
            Some (bind (fst (seq_loop h ids (mkacc (zeros (sx, sy)) (zeros (sx, sy)) (si_mask (h i0)))))
                       (fun a => Ok (finish ps a)))
        end
  | _, _, _ => Some (Raise ValueError)
  end.

(** operations.py:505-508: zero points and inf_loss are written into the images
    (_setup_kl_a_fields(inf_loss) leaves inf_loss set, single_image.py:1101-1110). The
    zero points are what [transparency] returned, one per image. *)
Fixpoint set_zps (h : heap) (ids : list nat) (zps : list R) (loss : R) : res heap :=
  match ids, zps with
  | [], _ => Ok h
  | _ :: _, [] => Raise IndexError
  | i :: ids', z :: zps' => set_zps (upd h i (with_zp_loss z loss (h i))) ids' zps' loss
  end.

(** ** The caller's list *)

(** What the caller may put in the list: a SingleImage object, or something else from
    which a SingleImage can perhaps be built. *)
Inductive item : Type := Img (i : nat) | Other (r : nat).

(** The heap together with the next free identity. *)
Record world : Type := mkworld { objs : heap; next : nat }.

Definition alloc (w : world) (x : simg) : nat * world :=
  (next w, mkworld (upd (objs w) (next w) x) (S (next w))).

(** operations.py:485-487. [mk] is the constructor SingleImage(x). The list is updated in
    place: the second component is the caller's list when the loop stops. *)
Fixpoint convert (mk : nat -> res simg) (w : world) (l : list item)
  : res (list nat) * list item * world :=
  match l with
  | [] => (Ok [], [], w)
  | Img i :: l' =>
      match convert mk w l' with
      | (r, l'', w') => (bind r (fun ids => Ok (i :: ids)), Img i :: l'', w')
      end
  | Other r :: l' =>
      match mk r with
      | Raise e => (Raise e, Other r :: l', w)
      | Ok x =>
          let (i, w1) := alloc w x in
          match convert mk w1 l' with
          | (res', l'', w') => (bind res' (fun ids => Ok (i :: ids)), Img i :: l'', w')
          end
      end
  end.

(** utils.py:322-329: each further image is registered on the first one and a new image of
    the same class ("type(animg)(...)") is built from the result. [reg x ref] stands for
    aa.register followed by the constructor; it yields the contents of the new object. *)
Fixpoint align_rest (reg : simg -> simg -> res simg) (ref : nat) (w : world) (ids : list nat)
  : res (list nat) * world :=
  match ids with
  | [] => (Ok [], w)
  | i :: ids' =>
      match reg (objs w i) (objs w ref) with
      | Raise e => (Raise e, w)
      | Ok x =>
          let (k, w1) := alloc w (with_class (si_gauss (objs w i)) x) in
          match align_rest reg ref w1 ids' with
          | (r, w') => (bind r (fun l => Ok (k :: l)), w')
          end
      end
  end.

(** utils.py:301-330. *)
Definition align_for_coadd (reg : simg -> simg -> res simg) (w : world) (ids : list nat)
  : res (list nat) * world :=
  match ids with
  | [] => (Raise IndexError, w)
  | i :: ids' =>
      match align_rest reg i w ids' with
      | (r, w') => (bind r (fun l => Ok (i :: l)), w')
      end
  end.

(** single_image.py:741-751 without argument, as far as it can fail: deleting
    _best_sources when it was never computed. (The detection that follows is an oracle, part
    of [transp] below.) *)
Fixpoint update_all (h : heap) (ids : list nat) : res unit :=
  match ids with
  | [] => Ok tt
  | i :: ids' => if si_has_sources (h i) then update_all h ids' else Raise AttributeError
  end.

(** operations.py:485-508: conversion, alignment, zero points. The images to add and the
    heap in which they have their zero points; and the caller's list as coadd leaves it.
    [transp] is utils.transparency, which gives one zero point per image or raises. *)
Definition prepare (mk : nat -> res simg) (reg : simg -> simg -> res simg)
  (transp : heap -> list nat -> res (list R)) (w : world) (si_list : list item)
  (align : bool) (inf_loss : R) : res (list nat * heap) * list item :=
  match convert mk w si_list with
  | (Raise e, l', _) => (Raise e, l')
  | (Ok ids, l', w1) =>
      let aligned :=
        if align then
          match align_for_coadd reg w1 ids with
          | (Raise e, _) => Raise e
          | (Ok ids', w2) => bind (update_all (objs w2) ids') (fun _ => Ok (ids', w2))
          end
        else Ok (ids, w1) in
      (match aligned with
       | Raise e => Raise e
       | Ok ([], _) => Raise ValueError        (* np.min of no shapes, line 499 *)
       | Ok (ids', w2) =>
           bind (transp (objs w2) ids') (fun zps =>
           bind (set_zps (objs w2) ids' zps inf_loss) (fun h => Ok (ids', h)))
       end, l')
  end.

(** operations.py:457-577. *)
Definition coadd (mk : nat -> res simg) (reg : simg -> simg -> res simg)
  (transp : heap -> list nat -> res (list R)) (fuel : nat) (sched : list nat)
  (w : world) (si_list : list item) (align : bool) (inf_loss : R) (n_procs : Z)
  : option (res (plane C * plane C * mask)) * list item :=
  match prepare mk reg transp w si_list align inf_loss with
  | (Raise e, l') => (Some (Raise e), l')
  | (Ok (ids, h), l') => (coadd_core fuel sched h ids n_procs, l')
  end.
