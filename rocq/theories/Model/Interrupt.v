(** Model of the lazily computed attributes of a SingleImage when a computation is interrupted
    (KeyboardInterrupt, MemoryError, a library function that raises): the methods of
    Model/Session.v once more, each with the states that the attributes and the file of stamps
    go through.

    A state is listed after every assignment to an attribute and after every stamp written. An
    interruption leaves the attributes in one of these states or as they were at the start. A
    few assignments that follow each other directly are one step here: they are named where it
    is done. *)
From Coq Require Import ZArith List Bool Arith Reals.
From Verif.Model Require Import Py Plane Sources KL Session.
Import ListNotations.
Local Open Scope R_scope.

Section Interrupt.
Variables NI FT IM : Type.
Variable L : lib NI FT IM.
Notation state := (si NI FT IM).

(** The states passed, then the answer or exception and the last state. *)
Definition T (A : Type) : Type := state -> list state * (res A * state).
Definition tret {A} (a : A) : T A := fun s => ([], (Ok a, s)).
Definition traise {A} (e : exn) : T A := fun s => ([], (Raise e, s)).
Definition tbind {A B} (m : T A) (k : A -> T B) : T B := fun s =>
  match m s with
  | (tr, (Ok a, s')) => (tr ++ fst (k a s'), snd (k a s'))
  | (tr, (Raise e, s')) => (tr, (Raise e, s'))
  end.
Definition tget : T state := fun s => ([], (Ok s, s)).
Definition tupd (f : state -> state) : T unit := fun s => ([f s], (Ok tt, f s)).

Local Notation "'tdo' x <- m ; k" := (tbind m (fun x => k)) (at level 200, x pattern, m at level 100, k at level 200).

(** single_image.py:571-739: [_best_sources] is assigned once, at the end. *)
Definition t_best_sources : T (list src) := fun s =>
  match best _ _ _ s with
  | Some c => tret c s
  | None => (tdo c <- (fun s => match select _ _ _ L with Ok c => tret c s | Raise e => traise e s end);
             tdo _ <- tupd (set_best _ _ _ (Some c));
             tret c) s
  end.

(** single_image.py:918-919: the stamps are written one by one, [done] before [todo]. *)
Fixpoint t_dump (done todo : list (plane R)) : T unit :=
  match todo with
  | [] => tret tt
  | p :: todo => tdo _ <- tupd (set_db _ _ _ (Some (done ++ [p]))); t_dump (done ++ [p]) todo
  end.

(** single_image.py:753-959: the file is emptied, the stamps are written, then
    [_best_sources], [stamp_shape], [_stamps_pos] and [_n_sources] are assigned, in this
    order. *)
Definition t_stamps_pos : T (list (R * R)) := fun s =>
  match pos _ _ _ s, reshaped _ _ _ s with
  | Some p, false => tret p s
  | _, cond =>
      (tdo _ <- (if cond
                 then tupd (fun s => set_stamp_shape _ _ _
                        (match req_shape _ _ _ s with Some sh => sh | None => stamp_shape _ _ _ s end) s)
                 else tret tt);
       tdo _ <- tupd (set_db _ _ _ (Some []));
       tdo cat <- t_best_sources;
       tdo s <- tget;
       let sh := stamp_shape _ _ _ s in
       let '(stamps, r) := extract _ _ _ L sh cat in
       tdo _ <- t_dump [] stamps;
       match r with
       | Raise e => traise e
       | Ok (p, kept) =>
           tdo _ <- tupd (set_best _ _ _ (Some kept));
           tdo _ <- tupd (set_stamp_shape _ _ _ (fst sh + 6, snd sh + 6)%nat);
           tdo _ <- tupd (fun s => set_pos _ _ _ (Some p) (nsrc _ _ _ s) s);
           tdo _ <- tupd (fun s => set_pos _ _ _ (pos _ _ _ s) (Some (length p)) s);
           tret p
       end) s
  end.

(** single_image.py:961-968 *)
Definition t_n_sources : T nat := fun s =>
  match nsrc _ _ _ s with
  | Some n => tret n s
  | None => (tdo _ <- t_stamps_pos;
             tdo s <- tget;
             match nsrc _ _ _ s with Some n => tret n | None => traise AttributeError end) s
  end.

(** single_image.py:970-1007: [_m] is assigned before [_covMat]. *)
Definition t_cov_matrix : T (nat * (nat -> nat -> R)) := fun s =>
  match cov _ _ _ s with
  | Some c => tret c s
  | None =>
      (tdo n <- t_n_sources;
       tdo s <- tget;
       if no_file _ _ _ n s then traise IOError
       else if Nat.ltb (length (stored _ _ _ s)) n then traise AttributeError
       else
         let stamps := firstn n (stored _ _ _ s) in
         match KL.cov_matrix (stamp_shape _ _ _ s) stamps with
         | Raise e => traise e
         | Ok c =>
             tdo _ <- (if Nat.leb n 250
                       then tupd (fun s => set_cov _ _ _ (cov _ _ _ s)
                              (Some (fst (stamp_shape _ _ _ s) * snd (stamp_shape _ _ _ s), stamps)%nat) s)
                       else tret tt);
             tdo _ <- tupd (fun s => set_cov _ _ _ (Some (n, c)) (mcols _ _ _ s) s);
             tret (n, c)
         end) s
  end.

(** single_image.py:1009-1019 *)
Definition t_eigenv : T (list R * (nat -> nat -> R)) := fun s =>
  match eig _ _ _ s with
  | Some e => tret e s
  | None =>
      (tdo c <- t_cov_matrix;
       if Nat.eqb (fst c) 1 then traise ValueError
       else
         let e := eigh _ _ _ L (fst c) (snd c) in
         tdo _ <- tupd (set_eig _ _ _ (Some e));
         tret e) s
  end.

(** single_image.py:1038-1087: the elements are a local list; only n_sources may be assigned. *)
Definition t_build_basis (e : list R * (nat -> nat -> R)) : T (list (plane (option R))) := fun s =>
  (match mcols _ _ _ s with Some _ => [] | None => fst (t_n_sources s) end, build_basis _ _ _ L e s).

(** single_image.py:1028-1087: [inf_loss] is assigned first, [_kl_basis] last. *)
Definition t_setup_kl_basis (l : option R) : T unit := fun s =>
  let update := differs _ _ _ l s in
  if (match basis _ _ _ s with None => true | Some _ => false end) || update then
    (tdo _ <- match l with Some l => tupd (set_inf_loss _ _ _ l) | None => tret tt end;
     tdo e <- t_eigenv;
     tdo b <- t_build_basis e;
     tupd (set_basis _ _ _ (Some b))) s
  else tret tt s.

(** single_image.py:1021-1026 *)
Definition t_kl_basis : T (list (plane (option R))) := fun s =>
  (tdo _ <- match basis _ _ _ s with None => t_setup_kl_basis None | Some _ => tret tt end;
   tdo s <- tget;
   match basis _ _ _ s with Some b => tret b | None => traise AttributeError end) s.

(** single_image.py:1101-1137: the fields are a local list until [_a_fields] is assigned. *)
Definition t_setup_kl_a_fields (l : option R) (updating : bool) : T unit := fun s =>
  let update := differs _ _ _ l s in
  if (match fields _ _ _ s with None => true | Some _ => false end) || update || updating then
    (tdo _ <- match l with
              | Some l => tdo _ <- t_setup_kl_basis (Some l); tupd (set_inf_loss _ _ _ l)
              | None => tret tt
              end;
     tdo psf_basis <- t_kl_basis;
     let n_fields := length psf_basis in
     if Nat.eqb n_fields 1 then tupd (set_fields _ _ _ (Some NoField))
     else
       tdo _ <- t_best_sources;
       tdo positions <- t_stamps_pos;
       if Nat.eqb (length positions) 0 then traise IndexError
       else
         tdo e <- t_eigenv;
         let n := length (fst e) in
         if negb (Nat.eqb n_fields 0) && negb (Nat.eqb (length positions) n) then traise ValueError
         else tupd (set_fields _ _ _ (Some (Fields
                (map (fun k => fit _ _ _ L positions (measures n (snd e) k)) (seq 0 n_fields)))))) s
  else tret tt s.

(** single_image.py:1089-1094 *)
Definition t_kl_afields : T fieldset := fun s =>
  (tdo _ <- match fields _ _ _ s with None => t_setup_kl_a_fields None false | Some _ => tret tt end;
   tdo s <- tget;
   match fields _ _ _ s with Some f => tret f | None => traise AttributeError end) s.

(** single_image.py:1139-1191 *)
Definition t_get_variable_psf (l : option R) (sh : option (nat * nat)) :
  T (fieldset * list (plane (option R))) := fun s =>
  (tdo _ <- match sh with Some sh => tupd (set_req_shape _ _ _ (Some sh)) | None => tret tt end;
   tdo s <- tget;
   let updating := differs _ _ _ l s in
   tdo _ <- t_setup_kl_basis l;
   tdo _ <- t_setup_kl_a_fields l updating;
   tdo a <- t_kl_afields;
   tdo b <- t_kl_basis;
   match a, b with
   | Fields [], _ => traise IndexError
   | NoField, [] => traise IndexError
   | NoField, p :: t =>
       let b := unit_total p :: t in
       tdo _ <- tupd (set_basis _ _ _ (Some b));
       tret (a, b)
   | _, _ => tret (a, b)
   end) s.

(** single_image.py:1193-1212: [_normal_image] is assigned once, at the end. *)
Definition t_normal_image : T NI := fun s =>
  match normal _ _ _ s with
  | Some n => tret n s
  | None =>
      (tdo psf <- t_get_variable_psf None None;
       let n := normal_of _ _ _ L (fst psf) (snd psf) in
       tdo _ <- tupd (set_normal _ _ _ (Some n));
       tret n) s
  end.

(** single_image.py:1258-1296. [_s_hat_comp] and [_s_hat_inf_loss] (1295-1296) are one step. *)
Definition t_s_hat_comp : T FT := fun s =>
  let stale := match shat _ _ _ s with
               | None => true
               | Some (_, l) => if Req_EM_T l (inf_loss _ _ _ s) then false else true
               end in
  if stale then
    (tdo psf <- t_get_variable_psf None None;
     tdo nrm <- t_normal_image;
     tdo s <- tget;
     let h := shat_of _ _ _ L (get_zp _ _ _ s) (fst psf) (snd psf) nrm in
     tdo _ <- tupd (set_shat _ _ _ (Some (h, inf_loss _ _ _ s)));
     tret h) s
  else match shat _ _ _ s with Some (h, _) => tret h s | None => traise AttributeError s end.

(** single_image.py:1298-1311. [_s_component] and [_s_inf_loss] are one step. *)
Definition t_s_component : T IM := fun s =>
  (tdo _ <- match scomp _ _ _ s with
            | None =>
                tdo h <- t_s_hat_comp;
                tdo s <- tget;
                tupd (set_scomp _ _ _ (Some (ifft_real _ _ _ L h, inf_loss _ _ _ s)))
            | Some _ => tret tt
            end;
   tdo s <- tget;
   match scomp _ _ _ s with
   | None => traise AttributeError
   | Some (c, l) =>
       if Req_EM_T l (inf_loss _ _ _ s) then tret c
       else
         tdo h <- t_s_hat_comp;
         let c := ifft_real _ _ _ L h in
         tdo _ <- tupd (set_scomp _ _ _ (Some (c, l)));
         tret c
   end) s.

(** single_image.py:741-751 *)
Definition t_update_sources (new : option (list src)) : T unit := fun s =>
  match best _ _ _ s with
  | None => traise AttributeError s
  | Some _ =>
      (tdo _ <- tupd (set_best _ _ _ None);
       match new with
       | None => tdo _ <- t_best_sources; tdo _ <- t_n_sources; tret tt
       | Some c => tupd (set_best _ _ _ (Some c))
       end) s
  end.

(** The states a call passes (operations.py:507-508 for a coadd: zp, then the fields). *)
Definition passed (c : call) (s : state) : list state :=
  match c with
  | CBestSources => fst (t_best_sources s)
  | CStampsPos => fst (t_stamps_pos s)
  | CNSources => fst (t_n_sources s)
  | CCov => fst (t_cov_matrix s)
  | CEigenv => fst (t_eigenv s)
  | CBasis => fst (t_kl_basis s)
  | CAfields => fst (t_kl_afields s)
  | CGetPSF l sh => fst (t_get_variable_psf l sh s)
  | CNormal => fst (t_normal_image s)
  | CSHat => fst (t_s_hat_comp s)
  | CSComponent => fst (t_s_component s)
  | CCoadd l z => let s := set_zp _ _ _ (Some z) s in s :: fst (t_setup_kl_a_fields (Some l) false s)
  | CUpdateSources new => fst (t_update_sources new s)
  | CSetZp _ | CSetInfLoss _ | CSetStampShape _ | CClean => [exec _ _ _ L c s]
  end.

(** What happens to an image: a call that returns (or raises), or one that is interrupted
    after [k] of its assignments. *)
Inductive event : Type := Finished (c : call) | Cut (c : call) (k : nat).

Definition after (e : event) (s : state) : state :=
  match e with
  | Finished c => exec _ _ _ L c s
  | Cut c k => nth k (s :: passed c s) s
  end.

Definition after_all (es : list event) (s : state) : state := fold_left (fun s e => after e s) es s.
End Interrupt.
