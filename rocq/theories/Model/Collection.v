(** Model of a reference image and any number of other images that are subtracted from it and
    coadded with it, in turn, in any selection, by operations that finish or stop
    (operations.py 56-426 and 457-577, utils.py 141-243). What an operation leaves in one image
    is that of Model/Stopped.v. *)
From Coq Require Import ZArith List Bool Arith Reals.
From Coquelicot Require Import Complex.
From Verif.Model Require Import Py Plane Ma Interp Coadd Subtract Filter Sources Stamps KL Session Transparency Chain ChainCoadd Again SubAgain Stopped.
Import ListNotations.
Local Open Scope R_scope.

(** The images by number. Image 0 is the reference. *)
Definition images : Type := nat -> held.

Definition put (k : nat) (h : held) (st : images) : images := fun i => if (i =? k)%nat then h else st i.

(** An operation that was begun: the last step it came to for the reference, and the other images
    with their last steps, in the order in which they were given: for [subtract] the new image
    (operations.py:150-157), for [coadd] the list after its first element
    (operations.py:505-508). *)
Record attempt : Type := mkattempt { at_op : task; at_ref : nat; at_others : list (nat * nat) }.

(** The other images, with the catalogues and zero points that transparency found. *)
Fixpoint partways (op : task) (js : list (nat * nat)) (cs : list cat) (zs : list R) (st : images) : res images :=
  match js, cs with
  | (k, n) :: js', c :: cs' =>
      bind (partway op n c (hd 0 zs) (st k)) (fun h =>
      bind (partways op js' cs' (tl zs) st) (fun st' => Ok (put k h st')))
  | _, _ => Ok st
  end.

Section Collection.
Variable W : libs.

(** One attempt: transparency matches the images with the reference (utils.py:141-243, called in
    operations.py:150 and 505), and what follows happens image by image. *)
Definition begun (a : attempt) (st : images) : res images :=
  bind (catalogue_of (st 0%nat)) (fun c =>
  bind (mapM (fun j => catalogue_of (st (fst j))) (at_others a)) (fun bs =>
  bind (transparency (l_query W) (l_sort W) (l_lsqr W) (c :: bs) None) (fun t =>
  bind (partway (at_op a) (at_ref a) (mcat t) (hd 0 (zps t)) (st 0%nat)) (fun r =>
  bind (partways (at_op a) (at_others a) (cats t) (tl (zps t)) st) (fun st' => Ok (put 0 r st')))))).

Fixpoint begun_all (l : list attempt) (st : images) : res images :=
  match l with
  | [] => Ok st
  | a :: l' => bind (begun a st) (begun_all l')
  end.
End Collection.
