(** Words used in the statements about interrupted computations. *)
From Coq Require Import List Bool Arith Reals.
From Verif.Model Require Import Py Plane Sources KL Session Interrupt.
From Verif.Spec Require Import Session.
Import ListNotations.
Local Open Scope R_scope.

(** What an interrupted call can amount to: nothing, the call itself, or one of the calls it
    makes on its way. *)
Definition begun (c : call) : list (list call) :=
  match c with
  | CSHat => [[]; [CNormal]; [CSHat]]
  | CSComponent => [[]; [CNormal]; [CSHat]; [CSComponent]]
  | CCoadd l z => [[]; [CSetZp z]; [CCoadd l z]]
  | c => [[]; [c]]
  end.

(** A history without interruptions that a history with interruptions can amount to. *)
Inductive outcome : list event -> list call -> Prop :=
| out_nil : outcome [] []
| out_finished c es cs : outcome es cs -> outcome (Finished c :: es) (c :: cs)
| out_cut c k ds es cs : In ds (begun c) -> outcome es cs -> outcome (Cut c k :: es) (ds ++ cs).

(** Extracting the stamps again from the stars that an extraction left gives the same. *)
Definition stable {NI FT IM} (L : lib NI FT IM) (sh : nat * nat) : Prop :=
  forall cat stamps positions kept,
    Session.extract _ _ _ L sh cat = (stamps, Ok (positions, kept)) ->
    Session.extract _ _ _ L sh kept = (stamps, Ok (positions, kept)).

(** The interrupted call asks for the loss in force, or the image has no PSF yet. *)
Definition quiet {NI FT IM} (c : call) (s : si NI FT IM) : Prop :=
  loss_of c (Session.inf_loss _ _ _ s) = Session.inf_loss _ _ _ s \/
  Session.basis _ _ _ s = None /\ Session.fields _ _ _ s = None.

(** The interruption came before stamp_shape was enlarged, or after the stars were counted. *)
Definition settled_stamps {NI FT IM} (sh : nat * nat) (s : si NI FT IM) : Prop :=
  Session.stamp_shape _ _ _ s = sh \/ Session.nsrc _ _ _ s <> None.

(** Plain calls, the interruptions among them being of these two kinds. *)
Fixpoint harmless {NI FT IM} (L : lib NI FT IM) (sh : nat * nat) (es : list event) (s : si NI FT IM) : Prop :=
  match es with
  | [] => True
  | e :: es =>
      match e with
      | Finished c => plain c
      | Cut c _ => plain c /\ quiet c s /\ settled_stamps sh (after _ _ _ L e s)
      end /\ harmless L sh es (after _ _ _ L e s)
  end.

(** Two images give the same answers now. *)
Definition same_answers {NI FT IM} (L : lib NI FT IM) (s s' : si NI FT IM) : Prop :=
  fst (Session.n_sources _ _ _ L s) = fst (Session.n_sources _ _ _ L s') /\
  fst (Session.stamps_pos _ _ _ L s) = fst (Session.stamps_pos _ _ _ L s') /\
  fst (Session.cov_matrix _ _ _ L s) = fst (Session.cov_matrix _ _ _ L s') /\
  fst (Session.eigenv _ _ _ L s) = fst (Session.eigenv _ _ _ L s') /\
  fst (Session.kl_basis _ _ _ L s) = fst (Session.kl_basis _ _ _ L s') /\
  fst (kl_afields _ _ _ L s) = fst (kl_afields _ _ _ L s') /\
  fst (get_variable_psf _ _ _ L None None s) = fst (get_variable_psf _ _ _ L None None s') /\
  (forall l, 0 <= l ->
     fst (get_variable_psf _ _ _ L (Some l) None s) = fst (get_variable_psf _ _ _ L (Some l) None s')) /\
  fst (normal_image _ _ _ L s) = fst (normal_image _ _ _ L s') /\
  fst (s_hat_comp _ _ _ L s) = fst (s_hat_comp _ _ _ L s') /\
  fst (s_component _ _ _ L s) = fst (s_component _ _ _ L s').
