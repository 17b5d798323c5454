(** What plot_S, plot_R and imshow draw, save and leave behind. *)
From Coq Require Import List Bool Arith String Reals Lia Lra.
From Verif.Model Require Import Py Plane Pyplot.
From Verif.Spec Require Import Pyplot.
From Verif.Proof Require Import Pyplot.
Import ListNotations.
Local Open Scope R_scope.

(** Calls one after the other, each with a file: each file holds one page with the image of
    its call, and no page is left over. *)
Theorem C98_files : forall clip left cs s, tidy s -> Forall can_plot cs ->
  let s' := session clip left false cs s in
  tidy s' /\ shows s' = shows s /\
  exists pics, Forall2 (depicts clip) cs pics /\
    files s' = (rev (combine (map path_of cs) (map page pics)) ++ files s)%list.
Proof. exact C98_files_lm. Qed.
Print Assumptions C98_files.

(** Two calls. *)
Example C98_files_case : tidy empty_state /\
  Forall can_plot [CallS (demo Float) "s.png"; CallR (demo Complex128) "r.png"].
Proof. split; [left; reflexivity|]. repeat constructor; apply demo_ok. Qed.

(** Without a path the page is shown. *)
Theorem C98_shown : forall clip left nbook a s, tidy s ->
  (exists p, depicts_S clip a p /\ shows (snd (plot_S clip left a None nbook s)) = [page p] :: shows s /\
    files (snd (plot_S clip left a None nbook s)) = files s) /\
  (plottable a ->
   exists p, depicts_R a (fill_used a) p /\ shows (snd (plot_R left a None nbook s)) = [page p] :: shows s /\
    files (snd (plot_R left a None nbook s)) = files s).
Proof. exact C98_shown_lm. Qed.
Print Assumptions C98_shown.

(** In a notebook they hold the image on top, and nothing else when no figure was open. *)
Theorem C98_returned : forall clip left a path s,
  exists p t rest, fst (plot_S clip left a (Some path) true s) = mkaxes (p :: rest) t /\ depicts_S clip a p /\
    (figs s = [] -> rest = [] /\ t = None).
Proof. exact C98_returned_lm. Qed.
Print Assumptions C98_returned.

(** The axes that plot_S returns after it closed the figure hold nothing of the plot: they are
    new ones or those of another figure. *)
Theorem C98_returned_refuted : forall clip left a path s,
  figs s = [] \/ (exists f, figs s = [f]) ->
  fst (plot_S clip left a (Some path) false s) = blank /\
  figs (snd (plot_S clip left a (Some path) false s)) = [mkfigure [blank] 0].
Proof. exact C98_returned_refuted_lm. Qed.
Print Assumptions C98_returned_refuted.

(** With nbook=True the images pile up on the same axes: the file of the k-th call holds the
    images of the first k calls and k colour bars. *)
Theorem C98_notebook_refuted : forall clip left cs s, tidy s -> Forall can_plot cs ->
  exists pics, Forall2 (depicts clip) cs pics /\
    files (session clip left true cs s) =
      (rev (combine (map path_of cs)
         (map (fun k => mkfigure [mkaxes (rev (firstn (S k) pics)) None] (S k)) (seq 0 (List.length cs))))
       ++ files s)%list.
Proof. exact C98_notebook_refuted_lm. Qed.
Print Assumptions C98_notebook_refuted.

(** The second file of two calls in a notebook holds two images. *)
Example C98_notebook_refuted_case : forall clip left a, exists p q rest,
  files (session clip left true [CallS a "1.png"; CallS a "2.png"] empty_state) =
  ("2.png"%string, mkfigure [mkaxes [p; q] None] 2) :: rest.
Proof.
  intros clip left a.
  destruct (C98_notebook_refuted clip left [CallS a "1.png"; CallS a "2.png"] empty_state) as (pics & F & E).
  - left. reflexivity.
  - repeat constructor.
  - inversion F as [|? q ? l H1 F1]; subst. inversion F1 as [|? p ? l' H2 F2]; subst. inversion F2; subst.
    exists p, q. eexists. rewrite E. reflexivity.
Qed.

(** With a figure of the user open, the plot goes onto it, the file holds both, and their
    figure is closed. *)
Theorem C98_users_figure_refuted : forall clip left c s f r b l, can_plot c ->
  figs s = f :: r -> axs f = b :: l ->
  exists p, depicts clip c p /\
    files (do_call clip left false s c) =
      (path_of c, mkfigure (mkaxes (p :: pictures b) (title b) :: l) (S (bars f))) :: files s /\
    (r <> [] -> Forall (fun g => axs g <> []) r -> figs (do_call clip left false s c) = r).
Proof. exact C98_users_figure_refuted_lm. Qed.
Print Assumptions C98_users_figure_refuted.

(** plot_R accepts exactly the plottable arrays. *)
Theorem C99_accepts : forall left a path nbook s,
  fst (plot_R left a path nbook s) = Ok tt <-> plottable a.
Proof. exact C99_accepts_lm. Qed.
Print Assumptions C99_accepts.

(** Which arrays of four kinds can be plotted: with the cell (0, 1) masked, real, complex128 and
    complex64; with every cell masked, complex128. *)
Example C99_accepts_case : plottable (demo Float) /\ plottable (demo Complex128) /\ ~ plottable (demo Complex64) /\
  ~ plottable (mkarray (re (demo Float)) (im (demo Float)) (Some (pconst (2, 2)%nat true)) 7 Complex128).
Proof. exact demo_ok. Qed.

(** What is drawn for one of them: 100 as 2, a masked cell as 20, -3 not at all. *)
Example C99_drawn_case : forall p, depicts_R (demo Complex128) (fill_used (demo Complex128)) p ->
  px (cells p) 0 0 = Some 2 /\ px (cells p) 0 1 = Some 20 /\ px (cells p) 1 1 = None.
Proof. exact demo_drawn. Qed.

(** What is drawn. *)
Theorem C99_shows : forall left a path nbook s, plottable a -> tidy s ->
  exists p, depicts_R a (fill_used a) p /\
    files (snd (plot_R left a (Some path) nbook s)) = (path, page p) :: files s.
Proof. exact C99_shows_lm. Qed.
Print Assumptions C99_shows.

Theorem C99_errors : forall left a path nbook s, ~ plottable a ->
  files (snd (plot_R left a path nbook s)) = files s /\
  ((nr (re a) = 0 \/ nc (re a) = 0)%nat -> plot_R left a path nbook s = (Raise IndexError, s)) /\
  ((0 < nr (re a))%nat -> (0 < nc (re a))%nat -> fst (plot_R left a path nbook s) = Raise TypeError /\
     (figs s = [] -> figs (snd (plot_R left a path nbook s)) = [mkfigure [blank] 0])).
Proof. exact C99_errors_lm. Qed.
Print Assumptions C99_errors.

(** imshow: the image on top of the axes it returns, the shape in the title. *)
Theorem C99_imshow : forall d lo s, exists rest,
  fst (imshow d lo s) = mkaxes (mkpicture d None lo :: rest) (Some (shape d)) /\
  (figs s = [] -> rest = [] /\ figs (snd (imshow d lo s)) = [mkfigure [fst (imshow d lo s)] 0]) /\
  (forall f r b l, figs s = f :: r -> axs f = b :: l -> rest = pictures b /\
     figs (snd (imshow d lo s)) = mkfigure (fst (imshow d lo s) :: l) (bars f) :: r).
Proof. exact C99_imshow_lm. Qed.
Print Assumptions C99_imshow.

(** Twice on the same axes. *)
Example C99_imshow_case : forall d d' lo, exists s,
  s = snd (imshow d lo empty_state) /\
  fst (imshow d' lo s) = mkaxes [mkpicture d' None lo; mkpicture d None lo] (Some (shape d')).
Proof. intros. eexists. split; reflexivity. Qed.
