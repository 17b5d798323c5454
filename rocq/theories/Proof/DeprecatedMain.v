(** What is proved about the deprecated names. *)
From Coq Require Import List Bool Arith String Lia.
From Verif.Model Require Import Deprecated.
From Verif.Spec Require Import Deprecated.
From Coq Require Import List.
Import ListNotations.
Set Bullet Behavior "Strict Subproofs".

Lemma same_warning_eq a b : same_warning a b = true <-> a = b.
Proof.
  unfold same_warning. rewrite !andb_true_iff, !String.eqb_eq, Nat.eqb_eq. destruct a, b; cbn. split; [intros [[-> ->] ->]; reflexivity|]. intros [= -> -> ->]. auto.
Qed.

Lemma known_in w l : known w l = true <-> In w l.
Proof.
  unfold known. rewrite existsb_exists. split; [intros (v & Hv & E); apply same_warning_eq in E as ->; exact Hv|]. intros H. exists w. split; [exact H|now apply same_warning_eq].
Qed.

Lemma unknown w l : known w l = false <-> ~ In w l.
Proof. rewrite <- known_in. destruct (known w l); split; intros; congruence. Qed.

Lemma says_action fs w a : says fs w a <-> action_for w "properimage.operations" fs = a.
Proof.
  unfold says, action_for. induction fs as [|f fs IH]; cbn [find].
  - split; [intros [(b & g & c & E & _)|[_ ->]]; [destruct b; discriminate|reflexivity]|]. intros <-. right. split; [constructor|reflexivity].
  - destruct (fits w "properimage.operations" f) eqn:Ef.
    + split.
      * intros [(b & g & c & E & Hg & Fb & <-)|[F _]].
        -- destruct b as [|h b]; [now injection E as -> _|]. injection E as -> _. inversion Fb; congruence.
        -- inversion F; congruence.
      * intros <-. left. exists [], f, fs. repeat split; auto.
    + rewrite <- IH. split.
      * intros [(b & g & c & E & Hg & Fb & <-)|[F ->]].
        -- destruct b as [|h b]; [injection E as -> _; congruence|]. injection E as -> ->. left. inversion Fb. exists b, g, c. auto.
        -- right. inversion F. auto.
      * intros [(b & g & c & -> & Hg & Fb & <-)|[F ->]].
        -- left. exists (f :: b), g, c. repeat split; auto.
        -- right. auto.
Qed.

(** The registry holds warnings that are neither ignored nor raised. *)
Definition sound (p : process) : Prop :=
  p_made p = p_version p -> forall w, w_line w <> 0%nat -> In w (p_registry p) ->
    action_for w "properimage.operations" (p_filters p) <> AError.

Lemma warn_sound w p : sound p -> sound (snd (warn w p)).
Proof.
  intros H. unfold warn. cbv zeta. set (reg := if Nat.eqb (p_made p) (p_version p) then p_registry p else []).
  assert (R : forall v, w_line v <> 0%nat -> In v reg -> action_for v "properimage.operations" (p_filters p) <> AError).
  { intros v Hv Hi. unfold reg in Hi. destruct (Nat.eqb_spec (p_made p) (p_version p)) as [E|E]; [now apply H|destruct Hi]. }
  destruct (known w reg); [intros _; exact R|].
  destruct (action_for w _ _) eqn:Ea; try (intros _; exact R).
  - intros _ v Hv [<-|Hi]; cbn [snd p_filters]; [congruence|now apply R].
  - destruct (known (anywhere w) (w :: reg)); intros _ v Hv Hi; cbn [snd p_filters]; cbn [snd p_registry] in Hi.
    + destruct Hi as [<-|Hi]; [congruence|now apply R].
    + destruct Hi as [<-|[<-|Hi]]; [now elim Hv|congruence|now apply R].
  - destruct (known (anywhere w) (p_once p)); intros _ v Hv [<-|Hi]; cbn [snd p_filters]; try congruence; now apply R.
Qed.

(** When it is raised. *)
Lemma warn_raised w p : sound p -> w_line w <> 0%nat ->
  (fst (warn w p) = true <-> action_for w "properimage.operations" (p_filters p) = AError).
Proof.
  intros H Hw. unfold warn. cbv zeta. set (reg := if Nat.eqb (p_made p) (p_version p) then p_registry p else []).
  destruct (known w reg) eqn:K.
  - cbn [fst]. split; [discriminate|]. intros E. exfalso. apply known_in in K. unfold reg in K.
    destruct (Nat.eqb_spec (p_made p) (p_version p)) as [V|V]; [|destruct K]. exact (H V w Hw K E).
  - destruct (action_for w _ _); cbn [fst]; try (split; congruence).
    + destruct (known (anywhere w) (w :: reg)); split; discriminate.
    + destruct (known (anywhere w) (p_once p)); split; discriminate.
Qed.

Lemma warn_shown w p : fst (warn w p) = true -> p_shown (snd (warn w p)) = p_shown p.
Proof.
  unfold warn. cbv zeta. destruct (known w _); [reflexivity|]. destruct (action_for _ _ _); try discriminate; try reflexivity.
  - destruct (known _ _); discriminate.
  - destruct (known _ _); discriminate.
Qed.

Section Happening.
Context {A A' B B' World : Type}.
Variable subtract : A -> World -> B * World.
Variable coadd : A' -> World -> B' * World.
Local Notation happen := (happen A A' B B' World subtract coadd).
Local Notation happen_all := (happen_all A A' B B' World subtract coadd).

(** What an event warns about. *)
Definition warns (e : event A A') : list warning :=
  match e with EDiff _ _ _ => [diff_warning] | EStack _ _ _ => [stack_warning] | EFilters _ _ _ => [] | EWarn _ _ w => [w] end.

Lemma wrapped_process {X Y} w (f : X -> World -> Y * World) a p s : snd (fst (wrapped X Y World w f a p s)) = snd (warn w p).
Proof. unfold wrapped. destruct (warn w p) as [[] p1]; [reflexivity|]. now destruct (f a s). Qed.

Lemma happen_process ps e : is_filters e = false -> fst (happen ps e) = fold_left (fun p w => snd (warn w p)) (warns e) (fst ps).
Proof.
  intros Hf. destruct e as [a|a|fs|w]; cbn [Deprecated.happen warns fold_left]; try discriminate; try reflexivity.
  - unfold diff. rewrite <- (wrapped_process diff_warning subtract a (fst ps) (snd ps)). now destruct (wrapped _ _ _ _ _ _ _ _) as [[o p] s].
  - unfold stack_R. rewrite <- (wrapped_process stack_warning coadd a (fst ps) (snd ps)). now destruct (wrapped _ _ _ _ _ _ _ _) as [[o p] s].
Qed.

Lemma happen_sound ps e : p_made (fst ps) <= p_version (fst ps) -> sound (fst ps) ->
  p_made (fst (happen ps e)) <= p_version (fst (happen ps e)) /\ sound (fst (happen ps e)).
Proof.
  intros L H. destruct (is_filters e) eqn:Ef.
  - destruct e; try discriminate. cbn [Deprecated.happen fst p_made p_version]. split; [lia|]. intros V. cbn [p_made p_version] in V. lia.
  - rewrite happen_process by exact Ef. assert (G : forall w p, p_made p <= p_version p -> p_made (snd (warn w p)) <= p_version (snd (warn w p))).
    { intros w p Lp. unfold warn. cbv zeta. destruct (known w _); [cbn; lia|]. destruct (action_for _ _ _); try (cbn; lia); destruct (known _ _); cbn; lia. }
    destruct e; try discriminate; cbn [warns fold_left]; split; try (now apply G); now apply warn_sound.
Qed.

Lemma happen_all_sound l : forall ps, p_made (fst ps) <= p_version (fst ps) -> sound (fst ps) -> sound (fst (happen_all l ps)).
Proof.
  induction l as [|e l IH]; intros ps L H; [exact H|]. cbn [Deprecated.happen_all fold_left]. destruct (happen_sound ps e L H) as [L' H'].
  exact (IH _ L' H').
Qed.

Lemma wrapped_answer {X Y} w (f : X -> World -> Y * World) a p s : sound p -> w_line w <> 0%nat ->
  (says (p_filters p) w AError -> exists p1, wrapped X Y World w f a p s = (None, p1, s) /\ p_shown p1 = p_shown p) /\
  (~ says (p_filters p) w AError -> exists p1, wrapped X Y World w f a p s = (Some (fst (f a s)), p1, snd (f a s))).
Proof.
  intros H Hw. rewrite says_action, <- (warn_raised w p H Hw). unfold wrapped. pose proof (warn_shown w p) as S. destruct (warn w p) as [[] p1]; cbn [fst snd] in *; split; intros Ax.
  - exists p1. auto.
  - now elim Ax.
  - discriminate.
  - exists p1. now destruct (f a s).
Qed.
End Happening.

(** What [diff] and [stack_R] answer. *)
Lemma C131_calls_lm : forall A A' B B' World (subtract : A -> World -> B * World) (coadd : A' -> World -> B' * World) fs l s0 p s,
  happen_all A A' B B' World subtract coadd l (new_process fs, s0) = (p, s) ->
  (forall a, (says (p_filters p) diff_warning AError -> exists p1, diff A B World subtract a p s = (None, p1, s) /\ p_shown p1 = p_shown p) /\
             (~ says (p_filters p) diff_warning AError -> exists p1, diff A B World subtract a p s = (Some (fst (subtract a s)), p1, snd (subtract a s)))) /\
  (forall a, (says (p_filters p) stack_warning AError -> exists p1, stack_R A' B' World coadd a p s = (None, p1, s) /\ p_shown p1 = p_shown p) /\
             (~ says (p_filters p) stack_warning AError -> exists p1, stack_R A' B' World coadd a p s = (Some (fst (coadd a s)), p1, snd (coadd a s)))).
Proof.
  intros A A' B B' World f g fs l s0 p s E.
  assert (S : sound p).
  { change p with (fst (p, s)). rewrite <- E. apply happen_all_sound; [cbn; lia|]. intros _ w _ []. }
  split; intros a; apply wrapped_answer; auto; discriminate.
Qed.

(** How often the warning is shown. *)
Definition shown_times (ac : action) (n : nat) : nat :=
  match ac with AError | AIgnore => 0 | AAlways => n | ADefault | AModule | AOnce => Nat.min 1 n end.

Lemma times_app w l v : times w (l ++ [v]) = times w l + (if same_warning w v then 1 else 0).
Proof. unfold times. rewrite filter_app, app_length. f_equal. cbn [List.filter]. now destruct (same_warning w v). Qed.

Definition lasting (ac : action) : bool := match ac with ADefault | AModule | AOnce => true | _ => false end.

Record counted (fs : list Deprecated.filter) (w : warning) (n : nat) (p : process) : Prop := {
  c_fs : p_filters p = fs;
  c_v : p_made p = p_version p;
  c_shown : times w (p_shown p) = shown_times (action_for w "properimage.operations" fs) n;
  c_reg : In w (p_registry p) -> n <> 0;
  c_reg0 : In (anywhere w) (p_registry p) -> n <> 0;
  c_once : In (anywhere w) (p_once p) -> n <> 0;
  c_def : n <> 0 -> lasting (action_for w "properimage.operations" fs) = true -> In w (p_registry p);
  c_not : lasting (action_for w "properimage.operations" fs) = false -> ~ In w (p_registry p) }.

Lemma count_other fs w v n p : counted fs w n p -> w_text v <> w_text w -> counted fs w n (snd (warn v p)).
Proof.
  intros [F V S R R0 O D N] Hv. assert (D1 : v <> w) by congruence. assert (D2 : v <> anywhere w) by (intros ->; now apply Hv).
  assert (D3 : anywhere v <> w) by (intros <-; now apply Hv). assert (D4 : anywhere v <> anywhere w) by (intros E; apply Hv; now injection E).
  assert (T : same_warning w v = false) by (destruct (same_warning w v) eqn:E; [apply same_warning_eq in E; congruence|reflexivity]).
  unfold warn. cbv zeta. rewrite V, Nat.eqb_refl. destruct (known v (p_registry p)); [constructor; auto|].
  destruct (action_for v _ _); try (destruct (known (anywhere v) _)); constructor; cbn [snd p_filters p_made p_version p_registry p_once p_shown]; auto;
    try (rewrite times_app, T, Nat.add_0_r; exact S); cbn [In lasting]; intros; intuition congruence.
Qed.

Lemma count_same fs w n p : w_line w <> 0%nat -> counted fs w n p -> counted fs w (S n) (snd (warn w p)).
Proof.
  intros Hw [F V S R R0 O D N]. assert (Dw : anywhere w <> w) by (intros E; apply Hw; now rewrite <- E).
  assert (T : same_warning w w = true) by now apply same_warning_eq.
  unfold warn. cbv zeta. rewrite V, Nat.eqb_refl.
  destruct (known w (p_registry p)) eqn:K.
  - apply known_in in K. pose proof (R K) as Hn. constructor; cbn [snd p_filters p_made p_version p_registry p_once p_shown]; auto.
    rewrite S. destruct n as [|n]; [congruence|]. destruct (action_for w _ fs) eqn:Ea; try reflexivity. exfalso. apply N; [|exact K]. now rewrite ?Ea.
  - apply unknown in K. assert (Kn : lasting (action_for w "properimage.operations" fs) = true -> n = 0).
    { intros Hi. destruct n as [|n]; [reflexivity|]. elim K. now apply D. }
    rewrite F. destruct (action_for w "properimage.operations" fs) eqn:Ea.
    + constructor; cbn [snd p_filters p_made p_version p_registry p_once p_shown]; rewrite ?Ea; auto; cbn [In lasting]; intros; intuition congruence.
    + constructor; cbn [snd p_filters p_made p_version p_registry p_once p_shown]; rewrite ?Ea; auto; cbn [In lasting]; intros; intuition congruence.
    + constructor; cbn [snd p_filters p_made p_version p_registry p_once p_shown]; rewrite ?Ea; auto; [rewrite times_app, T, S; cbn; lia|..]; cbn [In lasting]; intros; intuition congruence.
    + rewrite (Kn eq_refl) in *.
      constructor; cbn [snd p_filters p_made p_version p_registry p_once p_shown]; rewrite ?Ea; auto; [rewrite times_app, T, S; reflexivity|..]; cbn [In lasting]; intros; intuition congruence.
    + rewrite (Kn eq_refl) in *.
      assert (U : known (anywhere w) (w :: p_registry p) = false) by (apply unknown; intros [E|E]; [congruence|now apply R0]).
      rewrite U. constructor; cbn [snd p_filters p_made p_version p_registry p_once p_shown]; rewrite ?Ea; auto; [rewrite times_app, T, S; reflexivity|..]; cbn [In lasting]; intros; intuition congruence.
    + rewrite (Kn eq_refl) in *.
      assert (U : known (anywhere w) (p_once p) = false) by (apply unknown; intros E; now apply O).
      rewrite U. constructor; cbn [snd p_filters p_made p_version p_registry p_once p_shown]; rewrite ?Ea; auto; [rewrite times_app, T, S; reflexivity|..]; cbn [In lasting]; intros; intuition congruence.
Qed.

Lemma counted_all A A' B B' World f g fs w (mine : event A A' -> bool) l : w_line w <> 0%nat ->
  (forall e, is_filters e = false -> apart w e -> if mine e then warns e = [w] else Forall (fun v => w_text v <> w_text w) (warns e)) ->
  forall n ps, counted fs w n (fst ps) -> Forall (fun e => is_filters e = false) l -> Forall (apart w) l ->
  counted fs w (n + List.length (List.filter mine l)) (fst (happen_all A A' B B' World f g l ps)).
Proof.
  intros Hw Hm. induction l as [|e l IH]; intros n ps C Ff Fa; [now rewrite Nat.add_0_r|].
  inversion Ff as [|? ? F1 F2]; inversion Fa as [|? ? A1 A2]; subst. cbn [happen_all fold_left List.filter]. specialize (Hm e F1 A1) as He.
  pose proof (happen_process f g ps e F1) as Hp. destruct (mine e); cbn [List.length].
  - rewrite <- plus_n_Sm. apply (IH (S n)); auto. rewrite Hp, He. cbn [fold_left]. now apply count_same.
  - apply IH; auto. rewrite Hp. clear - C He. revert C. generalize (fst ps). induction (warns e) as [|v vs IHv]; intros p C; [exact C|].
    inversion He; subst. cbn [fold_left]. apply IHv; [assumption|]. now apply count_other.
Qed.

Lemma counted_new fs w : counted fs w 0 (new_process fs).
Proof. constructor; cbn; auto; try (intros []). now destruct (action_for w _ fs). Qed.

Lemma C131_shown_lm : forall A A' B B' World (subtract : A -> World -> B * World) (coadd : A' -> World -> B' * World) fs l s0 ac,
  Forall (fun e => is_filters e = false) l ->
  (says fs diff_warning ac -> Forall (apart diff_warning) l ->
   times diff_warning (p_shown (fst (happen_all A A' B B' World subtract coadd l (new_process fs, s0)))) =
   let n := List.length (List.filter is_diff l) in
   match ac with AError | AIgnore => 0 | AAlways => n | ADefault | AModule | AOnce => Nat.min 1 n end) /\
  (says fs stack_warning ac -> Forall (apart stack_warning) l ->
   times stack_warning (p_shown (fst (happen_all A A' B B' World subtract coadd l (new_process fs, s0)))) =
   let n := List.length (List.filter is_stack l) in
   match ac with AError | AIgnore => 0 | AAlways => n | ADefault | AModule | AOnce => Nat.min 1 n end).
Proof.
  intros A A' B B' World f g fs l s0 ac Ff. split; intros Sa Fa; apply says_action in Sa; subst ac.
  - refine (c_shown _ _ _ _ (counted_all A A' B B' World f g fs diff_warning is_diff l _ _ 0 (new_process fs, s0) (counted_new _ _) Ff Fa)); [discriminate|].
    intros [a|a|?|v] _ Ap; cbn in *; try reflexivity; repeat constructor; try discriminate; exact Ap.
  - refine (c_shown _ _ _ _ (counted_all A A' B B' World f g fs stack_warning is_stack l _ _ 0 (new_process fs, s0) (counted_new _ _) Ff Fa)); [discriminate|].
    intros [a|a|?|v] _ Ap; cbn in *; try reflexivity; repeat constructor; try discriminate; exact Ap.
Qed.

(** With the filters an interpreter starts with, nobody sees either of them. *)
Lemma C131_silent_lm : forall A A' B B' World (subtract : A -> World -> B * World) (coadd : A' -> World -> B' * World) l s0,
  Forall (fun e => is_filters e = false) l -> Forall (apart diff_warning) l -> Forall (apart stack_warning) l ->
  let p := fst (happen_all A A' B B' World subtract coadd l (new_process usual_filters, s0)) in
  ~ In diff_warning (p_shown p) /\ ~ In stack_warning (p_shown p).
Proof.
  intros A A' B B' World f g l s0 Ff F1 F2. cbv zeta.
  assert (G : forall w l0, times w l0 = 0 -> ~ In w l0).
  { intros w l0 E Hi. unfold times in E. apply length_zero_iff_nil in E. assert (X : In w (List.filter (same_warning w) l0)) by (apply filter_In; split; [exact Hi|now apply same_warning_eq]).
    rewrite E in X. destruct X. }
  destruct (C131_shown_lm A A' B B' World f g usual_filters l s0 AIgnore Ff) as [H1 H2].
  split; apply G; [apply H1|apply H2]; auto; now apply says_action.
Qed.

(** The script's own module would have been told. *)
Lemma C131_case_lm :
  says usual_filters diff_warning AIgnore /\ says [] stack_warning ADefault /\ says warnings_are_errors diff_warning AError /\
  action_for diff_warning "__main__"%string usual_filters = ADefault /\
  let l := [EDiff nat nat 1; EDiff nat nat 2; EFilters nat nat []; EDiff nat nat 3; EDiff nat nat 4; EStack nat nat 5;
            EFilters nat nat warnings_are_errors; EDiff nat nat 6] in
  let f a s := (a, a + s) in
  let ps := happen_all nat nat nat nat nat f f l (new_process usual_filters, 0) in
  p_shown (fst ps) = [diff_warning; stack_warning] /\ snd ps = 15.
Proof. repeat split; try (apply says_action; reflexivity). Qed.
