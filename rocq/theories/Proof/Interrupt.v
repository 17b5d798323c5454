(** The traced methods end as the methods do; the states they pass. *)
From Coq Require Import ZArith List Bool Arith Reals Lia Lra.
From Verif.Model Require Import Py Plane Sources KL Session Interrupt.
From Verif.Spec Require Import Session.
From Verif.Proof Require Import Session SessionBad SessionHist SessionMain.
Import ListNotations.
Local Open Scope R_scope.
Set Bullet Behavior "Strict Subproofs".

Section Erase.
Variables NI FT IM : Type.
Variable L : lib NI FT IM.
Notation state := (si NI FT IM).

Lemma erase_bind {A B} (m : T NI FT IM A) (m' : M NI FT IM A) (k : A -> T NI FT IM B) (k' : A -> M NI FT IM B) s :
  snd (m s) = m' s -> (forall a s, snd (k a s) = k' a s) ->
  snd (tbind _ _ _ m k s) = mbind _ _ _ m' k' s.
Proof.
  intros E H. unfold tbind, mbind. destruct (m s) as [tr [[a|e] s']]; cbn [snd] in E; rewrite <- E; cbn [snd]; [apply H|reflexivity].
Qed.

Ltac er := repeat first
  [ reflexivity
  | match goal with
    | |- snd (tbind _ _ _ _ _ ?s) = mbind _ _ _ _ _ ?s => apply erase_bind; [|intros ? ?]
    | |- snd ((if ?b then _ else _) _) = (if ?b then _ else _) _ => destruct b
    | |- snd (match ?b with Some _ => _ | None => _ end _) = match ?b with Some _ => _ | None => _ end _ => destruct b
    | |- snd (match ?b with Ok _ => _ | Raise _ => _ end _) = match ?b with Ok _ => _ | Raise _ => _ end _ => destruct b
    end ].

Lemma er_best s : snd (t_best_sources _ _ _ L s) = best_sources _ _ _ L s.
Proof.
  unfold t_best_sources, best_sources. destruct (best s); [reflexivity|].
  unfold tbind. destruct (select L); reflexivity.
Qed.

Lemma er_dump todo : forall done s, db s = Some done ->
  snd (t_dump NI FT IM done todo s) = (Ok tt, set_db _ _ _ (Some (done ++ todo)) s).
Proof.
  induction todo as [|p todo IH]; intros done s D; cbn [t_dump].
  - rewrite app_nil_r, <- D. destruct s; reflexivity.
  - unfold tbind, tupd. cbn [snd fst]. rewrite IH by reflexivity. rewrite <- app_assoc. reflexivity.
Qed.

Lemma er_stamps s : snd (t_stamps_pos _ _ _ L s) = stamps_pos _ _ _ L s.
Proof.
  unfold t_stamps_pos, stamps_pos.
  assert (X : forall cond, snd ((tbind _ _ _ (if cond : bool
                 then tupd _ _ _ (fun s => set_stamp_shape _ _ _
                        (match req_shape s with Some sh => sh | None => stamp_shape s end) s)
                 else tret _ _ _ tt) (fun _ =>
       tbind _ _ _ (tupd _ _ _ (set_db _ _ _ (Some []))) (fun _ =>
       tbind _ _ _ (t_best_sources _ _ _ L) (fun cat =>
       tbind _ _ _ (tget _ _ _) (fun s =>
       let sh := stamp_shape s in
       let '(stamps, r) := extract L sh cat in
       tbind _ _ _ (t_dump _ _ _ [] stamps) (fun _ =>
       match r with
       | Raise e => traise _ _ _ e
       | Ok (p, kept) =>
           tbind _ _ _ (tupd _ _ _ (set_best _ _ _ (Some kept))) (fun _ =>
           tbind _ _ _ (tupd _ _ _ (set_stamp_shape _ _ _ (fst sh + 6, snd sh + 6)%nat)) (fun _ =>
           tbind _ _ _ (tupd _ _ _ (fun s => set_pos _ _ _ (Some p) (nsrc s) s)) (fun _ =>
           tbind _ _ _ (tupd _ _ _ (fun s => set_pos _ _ _ (pos s) (Some (length p)) s)) (fun _ =>
           tret _ _ _ p))))
       end)))))) s) =
      (mbind _ _ _ (best_sources _ _ _ L) (fun cat =>
       mbind _ _ _ (get _ _ _) (fun s =>
       let sh := stamp_shape s in
       let '(stamps, r) := extract L sh cat in
       mbind _ _ _ (upd _ _ _ (set_db _ _ _ (Some stamps))) (fun _ =>
       match r with
       | Raise e => raise _ _ _ e
       | Ok (p, kept) =>
           mbind _ _ _ (upd _ _ _ (set_best _ _ _ (Some kept))) (fun _ =>
           mbind _ _ _ (upd _ _ _ (set_stamp_shape _ _ _ (fst sh + 6, snd sh + 6)%nat)) (fun _ =>
           mbind _ _ _ (upd _ _ _ (set_pos _ _ _ (Some p) (Some (length p)))) (fun _ =>
           ret _ _ _ p)))
       end))))
        (set_db _ _ _ (Some []) (if cond then set_stamp_shape _ _ _ (match req_shape s with Some sh => sh | None => stamp_shape s end) s
               else s))).
  { intros cond. set (s1 := if cond then _ else s).
    unfold tbind at 1. replace ((if cond then _ else _) s) with
      ((if cond then [s1] else []), (Ok tt, s1)) by (unfold s1; destruct cond; reflexivity).
    cbn [snd]. unfold tbind at 1. unfold tupd at 1. cbn [snd].
    set (s2 := set_db _ _ _ (Some []) s1).
    unfold tbind at 1, mbind at 1. pose proof (er_best s2) as E.
    destruct (t_best_sources _ _ _ L s2) as [tr [[c|e] s3]] eqn:Tb; cbn [snd] in E; rewrite <- E; cbn [snd]; [|reflexivity].
    assert (D : db s3 = Some []).
    { unfold best_sources in E. destruct (best s2); [injection E as _ ->; reflexivity|].
      destruct (select L); [injection E as _ ->; reflexivity|discriminate]. }
    unfold tbind at 1, mbind at 1, tget, get. cbn [snd]. cbn zeta.
    destruct (extract L (stamp_shape s3) c) as [stamps [[p kept]|e]];
      unfold tbind at 1, mbind at 1; pose proof (er_dump stamps [] s3 D) as Ed;
      destruct (t_dump _ _ _ [] stamps s3) as [tr' r']; cbn [snd] in Ed; subst r'; cbn [snd]; reflexivity. }
  destruct (pos s) as [p|]; [destruct (reshaped _ _ _ s)|]; [exact (X true)|reflexivity|].
  destruct (reshaped _ _ _ s); [exact (X true)|exact (X false)].
Qed.

Lemma er_n s : snd (t_n_sources _ _ _ L s) = n_sources _ _ _ L s.
Proof. unfold t_n_sources, n_sources. destruct (nsrc s); [reflexivity|]. er. apply er_stamps. Qed.

Lemma er_cov s : snd (t_cov_matrix _ _ _ L s) = cov_matrix _ _ _ L s.
Proof.
  unfold t_cov_matrix, cov_matrix. destruct (cov s); [reflexivity|].
  apply erase_bind; [apply er_n|]. intros n s1. unfold tbind at 1, mbind at 1, tget, get. cbn [snd].
  destruct (no_file _ _ _ n s1); [reflexivity|]. destruct (Nat.ltb _ _); [reflexivity|]. cbn zeta.
  destruct (KL.cov_matrix _ _) as [c|e]; [|reflexivity].
  destruct (Nat.leb n 250); reflexivity.
Qed.

Lemma er_eig s : snd (t_eigenv _ _ _ L s) = eigenv _ _ _ L s.
Proof.
  unfold t_eigenv, eigenv. destruct (eig s); [reflexivity|].
  apply erase_bind; [apply er_cov|]. intros c s1. destruct (Nat.eqb _ 1); reflexivity.
Qed.

Lemma er_setup l s : snd (t_setup_kl_basis _ _ _ L l s) = setup_kl_basis _ _ _ L l s.
Proof.
  unfold t_setup_kl_basis, setup_kl_basis. cbn zeta. destruct (_ || _); [|reflexivity].
  apply erase_bind; [destruct l; reflexivity|]. intros _ s1. apply erase_bind; [apply er_eig|]. intros e s2.
  apply erase_bind; [reflexivity|]. intros b s3. reflexivity.
Qed.

Lemma er_basis s : snd (t_kl_basis _ _ _ L s) = Session.kl_basis _ _ _ L s.
Proof.
  unfold t_kl_basis, Session.kl_basis. apply erase_bind; [destruct (basis s); [reflexivity|apply er_setup]|].
  intros _ s1. apply erase_bind; [reflexivity|]. intros s2 s3. destruct (basis s2); reflexivity.
Qed.

Lemma er_fields l u s : snd (t_setup_kl_a_fields _ _ _ L l u s) = setup_kl_a_fields _ _ _ L l u s.
Proof.
  unfold t_setup_kl_a_fields, setup_kl_a_fields. cbn zeta. destruct (_ || _ || _); [|reflexivity].
  apply erase_bind.
  { destruct l as [l|]; [|reflexivity]. apply erase_bind; [apply er_setup|]. reflexivity. }
  intros _ s1. apply erase_bind; [apply er_basis|]. intros b s2. destruct (Nat.eqb _ 1); [reflexivity|].
  apply erase_bind; [apply er_best|]. intros c s3. apply erase_bind; [apply er_stamps|]. intros p s4.
  destruct (Nat.eqb _ 0); [reflexivity|]. apply erase_bind; [apply er_eig|]. intros e s5.
  destruct (_ && _); reflexivity.
Qed.

Lemma er_afields s : snd (t_kl_afields _ _ _ L s) = kl_afields _ _ _ L s.
Proof.
  unfold t_kl_afields, kl_afields. apply erase_bind; [destruct (fields s); [reflexivity|apply er_fields]|].
  intros _ s1. apply erase_bind; [reflexivity|]. intros s2 s3. destruct (fields s2); reflexivity.
Qed.

Lemma er_psf l sh s : snd (t_get_variable_psf _ _ _ L l sh s) = get_variable_psf _ _ _ L l sh s.
Proof.
  unfold t_get_variable_psf, get_variable_psf. apply erase_bind; [destruct sh; reflexivity|].
  intros _ s1. apply erase_bind; [reflexivity|]. intros s2 s3. cbn zeta.
  apply erase_bind; [apply er_setup|]. intros _ s4. apply erase_bind; [apply er_fields|]. intros _ s5.
  apply erase_bind; [apply er_afields|]. intros a s6. apply erase_bind; [apply er_basis|]. intros b s7.
  destruct a as [|[|f fs]]; [destruct b|destruct b|]; reflexivity.
Qed.

Lemma er_normal s : snd (t_normal_image _ _ _ L s) = normal_image _ _ _ L s.
Proof.
  unfold t_normal_image, normal_image. destruct (normal s); [reflexivity|].
  apply erase_bind; [apply er_psf|]. intros q s1. reflexivity.
Qed.

Lemma er_shat s : snd (t_s_hat_comp _ _ _ L s) = s_hat_comp _ _ _ L s.
Proof.
  unfold t_s_hat_comp, s_hat_comp. cbn zeta.
  destruct (match shat s with None => true | Some (_, l) => if Req_EM_T l (inf_loss s) then false else true end).
  - apply erase_bind; [apply er_psf|]. intros q s1. apply erase_bind; [apply er_normal|]. intros n s2.
    apply erase_bind; [reflexivity|]. intros s3 s4. reflexivity.
  - destruct (shat s) as [[h l]|]; reflexivity.
Qed.

Lemma er_scomp s : snd (t_s_component _ _ _ L s) = s_component _ _ _ L s.
Proof.
  unfold t_s_component, s_component. apply erase_bind.
  { destruct (scomp s); [reflexivity|]. apply erase_bind; [apply er_shat|]. intros h s1. reflexivity. }
  intros _ s1. apply erase_bind; [reflexivity|]. intros s2 s3. destruct (scomp s2) as [[c l]|]; [|reflexivity].
  destruct (Req_EM_T _ _); [reflexivity|]. apply erase_bind; [apply er_shat|]. intros h s4. reflexivity.
Qed.

Lemma er_update new s : snd (t_update_sources _ _ _ L new s) = update_sources _ _ _ L new s.
Proof.
  unfold t_update_sources, update_sources. destruct (best s); [|reflexivity].
  apply erase_bind; [reflexivity|]. intros _ s1. destruct new; [reflexivity|].
  apply erase_bind; [apply er_best|]. intros c s2. apply erase_bind; [apply er_n|]. reflexivity.
Qed.

(** The last state passed is the one the call ends in. *)
Definition ends {A} (m : T NI FT IM A) (s : state) : Prop := last (fst (m s)) s = snd (snd (m s)).

Lemma last_app {X} (a b : list X) d : last (a ++ b) d = last b (last a d).
Proof.
  destruct b as [|x b]; [now rewrite app_nil_r|].
  assert (Y : forall (a : list X) c d d', last (a ++ c :: b) d = last (c :: b) d').
  { clear. induction a as [|y a IH]; intros c d d'.
    - cbn [app]. revert c. induction b as [|z b IHb]; intros c; [reflexivity|]. exact (IHb z).
    - cbn [app]. destruct (a ++ c :: b) eqn:E; [destruct a; discriminate|]. rewrite <- E.
      change (last (y :: a ++ c :: b) d) with (match a ++ c :: b with [] => y | _ => last (a ++ c :: b) d end).
      rewrite E, <- E. apply IH. }
  apply Y.
Qed.

Lemma ends_bind {A B} (m : T NI FT IM A) (k : A -> T NI FT IM B) s :
  ends m s -> (forall a s', ends (k a) s') -> ends (tbind _ _ _ m k) s.
Proof.
  unfold ends, tbind. intros E H. destruct (m s) as [tr [[a|e] s']]; cbn [fst snd] in *; [|exact E].
  rewrite last_app, E. apply H.
Qed.

Lemma en_best s : ends (t_best_sources _ _ _ L) s.
Proof.
  unfold t_best_sources, ends. destruct (best s); [reflexivity|]. unfold tbind. destruct (select L); reflexivity.
Qed.

Lemma en_dump todo : forall done s, ends (t_dump NI FT IM done todo) s.
Proof.
  induction todo as [|x todo IH]; intros done s; cbn [t_dump]; [reflexivity|].
  apply ends_bind; [reflexivity|]. intros. apply IH.
Qed.

Lemma en_stamps s : ends (t_stamps_pos _ _ _ L) s.
Proof.
  assert (X : forall cond, ends (tbind _ _ _ (if cond : bool
                 then tupd _ _ _ (fun s => set_stamp_shape _ _ _
                        (match req_shape s with Some sh => sh | None => stamp_shape s end) s)
                 else tret _ _ _ tt) (fun _ =>
       tbind _ _ _ (tupd _ _ _ (set_db _ _ _ (Some []))) (fun _ =>
       tbind _ _ _ (t_best_sources _ _ _ L) (fun cat =>
       tbind _ _ _ (tget _ _ _) (fun s =>
       let sh := stamp_shape s in
       let '(stamps, r) := extract L sh cat in
       tbind _ _ _ (t_dump _ _ _ [] stamps) (fun _ =>
       match r with
       | Raise e => traise _ _ _ e
       | Ok (p, kept) =>
           tbind _ _ _ (tupd _ _ _ (set_best _ _ _ (Some kept))) (fun _ =>
           tbind _ _ _ (tupd _ _ _ (set_stamp_shape _ _ _ (fst sh + 6, snd sh + 6)%nat)) (fun _ =>
           tbind _ _ _ (tupd _ _ _ (fun s => set_pos _ _ _ (Some p) (nsrc s) s)) (fun _ =>
           tbind _ _ _ (tupd _ _ _ (fun s => set_pos _ _ _ (pos s) (Some (length p)) s)) (fun _ =>
           tret _ _ _ p))))
       end)))))) s).
  { intros cond. apply ends_bind; [destruct cond; reflexivity|]. intros _ s1. apply ends_bind; [reflexivity|].
    intros _ s2. apply ends_bind; [apply en_best|]. intros c s3. apply ends_bind; [reflexivity|]. intros s4 s5. cbn zeta.
    destruct (extract L (stamp_shape s4) c) as [stamps [[p kept]|e]]; (apply ends_bind; [apply en_dump|]); reflexivity. }
  unfold ends, t_stamps_pos. destruct (pos s) as [p|]; [destruct (reshaped _ _ _ s)|]; [exact (X true)|reflexivity|].
  destruct (reshaped _ _ _ s); [exact (X true)|exact (X false)].
Qed.

Lemma en_n s : ends (t_n_sources _ _ _ L) s.
Proof.
  unfold ends, t_n_sources. destruct (nsrc s); [reflexivity|].
  apply ends_bind; [apply en_stamps|]. intros p s1. apply ends_bind; [reflexivity|]. intros s2 s3. destruct (nsrc s2); reflexivity.
Qed.

Lemma en_cov s : ends (t_cov_matrix _ _ _ L) s.
Proof.
  unfold ends, t_cov_matrix. destruct (cov s); [reflexivity|].
  apply ends_bind; [apply en_n|]. intros n s1. apply ends_bind; [reflexivity|]. intros s2 s3.
  destruct (no_file _ _ _ n s2); [reflexivity|]. destruct (Nat.ltb _ _); [reflexivity|]. cbn zeta.
  destruct (KL.cov_matrix _ _) as [c|e]; [|reflexivity].
  destruct (Nat.leb n 250); reflexivity.
Qed.

Lemma en_eig s : ends (t_eigenv _ _ _ L) s.
Proof.
  unfold ends, t_eigenv. destruct (eig s); [reflexivity|].
  apply ends_bind; [apply en_cov|]. intros c s1. destruct (Nat.eqb _ 1); reflexivity.
Qed.

Lemma en_build e s : ends (t_build_basis _ _ _ L e) s.
Proof.
  unfold ends, t_build_basis, build_basis. destruct e as [valh vech]. cbn [fst snd].
  destruct (mcols s) as [[rows stamps]|].
  - destruct (_ || _); reflexivity.
  - pose proof (en_n s) as E. unfold ends in E. rewrite E, er_n. unfold mbind, get, raise, ret.
    destruct (n_sources _ _ _ L s) as [[n|x] s1]; [|reflexivity]. cbn [snd].
    destruct (no_file _ _ _ n s1); [reflexivity|]. destruct (Nat.ltb _ _); [reflexivity|].
    destruct (_ || _ || _); reflexivity.
Qed.

Lemma en_setup l s : ends (t_setup_kl_basis _ _ _ L l) s.
Proof.
  unfold ends, t_setup_kl_basis. cbn zeta. destruct (_ || _); [|reflexivity].
  apply ends_bind; [destruct l; reflexivity|]. intros _ s1. apply ends_bind; [apply en_eig|]. intros e s2.
  apply ends_bind; [apply en_build|]. intros b s3. reflexivity.
Qed.

Lemma en_basis s : ends (t_kl_basis _ _ _ L) s.
Proof.
  unfold ends, t_kl_basis. apply ends_bind; [destruct (basis s); [reflexivity|apply en_setup]|].
  intros _ s1. apply ends_bind; [reflexivity|]. intros s2 s3. destruct (basis s2); reflexivity.
Qed.

Lemma en_fields l u s : ends (t_setup_kl_a_fields _ _ _ L l u) s.
Proof.
  unfold ends, t_setup_kl_a_fields. cbn zeta. destruct (_ || _ || _); [|reflexivity].
  apply ends_bind.
  { destruct l as [l|]; [|reflexivity]. apply ends_bind; [apply en_setup|]. reflexivity. }
  intros _ s1. apply ends_bind; [apply en_basis|]. intros b s2. destruct (Nat.eqb _ 1); [reflexivity|].
  apply ends_bind; [apply en_best|]. intros c s3. apply ends_bind; [apply en_stamps|]. intros p s4.
  destruct (Nat.eqb _ 0); [reflexivity|]. apply ends_bind; [apply en_eig|]. intros e s5.
  destruct (_ && _); reflexivity.
Qed.

Lemma en_afields s : ends (t_kl_afields _ _ _ L) s.
Proof.
  unfold ends, t_kl_afields. apply ends_bind; [destruct (fields s); [reflexivity|apply en_fields]|].
  intros _ s1. apply ends_bind; [reflexivity|]. intros s2 s3. destruct (fields s2); reflexivity.
Qed.

Lemma en_psf l sh s : ends (t_get_variable_psf _ _ _ L l sh) s.
Proof.
  unfold ends, t_get_variable_psf. apply ends_bind; [destruct sh; reflexivity|].
  intros _ s1. apply ends_bind; [reflexivity|]. intros s2 s3. cbn zeta.
  apply ends_bind; [apply en_setup|]. intros _ s4. apply ends_bind; [apply en_fields|]. intros _ s5.
  apply ends_bind; [apply en_afields|]. intros a s6. apply ends_bind; [apply en_basis|]. intros b s7.
  destruct a as [|[|f fs]]; [destruct b|destruct b|]; reflexivity.
Qed.

Lemma en_normal s : ends (t_normal_image _ _ _ L) s.
Proof.
  unfold ends, t_normal_image. destruct (normal s); [reflexivity|].
  apply ends_bind; [apply en_psf|]. intros q s1. reflexivity.
Qed.

Lemma en_shat s : ends (t_s_hat_comp _ _ _ L) s.
Proof.
  unfold ends, t_s_hat_comp. cbn zeta.
  destruct (match shat s with None => true | Some (_, l) => if Req_EM_T l (inf_loss s) then false else true end).
  - apply ends_bind; [apply en_psf|]. intros q s1. apply ends_bind; [apply en_normal|]. intros n s2.
    apply ends_bind; [reflexivity|]. intros s3 s4. reflexivity.
  - destruct (shat s) as [[h l]|]; reflexivity.
Qed.

Lemma en_scomp s : ends (t_s_component _ _ _ L) s.
Proof.
  unfold ends, t_s_component. apply ends_bind.
  { destruct (scomp s); [reflexivity|]. apply ends_bind; [apply en_shat|]. intros h s1. reflexivity. }
  intros _ s1. apply ends_bind; [reflexivity|]. intros s2 s3. destruct (scomp s2) as [[c l]|]; [|reflexivity].
  destruct (Req_EM_T _ _); [reflexivity|]. apply ends_bind; [apply en_shat|]. intros h s4. reflexivity.
Qed.

Lemma en_update new s : ends (t_update_sources _ _ _ L new) s.
Proof.
  unfold ends, t_update_sources. destruct (best s); [|reflexivity].
  apply ends_bind; [reflexivity|]. intros _ s1. destruct new; [reflexivity|].
  apply ends_bind; [apply en_best|]. intros c s2. apply ends_bind; [apply en_n|]. reflexivity.
Qed.

Lemma passed_ends c s : last (passed _ _ _ L c s) s = exec _ _ _ L c s.
Proof.
  destruct c; cbn [passed exec]; unfold void; try reflexivity.
  - rewrite <- er_best. apply en_best.
  - rewrite <- er_stamps. apply en_stamps.
  - rewrite <- er_n. apply en_n.
  - rewrite <- er_cov. apply en_cov.
  - rewrite <- er_eig. apply en_eig.
  - rewrite <- er_basis. apply en_basis.
  - rewrite <- er_afields. apply en_afields.
  - rewrite <- er_psf. apply en_psf.
  - rewrite <- er_normal. apply en_normal.
  - rewrite <- er_shat. apply en_shat.
  - rewrite <- er_scomp. apply en_scomp.
  - rewrite <- er_fields. cbn zeta. set (s1 := set_zp _ _ _ (Some z) s). pose proof (en_fields (Some l) false s1) as E. unfold ends in E.
    change (s1 :: fst (t_setup_kl_a_fields _ _ _ L (Some l) false s1)) with ([s1] ++ fst (t_setup_kl_a_fields _ _ _ L (Some l) false s1)).
    rewrite last_app. exact E.
  - rewrite <- er_update. apply en_update.
Qed.
End Erase.
