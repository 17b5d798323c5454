(** The unit of the pixels: [k] times the image. *)
From Coq Require Import ZArith List Bool Arith Reals Lia Lra FunctionalExtensionality SpecFloat.
From Flocq Require Import Core.Core IEEE754.BinarySingleNaN.
From Coquelicot Require Import Complex.
From Verif.Model Require Import Py Plane Ma Image Interp FindS Sources Stamps KL Session Filter Transparency Subtract Chain.
From Verif.Spec Require Import Image Chain Session.
From Verif.Proof Require Import Chain.
Import ListNotations.
Set Bullet Behavior "Strict Subproofs".
Local Open Scope R_scope.

Section Scale.
Variable k : R.
Hypothesis Kp : 0 < k.

Notation mul := (fun x => k * x).
Notation times := (pmap (option_map (fun x => k * x))).

Lemma Rle_scale x y : k * x <= k * y <-> x <= y.
Proof. split; [apply Rmult_le_reg_l; lra|apply Rmult_le_compat_l; lra]. Qed.
Lemma Rlt_scale x y : k * x < k * y <-> x < y.
Proof. split; [apply Rmult_lt_reg_l; lra|apply Rmult_lt_compat_l; lra]. Qed.

Lemma insert_scale x l : insertR (k * x) (map mul l) = map mul (insertR x l).
Proof.
  induction l as [|y t IH]; [reflexivity|]. cbn [insertR map].
  destruct (Rle_dec (k * x) (k * y)) as [H|H], (Rle_dec x y) as [H'|H'].
  - reflexivity.
  - exfalso; apply H'; now apply (proj1 (Rle_scale _ _)).
  - exfalso; apply H; now apply (proj2 (Rle_scale _ _)).
  - cbn. now rewrite IH.
Qed.

Lemma sort_scale l : sortR (map mul l) = map mul (sortR l).
Proof.
  induction l as [|x t IH]; [reflexivity|]. unfold sortR in *. cbn [map fold_right]. rewrite IH.
  apply insert_scale.
Qed.

Lemma nth_scale n l d : nth n (map mul l) (k * d) = k * nth n l d.
Proof. apply (map_nth mul). Qed.
Lemma nth_scale0 n l : nth n (map mul l) 0 = k * nth n l 0.
Proof. rewrite <- nth_scale. now rewrite Rmult_0_r. Qed.

Lemma percentile_scale q l : percentile q (map mul l) = k * percentile q l.
Proof.
  unfold percentile. rewrite sort_scale, map_length, nth_scale0. rewrite nth_scale. ring.
Qed.

Lemma median_scale l : Stamps.median (map mul l) = k * Stamps.median l.
Proof. unfold Stamps.median. rewrite sort_scale, map_length, !nth_scale0. field. Qed.

Lemma sumR_scale l : sumR (map mul l) = k * sumR l.
Proof.
  induction l as [|x t IH]; [cbn; ring|].
  change (k * x + sumR (map mul t) = k * (x + sumR t)). rewrite IH. ring.
Qed.

Lemma meanR_scale l : meanR (map mul l) = k * meanR l.
Proof. unfold meanR. rewrite sumR_scale, map_length. unfold Rdiv. ring. Qed.

Lemma stdR_scale l : stdR (map mul l) = k * stdR l.
Proof.
  unfold stdR. rewrite meanR_scale, map_map.
  replace (map (fun x => (k * x - k * meanR l) * (k * x - k * meanR l)) l)
    with (map (fun x => k * k * x) (map (fun x => (x - meanR l) * (x - meanR l)) l)).
  2:{ rewrite map_map. apply map_ext. intros a. ring. }
  set (l' := map (fun x => (x - meanR l) * (x - meanR l)) l).
  assert (M : meanR (map (fun x => k * k * x) l') = k * k * meanR l').
  { unfold meanR. rewrite map_length. replace (sumR (map (fun x => k * k * x) l')) with (k * k * sumR l').
    - unfold Rdiv. ring.
    - clear. induction l' as [|x t IH]; [cbn; ring|].
      change (k * k * (x + sumR t) = k * k * x + sumR (map (fun x => k * k * x) t)). rewrite <- IH. ring. }
  rewrite M, sqrt_mult_alt by nra. rewrite sqrt_square by lra. reflexivity.
Qed.

Lemma Rmin_scale x y : Rmin (k * x) (k * y) = k * Rmin x y.
Proof.
  unfold Rmin. destruct (Rle_dec (k * x) (k * y)) as [H|H], (Rle_dec x y) as [H'|H']; try reflexivity.
  - exfalso. apply H'. now apply (proj1 (Rle_scale _ _)).
  - exfalso. apply H. now apply (proj2 (Rle_scale _ _)).
Qed.

Lemma minR_scale l : minR (map mul l) = k * minR l.
Proof.
  destruct l as [|x t]; [cbn; ring|]. cbn [map minR]. induction t as [|y t IH]; [reflexivity|].
  cbn [map fold_right]. rewrite IH. apply Rmin_scale.
Qed.

Lemma Rabs_scale x : Rabs (k * x) = k * Rabs x.
Proof. rewrite Rabs_mult, (Rabs_right k) by lra. reflexivity. Qed.

(** ** Sources *)

Lemma Rleb_scale x y : Rleb (k * x) (k * y) = Rleb x y.
Proof.
  unfold Rleb. destruct (Rle_dec (k * x) (k * y)) as [H|H], (Rle_dec x y) as [H'|H']; try reflexivity.
  - exfalso. apply H'. now apply (proj1 (Rle_scale _ _)).
  - exfalso. apply H. now apply (proj2 (Rle_scale _ _)).
Qed.

Lemma good_scale srcs s : Sources.good (map (brighter k) srcs) (brighter k s) = Sources.good srcs s.
Proof.
  unfold Sources.good.
  replace (map (fun t => INR (s_npix t)) (map (brighter k) srcs)) with (map (fun t => INR (s_npix t)) srcs)
    by (rewrite map_map; reflexivity).
  replace (map s_flux (map (brighter k) srcs)) with (map mul (map s_flux srcs)) by (rewrite !map_map; reflexivity).
  rewrite !percentile_scale. cbn [s_npix s_flag s_flux brighter]. f_equal; [f_equal|].
  - apply Rleb_scale.
  - apply Rleb_scale.
Qed.

Lemma filter_scale srcs l : filter (Sources.good (map (brighter k) srcs)) (map (brighter k) l) =
  map (brighter k) (filter (Sources.good srcs) l).
Proof.
  induction l as [|s t IH]; [reflexivity|]. cbn [map filter]. rewrite good_scale.
  destruct (Sources.good srcs s); cbn [map]; now rewrite IH.
Qed.

Lemma select_scale choice srcs :
  Sources.select choice (map (brighter k) srcs) = map (brighter k) (Sources.select choice srcs).
Proof.
  unfold Sources.select. rewrite filter_scale, map_length.
  set (best := filter (Sources.good srcs) srcs).
  replace (if (length best <? 5)%nat then map (brighter k) srcs else map (brighter k) best)
    with (map (brighter k) (if (length best <? 5)%nat then srcs else best)) by (now destruct (length best <? 5)%nat).
  set (l := if (length best <? 5)%nat then srcs else best). rewrite map_length.
  destruct (MAX_SRCS_LIMIT <? length l)%nat; [|reflexivity].
  rewrite map_map. apply map_ext. intros n.
  replace (mksrc 0 0 0 0 0) with (brighter k (mksrc 0 0 0 0 0)) at 1 by (unfold brighter; cbn; now rewrite Rmult_0_r).
  apply map_nth.
Qed.

Definition rmap {A B} (f : A -> B) (r : res A) : res B :=
  match r with Ok x => Ok (f x) | Raise e => Raise e end.

Definition scale_attempts (a : attempts) : attempts :=
  let f := rmap (map (brighter k)) in
  mkattempts (f (at_default a)) (f (at_high a)) (f (at_low5 a)) (f (at_low9 a)).

Lemma orelse_scale {A B} (f : A -> B) a b : orelse (rmap f a) (rmap f b) = rmap f (orelse a b).
Proof. now destruct a. Qed.

Lemma detect_scale a mn : detect (scale_attempts a) mn = rmap (map (brighter k)) (detect a mn).
Proof.
  unfold detect. cbn [scale_attempts at_default at_high at_low5 at_low9]. rewrite !orelse_scale.
  destruct (orelse (at_default a) (at_high a)) as [srcs|e]; [|reflexivity]. cbn [rmap bind].
  rewrite map_length. destruct (Z.of_nat (length srcs) <? mn)%Z.
  - destruct (orelse (at_low5 a) (at_low9 a)) as [low|e]; [|reflexivity]. cbn [rmap bind].
    rewrite !map_length. destruct (length low <? length srcs)%nat.
    + destruct srcs as [|x [|y t]]; reflexivity.
    + destruct low as [|x [|y t]]; reflexivity.
  - cbn [bind]. destruct srcs as [|x [|y t]]; reflexivity.
Qed.

Lemma best_sources_scale choice a mn :
  Sources.best_sources choice (scale_attempts a) mn = rmap (map (brighter k)) (Sources.best_sources choice a mn).
Proof.
  unfold Sources.best_sources. rewrite detect_scale. destruct (detect a mn) as [l|e]; [|reflexivity].
  cbn [rmap bind]. now rewrite select_scale.
Qed.

Lemma default_side_scale srcs : default_side (map (brighter k) srcs) = default_side srcs.
Proof. unfold default_side. rewrite map_map. reflexivity. Qed.

(** ** Stamps *)

Notation ktimes := (pmap (fun x => k * x)).

Lemma pmap_pmap {A B D} (f : A -> B) (g : B -> D) p : pmap g (pmap f p) = pmap (fun x => g (f x)) p.
Proof. reflexivity. Qed.

Lemma values_pmap {A B} (f : A -> B) p : values (pmap f p) = map f (values p).
Proof. unfold values, all_cells. cbn [nr nc pmap]. now rewrite map_map. Qed.

Lemma extract_array_scale img fill sh pos :
  extract_array (ktimes img) (k * fill) sh pos = rmap ktimes (extract_array img fill sh pos).
Proof.
  unfold extract_array. cbn [nr nc pmap]. destruct (_ || _); [reflexivity|]. cbn [rmap]. f_equal.
  apply plane_ext; [reflexivity|]. intros i j. cbn [px pmap]. now destruct (_ && _).
Qed.

Lemma margins_scale p : margins (ktimes p) = map mul (margins p).
Proof. unfold margins. cbn [nr nc px pmap]. now rewrite !map_app, !map_map. Qed.

Lemma check_margin_scale rms p : check_margin (k * rms) (ktimes p) = check_margin rms p.
Proof.
  unfold check_margin. rewrite margins_scale, meanR_scale, stdR_scale.
  set (m := meanR (margins p)). set (s := stdR (margins p)).
  assert (E : forall a b, (if Rlt_dec (k * a) (k * b) then true else false) = (if Rlt_dec a b then true else false)).
  { intros a b. destruct (Rlt_dec (k * a) (k * b)) as [H|H], (Rlt_dec a b) as [H'|H']; try reflexivity.
    - exfalso. apply H'. now apply (proj1 (Rlt_scale _ _)).
    - exfalso. apply H. now apply (proj2 (Rlt_scale _ _)). }
  replace (MARGIN_CHECK_THRESHOLD * (k * rms)) with (k * (MARGIN_CHECK_THRESHOLD * rms)) by ring.
  replace (k * m + k * s) with (k * (m + s)) by ring. replace (k * m - k * s) with (k * (m - s)) by ring.
  now rewrite !E.
Qed.

Lemma grow_scale fuel img rms sh pos cur sub :
  grow fuel (ktimes img) (k * rms) sh pos cur (ktimes sub) =
  option_map (rmap ktimes) (grow fuel img rms sh pos cur sub).
Proof.
  revert cur sub. induction fuel as [|fuel IH]; intros cur sub; [reflexivity|].
  cbn [grow]. cbn [nr nc pmap]. destruct (_ || _); [reflexivity|]. rewrite check_margin_scale, extract_array_scale.
  destruct (extract_array img rms _ pos) as [sub'|e]; [|reflexivity]. cbn [rmap].
  destruct (if Nat.leb 6 _ then false else _); [apply IH|reflexivity].
Qed.

Lemma if_lt_scale a b : (if Rlt_dec (k * a) (k * b) then true else false) = (if Rlt_dec a b then true else false).
Proof.
  destruct (Rlt_dec (k * a) (k * b)) as [H|H], (Rlt_dec a b) as [H'|H']; try reflexivity.
  - exfalso. apply H'. now apply (proj1 (Rlt_scale _ _)).
  - exfalso. apply H. now apply (proj2 (Rlt_scale _ _)).
Qed.

Lemma filter_lt_scale c l : filter (fun x => if Rlt_dec x (k * c) then true else false) (map mul l) =
  map mul (filter (fun x => if Rlt_dec x c then true else false) l).
Proof.
  induction l as [|x t IH]; [reflexivity|]. cbn [map filter]. rewrite if_lt_scale.
  destruct (Rlt_dec x c); cbn [map]; now rewrite IH.
Qed.

Lemma subtract_level_scale sub :
  subtract_level (ktimes sub) = option_map ktimes (subtract_level sub).
Proof.
  unfold subtract_level. rewrite (values_pmap (fun x => k * x) sub), minR_scale, Rabs_scale.
  set (a := Rabs (minR (values sub))).
  replace (pmap (fun x => x + k * a) (ktimes sub)) with (ktimes (pmap (fun x => x + a) sub)).
  2:{ apply plane_ext; [reflexivity|]. intros i j. cbn. ring. }
  set (sub1 := pmap (fun x => x + a) sub). rewrite (values_pmap (fun x => k * x) sub1).
  replace (map Rabs (map mul (values sub1))) with (map mul (map Rabs (values sub1))).
  2:{ rewrite !map_map. apply map_ext. intros x. now rewrite Rabs_scale. }
  rewrite percentile_scale, filter_lt_scale.
  destruct (filter _ (values sub1)) as [|x t] eqn:E; [reflexivity|].
  change (map mul (x :: t)) with (k * x :: map mul t) at 1. cbv iota.
  cbn [option_map]. f_equal. apply plane_ext; [reflexivity|]. intros i j. cbn [px pmap].
  change (k * x :: map mul t) with (map mul (x :: t)). rewrite median_scale. ring.
Qed.

Lemma zero_scale t : k * t = 0 <-> t = 0.
Proof. split; intros H; nra. Qed.

Lemma if_zero_scale {A} t (a b : A) : (if Req_EM_T (k * t) 0 then a else b) = (if Req_EM_T t 0 then a else b).
Proof.
  destruct (Req_EM_T (k * t) 0) as [H|H], (Req_EM_T t 0) as [H'|H']; try reflexivity.
  - exfalso. apply H'. now apply zero_scale.
  - exfalso. apply H. now apply zero_scale.
Qed.

Lemma unit_sum_scale p : unit_sum (ktimes p) = unit_sum p.
Proof.
  unfold unit_sum. rewrite (values_pmap (fun x => k * x) p), sumR_scale. rewrite pmap_pmap.
  set (t := sumR (values p)). apply plane_ext; [reflexivity|]. intros i j. cbn [px pmap].
  rewrite if_zero_scale. destruct (Req_EM_T t 0) as [Z|Z]; [reflexivity|]. f_equal. field. split; lra.
Qed.

Lemma strict_scale stats label o : strict stats label (option_map ktimes o) = strict stats label o.
Proof.
  destruct o as [p|]; [|reflexivity]. cbn [option_map strict].
  rewrite (values_pmap (fun x => k * x) p), sumR_scale. set (t := sumR (values p)).
  rewrite if_zero_scale. destruct (Req_EM_T t 0) as [Z|Z].
  - assert (E : forall l, existsb (fun x => if Req_EM_T x 0 then true else false) (map mul l) =
                 existsb (fun x => if Req_EM_T x 0 then true else false) l).
    { induction l as [|x l IH]; [reflexivity|]. cbn [map existsb]. now rewrite if_zero_scale, IH. }
    now rewrite E.
  - f_equal. rewrite pmap_pmap. apply plane_ext; [reflexivity|]. intros i j. cbn [px pmap]. field. split; lra.
Qed.

Lemma one_stamp_scale stats label pk img rms sh s :
  one_stamp stats label pk (ktimes img) (k * rms) sh (brighter k s) = one_stamp stats label pk img rms sh s.
Proof.
  unfold one_stamp. cbn [s_x s_y brighter]. rewrite extract_array_scale.
  destruct (extract_array img rms sh _) as [sub0|e]; [|reflexivity]. cbn [rmap bind]. rewrite grow_scale.
  destruct (grow 4 img rms sh _ sh sub0) as [[sub|e]|]; [|reflexivity|reflexivity].
  cbn [option_map rmap bind]. cbn [nr nc pmap]. destruct (negb _); [reflexivity|].
  rewrite subtract_level_scale, strict_scale.
  replace (match option_map ktimes (subtract_level sub) with
           | Some p => unit_sum p
           | None => pmap (fun _ => None) (ktimes sub)
           end) with
          (match subtract_level sub with Some p => unit_sum p | None => pmap (fun _ => None) sub end).
  - reflexivity.
  - destruct (subtract_level sub); cbn [option_map]; [now rewrite unit_sum_scale|reflexivity].
Qed.

Lemma dump_loop_scale W pk img rms sh srcs jj :
  dump_loop W pk (ktimes img) (k * rms) sh (map (brighter k) srcs) jj = dump_loop W pk img rms sh srcs jj.
Proof.
  revert jj. induction srcs as [|s t IH]; intros jj; [reflexivity|]. cbn [map dump_loop].
  rewrite one_stamp_scale, IH. reflexivity.
Qed.

Lemma np_delete_map {A B} (f : A -> B) ks l n : np_delete n ks (map f l) = map f (np_delete n ks l).
Proof.
  revert n. induction l as [|a t IH]; intros n; [reflexivity|]. cbn [map np_delete].
  destruct (existsb _ _); [apply IH|]. cbn. now rewrite IH.
Qed.

Lemma extract_for_scale W pk img rms sh srcs :
  extract_for W pk (ktimes img) (k * rms) sh (map (brighter k) srcs) =
  (fst (extract_for W pk img rms sh srcs),
   rmap (fun pc => (fst pc, map (brighter k) (snd pc))) (snd (extract_for W pk img rms sh srcs))).
Proof.
  unfold extract_for. rewrite dump_loop_scale. destruct (dump_loop W pk img rms sh srcs 0) as [stamps [[pos del]|e]];
    [|reflexivity].
  cbn [fst snd bind rmap]. rewrite map_length, np_delete_map. now destruct (Nat.leb 15 _).
Qed.

(** ** From the pixels *)

Variable W : libs.
Hypothesis blind : sep_skips_masked W.
Hypothesis free : unit_free W.

Definition kback (b : backobj) : backobj := mkbackobj (ktimes (b_back b)) (k * b_rms b).

Lemma set_bkg_scale o d d' : sane d -> sane d' -> tied (fun x => k * x) d d' ->
  set_bkg W o d' = rmap kback (set_bkg W o d).
Proof.
  intros I I' T. rewrite (set_bkg_tied W blind (fun x => k * x) kback o d d' I I' T); [reflexivity|].
  intros p m. apply (free k Kp).
Qed.

Lemma sub_data_scale d d' b : tied (fun x => k * x) d d' ->
  same_off (m_msk d) (times (sub_data d b)) (sub_data d' (kback b)).
Proof.
  intros (M & S & V). unfold shape in S. injection S as Sr Sc. split.
  - unfold sub_data, tidy, shape. cbn. now rewrite Sr, Sc.
  - intros i j _ _ N. unfold sub_data, tidy. cbn [px nr nc pmap]. rewrite <- Sr, <- Sc, <- M, N, (V i j N).
    destruct ((i <? nr (m_dat d))%nat && (j <? nc (m_dat d))%nat); [|reflexivity].
    destruct (px (m_dat d) i j) as [x|]; [|reflexivity]. cbn. f_equal. ring.
Qed.

Lemma failed_rmap {A B} (f : A -> B) r : failed (rmap f r) = failed r.
Proof. now destruct r. Qed.

Lemma attempts_scale st d d' b : tied (fun x => k * x) d d' ->
  attempts_of W st d' (kback b) = scale_attempts (attempts_of W st d b).
Proof.
  intros T. pose proof (sub_data_scale _ _ b T) as E. destruct T as (M & _).
  assert (C : forall s q n, l_extract W s (sub_data d' (kback b)) (q * b_rms (kback b)) (m_msk d') n =
                 rmap (map (brighter k)) (l_extract W s (sub_data d b) (q * b_rms b) (m_msk d) n)).
  { intros s q n. rewrite <- M. rewrite <- (proj2 blind s (m_msk d) _ _ _ n E). cbn [kback b_rms].
    replace (q * (k * b_rms b)) with (k * (q * b_rms b)) by ring.
    destruct (free k Kp) as (_ & X & _). rewrite X. reflexivity. }
  unfold attempts_of. rewrite !C, failed_rmap. unfold scale_attempts. cbn [at_default at_high at_low5 at_low9].
  reflexivity.
Qed.

Lemma catalogue_scale st mn d d' b : tied (fun x => k * x) d d' ->
  catalogue W st mn d' (kback b) = rmap (map (brighter k)) (catalogue W st mn d b).
Proof. intros T. unfold catalogue. rewrite (attempts_scale st d d' b T). apply best_sources_scale. Qed.

Lemma any_nan_times p : any_nan (times p) = any_nan p.
Proof.
  unfold any_nan. cbn [nr nc px pmap].
  assert (E : forall x : option R, is_nan (option_map mul x) = is_nan x) by (now intros [x|]).
  assert (F : forall (f g : nat -> bool) l, (forall x, f x = g x) -> existsb f l = existsb g l).
  { intros f g l H. induction l as [|x l IH]; [reflexivity|]. cbn. now rewrite H, IH. }
  apply F. intros i. apply F. intros j. apply E.
Qed.

Lemma replace_nans_scale p : replace_nans (l_conv W) (times p) = times (replace_nans (l_conv W) p).
Proof.
  unfold replace_nans. rewrite any_nan_times. destruct (any_nan p); [|reflexivity].
  destruct (free k Kp) as (_ & _ & C). rewrite C. apply plane_ext; [reflexivity|]. intros i j. cbn [px pmap].
  now destruct (px p i j).
Qed.

Lemma replace_loop_scale fuel p :
  replace_loop fuel (l_conv W) (times p) = option_map (fun q => times q) (replace_loop fuel (l_conv W) p).
Proof.
  revert p. induction fuel as [|fuel IH]; intros p; [reflexivity|]. cbn [replace_loop].
  rewrite any_nan_times, replace_nans_scale. destruct (any_nan p); [apply IH|reflexivity].
Qed.

Lemma clean_scale fuel d d' b : tied (fun x => k * x) d d' ->
  clean W fuel d' (kback b) = option_map (fun q => ktimes q) (clean W fuel d b).
Proof.
  intros (M & S & V). unfold clean, Interp.interped.
  replace (filled_nan (bkg_sub_img d' (b_back (kback b)))) with (times (filled_nan (bkg_sub_img d (b_back b)))).
  - rewrite replace_nans_scale, replace_loop_scale.
    destruct (replace_loop fuel (l_conv W) _) as [q|]; [|reflexivity]. cbn [option_map]. f_equal.
    apply plane_ext; [reflexivity|]. intros i j. unfold tidy. cbn [px pmap nr nc].
    destruct (_ && _); [|ring]. destruct (px q i j); cbn; ring.
  - apply plane_ext.
    + unfold filled_nan, bkg_sub_img, pmap2, shape. cbn. unfold shape in S. now injection S as -> ->.
    + intros i j. unfold filled_nan, bkg_sub_img, pmap2. cbn [px pmap m_dat m_msk]. rewrite <- M.
      destruct (px (m_msk d) i j) eqn:N; [reflexivity|]. rewrite (V i j N).
      destruct (px (m_dat d) i j) as [x|]; [|reflexivity]. cbn. f_equal. ring.
Qed.
End Scale.
