(** C116: the stars that [sim_varpsf] places. *)
From Coq Require Import ZArith List Bool Reals String Ascii Lia Lra.
From Verif.Model Require Import Py Plane Simtools.
From Verif.Spec Require Import Simtools Stars.
From Verif.Proof Require Import Simtools SimtoolsMain.
Import ListNotations.
Set Bullet Behavior "Strict Subproofs".
Local Open Scope R_scope.

Lemma linspace_nth n k : (k < n)%nat -> nth_error (linspace n) (n - 1 - k) = Some (brightness n k).
Proof.
  intros H. unfold linspace.
  rewrite nth_error_map.
  assert (E : nth_error (seq 0 n) (n - 1 - k) = Some (n - 1 - k)%nat).
  { rewrite (nth_error_nth' (seq 0 n) 0%nat) by (rewrite seq_length; lia). rewrite seq_nth by lia. reflexivity. }
  rewrite E. cbn [option_map]. unfold brightness. destruct (Nat.eqb_spec n 1) as [|Hn]; [reflexivity|].
  f_equal. rewrite minus_INR by lia.
  assert (INR (n - 1) <> 0) by (apply not_0_INR; lia). field. assumption.
Qed.

Lemma denotes_nat N a b c d : (c < N)%nat -> (d < N)%nat -> (a < N)%nat -> (b < N)%nat ->
  denotes2 N (Z.of_nat c, Z.of_nat d) a b <-> (a, b) = (c, d).
Proof.
  intros Hc Hd Ha Hb. unfold denotes2, denotes. cbn [fst snd]. split.
  - intros H. f_equal; lia.
  - intros [= -> ->]. lia.
Qed.

Section Stars.
Context {G : Type} (default_rng : Z -> G)
  (rng_normal : G -> R -> R -> nat -> plane R * G) (rng_poisson : G -> R -> nat -> plane R * G)
  (rng_integers : G -> R -> R -> nat -> res (list Z) * G)
  (blur : plane R -> R -> R -> R -> R -> plane R).
Hypothesis Hnormal : forall g m s n, shape (fst (rng_normal g m s n)) = (n, n).
Hypothesis Hblur : forall m s xf yf theta, shape (blur m s xf yf theta) = shape m.
Hypothesis Hints : forall g lo hi k l g2, rng_integers g lo hi k = (Ok l, g2) ->
  List.length l = k /\ forall z, In z l -> lo - 1 < IZR z < hi.

Definition quadrant (nstars : nat) (sn theta : R) (N : nat) (p : nat -> nat -> R) : Prop :=
  exists (stars : list (nat * nat)) (m noise : plane R) (gen : G),
    let xf := 5 + 5 * theta / 180 in
    let border := 3 * Rmax xf 5 in
    List.length stars = (nstars / 4)%nat /\
    (forall x y, In (x, y) stars ->
       border - 1 < INR x < INR N - border /\ border - 1 < INR y < INR N - border) /\
    star_map N stars m /\
    let sky := blur m (5 * Rmax xf 5) xf 5 theta in
    noise = fst (rng_normal gen 0 (pmax sky / sn) N) /\
    forall a b, (a < N)%nat -> (b < N)%nat -> p a b = px noise a b + px sky a b + 200.

Lemma star_ok N (mx : R) xs ys : 5 <= mx ->
  List.length xs = List.length ys ->
  (forall z, In z xs -> 3 * mx - 1 < IZR z < INR N - 3 * mx) ->
  (forall z, In z ys -> 3 * mx - 1 < IZR z < INR N - 3 * mx) ->
  exists stars m, combine xs ys = map (fun p => (Z.of_nat (fst p), Z.of_nat (snd p))) stars /\
    List.length stars = List.length xs /\
    (forall x y, In (x, y) stars -> 3 * mx - 1 < INR x < INR N - 3 * mx /\ 3 * mx - 1 < INR y < INR N - 3 * mx) /\
    delta_point N false (Iterator (combine xs ys)) (Some (linspace (List.length xs))) = Ok m /\
    star_map N stars m.
Proof.
  intros Hmx HL Hx Hy.
  set (stars := map (fun p => (Z.to_nat (fst p), Z.to_nat (snd p))) (combine xs ys)).
  assert (Hrange : forall z, 3 * mx - 1 < IZR z < INR N - 3 * mx -> (0 <= z < Z.of_nat N)%Z).
  { intros z Hz. split.
    - apply le_IZR. simpl. lra.
    - apply lt_IZR. rewrite <- INR_IZR_INZ. lra. }
  assert (Hpair : forall x y, In (x, y) (combine xs ys) ->
    (3 * mx - 1 < IZR x < INR N - 3 * mx) /\ (3 * mx - 1 < IZR y < INR N - 3 * mx)).
  { intros x y H. split; [apply Hx|apply Hy].
    - now apply in_combine_l in H.
    - now apply in_combine_r in H. }
  assert (Estars : combine xs ys = map (fun p => (Z.of_nat (fst p), Z.of_nat (snd p))) stars).
  { unfold stars. rewrite map_map. rewrite <- (map_id (combine xs ys)) at 1. apply map_ext_in.
    intros [x y] H. destruct (Hpair x y H) as [H1 H2]. apply Hrange in H1, H2. cbn [fst snd].
    rewrite !Z2Nat.id by lia. reflexivity. }
  assert (Hin : forall x y, In (x, y) stars ->
    (3 * mx - 1 < INR x < INR N - 3 * mx) /\ (3 * mx - 1 < INR y < INR N - 3 * mx)).
  { intros x y H. rewrite !INR_IZR_INZ. rewrite <- !INR_IZR_INZ with (n := N). apply Hpair. rewrite Estars. apply in_map_iff.
    exists (x, y). now split. }
  assert (Hlen : List.length stars = List.length xs).
  { unfold stars. rewrite map_length, combine_length, HL. lia. }
  clearbody stars.
  assert (HinN : forall x y, In (x, y) stars -> (x < N)%nat /\ (y < N)%nat).
  { intros x y H. apply Hin in H. split; apply INR_lt; lra. }
  destruct (C55_delta_weights_lm N (Iterator (combine xs ys)) (linspace (List.length xs))) as (m & Em & Sm & Pm).
  { cbn [pos_items]. rewrite Estars. intros p Hp. apply in_map_iff in Hp. destruct Hp as ([x y] & <- & Hp).
    destruct (HinN x y Hp). exists x, y. apply denotes_nat; auto. }
  { cbn [pos_items]. rewrite Estars, map_length, Hlen. unfold linspace. rewrite map_length, seq_length. lia. }
  exists stars, m. split; [assumption|]. split; [assumption|]. split; [assumption|]. split; [assumption|].
  split; [assumption|]. cbn [pos_items] in Pm. rewrite Estars in Pm.
  assert (Hnth : forall k x y, nth_error (map (fun p => (Z.of_nat (fst p), Z.of_nat (snd p))) stars) k = Some (Z.of_nat x, Z.of_nat y)
     <-> nth_error stars k = Some (x, y)).
  { intros k x y. rewrite nth_error_map. destruct (nth_error stars k) as [[u v]|]; cbn [option_map fst snd]; [|split; discriminate].
    split; [intros [= H1 H2]; f_equal; f_equal; lia|intros [= -> ->]; reflexivity]. }
  assert (Hden : forall k p a b, (a < N)%nat -> (b < N)%nat ->
     nth_error (map (fun p => (Z.of_nat (fst p), Z.of_nat (snd p))) stars) k = Some p ->
     (denotes2 N p a b <-> nth_error stars k = Some (a, b))).
  { intros k p a b Ha Hb. rewrite nth_error_map. destruct (nth_error stars k) as [[u v]|] eqn:E; cbn [option_map fst snd]; [|discriminate].
    intros [= <-]. destruct (HinN u v) as [Hu Hv]; [now apply nth_error_In in E|].
    rewrite denotes_nat by assumption. split; [intros [= -> ->]; reflexivity|intros [= -> ->]; reflexivity]. }
  intros a b Ha Hb. destruct (Pm a b) as [[Hno Hz]|(k & p & Hk & Hd & Hlast & Hv)].
  - split; [intros _; exact Hz|]. intros k Hk _. exfalso.
    apply (Hno k (Z.of_nat a, Z.of_nat b)); [now apply Hnth|]. now apply denotes_nat.
  - pose proof (proj1 (Hden k p a b Ha Hb Hk) Hd) as Hk'. split.
    + intros H. exfalso. apply H. now apply nth_error_In in Hk'.
    + intros k2 Hk2 Hlast2. assert (k2 = k).
      { destruct (Nat.lt_trichotomy k2 k) as [H|[H|H]]; [|assumption|].
        - exfalso. now apply (Hlast2 k H).
        - exfalso. apply (Hlast k2 (Z.of_nat a, Z.of_nat b) H); [now apply Hnth|]. now apply denotes_nat. }
      subst k2. unfold linspace in Hv at 2. rewrite map_length, seq_length in Hv.
      assert (Hkl : (k < List.length xs)%nat) by (rewrite <- Hlen; apply nth_error_Some; congruence).
      rewrite linspace_nth in Hv by assumption. injection Hv as Hv. rewrite Hlen. now symmetry.
Qed.

Lemma one_quadrant st nstars sn theta N seed p st' :
  one_frame default_rng rng_normal rng_poisson rng_integers blur st nstars sn theta N seed = (Ok p, st') ->
  shape p = (N, N) /\ quadrant nstars sn theta N (px p).
Proof.
  unfold one_frame.
  set (xf := 5 + 5 * theta / 180). set (mx := Rmax xf 5).
  destruct (rng_integers _ _ _ _) as [x g1] eqn:E1. destruct x as [xs|]; [|discriminate].
  destruct (rng_integers g1 _ _ _) as [y g2] eqn:E2. destruct y as [ys|]; [|discriminate].
  apply Hints in E1, E2. destruct E1 as [L1 R1]. destruct E2 as [L2 R2].
  destruct (star_ok N mx xs ys) as (stars & m & Es & Hl & Hin & Em & Hm); [apply Rmax_r|congruence|exact R1|exact R2|].
  rewrite Em.
  assert (Sm : shape m = (N, N)) by apply Hm. unfold image. cbn [String.eqb Ascii.eqb Bool.eqb].
  fold mx. set (sky := blur m (5 * mx) xf 5 theta).
  assert (Hst : shape sky = (N, N)) by (unfold sky; now rewrite Hblur).
  destruct (nr sky =? 0)%nat eqn:Z1; [intros [= ]|].
  destruct (nc sky =? 0)%nat eqn:Z2; [intros [= ]|]. cbn [orb].
  match goal with |- context [rng_normal ?gg 0 ?s N] => set (g := gg) end.
  pose proof (Hnormal g 0 (pmax sky / sn) N) as Hn.
  destruct (rng_normal g 0 (pmax sky / sn) N) as [c g3] eqn:En. cbn [fst] in Hn.
  unfold padd3. destruct (ufunc2_same c sky N Hn Hst) as (s & Es' & Ss & Ps). rewrite Es'. cbn [bind].
  intros [= <- _]. split; [exact Ss|]. exists stars, m, c, g. fold xf. fold mx. cbn zeta. fold sky.
  split; [congruence|]. split; [exact Hin|]. split; [exact Hm|]. fold mx. fold sky. split; [now rewrite En|].
  intros a b Ha Hb. cbn [pmap px]. rewrite Ps by assumption. lra.
Qed.

Lemma all_quadrants nstars sn N seed thetas : forall st fs st',
  all_frames default_rng rng_normal rng_poisson rng_integers blur st nstars sn thetas N seed = (Ok fs, st') ->
  List.length fs = List.length thetas /\
  forall k theta p, nth_error thetas k = Some theta -> nth_error fs k = Some p ->
  shape p = (N, N) /\ quadrant nstars sn theta N (px p).
Proof.
  induction thetas as [|theta l IH]; intros st fs st'; cbn [all_frames].
  - intros [= <- _]. split; [reflexivity|]. intros [|k] ? ?; discriminate.
  - destruct (one_frame _ _ _ _ _ st nstars sn theta N seed) as [f st1] eqn:E1.
    destruct f as [p|]; [|discriminate].
    destruct (all_frames _ _ _ _ _ st1 nstars sn l N seed) as [fs' st2] eqn:E2.
    destruct fs' as [ps|]; [|discriminate]. intros [= <- _].
    destruct (IH _ _ _ E2) as [HL HF]. split; [simpl; congruence|].
    intros [|k] th q; simpl.
    + intros [= <-] [= <-]. now apply one_quadrant in E1.
    + apply HF.
Qed.

Lemma sim_quadrants g nstars sn thetas N seed frame g' :
  sim_varpsf default_rng rng_normal rng_poisson rng_integers blur g nstars sn thetas N seed = (Ok frame, g') ->
  forall i j theta, (i < 2)%nat -> (j < 2)%nat -> nth_error thetas (i + 2 * j) = Some theta ->
  quadrant nstars sn theta N (fun a b => px frame (i * N + a) (j * N + b)).
Proof.
  unfold sim_varpsf.
  destruct (all_frames _ _ _ _ _ _ nstars sn thetas N seed) as [fs st] eqn:E.
  destruct fs as [ps|]; [|discriminate]. cbn [bind]. intros [= Ht _].
  destruct (all_quadrants _ _ _ _ _ _ _ _ E) as [HL HF].
  assert (Hsh : forall q, In q ps -> shape q = (N, N)).
  { intros q Hq. apply In_nth_error in Hq. destruct Hq as [k Hk].
    assert (Hkl : (k < List.length thetas)%nat) by (rewrite <- HL; apply nth_error_Some; congruence).
    apply nth_error_Some in Hkl. destruct (nth_error thetas k) as [th|] eqn:Eth; [|congruence].
    now apply (HF k th q). }
  destruct (le_lt_dec 4 (List.length ps)) as [H4|H4].
  2:{ rewrite tile_few in Ht by assumption. discriminate. }
  destruct ps as [|q0 [|q1 [|q2 [|q3 more]]]]; try (simpl in H4; lia).
  destruct (C57_tile_lm N q0 q1 q2 q3 more) as (f & Ef & Sf & Pf); [apply Hsh; simpl; tauto..|].
  rewrite Ef in Ht. injection Ht as <-.
  intros i j theta Hi Hj Hth.
  assert (Hq : exists q, nth_error (q0 :: q1 :: q2 :: q3 :: more) (i + 2 * j) = Some q /\
     forall a b, (a < N)%nat -> (b < N)%nat -> px f (i * N + a) (j * N + b) = px q a b).
  { destruct i as [|[|i]]; [| |lia]; (destruct j as [|[|j]]; [| |lia]); simpl.
    - exists q0. split; [reflexivity|]. intros a b Ha Hb. apply Pf; assumption.
    - exists q2. split; [reflexivity|]. intros a b Ha Hb. rewrite Nat.add_0_r. apply Pf; assumption.
    - exists q1. split; [reflexivity|]. intros a b Ha Hb. rewrite Nat.add_0_r. apply Pf; assumption.
    - exists q3. split; [reflexivity|]. intros a b Ha Hb. rewrite Nat.add_0_r. apply Pf; assumption. }
  destruct Hq as (q & Hq & Hpx).
  destruct (HF _ _ _ Hth Hq) as (_ & stars & m & noise & gen & Hl & Hin & Hm & Hno & Hv).
  exists stars, m, noise, gen. cbn zeta in *.
  split; [assumption|]. split; [assumption|]. split; [assumption|]. split; [assumption|].
  intros a b Ha Hb. rewrite Hpx by assumption. now apply Hv.
Qed.
End Stars.

(** C116: whenever sim_varpsf returns a frame, every quadrant is a field of nstars//4 stars,
    at least about three widths away from the border of the quadrant, of evenly spaced
    brightness from 10000 down to 100, blurred with the PSF of the angle, on a bias of
    200, with noise. *)
Lemma C116_stars_lm : forall (G : Type) (default_rng : Z -> G)
  (rng_normal : G -> R -> R -> nat -> plane R * G) (rng_poisson : G -> R -> nat -> plane R * G)
  (rng_integers : G -> R -> R -> nat -> res (list Z) * G)
  (blur : plane R -> R -> R -> R -> R -> plane R)
  (g : G) (nstars : nat) (sn : R) (thetas : list R) (N : nat) (seed : option Z) (frame : plane R) (g' : G),
  (forall g m s n, shape (fst (rng_normal g m s n)) = (n, n)) ->
  (forall m s xf yf theta, shape (blur m s xf yf theta) = shape m) ->
  (forall g lo hi k l g2, rng_integers g lo hi k = (Ok l, g2) ->
     List.length l = k /\ forall z, In z l -> lo - 1 < IZR z < hi) ->
  sim_varpsf default_rng rng_normal rng_poisson rng_integers blur g nstars sn thetas N seed = (Ok frame, g') ->
  forall i j theta, (i < 2)%nat -> (j < 2)%nat -> nth_error thetas (i + 2 * j) = Some theta ->
  exists (stars : list (nat * nat)) (m noise : plane R) (gen : G),
    let xf := 5 + 5 * theta / 180 in
    let border := 3 * Rmax xf 5 in
    List.length stars = (nstars / 4)%nat /\
    (forall x y, In (x, y) stars ->
       border - 1 < INR x < INR N - border /\ border - 1 < INR y < INR N - border) /\
    star_map N stars m /\
    let sky := blur m (5 * Rmax xf 5) xf 5 theta in
    noise = fst (rng_normal gen 0 (pmax sky / sn) N) /\
    forall a b, (a < N)%nat -> (b < N)%nat ->
      px frame (i * N + a) (j * N + b) = px noise a b + px sky a b + 200.
Proof.
  intros G default_rng rng_normal rng_poisson rng_integers blur g nstars sn thetas N seed frame g' Hn Hb Hi H.
  exact (sim_quadrants default_rng rng_normal rng_poisson rng_integers blur Hn Hb Hi _ _ _ _ _ _ _ _ H).
Qed.

(** C116: when the border leaves no room the frame cannot be made. *)
Lemma C116_no_room_lm : forall (G : Type) (default_rng : Z -> G)
  (rng_normal : G -> R -> R -> nat -> plane R * G) (rng_poisson : G -> R -> nat -> plane R * G)
  (rng_integers : G -> R -> R -> nat -> res (list Z) * G)
  (blur : plane R -> R -> R -> R -> R -> plane R)
  (g : G) (nstars : nat) (sn : R) (thetas : list R) (N : nat) (seed : option Z) (theta : R),
  (forall g lo hi k, (1 <= k)%nat -> hi <= lo -> fst (rng_integers g lo hi k) = Raise ValueError) ->
  (4 <= nstars)%nat -> In theta (firstn 1 thetas) -> INR N <= 6 * Rmax (5 + 5 * theta / 180) 5 ->
  fst (sim_varpsf default_rng rng_normal rng_poisson rng_integers blur g nstars sn thetas N seed)
  = Raise ValueError.
Proof.
  intros G default_rng rng_normal rng_poisson rng_integers blur g nstars sn thetas N seed theta Hr H4 Hin HN.
  assert (Hk : (1 <= nstars / 4)%nat) by (apply Nat.div_le_lower_bound; lia).
  destruct thetas as [|th l]; [destruct Hin|]. destruct Hin as [->|[]].
  unfold sim_varpsf. cbn [all_frames]. unfold one_frame.
  match goal with |- context [rng_integers ?gg ?lo ?hi ?k] =>
    pose proof (Hr gg lo hi k Hk ltac:(lra)) as E; destruct (rng_integers gg lo hi k) as [x g1] end.
  cbn [fst] in E. subst x. reflexivity.
Qed.

(** Beside C116: a seeded run with 8 stars at fixed positions, without noise or blur, on
    quadrants of 64 pixels. *)
Lemma C116_case_lm :
  exists (ints : Z -> R -> R -> nat -> res (list Z) * Z) (frame : plane R) (g' : Z),
  (forall g lo hi k l g2, ints g lo hi k = (Ok l, g2) ->
     List.length l = k /\ forall z, In z l -> lo - 1 < IZR z < hi) /\
  (forall g lo hi k, (1 <= k)%nat -> hi <= lo -> fst (ints g lo hi k) = Raise ValueError) /\
  sim_varpsf (fun s => s) (fun g _ _ n => (pconst (n, n) 0, g)) (fun g _ n => (pconst (n, n) 0, g))
    ints (fun m _ _ _ _ => m) 0%Z 8 30 [0; 0; 0; 0] 64 (Some 1%Z) = (Ok frame, g') /\
  (8 / 4 = 2)%nat.
Proof.
  set (ints := fun (g : Z) lo hi k =>
    if Rlt_dec 20 hi then if Rle_dec lo 20 then (Ok (repeat 20%Z k), g) else (Raise ValueError, g)
    else (Raise ValueError, g)). exists ints.
  assert (HI : forall g lo hi k l g2, ints g lo hi k = (Ok l, g2) ->
     List.length l = k /\ forall z, In z l -> lo - 1 < IZR z < hi).
  { intros g lo hi k l g2. unfold ints. destruct (Rlt_dec 20 hi); [|discriminate]. destruct (Rle_dec lo 20); [|discriminate].
    intros [= <- _]. split; [apply repeat_length|]. intros z Hz. apply repeat_spec in Hz. subst z. simpl. lra. }
  assert (HR : forall g lo hi k, (1 <= k)%nat -> hi <= lo -> fst (ints g lo hi k) = Raise ValueError).
  { intros g lo hi k _ H. unfold ints. destruct (Rlt_dec 20 hi); [|reflexivity]. destruct (Rle_dec lo 20); [lra|reflexivity]. }
  assert (Hone : forall st, exists p st', one_frame (fun s => s) (fun g _ _ n => (pconst (n, n) 0, g)) (fun g _ n => (pconst (n, n) 0, g))
    ints (fun m _ _ _ _ => m) st 8 30 0 64 (Some 1%Z) = (Ok p, st') /\ shape p = (64, 64)%nat).
  { intros st. unfold one_frame. assert (Emx : Rmax (5 + 5 * 0 / 180) 5 = 5) by (rewrite Rmax_right; lra). rewrite Emx.
    assert (EI : forall g, ints g (3 * 5) (INR 64 - 3 * 5) (8 / 4)%nat = (Ok [20; 20]%Z, g)).
    { intros g. unfold ints. assert (INR 64 = 64) by (rewrite INR_IZR_INZ; reflexivity).
      destruct (Rlt_dec 20 (INR 64 - 3 * 5)); [|lra]. destruct (Rle_dec (3 * 5) 20); [|lra]. reflexivity. }
    rewrite EI. rewrite EI.
    destruct (star_ok 64 5 [20; 20]%Z [20; 20]%Z) as (stars & m & _ & _ & _ & Em & Sm & _);
      [lra|reflexivity|..].
    1,2: intros z [<-|[<-|[]]]; rewrite INR_IZR_INZ; simpl; lra.
    rewrite Em. unfold image. cbn [String.eqb Ascii.eqb Bool.eqb].
    injection Sm as Sm1 Sm2. rewrite Sm1, Sm2. cbn [Nat.eqb orb]. unfold padd3.
    destruct (ufunc2_same (pconst (64, 64)%nat 0) m 64) as (s & Es & Ss & _);
      [reflexivity|unfold shape; now rewrite Sm1, Sm2|].
    rewrite Es. cbn [bind]. eexists; eexists. split; [reflexivity|exact Ss]. }
  unfold sim_varpsf. cbn [all_frames option_map].
  destruct (Hone (Some 1%Z, 0%Z)) as (p0 & s0 & -> & S0).
  destruct (Hone s0) as (p1 & s1 & -> & S1).
  destruct (Hone s1) as (p2 & s2 & -> & S2).
  destruct (Hone s2) as (p3 & s3 & -> & S3).
  destruct (C57_tile_lm 64 p0 p1 p2 p3 []) as (f & Ef & _ & _); [assumption..|].
  exists f, (snd s3). split; [exact HI|]. split; [exact HR|]. split; [|reflexivity].
  cbn [bind snd]. rewrite Ef. reflexivity.
Qed.
