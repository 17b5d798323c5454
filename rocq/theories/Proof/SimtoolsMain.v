(** C55-C58, C76, C78: point sources, cartesian products, tiling, file names. *)
From Coq Require Import ZArith List Bool Reals String Ascii Lia Lra DecimalString DecimalZ DecimalPos.
From Verif.Model Require Import Py Plane Simtools.
From Verif.Spec Require Import Simtools.
From Verif.Proof Require Import Simtools.
Import ListNotations.
Set Bullet Behavior "Strict Subproofs".
Local Open Scope R_scope.

(** ** delta_point *)

Lemma pyget_end {A} (w : list A) s : (s < List.length w)%nat ->
  exists v, pyget w (-1 - Z.of_nat s) = Ok v /\ nth_error w (List.length w - 1 - s) = Some v.
Proof.
  intros H. unfold pyget.
  assert (E : py_index (Z.of_nat (List.length w)) (-1 - Z.of_nat s) = Some (List.length w - 1 - s)%nat).
  { apply denotes_index. unfold denotes. lia. }
  rewrite E. destruct (nth_error w (List.length w - 1 - s)) as [v|] eqn:En.
  - exists v. now split.
  - apply nth_error_None in En. lia.
Qed.

Lemma pyget_end_raise {A} (w : list A) s : (List.length w <= s)%nat ->
  pyget w (-1 - Z.of_nat s) = Raise IndexError.
Proof.
  intros H. unfold pyget, py_index.
  destruct (_ || _)%bool eqn:E; [reflexivity|].
  apply orb_false_iff in E. rewrite Z.ltb_ge in E. lia.
Qed.

Lemma denotes_inj n i a b : denotes n i a -> denotes n i b -> a = b.
Proof. intros Ha Hb. apply denotes_index in Ha, Hb. congruence. Qed.

Lemma denotes2_dec n p a b : {denotes2 n p a b} + {~ denotes2 n p a b}.
Proof.
  unfold denotes2, denotes.
  destruct (Z_lt_dec (Z.of_nat a) (Z.of_nat n)), (Z_lt_dec (Z.of_nat b) (Z.of_nat n)),
    (Z.eq_dec (fst p) (Z.of_nat a)), (Z.eq_dec (fst p) (Z.of_nat a - Z.of_nat n)),
    (Z.eq_dec (snd p) (Z.of_nat b)), (Z.eq_dec (snd p) (Z.of_nat b - Z.of_nat n));
    first [left; lia | right; lia].
Qed.

Lemma delta_loop_ok N w xy : forall m s, nr m = N -> nc m = N ->
  (forall p, In p xy -> exists a b, denotes2 N p a b) ->
  (s + List.length xy <= List.length w)%nat ->
  exists q, delta_loop m xy w (-1 - Z.of_nat s) = Ok q /\ shape q = (N, N) /\
    forall a b,
      ((forall k p, nth_error xy k = Some p -> ~ denotes2 N p a b) /\ px q a b = px m a b) \/
      (exists k p, nth_error xy k = Some p /\ denotes2 N p a b /\
         (forall k' p', (k < k')%nat -> nth_error xy k' = Some p' -> ~ denotes2 N p' a b) /\
         nth_error w (List.length w - 1 - (s + k)) = Some (px q a b)).
Proof.
  induction xy as [|[x y] xy IH]; intros m s Hr Hc Hin Hw.
  - exists m. simpl. split; [reflexivity|]. split; [unfold shape; now rewrite Hr, Hc|].
    intros a b. left. split; [|reflexivity]. intros [|k] p; discriminate.
  - simpl in Hw. destruct (pyget_end w s) as (v & Hv & Hnth); [lia|].
    destruct (Hin (x, y) (or_introl eq_refl)) as (r & c & Hd).
    cbn [delta_loop]. rewrite Hv. cbn [bind].
    rewrite (pset_ok m N x y v r c Hr Hc Hd). cbn [bind].
    match goal with |- context [delta_loop ?m' xy] => set (m1 := m') end.
    replace (-1 - Z.of_nat s - 1)%Z with (-1 - Z.of_nat (S s))%Z by lia.
    destruct (IH m1 (S s)) as (q & Hq & Hsh & Hcell); [reflexivity|reflexivity| |lia|].
    { intros p Hp. apply Hin. now right. }
    exists q. split; [assumption|]. split; [assumption|]. intros a b.
    destruct (Hcell a b) as [[Hno Heq]|(k & p & Hk & Hdk & Hlast & Hval)].
    + unfold m1 in Heq. cbn [px] in Heq. destruct (Nat.eqb a r && Nat.eqb b c)%bool eqn:E.
      * right. apply andb_true_iff in E. rewrite !Nat.eqb_eq in E. destruct E as [-> ->].
        exists 0%nat, (x, y). split; [reflexivity|]. split; [assumption|]. split.
        -- intros [|k'] p' Hk' Hp'; [lia|]. simpl in Hp'. now apply (Hno k').
        -- rewrite Nat.add_0_r, Heq. assumption.
      * left. split; [|exact Heq]. intros [|k] p Hp; simpl in Hp.
        -- injection Hp as <-. intros [Ha Hb]. destruct Hd as [Hd1 Hd2].
           rewrite (denotes_inj _ _ _ _ Ha Hd1), (denotes_inj _ _ _ _ Hb Hd2), !Nat.eqb_refl in E. discriminate.
        -- now apply (Hno k).
    + right. exists (S k), p. split; [assumption|]. split; [assumption|]. split.
      * intros [|k'] p' Hlt Hp'; [lia|]. simpl in Hp'. apply (Hlast k'); [lia|assumption].
      * replace (s + S k)%nat with (S s + k)%nat by lia. assumption.
Qed.

Lemma delta_loop_raise N w xy : forall m s, nr m = N -> nc m = N ->
  (exists p, In p xy /\ forall a b, ~ denotes2 N p a b) \/ (List.length w < s + List.length xy)%nat ->
  (s <= List.length w)%nat ->
  delta_loop m xy w (-1 - Z.of_nat s) = Raise IndexError.
Proof.
  induction xy as [|[x y] xy IH]; intros m s Hr Hc Hbad Hs.
  - destruct Hbad as [(p & [] & _)|H]. simpl in H. lia.
  - cbn [delta_loop]. destruct (Nat.eq_dec s (List.length w)) as [E|E].
    { rewrite pyget_end_raise by lia. reflexivity. }
    destruct (pyget_end w s) as (v & Hv & _); [lia|]. rewrite Hv. cbn [bind].
    unfold pset. rewrite Hr, Hc.
    destruct (py_index (Z.of_nat N) x) as [r|] eqn:Er; [|reflexivity].
    destruct (py_index (Z.of_nat N) y) as [c|] eqn:Ec; [|reflexivity]. cbn [bind].
    replace (-1 - Z.of_nat s - 1)%Z with (-1 - Z.of_nat (S s))%Z by lia.
    apply IH; [reflexivity|reflexivity| |lia].
    destruct Hbad as [(p & [<-|Hin] & Hno)|H].
    + exfalso. apply denotes_index in Er, Ec. now apply (Hno r c).
    + left. exists p. now split.
    + right. simpl in H. lia.
Qed.

(** C55: each position gets the weight that stands as far from the end of the weights as
    the position stands from the beginning; later positions overwrite earlier ones; the
    rest is zero. Negative coordinates count from the end of the axis. *)
Lemma C55_delta_weights_lm : forall (N : nat) (xy : positions) (w : list R),
  (forall p, In p (pos_items xy) -> exists a b, denotes2 N p a b) ->
  (List.length (pos_items xy) <= List.length w)%nat ->
  exists m, delta_point N false xy (Some w) = Ok m /\ shape m = (N, N) /\
    forall a b,
      ((forall k p, nth_error (pos_items xy) k = Some p -> ~ denotes2 N p a b) /\ px m a b = 0) \/
      (exists k p, nth_error (pos_items xy) k = Some p /\ denotes2 N p a b /\
         (forall k' p', (k < k')%nat -> nth_error (pos_items xy) k' = Some p' -> ~ denotes2 N p' a b) /\
         nth_error w (List.length w - 1 - k) = Some (px m a b)).
Proof.
  intros N xy w Hin Hw. unfold delta_point. cbn [bind].
  destruct (delta_loop_ok N w (pos_items xy) (pconst (N, N) 0) 0) as (q & Hq & Hsh & Hc);
    [reflexivity|reflexivity|assumption|assumption|].
  exists q. split; [exact Hq|]. split; [assumption|]. exact Hc.
Qed.

(** C55: fewer weights than positions, or a position outside the array, raise IndexError. *)
Lemma C55_delta_errors_lm : forall (N : nat) (xy : positions) (w : list R),
  (exists p, In p (pos_items xy) /\ forall a b, ~ denotes2 N p a b) \/
  (List.length w < List.length (pos_items xy))%nat ->
  delta_point N false xy (Some w) = Raise IndexError.
Proof.
  intros N xy w H. unfold delta_point. cbn [bind].
  change (-1)%Z with (-1 - Z.of_nat 0)%Z. apply delta_loop_raise with (N := N); [reflexivity|reflexivity|exact H|lia].
Qed.

(** C55: without weights, a list of positions gives ones; an iterator such as the zip of
    the docstring's example raises TypeError. *)
Lemma C55_delta_no_weights_lm : forall (N : nat) (l : list (Z * Z)),
  delta_point N false (Iterator l) None = Raise TypeError /\
  ((forall p, In p l -> exists a b, denotes2 N p a b) ->
   exists m, delta_point N false (Listed l) None = Ok m /\ shape m = (N, N) /\
    forall a b, ((exists p, In p l /\ denotes2 N p a b) -> px m a b = 1) /\
                ((forall p, In p l -> ~ denotes2 N p a b) -> px m a b = 0)).
Proof.
  intros N l. split; [reflexivity|]. intros Hin. unfold delta_point. cbn [bind pos_items].
  destruct (delta_loop_ok N (repeat 1 (List.length l)) l (pconst (N, N) 0) 0) as (q & Hq & Hsh & Hc);
    [reflexivity|reflexivity|assumption|rewrite repeat_length; lia|].
  exists q. split; [exact Hq|]. split; [assumption|]. intros a b. split.
  - intros (p & Hp & Hd). destruct (Hc a b) as [[Hno _]|(k & p' & _ & _ & _ & Hv)].
    + apply In_nth_error in Hp. destruct Hp as [k Hk]. now apply Hno in Hk.
    + apply nth_error_In, repeat_spec in Hv. exact Hv.
  - intros Hno. destruct (Hc a b) as [[_ E]|(k & p' & Hk & Hd & _)]; [exact E|].
    apply nth_error_In in Hk. now apply Hno in Hk.
Qed.

(** C55: a centred source is a single one at (N//2, N//2). *)
Lemma C55_delta_center_lm : forall (N : nat) (xy : positions) (w : option (list R)),
  (1 <= N)%nat ->
  exists m, delta_point N true xy w = Ok m /\ shape m = (N, N) /\
    forall a b, (a < N)%nat -> (b < N)%nat ->
      ((a = N / 2 /\ b = N / 2)%nat -> px m a b = 1) /\
      (~ (a = N / 2 /\ b = N / 2)%nat -> px m a b = 0).
Proof.
  intros N xy w HN. unfold delta_point.
  assert (Hlt : (N / 2 < N)%nat) by (apply Nat.div_lt; lia).
  rewrite (pset_ok (pconst (N, N) 0) N _ _ 1 (N / 2) (N / 2)); [|reflexivity|reflexivity|split; cbn [fst snd]; unfold denotes; lia].
  eexists. split; [reflexivity|]. split; [reflexivity|]. intros a b Ha Hb. cbn [px]. split.
  - intros [-> ->]. now rewrite !Nat.eqb_refl.
  - intros H. destruct (Nat.eqb_spec a (N / 2)); [|reflexivity].
    destruct (Nat.eqb_spec b (N / 2)); [|reflexivity]. tauto.
Qed.

(** ** cartesian_product *)

Lemma prod_list_cons a l : prod_list (a :: l) = (a * prod_list l)%nat.
Proof. reflexivity. Qed.

Lemma nth_uniform {A} (d : A) rows (F : nat -> list A) : (forall k, List.length (F k) = rows) ->
  forall cols s k t, (k < cols)%nat -> (t < rows)%nat ->
  nth (k * rows + t) (flat_map F (seq s cols)) d = nth t (F (s + k)%nat) d.
Proof.
  intros HL. induction cols as [|cols IH]; intros s k t Hk Ht; [lia|]. simpl.
  destruct k as [|k].
  - simpl. rewrite app_nth1 by (now rewrite HL). now rewrite Nat.add_0_r.
  - rewrite app_nth2 by (rewrite HL; nia). rewrite HL.
    replace (S k * rows + t - rows)%nat with (k * rows + t)%nat by nia.
    rewrite IH by lia. f_equal. f_equal. lia.
Qed.

Lemma seq_mul_aux P len : forall s,
  seq (s * P) (len * P) = flat_map (fun q => map (fun t => q * P + t)%nat (seq 0 P)) (seq s len).
Proof.
  induction len as [|len IH]; intros s; simpl; [reflexivity|].
  rewrite seq_app. f_equal.
  - rewrite <- (Nat.add_0_r (s * P)) at 1. generalize 0%nat. generalize P at 2 4.
    intros L. induction L as [|L IHL]; intros a; simpl; [reflexivity|]. f_equal.
    rewrite <- IHL. f_equal. lia.
  - rewrite <- IH. f_equal. lia.
Qed.

Lemma seq_mul P len :
  seq 0 (len * P) = flat_map (fun q => map (fun t => q * P + t)%nat (seq 0 P)) (seq 0 len).
Proof. apply (seq_mul_aux P len 0). Qed.

Lemma map_flat_map {A B D} (f : B -> D) (g : A -> list B) l :
  map f (flat_map g l) = flat_map (fun x => map f (g x)) l.
Proof. induction l; simpl; [reflexivity|]. now rewrite map_app, IHl. Qed.

Lemma flat_map_ext_in {A B} (f g : A -> list B) l : (forall x, In x l -> f x = g x) ->
  flat_map f l = flat_map g l.
Proof.
  induction l; intros H; simpl; [reflexivity|]. rewrite (H a) by now left. f_equal.
  apply IHl. intros; apply H; now right.
Qed.

Lemma flat_map_seq_nth {A B} (d : A) (f : A -> list B) l :
  flat_map (fun q => f (nth q l d)) (seq 0 (List.length l)) = flat_map f l.
Proof.
  induction l as [|a l IH]; simpl; [reflexivity|]. f_equal.
  rewrite <- IH. rewrite <- seq_shift, flat_map_concat_map, map_map, <- flat_map_concat_map.
  reflexivity.
Qed.

Section Cart.
Context {A : Type} (d : A).
Notation dims l := (map (@List.length A) l).

(** Row [t] without cast: item [k] is the broadcast item. *)
Fixpoint row (l : list (list A)) (t : nat) : list A :=
  match l with
  | [] => []
  | a :: r => nth (Nat.modulo (Nat.div t (prod_list (dims r))) (List.length a)) a d :: row r t
  end.

Lemma row_period l : forall t c, (0 < prod_list (dims l))%nat -> row l (c * prod_list (dims l) + t) = row l t.
Proof.
  induction l as [|a r IH]; intros t c HP; [reflexivity|]. cbn [map] in *.
  rewrite prod_list_cons in *. simpl row.
  assert (Ha : (0 < List.length a)%nat) by lia. assert (Hr : (0 < prod_list (dims r))%nat) by lia.
  f_equal.
  - f_equal. replace (c * (List.length a * prod_list (dims r)) + t)%nat
      with (t + (c * List.length a) * prod_list (dims r))%nat by lia.
    rewrite Nat.div_add by lia. rewrite Nat.mod_add by lia. reflexivity.
  - replace (c * (List.length a * prod_list (dims r)) + t)%nat
      with ((c * List.length a) * prod_list (dims r) + t)%nat by lia.
    now apply IH.
Qed.

Lemma rows_tuples l : map (row l) (seq 0 (prod_list (dims l))) = tuples l.
Proof.
  induction l as [|a r IH]; [reflexivity|]. cbn [map]. rewrite prod_list_cons, seq_mul.
  rewrite map_flat_map. cbn [tuples].
  rewrite <- (flat_map_seq_nth d (fun x => map (cons x) (tuples r)) a).
  apply flat_map_ext_in. intros q Hq. apply in_seq in Hq. rewrite <- IH, !map_map.
  apply map_ext_in. intros t Ht. apply in_seq in Ht. simpl row. f_equal.
  - f_equal. rewrite Nat.add_comm, Nat.div_add by lia. rewrite (Nat.div_small t) by lia.
    rewrite Nat.add_0_l. apply Nat.mod_small. lia.
  - apply row_period. lia.
Qed.

Lemma row_nth l : forall k t, (k < List.length l)%nat ->
  nth k (row l t) d = nth (Nat.modulo (Nat.div t (prod_list (skipn (S k) (dims l)))) (List.length (nth k l []))) (nth k l []) d.
Proof.
  induction l as [|a r IH]; intros k t Hk; [simpl in Hk; lia|].
  destruct k as [|k]; [reflexivity|]. simpl in Hk. cbn [row nth].
  rewrite IH by lia. reflexivity.
Qed.

Lemma row_length l t : List.length (row l t) = List.length l.
Proof. induction l; simpl; congruence. Qed.

Lemma list_by_nth (l1 l2 : list A) : List.length l1 = List.length l2 ->
  (forall k, (k < List.length l1)%nat -> nth k l1 d = nth k l2 d) -> l1 = l2.
Proof.
  revert l2. induction l1 as [|x l1 IH]; intros [|y l2] HL H; try discriminate; [reflexivity|].
  f_equal; [apply (H 0%nat); simpl; lia|]. apply IH; [now injection HL|].
  intros k Hk. apply (H (S k)). simpl. lia.
Qed.
End Cart.

(** C56: the rows are all tuples, in lexicographic order, each value converted to the type
    of the first array. *)
Lemma C56_cartesian_product_lm : forall (A : Type) (cast : A -> A) (d : A) (arrays : list (list A)),
  arrays <> [] ->
  exists m, cartesian_product cast d arrays = Ok m /\
    nc m = List.length arrays /\ rows_of m = map (map cast) (tuples arrays).
Proof.
  intros A cast d arrays Hne. unfold cartesian_product. destruct arrays as [|a0 r0] eqn:E; [easy|].
  rewrite <- E. clear E a0 r0 Hne.
  eexists. split; [reflexivity|]. split; [reflexivity|]. unfold rows_of. cbn [nr nc px].
  rewrite <- (rows_tuples d arrays), map_map. apply map_ext_in. intros t Ht. apply in_seq in Ht.
  set (rows := prod_list (map (@List.length A) arrays)) in *.
  apply (list_by_nth d); rewrite !map_length, seq_length; [now rewrite row_length|].
  intros k Hk. rewrite (nth_indep _ d (nth (0 * rows + t) (flat_map (fun k => map cast (flat_broadcast d arrays k)) (seq 0 (List.length arrays))) d)) by (rewrite map_length, seq_length; exact Hk).
  rewrite (map_nth (fun k => nth (k * rows + t) _ d)), seq_nth by exact Hk. cbn [Nat.add].
  assert (HL : forall k', List.length (map cast (flat_broadcast d arrays k')) = rows)
    by (intros; unfold flat_broadcast; now rewrite !map_length, seq_length).
  rewrite (nth_uniform d rows _ HL) by lia. cbn [Nat.add].
  rewrite (nth_indep _ d (cast d)) by (rewrite HL; lia). rewrite map_nth.
  rewrite (nth_indep (map cast (row d arrays t)) d (cast d)) by (rewrite map_length, row_length; exact Hk).
  rewrite map_nth. f_equal. rewrite (row_nth d arrays k t Hk).
  unfold flat_broadcast.
  set (f := fun t0 : nat => nth (Nat.modulo (Nat.div t0 (prod_list (skipn (S k) (map (@List.length A) arrays)))) (List.length (nth k arrays []))) (nth k arrays []) d).
  fold rows. rewrite (nth_indep _ d (f 0%nat)) by (rewrite map_length, seq_length; lia).
  rewrite (map_nth f), seq_nth by lia. reflexivity.
Qed.

(** C56: no array at all raises IndexError. *)
Lemma C56_no_arrays_lm : forall (A : Type) (cast : A -> A) (d : A),
  cartesian_product cast d [] = Raise IndexError.
Proof. reflexivity. Qed.

(** ** store_fits *)

Lemma ascii_app a b : list_ascii_of_string (a ++ b)%string = (list_ascii_of_string a ++ list_ascii_of_string b)%list.
Proof. induction a; simpl; [reflexivity|]. now rewrite IHa. Qed.

Lemma append_inj a b d : (a ++ b = a ++ d)%string -> b = d.
Proof.
  intros H. apply (f_equal list_ascii_of_string) in H. rewrite !ascii_app in H.
  apply app_inv_head in H. apply (f_equal string_of_list_ascii) in H.
  now rewrite !string_of_list_ascii_of_string in H.
Qed.

Lemma append_inj_r a b c : (a ++ c = b ++ c)%string -> a = b.
Proof.
  intros H. apply (f_equal list_ascii_of_string) in H. rewrite !ascii_app in H.
  apply app_inv_tail in H. apply (f_equal string_of_list_ascii) in H.
  now rewrite !string_of_list_ascii_of_string in H.
Qed.

Lemma to_int_nonnil z : Z.to_int z <> Decimal.Pos Decimal.Nil /\ Z.to_int z <> Decimal.Neg Decimal.Nil.
Proof.
  destruct z as [|p|p]; simpl; split; try discriminate; intros [= H]; now apply Unsigned.to_uint_nonnil in H.
Qed.

Lemma py_str_inj i j : py_str i = py_str j -> i = j.
Proof.
  unfold py_str. intros H. apply (f_equal NilZero.int_of_string) in H.
  destruct (to_int_nonnil i), (to_int_nonnil j). rewrite !NilZero.isi in H by assumption.
  injection H as H. now apply to_int_inj.
Qed.

Lemma join_inj path a b : path_join path a = path_join path b -> a = b.
Proof.
  unfold path_join. destruct (String.length path); [easy|].
  destruct (String.get n path) as [c|].
  - destruct (Ascii.eqb c "/"%char); intros H; apply append_inj in H; [assumption|].
    now apply append_inj in H.
  - intros H. apply append_inj in H. now apply append_inj in H.
Qed.

Lemma name_inj path i j : store_fits_name path i = store_fits_name path j -> i = j.
Proof.
  unfold store_fits_name. intros H. apply join_inj in H. apply append_inj in H.
  apply append_inj_r in H. now apply py_str_inj.
Qed.

Definition store_history {content} (fs : files content) (path : string) (h : list (Z * content)) : files content :=
  fold_left (fun fs e => snd (store_fits fs path (fst e) (snd e))) h fs.

Lemma store_history_get {content} path i (h : list (Z * content)) : forall fs,
  store_history fs path h (store_fits_name path i) =
  match last_stored i h with Some c => Some c | None => fs (store_fits_name path i) end.
Proof.
  induction h as [|[k c] h IH]; intros fs; simpl; [reflexivity|].
  unfold store_history in *. simpl. rewrite IH. destruct (last_stored i h); [reflexivity|].
  unfold store_fits. simpl.
  destruct (String.eqb_spec (store_fits_name path i) (store_fits_name path k)) as [E|E].
  - apply name_inj in E. subst. now rewrite Z.eqb_refl.
  - destruct (Z.eqb_spec k i) as [->|]; [congruence|reflexivity].
Qed.

(** C58: distinct numbers get distinct names, whatever the directory... *)
Lemma C58_distinct_names_lm : forall (content : Type) (fs fs' : files content) (path : string)
  (i j : Z) (c c' : content),
  i <> j -> fst (store_fits fs path i c) <> fst (store_fits fs' path j c').
Proof. intros content fs fs' path i j c c' H E. simpl in E. now apply name_inj in E. Qed.

(** ... so that after any history of stores in one directory, the file returned for number
    [i] holds what was stored last under [i]. *)
Lemma C58_last_stored_lm : forall (content : Type) (fs : files content) (path : string)
  (h : list (Z * content)) (i : Z) (c : content),
  last_stored i h = Some c ->
  fold_left (fun fs e => snd (store_fits fs path (fst e) (snd e))) h fs
    (fst (store_fits fs path i c)) = Some c.
Proof.
  intros content fs path h i c H. simpl. pose proof (store_history_get path i h fs) as E.
  rewrite H in E. exact E.
Qed.

(** ** Tiling *)

Lemma set_block_ok {A} (p : plane A) r0 c0 N q : shape q = (N, N) ->
  exists f, set_block p r0 c0 N q = Ok f /\ shape f = shape p /\
   (forall a b, (a < N)%nat -> (b < N)%nat -> px f (r0 + a) (c0 + b) = px q a b) /\
   (forall i j, ~ (r0 <= i < r0 + N /\ c0 <= j < c0 + N)%nat -> px f i j = px p i j).
Proof.
  intros Hq. injection Hq as Hr Hc. unfold set_block. rewrite Hr, Hc, !Nat.eqb_refl. cbn [orb andb].
  eexists. split; [reflexivity|]. split; [reflexivity|]. cbn [px]. split.
  - intros a b Ha Hb. replace (r0 + a - r0)%nat with a by lia. replace (c0 + b - c0)%nat with b by lia.
    destruct (Nat.leb_spec r0 (r0 + a)); [|lia]. destruct (Nat.ltb_spec (r0 + a) (r0 + N)); [|lia].
    destruct (Nat.leb_spec c0 (c0 + b)); [|lia]. destruct (Nat.ltb_spec (c0 + b) (c0 + N)); [|lia].
    cbn [andb]. unfold bidx. destruct (Nat.eqb_spec N 1); [|reflexivity]. f_equal; lia.
  - intros i j H.
    destruct (Nat.leb_spec r0 i); [|reflexivity]. destruct (Nat.ltb_spec i (r0 + N)); [|reflexivity].
    destruct (Nat.leb_spec c0 j); [|reflexivity]. destruct (Nat.ltb_spec j (c0 + N)); [|reflexivity].
    exfalso. apply H. lia.
Qed.

Lemma pyget_nat {A} (l : list A) k a : nth_error l k = Some a -> pyget l (Z.of_nat k) = Ok a.
Proof.
  intros H. unfold pyget.
  assert (k < List.length l)%nat by (apply nth_error_Some; congruence).
  assert (E : py_index (Z.of_nat (List.length l)) (Z.of_nat k) = Some k).
  { apply denotes_index. unfold denotes. lia. }
  now rewrite E, H.
Qed.

(** C57: tiling four N x N frames. *)
Lemma C57_tile_lm : forall (N : nat) (q0 q1 q2 q3 : plane R) (more : list (plane R)),
  shape q0 = (N, N) -> shape q1 = (N, N) -> shape q2 = (N, N) -> shape q3 = (N, N) ->
  exists f, tile N (q0 :: q1 :: q2 :: q3 :: more) = Ok f /\ shape f = (2 * N, 2 * N)%nat /\
    forall a b, (a < N)%nat -> (b < N)%nat ->
      px f a b = px q0 a b /\ px f (N + a) b = px q1 a b /\
      px f a (N + b) = px q2 a b /\ px f (N + a) (N + b) = px q3 a b.
Proof.
  intros N q0 q1 q2 q3 more H0 H1 H2 H3. set (frames := q0 :: q1 :: q2 :: q3 :: more).
  unfold tile. cbn [fold_left bind fst snd Nat.mul Nat.add].
  rewrite (pyget_nat frames 0 q0 eq_refl). cbn [bind].
  destruct (set_block_ok (pconst (N + (N + 0), N + (N + 0))%nat 0) 0 0 N q0 H0) as (f0 & E0 & S0 & In0 & Out0).
  rewrite E0. cbn [bind]. rewrite (pyget_nat frames 1 q1 eq_refl). cbn [bind]. rewrite Nat.add_0_r.
  destruct (set_block_ok f0 N 0 N q1 H1) as (f1 & E1 & S1 & In1 & Out1).
  rewrite E1. cbn [bind]. rewrite (pyget_nat frames 2 q2 eq_refl). cbn [bind].
  destruct (set_block_ok f1 0 N N q2 H2) as (f2 & E2 & S2 & In2 & Out2).
  rewrite E2. cbn [bind]. rewrite (pyget_nat frames 3 q3 eq_refl). cbn [bind].
  destruct (set_block_ok f2 N N N q3 H3) as (f3 & E3 & S3 & In3 & Out3).
  rewrite E3. exists f3. split; [reflexivity|].
  split; [rewrite S3, S2, S1, S0; unfold shape, pconst; cbn [nr nc fst snd]; f_equal; lia|].
  intros a b Ha Hb. repeat split.
  - rewrite Out3, Out2, Out1 by lia. exact (In0 a b Ha Hb).
  - rewrite Out3, Out2 by lia. exact (In1 a b Ha Hb).
  - rewrite Out3 by lia. exact (In2 a b Ha Hb).
  - exact (In3 a b Ha Hb).
Qed.

Lemma tile_few N frames : (List.length frames < 4)%nat ->
  (forall q, In q frames -> shape q = (N, N)) -> tile N frames = Raise IndexError.
Proof.
  intros HL Hs. unfold tile. cbn [fold_left bind fst snd Nat.mul Nat.add].
  assert (Hget : forall k, (List.length frames <= k)%nat -> pyget frames (Z.of_nat k) = Raise IndexError).
  { intros k Hk. unfold pyget, py_index. destruct (_ || _)%bool eqn:E; [reflexivity|].
    apply orb_false_iff in E. rewrite Z.leb_gt in E. lia. }
  destruct frames as [|q0 frames]; [rewrite (Hget 0%nat) by (simpl; lia); reflexivity|].
  rewrite (pyget_nat (q0 :: frames) 0 q0 eq_refl). cbn [bind].
  destruct (set_block_ok (pconst (N + (N + 0), N + (N + 0))%nat 0) 0 0 N q0) as (f0 & E0 & _); [apply Hs; simpl; auto|].
  rewrite E0. cbn [bind].
  destruct frames as [|q1 frames]; [rewrite (Hget 1%nat) by (simpl; lia); reflexivity|].
  rewrite (pyget_nat (q0 :: q1 :: frames) 1 q1 eq_refl). cbn [bind]. rewrite Nat.add_0_r.
  destruct (set_block_ok f0 N 0 N q1) as (f1 & E1 & _); [apply Hs; simpl; auto|].
  rewrite E1. cbn [bind].
  destruct frames as [|q2 frames]; [rewrite (Hget 2%nat) by (simpl; lia); reflexivity|].
  rewrite (pyget_nat (q0 :: q1 :: q2 :: frames) 2 q2 eq_refl). cbn [bind].
  destruct (set_block_ok f1 0 N N q2) as (f2 & E2 & _); [apply Hs; simpl; auto|].
  rewrite E2. cbn [bind].
  destruct frames as [|q3 frames]; [rewrite (Hget 3%nat) by (simpl; lia); reflexivity|]. simpl in HL. lia.
Qed.

Section Sim.
Context {G : Type} (default_rng : Z -> G)
  (rng_normal : G -> R -> R -> nat -> plane R * G) (rng_poisson : G -> R -> nat -> plane R * G)
  (rng_integers : G -> R -> R -> nat -> res (list Z) * G)
  (blur : plane R -> R -> R -> R -> R -> plane R).
Hypothesis Hnormal : forall g m s n, shape (fst (rng_normal g m s n)) = (n, n).
Hypothesis Hblur : forall m s xf yf theta, shape (blur m s xf yf theta) = shape m.

Lemma ufunc2_same (c im : plane R) N : shape c = (N, N) -> shape im = (N, N) ->
  exists s, ufunc2 Rplus c im = Ok s /\ shape s = (N, N) /\
    forall a b, (a < N)%nat -> (b < N)%nat -> px s a b = px c a b + px im a b.
Proof.
  intros Hc Hi. injection Hc as Hc1 Hc2. injection Hi as Hi1 Hi2.
  unfold ufunc2, bshape, shape. rewrite Hc1, Hc2, Hi1, Hi2. cbn [fst snd]. unfold bdim.
  rewrite Nat.eqb_refl. eexists. split; [reflexivity|]. split; [reflexivity|].
  intros a b Ha Hb. cbn [px]. unfold bidx. destruct (Nat.eqb_spec N 1); [|reflexivity].
  now replace a with 0%nat by lia; replace b with 0%nat by lia.
Qed.

Lemma delta_shape N xy w m : delta_point N false xy (Some w) = Ok m -> shape m = (N, N).
Proof.
  unfold delta_point. cbn [bind]. generalize (-1)%Z. 
  assert (H : forall l m0 j, shape m0 = (N, N) -> delta_loop m0 l w j = Ok m -> shape m = (N, N)).
  { induction l as [|[x y] l IH]; intros m0 j H0; cbn [delta_loop].
    - now intros [= <-].
    - destruct (pyget w j) as [v|]; [|discriminate]. cbn [bind]. unfold pset.
      destruct (py_index (Z.of_nat (nr m0)) x); [|discriminate].
      destruct (py_index (Z.of_nat (nc m0)) y); [|discriminate]. cbn [bind].
      apply IH. exact H0. }
  intros j. now apply H.
Qed.

(** A frame is noise plus the blurred stars plus twice the bias. *)
Lemma one_frame_ok st nstars sn theta N seed p st' :
  one_frame default_rng rng_normal rng_poisson rng_integers blur st nstars sn theta N seed = (Ok p, st') ->
  shape p = (N, N) /\
  exists g m, shape m = (N, N) /\ (forall s, seed = Some s -> g = default_rng s) /\
    let xf := 5 + 5 * theta / 180 in
    let stars := blur m (5 * Rmax xf 5) xf 5 theta in
    forall a b, (a < N)%nat -> (b < N)%nat ->
      px p a b = px (fst (rng_normal g 0 (pmax stars / sn) N)) a b + px stars a b + 200.
Proof.
  unfold one_frame.
  destruct (rng_integers _ _ _ _) as [x g1]. destruct x as [xs|]; [|discriminate].
  destruct (rng_integers g1 _ _ _) as [y g2]. destruct y as [ys|]; [|discriminate].
  destruct (delta_point N false _ _) as [m|] eqn:Em; [|discriminate].
  apply delta_shape in Em. unfold image. cbn [String.eqb Ascii.eqb Bool.eqb].
  set (xf := 5 + 5 * theta / 180). set (stars := blur m (5 * Rmax xf 5) xf 5 theta).
  assert (Hst : shape stars = (N, N)) by (unfold stars; now rewrite Hblur).
  destruct (nr stars =? 0)%nat eqn:Z1; [intros [= ]|].
  destruct (nc stars =? 0)%nat eqn:Z2; [intros [= ]|]. cbn [orb].
  match goal with |- context [rng_normal ?gg 0 ?s N] => set (g := gg) end.
  pose proof (Hnormal g 0 (pmax stars / sn) N) as Hn.
  destruct (rng_normal g 0 (pmax stars / sn) N) as [c g3] eqn:En. cbn [fst] in Hn.
  unfold padd3. destruct (ufunc2_same c stars N Hn Hst) as (s & Es & Ss & Ps). rewrite Es. cbn [bind].
  intros [= <- _]. split; [exact Ss|]. exists g, m. split; [assumption|]. split.
  - intros s0 ->. reflexivity.
  - cbn zeta. fold xf. fold stars. intros a b Ha Hb. rewrite En. cbn [fst pmap px]. rewrite Ps by assumption. lra.
Qed.

Lemma all_frames_ok nstars sn N seed thetas : forall st fs st',
  all_frames default_rng rng_normal rng_poisson rng_integers blur st nstars sn thetas N seed = (Ok fs, st') ->
  List.length fs = List.length thetas /\
  forall k theta p, nth_error thetas k = Some theta -> nth_error fs k = Some p ->
  shape p = (N, N) /\
  exists g m, shape m = (N, N) /\ (forall s, seed = Some s -> g = default_rng s) /\
    let xf := 5 + 5 * theta / 180 in
    let stars := blur m (5 * Rmax xf 5) xf 5 theta in
    forall a b, (a < N)%nat -> (b < N)%nat ->
      px p a b = px (fst (rng_normal g 0 (pmax stars / sn) N)) a b + px stars a b + 200.
Proof.
  induction thetas as [|theta l IH]; intros st fs st'; cbn [all_frames].
  - intros [= <- _]. split; [reflexivity|]. intros [|k] ? ?; discriminate.
  - destruct (one_frame _ _ _ _ _ st nstars sn theta N seed) as [f st1] eqn:E1.
    destruct f as [p|]; [|discriminate].
    destruct (all_frames _ _ _ _ _ st1 nstars sn l N seed) as [fs' st2] eqn:E2.
    destruct fs' as [ps|]; [|discriminate]. intros [= <- _].
    destruct (IH _ _ _ E2) as [HL HF]. split; [simpl; congruence|].
    intros [|k] th q; simpl.
    + intros [= <-] [= <-]. now apply one_frame_ok in E1.
    + apply HF.
Qed.

Lemma sim_ok g nstars sn thetas N seed frame g' :
  sim_varpsf default_rng rng_normal rng_poisson rng_integers blur g nstars sn thetas N seed = (Ok frame, g') ->
  (4 <= List.length thetas)%nat /\ shape frame = (2 * N, 2 * N)%nat /\
  forall i j theta, (i < 2)%nat -> (j < 2)%nat -> nth_error thetas (i + 2 * j) = Some theta ->
  exists g m, shape m = (N, N) /\ (forall s, seed = Some s -> g = default_rng s) /\
    let xf := 5 + 5 * theta / 180 in
    let stars := blur m (5 * Rmax xf 5) xf 5 theta in
    forall a b, (a < N)%nat -> (b < N)%nat ->
      px frame (i * N + a) (j * N + b) =
      px (fst (rng_normal g 0 (pmax stars / sn) N)) a b + px stars a b + 200.
Proof.
  unfold sim_varpsf.
  destruct (all_frames _ _ _ _ _ _ nstars sn thetas N seed) as [fs st] eqn:E.
  destruct fs as [ps|]; [|discriminate]. cbn [bind]. intros [= Ht _].
  destruct (all_frames_ok _ _ _ _ _ _ _ _ E) as [HL HF].
  assert (Hsh : forall q, In q ps -> shape q = (N, N)).
  { intros q Hq. apply In_nth_error in Hq. destruct Hq as [k Hk].
    assert (Hkl : (k < List.length thetas)%nat) by (rewrite <- HL; apply nth_error_Some; congruence).
    apply nth_error_Some in Hkl. destruct (nth_error thetas k) as [th|] eqn:Eth; [|congruence].
    now apply (HF k th q). }
  destruct (le_lt_dec 4 (List.length ps)) as [H4|H4].
  2:{ rewrite tile_few in Ht by assumption. discriminate. }
  destruct ps as [|q0 [|q1 [|q2 [|q3 more]]]]; try (simpl in H4; lia).
  destruct (C57_tile_lm N q0 q1 q2 q3 more) as (f & Ef & Sf & Pf); [apply Hsh; simpl; tauto..|].
  rewrite Ef in Ht. injection Ht as <-.
  split; [lia|]. split; [assumption|].
  intros i j theta Hi Hj Hth.
  assert (Hq : exists q, nth_error (q0 :: q1 :: q2 :: q3 :: more) (i + 2 * j) = Some q /\
     forall a b, (a < N)%nat -> (b < N)%nat -> px f (i * N + a) (j * N + b) = px q a b).
  { destruct i as [|[|i]]; [| |lia]; (destruct j as [|[|j]]; [| |lia]); simpl.
    - exists q0. split; [reflexivity|]. intros a b Ha Hb. apply Pf; assumption.
    - exists q2. split; [reflexivity|]. intros a b Ha Hb. rewrite Nat.add_0_r. apply Pf; assumption.
    - exists q1. split; [reflexivity|]. intros a b Ha Hb. rewrite Nat.add_0_r. apply Pf; assumption.
    - exists q3. split; [reflexivity|]. intros a b Ha Hb. rewrite Nat.add_0_r. apply Pf; assumption. }
  destruct Hq as (q & Hq & Hpx).
  destruct (HF _ _ _ Hth Hq) as (_ & g0 & m & Hm & Hg & Hv).
  exists g0, m. split; [assumption|]. split; [assumption|]. cbn zeta in *. intros a b Ha Hb.
  rewrite Hpx by assumption. now apply Hv.
Qed.
End Sim.

(** C57: whenever sim_varpsf returns a frame, at least four angles were given, the frame is
    2N x 2N, and quadrant (i,j) shows, for angle number i+2j, the blurred stars plus sky
    noise plus twice the bias of 100. *)
Lemma C57_sim_varpsf_lm : forall (G : Type) (default_rng : Z -> G)
  (rng_normal : G -> R -> R -> nat -> plane R * G) (rng_poisson : G -> R -> nat -> plane R * G)
  (rng_integers : G -> R -> R -> nat -> res (list Z) * G)
  (blur : plane R -> R -> R -> R -> R -> plane R)
  (g : G) (nstars : nat) (sn : R) (thetas : list R) (N : nat) (seed : option Z) (frame : plane R) (g' : G),
  (forall g m s n, shape (fst (rng_normal g m s n)) = (n, n)) ->
  (forall m s xf yf theta, shape (blur m s xf yf theta) = shape m) ->
  sim_varpsf default_rng rng_normal rng_poisson rng_integers blur g nstars sn thetas N seed = (Ok frame, g') ->
  (4 <= List.length thetas)%nat /\ shape frame = (2 * N, 2 * N)%nat /\
  forall i j theta, (i < 2)%nat -> (j < 2)%nat -> nth_error thetas (i + 2 * j) = Some theta ->
  exists stars noise, (exists m s xf, stars = blur m s xf 5 theta) /\
    (exists gen, noise = fst (rng_normal gen 0 (pmax stars / sn) N)) /\
    forall a b, (a < N)%nat -> (b < N)%nat ->
      px frame (i * N + a) (j * N + b) = px noise a b + px stars a b + 200.
Proof.
  intros G default_rng rng_normal rng_poisson rng_integers blur g nstars sn thetas N seed frame g' Hn Hb H.
  destruct (sim_ok default_rng rng_normal rng_poisson rng_integers blur Hn Hb _ _ _ _ _ _ _ _ H) as (H4 & Hs & Hq).
  split; [assumption|]. split; [assumption|]. intros i j theta Hi Hj Hth.
  destruct (Hq i j theta Hi Hj Hth) as (g0 & m & _ & _ & Hv). cbn zeta in Hv.
  eexists; eexists. split; [eauto|]. split; [eauto|]. exact Hv.
Qed.

(** C57: fewer than four angles never give a frame; when the frames themselves can be
    made, the error is IndexError. *)
Lemma C57_too_few_angles_lm : forall (G : Type) (default_rng : Z -> G)
  (rng_normal : G -> R -> R -> nat -> plane R * G) (rng_poisson : G -> R -> nat -> plane R * G)
  (rng_integers : G -> R -> R -> nat -> res (list Z) * G)
  (blur : plane R -> R -> R -> R -> R -> plane R)
  (g : G) (nstars : nat) (sn : R) (thetas : list R) (N : nat) (seed : option Z),
  (forall g m s n, shape (fst (rng_normal g m s n)) = (n, n)) ->
  (forall m s xf yf theta, shape (blur m s xf yf theta) = shape m) ->
  (forall g lo hi k, exists l g2, rng_integers g lo hi k = (Ok l, g2) /\ List.length l = k /\
     forall z, In z l -> (0 <= z < Z.of_nat N)%Z) ->
  (1 <= N)%nat -> (List.length thetas < 4)%nat ->
  fst (sim_varpsf default_rng rng_normal rng_poisson rng_integers blur g nstars sn thetas N seed)
  = Raise IndexError.
Proof.
  intros G default_rng rng_normal rng_poisson rng_integers blur g nstars sn thetas N seed Hn Hb Hint HN HL.
  assert (Hone : forall st theta, exists p st',
    one_frame default_rng rng_normal rng_poisson rng_integers blur st nstars sn theta N seed = (Ok p, st')).
  { intros st theta. unfold one_frame.
    match goal with |- context [rng_integers ?gg ?lo ?hi ?k] =>
      destruct (Hint gg lo hi k) as (xs & g1 & E1 & L1 & R1) end. rewrite E1.
    match goal with |- context [rng_integers g1 ?lo ?hi ?k] =>
      destruct (Hint g1 lo hi k) as (ys & g2 & E2 & L2 & R2) end. rewrite E2.
    destruct (C55_delta_weights_lm N (Iterator (combine xs ys)) (linspace (List.length xs))) as (m & Em & Sm & _).
    { intros [x y] Hp. simpl in Hp. pose proof (in_combine_l _ _ _ _ Hp) as Hx. pose proof (in_combine_r _ _ _ _ Hp) as Hy.
      apply R1 in Hx. apply R2 in Hy. exists (Z.to_nat x), (Z.to_nat y). split; simpl; unfold denotes; lia. }
    { cbn [pos_items]. rewrite combine_length. unfold linspace. rewrite map_length, seq_length. lia. }
    rewrite Em. unfold image. cbn [String.eqb Ascii.eqb Bool.eqb].
    set (xf := 5 + 5 * theta / 180). set (stars := blur m (5 * Rmax xf 5) xf 5 theta).
    assert (Hst : shape stars = (N, N)) by (unfold stars; now rewrite Hb).
    injection Hst as Hs1 Hs2. rewrite Hs1, Hs2.
    destruct (Nat.eqb_spec N 0); [lia|]. cbn [orb].
    match goal with |- context [rng_normal ?gg 0 ?s N] => 
      pose proof (Hn gg 0 s N) as Hn'; destruct (rng_normal gg 0 s N) as [c g3] end.
    cbn [fst] in Hn'. unfold padd3.
    destruct (ufunc2_same c stars N Hn') as (s & Es & _); [unfold shape; now rewrite Hs1, Hs2|].
    rewrite Es. cbn [bind]. eauto. }
  unfold sim_varpsf.
  assert (Hall : forall thetas st, exists fs st',
    all_frames default_rng rng_normal rng_poisson rng_integers blur st nstars sn thetas N seed = (Ok fs, st')).
  { induction thetas0 as [|th l IH]; intros st; cbn [all_frames]; [eauto|].
    destruct (Hone st th) as (p & st1 & E1). rewrite E1.
    destruct (IH st1) as (fs & st2 & E2). rewrite E2. eauto. }
  destruct (Hall thetas (option_map default_rng seed, g)) as (fs & st & E). rewrite E. cbn [bind fst].
  destruct (all_frames_ok default_rng rng_normal rng_poisson rng_integers blur Hn Hb _ _ _ _ _ _ _ _ E) as [HLL HF].
  apply tile_few; [lia|]. intros q Hq. apply In_nth_error in Hq. destruct Hq as [k Hk].
  assert (Hkl : (k < List.length thetas)%nat) by (rewrite <- HLL; apply nth_error_Some; congruence).
  apply nth_error_Some in Hkl. destruct (nth_error thetas k) as [th|] eqn:Eth; [|congruence].
  now apply (HF k th q).
Qed.

(** C76: with a seed the noise of the four quadrants is one and the same pattern up to
    scale: a generator draws normal noise as mean + std * pattern, and every frame starts
    again from the seed. *)
Lemma C76_seeded_noise_repeats_lm : forall (G : Type) (default_rng : Z -> G)
  (rng_normal : G -> R -> R -> nat -> plane R * G) (rng_poisson : G -> R -> nat -> plane R * G)
  (rng_integers : G -> R -> R -> nat -> res (list Z) * G)
  (blur : plane R -> R -> R -> R -> R -> plane R) (pattern : G -> nat -> plane R)
  (g : G) (nstars : nat) (sn : R) (thetas : list R) (N : nat) (seed : Z) (frame : plane R) (g' : G),
  (forall g m s n, shape (fst (rng_normal g m s n)) = (n, n)) ->
  (forall g m s n a b, px (fst (rng_normal g m s n)) a b = m + s * px (pattern g n) a b) ->
  (forall m s xf yf theta, shape (blur m s xf yf theta) = shape m) ->
  sim_varpsf default_rng rng_normal rng_poisson rng_integers blur g nstars sn thetas N (Some seed) = (Ok frame, g') ->
  exists z : plane R, forall i j, (i < 2)%nat -> (j < 2)%nat ->
    exists stars, (exists m s xf theta, stars = blur m s xf 5 theta) /\
      forall a b, (a < N)%nat -> (b < N)%nat ->
      px frame (i * N + a) (j * N + b) = pmax stars / sn * px z a b + px stars a b + 200.
Proof.
  intros G default_rng rng_normal rng_poisson rng_integers blur pattern g nstars sn thetas N seed frame g' Hn Hp Hb H.
  destruct (sim_ok default_rng rng_normal rng_poisson rng_integers blur Hn Hb _ _ _ _ _ _ _ _ H) as (H4 & Hs & Hq).
  exists (pattern (default_rng seed) N). intros i j Hi Hj.
  destruct (nth_error thetas (i + 2 * j)) as [theta|] eqn:Eth.
  2:{ apply nth_error_None in Eth. lia. }
  destruct (Hq i j theta Hi Hj Eth) as (g0 & m & _ & Hg & Hv). cbn zeta in Hv.
  rewrite (Hg seed eq_refl) in Hv. exists (blur m (5 * Rmax (5 + 5 * theta / 180) 5) (5 + 5 * theta / 180) 5 theta).
  split; [eauto 6|].
  intros a b Ha Hb'. rewrite Hv by assumption. rewrite Hp. ring.
Qed.

(** C78: an unknown background name is not rejected with a message: the image has been
    convolved already when UnboundLocalError is raised; the module's generator is not
    used when a seed is given. *)
Lemma C78_image_background_lm : forall (G : Type) (default_rng : Z -> G)
  (rng_normal : G -> R -> R -> nat -> plane R * G) (rng_poisson : G -> R -> nat -> plane R * G)
  (blur : plane R -> R -> R -> R -> R -> plane R)
  (g : G) (MF : plane R) (N : nat) (xf sn yf theta : R) (bkg : string) (std : option R)
  (seed : option Z) (bias : R),
  (1 <= nr MF)%nat -> (1 <= nc MF)%nat ->
  (forall m s xf yf theta, shape (blur m s xf yf theta) = shape m) ->
  (bkg <> "poisson"%string -> bkg <> "gaussian"%string ->
   image default_rng rng_normal rng_poisson blur g MF N xf sn yf theta bkg std seed bias
   = (Raise UnboundLocalError, g)) /\
  (forall s, seed = Some s ->
   snd (image default_rng rng_normal rng_poisson blur g MF N xf sn yf theta bkg std seed bias) = g /\
   forall g2, fst (image default_rng rng_normal rng_poisson blur g2 MF N xf sn yf theta bkg std seed bias)
   = fst (image default_rng rng_normal rng_poisson blur g MF N xf sn yf theta bkg std seed bias)).
Proof.
  intros G default_rng rng_normal rng_poisson blur g MF N xf sn yf theta bkg std seed bias H1 H2 Hb.
  unfold image. pose proof (Hb MF (5 * Rmax xf yf) xf yf theta) as Hsh.
  set (im := blur MF (5 * Rmax xf yf) xf yf theta) in *. injection Hsh as Hr Hc. rewrite Hr, Hc.
  destruct (Nat.eqb_spec (nr MF) 0); [lia|]. destruct (Nat.eqb_spec (nc MF) 0); [lia|]. cbn [orb].
  split.
  - intros Hp Hg. destruct (String.eqb_spec bkg "poisson"); [contradiction|].
    destruct (String.eqb_spec bkg "gaussian"); [contradiction|]. reflexivity.
  - intros s ->. destruct (String.eqb bkg "poisson").
    + destruct (rng_poisson (default_rng s) (pmax im / sn) N). split; reflexivity.
    + destruct (String.eqb bkg "gaussian"); [|split; reflexivity].
      destruct (rng_normal (default_rng s) 0 (pmax im / sn) N). split; reflexivity.
Qed.
