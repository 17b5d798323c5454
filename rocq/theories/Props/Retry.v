(** C138: stars whose stamp has no level make the extraction fail once each, with strict picking. *)
From Coq Require Import ZArith List Bool Arith Reals Lia Lra.
From Flocq Require Import Core.Raux.
From Coquelicot Require Import Complex.
From Verif.Model Require Import Py Plane Ma Interp FindS Sources Stamps Cut KL Session Filter Chain CutChain Live.
From Verif.Spec Require Import Stamps Chain Session Cut Live Retry.
From Verif.Proof Require Import StampsExample Session SessionLm CutEx Live LiveMain Retry RetryLive StarEx RetryEx.
Import ListNotations.
Local Open Scope R_scope.

(** With strict picking, stars whose stamp has no level make the extraction fail once each; asked
    again as often, it returns the stamps of the other stars. *)
Theorem C138_retries : forall stats label public image rms sh sources bad,
  (0 < fst sh)%nat -> (0 < snd sh)%nat -> apart sh sources ->
  let pk := mkpicks true public in
  (forall s, In s sources -> bad s = true -> inner image sh s /\ ~ has_level image rms sh s /\
     snd (cut_stamps stats label pk (intact image) rms sh [s]) = Raise IndexError) ->
  (forall s, In s sources -> bad s = false -> exists left ex ex',
     cut_stamps stats label pk (intact image) rms sh [s] = (left, Ok ex) /\
     snd (cut_stamps stats label pk left rms sh [s]) = Ok ex') ->
  let n := length (filter bad sources) in
  let try k := snd (cut_stamps stats label pk (after_tries stats label pk (intact image) rms sh sources k) rms sh sources) in
  (forall k, (k < n)%nat -> try k = Raise IndexError) /\
  exists ex left0 ex0, try n = Ok ex /\
    cut_stamps stats label pk (intact image) rms sh (filter (fun s => negb (bad s)) sources) = (left0, Ok ex0) /\
    ex_stamps ex = ex_stamps ex0 /\ ex_pos ex = ex_pos ex0.
Proof. exact C138_retries_lm. Qed.
Print Assumptions C138_retries.

(** One star where the image is constant and one that passes the criteria. *)
Example C138_retries_case : forall public,
  apart (1, 1)%nat [side; mid] /\
  (forall s, In s [side; mid] -> is_side s = true -> inner spent (1, 1)%nat s /\ ~ has_level spent 1 (1, 1)%nat s /\
     snd (cut_stamps quiet none (mkpicks true public) (intact spent) 1 (1, 1)%nat [s]) = Raise IndexError) /\
  (forall s, In s [side; mid] -> is_side s = false -> exists left ex ex',
     cut_stamps quiet none (mkpicks true public) (intact spent) 1 (1, 1)%nat [s] = (left, Ok ex) /\
     snd (cut_stamps quiet none (mkpicks true public) left 1 (1, 1)%nat [s]) = Ok ex') /\
  length (filter is_side [side; mid]) = 1%nat.
Proof. exact spent_case. Qed.

(** The same of a new image with strict picking whose positions are asked for again and again. *)
Theorem C138_accesses : forall W fuel o d x c bad,
  build W fuel o d = Some (Ok x) -> fst (Session.best_sources (bu_lib x) (bu_attr x)) = Ok c -> o_pick o = true ->
  let sh := stamp_shape (bu_attr x) in
  let cut im l := cut_stamps (l_stats W) (l_label W) (mkpicks true None) im (var (bu_back x)) sh l in
  (0 < fst sh)%nat -> (0 < snd sh)%nat -> apart sh c ->
  (forall s, In s c -> bad s = true -> inner (bu_clean x) sh s /\ ~ has_level (bu_clean x) (var (bu_back x)) sh s /\
     snd (cut (intact (bu_clean x)) [s]) = Raise IndexError) ->
  (forall s, In s c -> bad s = false -> exists left ex ex',
     cut (intact (bu_clean x)) [s] = (left, Ok ex) /\ snd (cut left [s]) = Ok ex') ->
  let asked k := fst (l_stamps_pos (live_lib W o x) (lived W o (repeat CStampsPos k) x)) in
  let n := length (filter bad c) in
  (forall k, (k < n)%nat -> asked k = Raise IndexError) /\
  exists left ex, cut (intact (bu_clean x)) (filter (fun s => negb (bad s)) c) = (left, Ok ex) /\
    forall k, (n <= k)%nat -> asked k = Ok (ex_pos ex).
Proof. exact C138_accesses_lm. Qed.
Print Assumptions C138_accesses.

(** The same two stars in a new image. *)
Example C138_accesses_case : let sh := stamp_shape (bu_attr cbuilt) in
  let cut im l := cut_stamps (l_stats calm) (l_label calm) (mkpicks true None) im (var (bu_back cbuilt)) sh l in
  build calm 1 cchosen cdata = Some (Ok cbuilt) /\ fst (best_sources (bu_lib cbuilt) (bu_attr cbuilt)) = Ok [side; mid] /\
  o_pick cchosen = true /\ (0 < fst sh)%nat /\ (0 < snd sh)%nat /\ apart sh [side; mid] /\
  (forall s, In s [side; mid] -> is_side s = true -> inner (bu_clean cbuilt) sh s /\
     ~ has_level (bu_clean cbuilt) (var (bu_back cbuilt)) sh s /\ snd (cut (intact (bu_clean cbuilt)) [s]) = Raise IndexError) /\
  (forall s, In s [side; mid] -> is_side s = false -> exists left ex ex',
     cut (intact (bu_clean cbuilt)) [s] = (left, Ok ex) /\ snd (cut left [s]) = Ok ex') /\
  length (filter is_side [side; mid]) = 1%nat.
Proof. exact calm_case. Qed.
