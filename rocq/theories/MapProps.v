(** Properties C15-C20: Map. *)
From Verif Require Import Base Word MathModel MathSpec MathProofs MapModel MapSpec QueueProofs MapProofs.

(** The hashes Map works with: [hash_nonzero] gives a non-zero u64
    (HashProps.hash_nonzero_literal_nonzero).  Nothing else is assumed, so the hash may
    be constant. *)
Definition nonzero_u64 {K} (hash : K -> Z) : Prop := forall k, (0 < hash k < 2 ^ 64)%Z.

(** A Map as constructed: [Map()] or [Map(n)]. *)
Definition map_start {K V} (m : map K V) : Prop :=
  m = map_empty \/ exists n, n <> 1 /\ m = map_with_capacity n.

Lemma map_start_ok {K V} `{EqDecision K} (hash : K -> Z) (m : map K V) : nonzero_u64 hash -> map_start m ->
  minv hash m /\ mrel m fm_empty /\ mpow m /\ mlength m = 0 /\ map_iterate m = [].
Proof.
  intros Hh [->|(n & Hn & ->)]; [|by apply with_capacity_ok].
  split; [apply map_empty_minv|]. split; [|split; [by left|done]].
  intros k v. cbn. split; [intros H; by apply elem_of_nil in H|done].
Qed.

Lemma map_start_run {K V} `{EqDecision K} (hash : K -> Z) (m : map K V) ops : nonzero_u64 hash -> map_start m ->
  no_capacity_1 ops -> clone_safe ops ->
  match fm_final fm_empty ops with
  | Some f => exists m' outs ds, map_run hash m ops = Ok (m', outs, ds) /\ minv hash m' /\ mrel m' f /\
      fm_answers fm_empty ops outs /\
      (MReplaceByClone ∉ ops -> ds ++ map_iterate m' ≡ₚ fm_created fm_empty ops) /\
      mlength m' = length (map_iterate m') + fm_reinserted fm_empty 0 ops
  | None => map_run hash m ops = Die
  end.
Proof.
  intros Hh Hs H1 Hc. destruct (map_start_ok hash m Hh Hs) as (I & Hr & Hp & Hl & Hi).
  pose proof (map_run_ok hash Hh ops m fm_empty I Hr H1) as H.
  specialize (H ltac:(intros Hin; split; [done|by apply Hc])).
  destruct (fm_final fm_empty ops) as [f|]; [|done].
  destruct H as (m' & outs & ds & E & I' & Hr' & Ha & Pacc & Hacc). exists m', outs, ds.
  split; [done|]. split; [done|]. split; [done|]. split; [done|]. split.
  - intros Hno. rewrite Hi, app_nil_r in Pacc. by apply Pacc.
  - apply Hacc. rewrite Hl, Hi. done.
Qed.

(** C15: whatever the history, the map answers as the mathematical finite map
    does, terminates, and stops exactly on contract violations (get, erase or
    assignment through get of an absent key). *)
Theorem map_is_finite_map : forall (K V : Type) `(EqDecision K) (hash : K -> Z) (m0 : map K V) ops,
  nonzero_u64 hash -> map_start m0 -> no_capacity_1 ops -> clone_safe ops ->
  match fm_final fm_empty ops with
  | Some f => exists m outs destroyed, map_run hash m0 ops = Ok (m, outs, destroyed) /\
      fm_answers fm_empty ops outs /\
      forall k, map_try_get hash m k = Ok (f k)
  | None => map_run hash m0 ops = Die
  end.
Proof.
  intros K V ? hash m0 ops Hh Hs H1 Hc. pose proof (map_start_run hash m0 ops Hh Hs H1 Hc) as H.
  destruct (fm_final fm_empty ops) as [f|]; [|done].
  destruct H as (m & outs & ds & E & I & Hr & Ha & _). exists m, outs, ds. split; [done|]. split; [done|].
  intros k. by apply map_try_get_ok.
Qed.
Print Assumptions map_is_finite_map.

(** A history with collisions (every key hashes to 1), wrap-around, erasure
    and growth meets the hypotheses. *)
Definition ex_ops : list (map_op nat nat) :=
  [MReserve 4; MInsert 1 10; MInsert 2 20; MInsert 3 30; MTryErase 2; MInsert 4 40; MInsert 5 50;
   MAssign 3 33; MGetOrInsert 6 60; MGetOrInsert 1 0; MReplaceByClone; MIterate; MTryGet 2; MContains 5].
Example map_is_finite_map_ex :
  nonzero_u64 (fun _ : nat => 1%Z) /\ map_start (K:=nat) (V:=nat) map_empty /\ no_capacity_1 ex_ops /\ clone_safe ex_ops /\
  exists m destroyed, map_run (fun _ => 1%Z) map_empty ex_ops =
    Ok (m, [OUnit; OVal 10; OVal 20; OVal 30; OBool true; OVal 40; OVal 50; OUnit; OVal 60; OVal 10; OUnit;
            OList [(1, 10); (3, 33); (4, 40); (5, 50); (6, 60)]; OOpt None; OBool true], destroyed).
Proof.
  split; [intros k; lia|]. split; [by left|]. split.
  { unfold no_capacity_1, ex_ops. intros H. repeat (apply elem_of_cons in H as [H|H]; [done|]). by apply elem_of_nil in H. }
  split.
  { intros _ n H. right. unfold ex_ops in H.
    repeat (apply elem_of_cons in H as [H|H]; [first [done | injection H as ->; exists 2; done]|]). by apply elem_of_nil in H. }
  exists (mk_map (((fun k => Some (mk_entry 1 k.1 k.2)) <$> [(1, 10); (3, 33); (4, 40); (5, 50); (6, 60)]) ++ replicate 3 None)
     8 5 6 61), [(2, 20); (3, 30); (1, 10); (3, 33); (4, 40); (5, 50); (6, 60)].
  by vm_compute.
Qed.

(** Operations on one key never disturb another. *)
Theorem map_ops_are_independent : forall (K V : Type) `(EqDecision K) (hash : K -> Z) (m0 : map K V) ops m outs ds o k k',
  nonzero_u64 hash -> map_start m0 -> no_capacity_1 ops -> clone_safe ops ->
  map_run hash m0 ops = Ok (m, outs, ds) -> k <> k' ->
  (exists v, o = MInsert k v) \/ (exists v, o = MGetOrInsert k v) \/ o = MTryErase k ->
  exists m' out ds', map_step hash m o = Ok (m', out, ds') /\ map_try_get hash m' k' = map_try_get hash m k'.
Proof.
  intros K V ? hash m0 ops m outs ds o k k' Hh Hs H1 Hc E Nk Ho.
  pose proof (map_start_run hash m0 ops Hh Hs H1 Hc) as H.
  destruct (fm_final fm_empty ops) as [f|]; [|congruence].
  destruct H as (m1 & outs1 & ds1 & E1 & I & Hr & _). rewrite E in E1. injection E1 as <- <- <-.
  pose proof (map_step_ok hash Hh m f o I Hr) as Hst.
  rewrite (map_try_get_ok hash Hh m f k' I Hr).
  assert (op_ok m o) as Hop by (destruct Ho as [[? ->]|[[? ->]| ->]]; done).
  specialize (Hst Hop).
  assert (exists f', fm_next f o = Some f' /\ f' k' = f k') as (f' & Ef & Ek).
  { destruct Ho as [[v ->]|[[v ->]| ->]]; cbn.
    - eexists. split; [done|]. unfold fm_insert. by rewrite decide_False.
    - destruct (f k); eexists; (split; [done|]); [done|]. unfold fm_insert. by rewrite decide_False.
    - eexists. split; [done|]. unfold fm_delete. by rewrite decide_False. }
  rewrite Ef in Hst. destruct Hst as (m' & out & ds' & Est & I' & Hr' & _).
  exists m', out, ds'. split; [done|]. rewrite (map_try_get_ok hash Hh m' f' k' I' Hr'). by rewrite Ek.
Qed.
Print Assumptions map_ops_are_independent.

(** [Map(Pair...)] inserts its arguments in order. *)
Theorem map_of_pairs : forall (K V : Type) `(EqDecision K) (hash : K -> Z) (kvs : list (K * V)),
  nonzero_u64 hash ->
  exists m ds, map_insert_all hash map_empty kvs = Ok (m, ds) /\
    forall k, map_try_get hash m k = Ok (fm_insert_all fm_empty kvs k).
Proof.
  intros K V ? hash kvs Hh.
  assert (forall (kvs : list (K * V)) (m : map K V) f, minv hash m -> mrel m f ->
    exists m' ds, map_insert_all hash m kvs = Ok (m', ds) /\ minv hash m' /\
      mrel m' (fm_insert_all f kvs)) as Hall.
  { clear kvs. induction kvs as [|[k v] kvs IH]; intros m f I Hr; cbn [map_insert_all fm_insert_all].
    - exists m, []. done.
    - destruct (map_insert_ok hash Hh m f k v I Hr) as (m' & i & ds & -> & I' & Hr' & _). cbn [mbind res_bind].
      destruct (IH m' _ I' Hr') as (m2 & ds2 & -> & I2 & Hr2). cbn. eauto. }
  destruct (map_start_ok hash (map_empty (K:=K) (V:=V)) Hh (or_introl eq_refl)) as (I & Hr & _).
  destruct (Hall kvs map_empty fm_empty I Hr) as (m & ds & E & I' & Hr'). exists m, ds. split; [done|].
  intros k. by apply map_try_get_ok.
Qed.
Print Assumptions map_of_pairs.
Example map_of_pairs_ex : exists m ds, map_insert_all (fun _ : nat => 7%Z) map_empty [(1, 10); (2, 20); (1, 11)] = Ok (m, ds) /\
  map_iterate m = [(1, 11); (2, 20)].
Proof. eexists _, _. split; [vm_compute; reflexivity|]. by vm_compute. Qed.

(** C16 holds only while no present key is inserted again. *)
Theorem map_length_exact : forall (K V : Type) `(EqDecision K) (hash : K -> Z) (m0 : map K V) ops m outs ds,
  nonzero_u64 hash -> map_start m0 -> no_capacity_1 ops -> clone_safe ops ->
  map_run hash m0 ops = Ok (m, outs, ds) ->
  mlength m = length (map_iterate m) + fm_reinserted fm_empty 0 ops.
Proof.
  intros K V ? hash m0 ops m outs ds Hh Hs H1 Hc E.
  pose proof (map_start_run hash m0 ops Hh Hs H1 Hc) as H.
  destruct (fm_final fm_empty ops) as [f|]; [|congruence].
  destruct H as (m1 & outs1 & ds1 & E1 & I & Hr & _ & _ & Hl). rewrite E in E1. by injection E1 as <- <- <-.
Qed.
Print Assumptions map_length_exact.

Theorem map_length_counts_keys_partial : forall (K V : Type) `(EqDecision K) (hash : K -> Z) (m0 : map K V) ops m outs ds,
  nonzero_u64 hash -> map_start m0 -> no_capacity_1 ops -> clone_safe ops ->
  fm_reinserted fm_empty 0 ops = 0 ->
  map_run hash m0 ops = Ok (m, outs, ds) ->
  exists keys, NoDup keys /\ (forall k, k ∈ keys <-> map_contains hash m k = Ok true) /\
    map_step hash m MLength = Ok (m, ONat (length keys), []) /\
    map_step hash m MEmpty = Ok (m, OBool (bool_decide (keys = [])), []).
Proof.
  intros K V ? hash m0 ops m outs ds Hh Hs H1 Hc Hre E.
  pose proof (map_start_run hash m0 ops Hh Hs H1 Hc) as H.
  destruct (fm_final fm_empty ops) as [f|]; [|congruence].
  destruct H as (m1 & outs1 & ds1 & E1 & I & Hr & _ & _ & Hl). rewrite E in E1. injection E1 as <- <- <-.
  rewrite Hre, Nat.add_0_r in Hl.
  exists (fst <$> map_iterate m). split; [by eapply iterate_nodup, I|]. split; [|split].
  - intros k. unfold map_contains. rewrite (map_try_get_ok hash Hh m f k I Hr). cbn. rewrite elem_of_list_fmap. split.
    + intros ([k' v] & -> & Hin). apply Hr in Hin. cbn. by rewrite Hin.
    + intros Hk. destruct (f k) as [v|] eqn:Ef; [|done]. exists (k, v). split; [done|]. by apply Hr.
  - cbn. by rewrite fmap_length, Hl.
  - cbn. unfold map_is_empty. rewrite Hl. destruct (map_iterate m) as [|[k v] l]; cbn; [done|].
    done.
Qed.
Print Assumptions map_length_counts_keys_partial.
Example map_length_counts_keys_ex :
  fm_reinserted (K:=nat) fm_empty 0 [MInsert 1 10; MInsert 2 20; MTryErase 1; MInsert 1 11; MGetOrInsert 2 0] = 0.
Proof. by vm_compute. Qed.

(** Inserting a key twice and erasing it leaves a map that is not empty() and
    has length() 1, yet contains nothing. *)
Theorem map_length_refuted : exists ops m outs ds,
  map_run (fun _ : nat => 1%Z) map_empty ops = Ok (m, outs, ds) /\
  ops = [MInsert 7 1; MInsert 7 2; MErase 7] /\
  map_iterate m = [] /\ map_step (fun _ => 1%Z) m MLength = Ok (m, ONat 1, []) /\
  map_step (fun _ => 1%Z) m MEmpty = Ok (m, OBool false, []).
Proof.
  exists [MInsert 7 1; MInsert 7 2; MErase 7], (mk_map (replicate 32 None) 32 1 24 59), [OVal 1; OVal 2; OUnit], [(7, 1); (7, 2)].
  by vm_compute.
Qed.
Print Assumptions map_length_refuted.

(** C17 *)
Theorem map_iterates_each_entry_once : forall (K V : Type) `(EqDecision K) (hash : K -> Z) (m0 : map K V) ops m outs ds,
  nonzero_u64 hash -> map_start m0 -> no_capacity_1 ops -> clone_safe ops ->
  map_run hash m0 ops = Ok (m, outs, ds) ->
  NoDup (fst <$> map_iterate m) /\
  forall k v, (k, v) ∈ map_iterate m <-> map_try_get hash m k = Ok (Some v).
Proof.
  intros K V ? hash m0 ops m outs ds Hh Hs H1 Hc E.
  pose proof (map_start_run hash m0 ops Hh Hs H1 Hc) as H.
  destruct (fm_final fm_empty ops) as [f|]; [|congruence].
  destruct H as (m1 & outs1 & ds1 & E1 & I & Hr & _). rewrite E in E1. injection E1 as <- <- <-.
  split; [by eapply iterate_nodup, I|]. intros k v. rewrite (map_try_get_ok hash Hh m f k I Hr), (Hr k v).
  split; congruence.
Qed.
Print Assumptions map_iterates_each_entry_once.

(** C18: at most three quarters of the slots hold an entry, in every reachable
    map whose requested capacities differ from 1. *)
Theorem map_load_bounded_partial : forall (K V : Type) `(EqDecision K) (hash : K -> Z) (m0 : map K V) ops m outs ds,
  nonzero_u64 hash -> map_start m0 -> no_capacity_1 ops -> clone_safe ops ->
  map_run hash m0 ops = Ok (m, outs, ds) ->
  length (mdata m) = mcapacity m /\
  4 * length (map_iterate m) <= 3 * length (mdata m) /\
  (length (mdata m) <> 0 -> None ∈ mdata m).
Proof.
  intros K V ? hash m0 ops m outs ds Hh Hs H1 Hc E.
  pose proof (map_start_run hash m0 ops Hh Hs H1 Hc) as H.
  destruct (fm_final fm_empty ops) as [f|]; [|congruence].
  destruct H as (m1 & outs1 & ds1 & E1 & I & Hr & _). rewrite E in E1. injection E1 as <- <- <-.
  destruct I. split; [done|]. rewrite mi_usable in mi_load.
  assert (length (map_iterate m) = length (omap id (mdata m))) as El by (unfold map_iterate, kvs; by rewrite fmap_length).
  pose proof (Nat.mul_div_le (mcapacity m) 4 ltac:(lia)). unfold usable_of in mi_load. split; [lia|].
  intros Hz. destruct (vacant_exists (mdata m)) as [i Hi].
  { pose proof (usable_lt (mcapacity m) ltac:(lia)). unfold usable_of in *. lia. }
  by eapply elem_of_list_lookup_2.
Qed.
Print Assumptions map_load_bounded_partial.

(** Map(1) grows to two slots and then never grows again: the third insertion
    of a new key probes a full table for ever, whatever the fuel. *)
Definition e1 (k : nat) : entry nat unit := mk_entry 1 k tt.
Lemma full_probe fuel : forall a b pl, a <> b -> a <> 1 -> b <> 1 ->
  insert_loop fuel [Some (e1 a); Some (e1 1)] 2 63 (e1 b) 0 2 pl = Diverge.
Proof.
  induction fuel as [fuel IH] using lt_wf_ind. intros a b pl Nab Na Nb.
  destruct fuel as [|[|fuel]]; [done|..].
  - cbn. rewrite bool_decide_eq_false_2 by done. done.
  - cbn -[insert_loop]. cbn [insert_loop]. cbn. rewrite bool_decide_eq_false_2 by done. cbn.
    rewrite bool_decide_eq_false_2 by done. cbn. apply IH; [lia|done..].
Qed.
Theorem map_capacity_1_refuted :
  let hash := fun _ : nat => 1%Z in
  exists m outs, map_run hash (map_with_capacity 1) [MInsert 0 tt; MInsert 1 tt] = Ok (m, outs, []) /\
    mdata m = [Some (e1 0); Some (e1 1)] /\ mcapacity m = 2 /\ map_full m = false /\
    forall fuel, insert_loop fuel (mdata m) (mcapacity m) (mshift m) (e1 2) 0 0 None = Diverge.
Proof.
  exists (mk_map [Some (e1 0); Some (e1 1)] 2 2 0 63), [OVal tt; OVal tt].
  split; [by vm_compute|]. split; [done|]. split; [done|]. split; [done|].
  intros fuel. cbn [mdata mcapacity mshift]. destruct fuel as [|[|fuel]]; [done..|].
  cbn -[insert_loop]. cbn [insert_loop]. cbn. by apply full_probe.
Qed.
Print Assumptions map_capacity_1_refuted.

(** C19: clones of maps whose capacity is 0 or a power of two, which is every
    map that was not given another capacity by reserve(). *)
Theorem map_clone_same_contents_partial : forall (K V : Type) `(EqDecision K) (hash : K -> Z) (m0 : map K V) ops m outs ds,
  nonzero_u64 hash -> map_start m0 -> no_capacity_1 ops ->
  (forall n, MReserve n ∈ ops -> n = 0 \/ is_pow2 n) ->
  map_run hash m0 ops = Ok (m, outs, ds) ->
  (forall k, map_try_get hash (map_clone hash m) k = map_try_get hash m k) /\
  map_iterate (map_clone hash m) = map_iterate m /\ mlength (map_clone hash m) = mlength m.
Proof.
  intros K V ? hash m0 ops m outs ds Hh Hs H1 Hc E.
  destruct (map_start_ok hash m0 Hh Hs) as (I0 & Hr0 & Hp0 & _).
  pose proof (map_run_ok hash Hh ops m0 fm_empty I0 Hr0 H1 ltac:(intros _; done)) as H.
  assert (mpow m) as Hpm.
  { clear H. revert m0 Hs I0 Hr0 Hp0 outs ds E. generalize (@fm_empty K V) as f. intros f m0 _. revert f m0.
    induction ops as [|o os IH]; intros f m0 I0 Hr0 Hp0 outs ds E; cbn [map_run] in E.
    - by injection E as <- <- <-.
    - assert (op_ok m0 o) as Hop. { split; [|done]. intros ->. apply H1. by constructor. }
      pose proof (map_step_ok hash Hh m0 f o I0 Hr0 Hop) as Hst.
      destruct (fm_next f o) as [f'|]; [|rewrite Hst in E; done].
      destruct Hst as (m1 & out & ds1 & Es & I1 & Hr1 & _ & Hp & _). rewrite Es in E. cbn [mbind res_bind] in E.
      destruct (map_run hash m1 os) as [[[m2 outs2] ds2]| | |] eqn:Er; try done. cbn in E. injection E as -> _ _.
      eapply (IH) with (f := f') (m0 := m1) ; try done.
      + intros Hin. apply H1. by apply elem_of_list_further.
      + intros n Hn. apply Hc. by apply elem_of_list_further.
      + apply Hp; [done|]. intros n ->. apply Hc. by apply elem_of_list_here. }
  destruct (fm_final fm_empty ops) as [f|]; [|congruence].
  destruct H as (m1 & outs1 & ds1 & E1 & I & Hr & _). rewrite E in E1. injection E1 as <- <- <-.
  destruct (map_clone_ok hash m I Hpm) as (I' & Ed & El & Ec).
  split; [|unfold map_iterate; by rewrite Ed].
  intros k. rewrite (map_try_get_ok hash Hh m f k I Hr). apply map_try_get_ok; [done..|].
  intros k' v'. unfold map_iterate. rewrite Ed. apply Hr.
Qed.
Print Assumptions map_clone_same_contents_partial.
Example map_clone_same_contents_ex : exists m,
  map_run (fun k : nat => Z.of_nat (k + 1)) map_empty [MReserve 8; MInsert 1 10; MInsert 2 20] = Ok (m, [OUnit; OVal 10; OVal 20], []) /\
  map_iterate (map_clone (fun k => Z.of_nat (k + 1)) m) = [(1, 10); (2, 20)].
Proof.
  exists (mk_map ([Some (mk_entry 2 1 10); Some (mk_entry 3 2 20)] ++ replicate 6 None) 8 2 6 61). by vm_compute.
Qed.

(** After reserve(5) the clone has eight slots but keeps the entries where a
    table of five put them: the key is lost. *)
Theorem map_clone_refuted : exists m,
  map_run (fun _ : nat => (2 ^ 63)%Z) map_empty [MReserve 5; MInsert 1 10] = Ok (m, [OUnit; OVal 10], []) /\
  map_try_get (fun _ => (2 ^ 63)%Z) m 1 = Ok (Some 10) /\
  map_try_get (fun _ => (2 ^ 63)%Z) (map_clone (fun _ => (2 ^ 63)%Z) m) 1 = Ok None.
Proof.
  exists (mk_map [None; None; Some (mk_entry (2 ^ 63) 1 10); None; None] 5 1 3 62). by vm_compute.
Qed.
Print Assumptions map_clone_refuted.

(** C20: over a history (without clones) everything created is destroyed
    exactly once when the map is destroyed at the end; [map_is_finite_map]
    shows no vacant slot is used ([UB] never happens). *)
Theorem map_lifetimes : forall (K V : Type) `(EqDecision K) (hash : K -> Z) (m0 : map K V) ops m outs destroyed,
  nonzero_u64 hash -> map_start m0 -> no_capacity_1 ops -> MReplaceByClone ∉ ops ->
  map_run hash m0 ops = Ok (m, outs, destroyed) ->
  exists rest, map_destroy m = (map_empty, rest) /\
    destroyed ++ kvs rest ≡ₚ fm_created fm_empty ops.
Proof.
  intros K V ? hash m0 ops m outs ds Hh Hs H1 Hno E.
  pose proof (map_start_run hash m0 ops Hh Hs H1 ltac:(intros ?; done)) as H.
  destruct (fm_final fm_empty ops) as [f|]; [|congruence].
  destruct H as (m1 & outs1 & ds1 & E1 & I & Hr & _ & Pacc & _). rewrite E in E1. injection E1 as <- <- <-.
  eexists. split; [done|]. by apply Pacc.
Qed.
Print Assumptions map_lifetimes.
Example map_lifetimes_ex : exists m,
  map_run (fun _ : nat => 3%Z) map_empty [MInsert 1 10; MInsert 2 20; MInsert 1 11; MErase 2] =
    Ok (m, [OVal 10; OVal 20; OVal 11; OUnit], [(1, 10); (2, 20)]) /\
  kvs (map_destroy m).2 = [(1, 11)].
Proof.
  exists (mk_map (Some (mk_entry 3 1 11) :: replicate 31 None) 32 2 24 59). by vm_compute.
Qed.

(** get() with a String_View key skips the emptiness check that get() has: on
    a map that has no storage it reads through a null pointer. *)
Theorem map_get_view_refuted : map_get_view (K:=nat) (V:=nat) (fun _ => 1%Z) map_empty 0 = UB /\
  map_get (K:=nat) (V:=nat) (fun _ => 1%Z) map_empty 0 = Die.
Proof. by vm_compute. Qed.
Print Assumptions map_get_view_refuted.

(** On a map holding something the two agree. *)
Theorem map_get_view_partial : forall (K V : Type) `(EqDecision K) (hash : K -> Z) (m0 : map K V) ops m outs ds k,
  nonzero_u64 hash -> map_start m0 -> no_capacity_1 ops -> clone_safe ops ->
  map_run hash m0 ops = Ok (m, outs, ds) -> mlength m <> 0 ->
  map_get_view hash m k = map_get hash m k.
Proof.
  intros K V ? hash m0 ops m outs ds k Hh Hs H1 Hc E Hl.
  unfold map_get_view, map_get, map_try_get, map_is_empty. rewrite (proj2 (Nat.eqb_neq _ _)) by done.
  destruct (try_get_ hash m k) as [[i|]| | |]; cbn; try done.
  destruct (slot_at (mdata m) i) as [[e|]| | |]; done.
Qed.
Print Assumptions map_get_view_partial.

(** The arithmetic the model borrows from Math is Math's. *)
Theorem map_shift_ctlz : forall cap, (Z.of_nat cap < 2 ^ 64)%Z -> shift_of cap = (ctlz 64 (Z.of_nat cap) + 1)%Z.
Proof.
  intros cap Hc. unfold shift_of. destruct (Nat.eqb_spec cap 0) as [->|N]; [done|].
  rewrite ctlz_log2 by (unfold is_u; lia). 
  rewrite (Z.log2_unique _ (Z.of_nat (Nat.log2 cap))); [lia|lia|].
  pose proof (Nat.log2_spec cap ltac:(lia)) as [Hlo Hhi]. rewrite <- Nat2Z.inj_succ.
  change 2%Z with (Z.of_nat 2). rewrite <- !Nat2Z.inj_pow. lia.
Qed.
Print Assumptions map_shift_ctlz.
Theorem map_next_pow2 : forall n, (Z.of_nat n <= 2 ^ 63)%Z -> next_pow2 64 (Z.of_nat n) = Ok (Z.of_nat (next_pow2_nat n)).
Proof.
  intros n Hn. destruct n as [|n]; [done|].
  destruct (next_pow2_Z 64 (Z.of_nat (S n))) as (k & Hk & -> & Hle & Hlow); [lia..|].
  f_equal. unfold next_pow2_nat. rewrite Nat2Z.inj_pow. f_equal.
  change (Z.of_nat 2) with 2%Z.
  assert (Nat.log2_up (S n) = Z.to_nat k) as ->; [|lia].
  destruct (decide (k = 0%Z)) as [->|Nk].
  - cbn in Hle. assert (n = 0) as -> by lia. done.
  - destruct Hlow as [?|Hlow]; [done|]. apply Nat.log2_up_unique; [lia|].
    rewrite !Nat2Z.inj_lt, Nat2Z.inj_le. rewrite !Nat2Z.inj_pow. rewrite Nat2Z.inj_pred by lia. rewrite Z2Nat.id by lia.
    change (Z.of_nat 2) with 2%Z. rewrite <- Z.sub_1_r. lia.
Qed.
Print Assumptions map_next_pow2.
