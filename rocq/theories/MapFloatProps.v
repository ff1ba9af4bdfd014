(** C104: Map with floating point keys. *)
From Verif Require Import Base Word HashModel HashProofs HashProps MapModel MapSpec MapProofs MapProps MapFloatModel.
From Flocq Require Import IEEE754.Binary IEEE754.Bits.
From Flocq Require Core.Raux.

Lemma f32_eq_refl x : Binary.is_nan 24 128 x = false -> f32_eq x x = true.
Proof. intros N. unfold f32_eq. destruct x as [s|s|s pl H|s m e H]; [by destruct s|by destruct s|done|]. rewrite Bcompare_correct by done. rewrite Raux.Rcompare_Eq; done. Qed.
Lemma f64_eq_refl x : Binary.is_nan 53 1024 x = false -> f64_eq x x = true.
Proof. intros N. unfold f64_eq. destruct x as [s|s|s pl H|s m e H]; [by destruct s|by destruct s|done|]. rewrite Bcompare_correct by done. rewrite Raux.Rcompare_Eq; done. Qed.
(** Whether a lookup stops at a stored key: equal hashes, then [==].  For numbers that is identity of bits. *)
Theorem map_float_same_key :
  (forall x y, Binary.is_nan 24 128 x = false -> Binary.is_nan 24 128 y = false -> (key_f32 x = key_f32 y /\ f32_eq x y = true <-> x = y)) /\
  (forall x y, Binary.is_nan 53 1024 x = false -> Binary.is_nan 53 1024 y = false -> (key_f64 x = key_f64 y /\ f64_eq x y = true <-> x = y)).
Proof.
  split; intros x y Nx Ny; split.
  - intros [H E]. destruct (f32_eq_cases x y E) as [->|(s & t & -> & ->)]; [done|]. destruct s, t; [reflexivity|exfalso; revert H; vm_compute; discriminate|exfalso; revert H; vm_compute; discriminate|reflexivity].
  - intros <-. split; [done|by apply f32_eq_refl].
  - intros [H E]. destruct (f64_eq_cases x y E) as [->|(s & t & -> & ->)]; [done|]. destruct s, t; [reflexivity|exfalso; revert H; vm_compute; discriminate|exfalso; revert H; vm_compute; discriminate|reflexivity].
  - intros <-. split; [done|by apply f64_eq_refl].
Qed.

Section loops.
  Context {K V : Type} `{EqDecision K} (hash : K -> Z) (same : K -> K -> bool) (good : K -> Prop).
  Context (agree : forall x y, good x -> good y -> (hash x = hash y /\ same x y = true <-> x = y)).
  Notation entry := (entry K V).
  Definition stored (s : list (option entry)) : Prop := forall i e, s !! i = Some (Some e) -> ehash e = hash (ekey e) /\ good (ekey e).
  Lemma tests_agree (e : entry) key : ehash e = hash (ekey e) -> good (ekey e) -> good key ->
    ((ehash e =? hash key)%Z && same (ekey e) key) = ((ehash e =? hash key)%Z && bool_decide (ekey e = key)).
  Proof using agree.
    intros E G Gk. rewrite E. pose proof (agree _ _ G Gk) as A. destruct (Z.eqb_spec (hash (ekey e)) (hash key)) as [H|H]; [|done]. cbn [andb]. destruct (bool_decide_reflect (ekey e = key)) as [D|D]; [by apply A in D as []|].
    destruct (same (ekey e) key); [|done]. exfalso. apply D. by apply A.
  Qed.
  Lemma slot_at_stored s i e : stored s -> slot_at s i = Ok (Some e) -> ehash e = hash (ekey e) /\ good (ekey e).
  Proof using. intros S E. apply (S i). unfold slot_at in E. destruct (s !! i); [by injection E as ->|done]. Qed.
  Lemma try_get_agree s cap shift key : stored s -> good key -> forall fuel idx dist, try_get_by same fuel s cap shift (hash key) key idx dist = try_get_loop fuel s cap shift (hash key) key idx dist.
  Proof using agree.
    intros S G. induction fuel as [|fuel IH]; intros idx dist; [done|]. cbn [try_get_by try_get_loop]. destruct (slot_at s idx) as [[e|]| | |] eqn:E; cbn [mbind res_bind]; try done.
    destruct (slot_at_stored _ _ _ S E) as [Eh Ge]. rewrite tests_agree by done. destruct (_ && _); [done|]. destruct (home shift (ehash e)); cbn [mbind res_bind]; try done. destruct (_ <? _); [done|]. apply IH.
  Qed.
  Lemma erase_agree s cap shift key : stored s -> good key -> forall fuel idx dist, erase_by same fuel s cap shift (hash key) key idx dist = erase_probe fuel s cap shift (hash key) key idx dist.
  Proof using agree.
    intros S G. induction fuel as [|fuel IH]; intros idx dist; [done|]. cbn [erase_by erase_probe]. destruct (slot_at s idx) as [[e|]| | |] eqn:E; cbn [mbind res_bind]; try done.
    - destruct (slot_at_stored _ _ _ S E) as [Eh Ge]. rewrite tests_agree by done. destruct (_ && _); [done|]. destruct (home shift (ehash e)); cbn [mbind res_bind]; try done. destruct (_ <? _); [done|]. apply IH.
    - destruct (_ && _); [done|]. destruct (home shift 0); cbn [mbind res_bind]; try done. destruct (_ <? _); [done|]. apply IH.
  Qed.
  Lemma insert_agree cap shift : forall fuel s x idx dist placement, stored s -> ehash x = hash (ekey x) -> good (ekey x) -> insert_by same fuel s cap shift x idx dist placement = insert_loop fuel s cap shift x idx dist placement.
  Proof using agree.
    induction fuel as [|fuel IH]; intros s x idx dist placement S Ex Gx; [done|]. cbn [insert_by insert_loop]. destruct (slot_at s idx) as [[e|]| | |] eqn:E; cbn [mbind res_bind]; try done.
    destruct (slot_at_stored _ _ _ S E) as [Eh Ge]. rewrite Ex. rewrite tests_agree by done. destruct (_ && _); [done|]. destruct (home shift (ehash e)) as [kidx| | |]; cbn [mbind res_bind]; try done. cbv zeta. destruct (_ <? _).
    - apply IH; [|done|done]. intros i e' L. destruct (decide (i = idx)) as [->|N]; [|rewrite list_lookup_insert_ne in L by done; by apply (S i)].
      assert (idx < length s) as Hi by (apply list_lookup_insert_Some in L as [(_ & _ & ?)|[? _]]; done). rewrite list_lookup_insert in L by done. injection L as <-. done.
    - by apply IH.
  Qed.
End loops.
Lemma key_f32_ok : nonzero_u64 key_f32.
Proof.
  intros x. destruct (proj1 hash_nonzero_literal_nonzero (hash_f32 x)) as [N B]; [|unfold key_f32; lia]. apply squirrel5_range. pose proof (bits_of_binary_float_range 23 8 ltac:(done) ltac:(done) x) as Hx. unfold is_u, bits_of_b32. change (2 ^ (23 + 8 + 1))%Z with 4294967296%Z in Hx. lia.
Qed.
Lemma key_f64_ok : nonzero_u64 key_f64.
Proof.
  intros x. destruct (proj1 hash_nonzero_literal_nonzero (hash_f64 x)) as [N B]; [|unfold key_f64; lia]. apply squirrel5_range. pose proof (bits_of_binary_float_range 52 11 ltac:(done) ltac:(done) x) as Hx. exact Hx.
Qed.
Section history.
  Context {K V : Type} `{EqDecision K} (hash : K -> Z) (same : K -> K -> bool) (good : K -> Prop) (hash_ok : nonzero_u64 hash).
  Context (agree : forall x y, good x -> good y -> (hash x = hash y /\ same x y = true <-> x = y)).
  Lemma history (m0 : map K V) ops m outs ds : map_start m0 -> no_capacity_1 ops -> clone_safe ops -> map_run hash m0 ops = Ok (m, outs, ds) -> (forall k v, (k, v) ∈ map_iterate m -> good k) ->
    forall key v, good key ->
    map_try_get_by same hash m key = map_try_get hash m key /\
    (forall fuel idx dist, erase_by same fuel (mdata m) (mcapacity m) (mshift m) (hash key) key idx dist = erase_probe fuel (mdata m) (mcapacity m) (mshift m) (hash key) key idx dist) /\
    (forall fuel idx dist placement, insert_by same fuel (mdata m) (mcapacity m) (mshift m) (mk_entry (hash key) key v) idx dist placement = insert_loop fuel (mdata m) (mcapacity m) (mshift m) (mk_entry (hash key) key v) idx dist placement).
  Proof using hash_ok agree.
    intros Hs H1 Hc E Hg key v G. pose proof (map_start_run hash m0 ops hash_ok Hs H1 Hc) as H. destruct (fm_final fm_empty ops) as [f|]; [|congruence]. destruct H as (m1 & outs1 & ds1 & E1 & I & _). rewrite E in E1. injection E1 as <- <- <-.
    assert (stored hash good (mdata m)) as S. { intros i e L. split; [exact (mi_wf _ _ I i e L)|]. apply (Hg _ (evalue e)). apply iterate_elem. by exists i, e. }
    split; [|split].
    - unfold map_try_get_by, map_try_get, try_get_. destruct (map_is_empty m); [done|]. destruct (home (mshift m) (hash key)) as [idx| | |]; cbn [mbind res_bind]; try done. by rewrite (try_get_agree hash same good agree).
    - intros. by apply (erase_agree hash same good agree).
    - intros. by apply (insert_agree hash same good agree).
  Qed.
  Lemma history_get (m0 : map K V) ops m outs ds : map_start m0 -> no_capacity_1 ops -> clone_safe ops -> map_run hash m0 ops = Ok (m, outs, ds) -> (forall k v, (k, v) ∈ map_iterate m -> good k) ->
    forall key, good key -> map_try_get_by same hash m key = map_try_get hash m key.
  Proof using hash_ok agree.
    intros Hs H1 Hc E Hg key G. destruct (map_is_empty m) eqn:Em; [by unfold map_try_get_by, map_try_get; rewrite Em|].
    destruct (omap id (mdata m)) as [|e l] eqn:Ee; [|by destruct (history m0 ops m outs ds Hs H1 Hc E Hg key (evalue e) G)].
    unfold map_try_get_by, map_try_get, try_get_. rewrite Em. destruct (home (mshift m) (hash key)) as [idx| | |]; cbn [mbind res_bind]; try done. rewrite (try_get_agree hash same good agree); [done| |done].
    intros i x L. exfalso. assert (x ∈ omap id (mdata m)) as Hx by (apply elem_of_list_omap; exists (Some x); split; [by eapply elem_of_list_lookup_2|done]). rewrite Ee in Hx. by apply elem_of_nil in Hx.
  Qed.
End history.

(** After any history that left no NaN in the map, looking up, erasing and inserting a number compare keys as if by their bits: the program's
    loops run as those of MapModel.v do, so all that C15-C20 say holds of maps with f32 and f64 keys, with +0 and -0 as two keys. *)
Theorem map_f32_keys : forall V (m0 : map binary32 V) ops m outs ds, map_start m0 -> no_capacity_1 ops -> clone_safe ops -> map_run key_f32 m0 ops = Ok (m, outs, ds) ->
  (forall k v, (k, v) ∈ map_iterate m -> Binary.is_nan 24 128 k = false) -> forall key v, Binary.is_nan 24 128 key = false ->
  map_try_get_by f32_eq key_f32 m key = map_try_get key_f32 m key /\
  (forall fuel idx dist, erase_by f32_eq fuel (mdata m) (mcapacity m) (mshift m) (key_f32 key) key idx dist = erase_probe fuel (mdata m) (mcapacity m) (mshift m) (key_f32 key) key idx dist) /\
  (forall fuel idx dist placement, insert_by f32_eq fuel (mdata m) (mcapacity m) (mshift m) (mk_entry (key_f32 key) key v) idx dist placement = insert_loop fuel (mdata m) (mcapacity m) (mshift m) (mk_entry (key_f32 key) key v) idx dist placement).
Proof. intros V. exact (history key_f32 f32_eq (fun x => Binary.is_nan 24 128 x = false) key_f32_ok (proj1 map_float_same_key)). Qed.
Theorem map_f64_keys : forall V (m0 : map binary64 V) ops m outs ds, map_start m0 -> no_capacity_1 ops -> clone_safe ops -> map_run key_f64 m0 ops = Ok (m, outs, ds) ->
  (forall k v, (k, v) ∈ map_iterate m -> Binary.is_nan 53 1024 k = false) -> forall key v, Binary.is_nan 53 1024 key = false ->
  map_try_get_by f64_eq key_f64 m key = map_try_get key_f64 m key /\
  (forall fuel idx dist, erase_by f64_eq fuel (mdata m) (mcapacity m) (mshift m) (key_f64 key) key idx dist = erase_probe fuel (mdata m) (mcapacity m) (mshift m) (key_f64 key) key idx dist) /\
  (forall fuel idx dist placement, insert_by f64_eq fuel (mdata m) (mcapacity m) (mshift m) (mk_entry (key_f64 key) key v) idx dist placement = insert_loop fuel (mdata m) (mcapacity m) (mshift m) (mk_entry (key_f64 key) key v) idx dist placement).
Proof. intros V. exact (history key_f64 f64_eq (fun x => Binary.is_nan 53 1024 x = false) key_f64_ok (proj2 map_float_same_key)). Qed.

(** A value stored under a number is found under that number and under no other bits, not even those of an equal number. *)
Theorem map_f32_finds : forall V (m0 : map binary32 V) ops (f : binary32 -> option V), map_start m0 -> no_capacity_1 ops -> clone_safe ops -> fm_final fm_empty ops = Some f ->
  (forall k, Binary.is_nan 24 128 k = true -> f k = None) ->
  exists m outs ds, map_run key_f32 m0 ops = Ok (m, outs, ds) /\ forall key, Binary.is_nan 24 128 key = false -> map_try_get_by f32_eq key_f32 m key = Ok (f key).
Proof.
  intros V m0 ops f Hs H1 Hc Hf Hn. pose proof (map_start_run key_f32 m0 ops key_f32_ok Hs H1 Hc) as H. rewrite Hf in H. destruct H as (m & outs & ds & E & I & R & _). exists m, outs, ds. split; [exact E|]. intros key G.
  assert (forall k v, (k, v) ∈ map_iterate m -> Binary.is_nan 24 128 k = false) as S. { intros k v L. apply R in L. destruct (Binary.is_nan 24 128 k) eqn:N; [|done]. rewrite Hn in L by done. done. }
  rewrite (history_get key_f32 f32_eq (fun x => Binary.is_nan 24 128 x = false) key_f32_ok (proj1 map_float_same_key) m0 ops m outs ds Hs H1 Hc E S key G). by apply (map_try_get_ok key_f32 key_f32_ok).
Qed.
Theorem map_f64_finds : forall V (m0 : map binary64 V) ops (f : binary64 -> option V), map_start m0 -> no_capacity_1 ops -> clone_safe ops -> fm_final fm_empty ops = Some f ->
  (forall k, Binary.is_nan 53 1024 k = true -> f k = None) ->
  exists m outs ds, map_run key_f64 m0 ops = Ok (m, outs, ds) /\ forall key, Binary.is_nan 53 1024 key = false -> map_try_get_by f64_eq key_f64 m key = Ok (f key).
Proof.
  intros V m0 ops f Hs H1 Hc Hf Hn. pose proof (map_start_run key_f64 m0 ops key_f64_ok Hs H1 Hc) as H. rewrite Hf in H. destruct H as (m & outs & ds & E & I & R & _). exists m, outs, ds. split; [exact E|]. intros key G.
  assert (forall k v, (k, v) ∈ map_iterate m -> Binary.is_nan 53 1024 k = false) as S. { intros k v L. apply R in L. destruct (Binary.is_nan 53 1024 k) eqn:N; [|done]. rewrite Hn in L by done. done. }
  rewrite (history_get key_f64 f64_eq (fun x => Binary.is_nan 53 1024 x = false) key_f64_ok (proj2 map_float_same_key) m0 ops m outs ds Hs H1 Hc E S key G). by apply (map_try_get_ok key_f64 key_f64_ok).
Qed.

(** A NaN is never found and never erased, whatever the map holds. *)
Theorem map_nan_lost_refuted : forall V (m : map binary32 V) (key : binary32), Binary.is_nan 24 128 key = true ->
  (forall v, map_try_get_by f32_eq key_f32 m key <> Ok (Some v)) /\
  (forall fuel idx dist (i : nat), erase_by f32_eq fuel (mdata m) (mcapacity m) (mshift m) (key_f32 key) key idx dist <> Ok (Some i)).
Proof.
  intros V m key N. assert (forall x, f32_eq x key = false) as F. { intros x. destruct key; try done. by destruct x. }
  assert (forall fuel idx dist i, try_get_by f32_eq fuel (mdata m) (mcapacity m) (mshift m) (key_f32 key) key idx dist <> Ok (Some i)) as T.
  { induction fuel as [|fuel IH]; intros idx dist i; [done|]. cbn [try_get_by]. destruct (slot_at (mdata m) idx) as [[e|]| | |]; cbn [mbind res_bind]; try done. rewrite F, andb_false_r. destruct (home _ _); cbn [mbind res_bind]; try done. destruct (_ <? _); [done|]. apply IH. }
  split.
  - intros v. unfold map_try_get_by. destruct (map_is_empty m); [done|]. destruct (home _ _) as [idx| | |]; cbn [mbind res_bind]; try done. specialize (T (S (mcapacity m)) idx 0). destruct (try_get_by _ _ _ _ _ _ _ _ _) as [[i|]| | |]; cbn [mbind res_bind]; try done. by specialize (T i).
  - induction fuel as [|fuel IH]; intros idx dist i; [done|]. cbn [erase_by]. destruct (slot_at (mdata m) idx) as [[e|]| | |]; cbn [mbind res_bind]; try done.
    + rewrite F, andb_false_r. destruct (home _ _); cbn [mbind res_bind]; try done. destruct (_ <? _); [done|]. apply IH.
    + destruct (_ && _); [done|]. destruct (home _ _); cbn [mbind res_bind]; try done. destruct (_ <? _); [done|]. apply IH.
Qed.
Theorem map_nan_lost_f64_refuted : forall V (m : map binary64 V) (key : binary64), Binary.is_nan 53 1024 key = true ->
  (forall v, map_try_get_by f64_eq key_f64 m key <> Ok (Some v)) /\
  (forall fuel idx dist (i : nat), erase_by f64_eq fuel (mdata m) (mcapacity m) (mshift m) (key_f64 key) key idx dist <> Ok (Some i)).
Proof.
  intros V m key N. assert (forall x, f64_eq x key = false) as F. { intros x. destruct key; try done. by destruct x. }
  assert (forall fuel idx dist i, try_get_by f64_eq fuel (mdata m) (mcapacity m) (mshift m) (key_f64 key) key idx dist <> Ok (Some i)) as T.
  { induction fuel as [|fuel IH]; intros idx dist i; [done|]. cbn [try_get_by]. destruct (slot_at (mdata m) idx) as [[e|]| | |]; cbn [mbind res_bind]; try done. rewrite F, andb_false_r. destruct (home _ _); cbn [mbind res_bind]; try done. destruct (_ <? _); [done|]. apply IH. }
  split.
  - intros v. unfold map_try_get_by. destruct (map_is_empty m); [done|]. destruct (home _ _) as [idx| | |]; cbn [mbind res_bind]; try done. specialize (T (S (mcapacity m)) idx 0). destruct (try_get_by _ _ _ _ _ _ _ _ _) as [[i|]| | |]; cbn [mbind res_bind]; try done. by specialize (T i).
  - induction fuel as [|fuel IH]; intros idx dist i; [done|]. cbn [erase_by]. destruct (slot_at (mdata m) idx) as [[e|]| | |]; cbn [mbind res_bind]; try done.
    + rewrite F, andb_false_r. destruct (home _ _); cbn [mbind res_bind]; try done. destruct (_ <? _); [done|]. apply IH.
    + destruct (_ && _); [done|]. destruct (home _ _); cbn [mbind res_bind]; try done. destruct (_ <? _); [done|]. apply IH.
Qed.
(** So keys that compare equal need not be the same key: -0.0 == 0.0, but what is stored under 0.0 is not found under -0.0, and inserting under -0.0
    makes a second entry. *)
Definition pzero : binary32 := B754_zero 24 128 false.
Definition nzero : binary32 := B754_zero 24 128 true.
Theorem map_f32_zero_refuted : f32_eq pzero nzero = true /\
  exists m m' outs outs', map_run key_f32 map_empty [MInsert pzero 1] = Ok (m, outs, []) /\ map_try_get_by f32_eq key_f32 m pzero = Ok (Some 1) /\ map_try_get_by f32_eq key_f32 m nzero = Ok None /\
  map_run key_f32 map_empty [MInsert pzero 1; MInsert nzero 2] = Ok (m', outs', []) /\ length (map_iterate m') = 2.
Proof.
  split; [vm_compute; reflexivity|]. eexists _, _, _, _. split; [vm_compute; reflexivity|]. split; [vm_compute; reflexivity|]. split; [vm_compute; reflexivity|]. split; vm_compute; reflexivity.
Qed.

(** The hypotheses are met: a history over 0.0, 1.0 and infinity. *)
Definition one32 : binary32 := b32_of_bits 0x3F800000.
Definition float_ops : list (map_op binary32 nat) := [MInsert pzero 1; MInsert one32 2; MInsert (B754_infinity 24 128 false) 3; MTryErase one32; MInsert nzero 4].
Example map_float_premises : no_capacity_1 float_ops /\ clone_safe float_ops /\ exists f : binary32 -> option nat, fm_final fm_empty float_ops = Some f /\ (forall k, Binary.is_nan 24 128 k = true -> f k = None) /\ f pzero = Some 1 /\ f nzero = Some 4 /\ f one32 = None.
Proof.
  split. { unfold no_capacity_1, float_ops. intros H. repeat (apply elem_of_cons in H as [H|H]; [discriminate H|]). by apply elem_of_nil in H. }
  split. { intros _ n H. unfold float_ops in H. repeat (apply elem_of_cons in H as [H|H]; [discriminate H|]). by apply elem_of_nil in H. }
  eexists. split; [reflexivity|]. split; [|by vm_compute].
  intros k N. cbv beta delta [fm_insert fm_delete fm_empty]. repeat (destruct (decide _) as [->|]; [done|]). done.
Qed.
Example map_nan_premise : Binary.is_nan 24 128 (b32_of_bits 0x7FC00000) = true.
Proof. by vm_compute. Qed.
Print Assumptions map_float_same_key.
Print Assumptions map_f32_keys.
Print Assumptions map_f64_keys.
Print Assumptions map_f32_finds.
Print Assumptions map_nan_lost_refuted.
Print Assumptions map_f32_zero_refuted.
Print Assumptions map_f64_finds.
Print Assumptions map_nan_lost_f64_refuted.
