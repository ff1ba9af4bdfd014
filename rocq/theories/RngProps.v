(** Random numbers and swap: C54, C55, C56, C68. *)
From Verif Require Import Word MathModel HashModel HashProofs F32 RngModel RngSpec RngProofs RngUnit.
From Verif Require RngParity.
From Coq Require Import Reals Lra.
From Flocq Require Import Core IEEE754.BinarySingleNaN IEEE754.Binary IEEE754.Bits.
Open Scope Z_scope.

(** ** C54 *)
(** The state after each call is the number returned, and each number comes from exactly one state. *)
Theorem rng_bijective :
  (forall s, 0 <= next s < 2 ^ 64) /\
  (forall s s', 0 <= s < 2 ^ 64 -> 0 <= s' < 2 ^ 64 -> next s = next s' -> s = s') /\
  (forall x, 0 <= x < 2 ^ 64 -> exists s, 0 <= s < 2 ^ 64 /\ next s = x).
Proof. split_and!; [exact next_u|exact next_inj|exact next_onto]. Qed.
(** Every value of an integer type is returned by [integer] for some state. *)
Theorem rng_integer : forall t,
  (forall s, in_ty t (integer t (next s))) /\
  (forall v, in_ty t v -> exists s, 0 <= s < 2 ^ 64 /\ integer t (next s) = v).
Proof.
  intros t. split; [intros s; apply cast_in|]. intros v Hv. destruct (next_onto (wrap 64 v)) as (s & Hs & E); [apply wrap_range; lia|].
  exists s. split; [done|]. rewrite E. unfold integer. rewrite <- (cast_id t v Hv) at 2. unfold cast, to_signed.
  assert (forall w, 0 <= w <= 64 -> wrap w (wrap 64 v) = wrap w v) as W.
  { intros w Hw. unfold wrap. replace (2 ^ 64) with (2 ^ w * 2 ^ (64 - w)) by (rewrite <- Z.pow_add_r by lia; f_equal; lia).
    pose proof (Z.pow_pos_nonneg 2 w). pose proof (Z.pow_pos_nonneg 2 (64 - w)).
    rewrite Z.rem_mul_r by lia. rewrite Z.mul_comm, Z.mod_add by lia. apply Z.mod_mod. lia. }
  destruct t; cbn [signed width]; rewrite W by lia; done.
Qed.
(** Unsigned types: always in range, and every value of the range can come up. *)
Theorem rng_range_unsigned : forall t min max, signed t = false -> in_ty t min -> in_ty t max -> min < max ->
  (forall s, exists v, range t (next s) min max = Ok v /\ min <= v < max) /\
  (forall v, min <= v < max -> exists s, 0 <= s < 2 ^ 64 /\ range t (next s) min max = Ok v).
Proof.
  intros t min max U Hmin Hmax L. split.
  - intros s. eexists. split; [by apply range_unsigned|]. pose proof (Z.mod_pos_bound (cast t (next s)) (max - min)). lia.
  - intros v Hv. assert (in_ty t (v - min)) as I by (unfold in_ty, is_u in *; rewrite U in *; lia).
    destruct (proj2 (rng_integer t) (v - min) I) as (s & Hs & E). exists s. split; [done|].
    rewrite range_unsigned by done. unfold integer in E. rewrite E, Z.mod_small by lia. f_equal. lia.
Qed.
(** Signed types: in range for those states whose low bits are not negative, if the size of the range is a value of
    the type.  Missing: the other states, see below. *)
Theorem rng_range_signed_partial : forall t min max s, signed t = true -> in_ty t min -> in_ty t max -> min < max -> in_ty t (max - min) ->
  0 <= integer t (next s) -> exists v, range t (next s) min max = Ok v /\ min <= v < max.
Proof.
  intros t min max s Sg Hmin Hmax L D P. eexists. split; [by apply range_ok|]. pose proof (Z.mod_pos_bound (cast t (next s)) (max - min)). lia.
Qed.
(** For the other states the result is at most [min], and below it unless the remainder happens to be 0. *)
Theorem rng_range_signed_below : forall t min max s, t = I32 \/ t = I64 -> in_ty t min -> in_ty t max -> min < max -> in_ty t (max - min) ->
  integer t (next s) < 0 -> range t (next s) min max = UB \/ exists v, range t (next s) min max = Ok v /\ min - (max - min) < v <= min /\
  (v = min <-> integer t (next s) mod (max - min) = 0).
Proof.
  intros t min max s T Hmin Hmax L D P. unfold integer in *. set (x := cast t (next s)) in *. unfold range. rewrite arith_ok by done. cbn [mbind res_bind].
  fold x. rewrite rem_ok by (apply cast_in || lia). cbn [mbind res_bind].
  pose proof (Z.rem_bound_neg_pos x (max - min)).
  destruct (in_tyb t (min + Z.rem x (max - min))) eqn:B.
  - right. exists (min + Z.rem x (max - min)). split; [apply arith_ok; by apply in_tyb_spec|]. split; [lia|].
    assert (Z.rem x (max - min) = 0 <-> x mod (max - min) = 0) as R.
    { rewrite Z.rem_divide, Z.mod_divide by lia. done. }
    rewrite <- R. lia.
  - left. unfold arith. destruct T as [-> | ->]; by rewrite B.
Qed.
(** So a die roll, range(1, 7), can be 0, and range(-128, 127) of an i8 is always -128. *)
Theorem rng_range_signed_refuted :
  (exists s, 0 <= s < 2 ^ 64 /\ range I32 (next s) 1 7 = Ok 0) /\
  (forall s, range I8 (next s) (-128) 127 = Ok (-128)) /\
  (exists s, 0 <= s < 2 ^ 64 /\ range I32 (next s) (- 2 ^ 31) 0 = UB).
Proof.
  split_and!.
  - destruct (next_onto (2 ^ 64 - 1)) as (s & Hs & E); [done|]. exists s. split; [done|]. rewrite E. vm_compute. reflexivity.
  - intros s. generalize (next s). intros x. unfold range. replace (arith I8 (127 - -128)) with (Ok (-1)) by (vm_compute; reflexivity). cbn [mbind res_bind]. unfold rem.
    assert (forall y, Z.rem y (-1) = 0) as R by (intros y; apply Z.rem_divide; [done|]; exists (- y); lia).
    rewrite R. vm_compute. reflexivity.
  - exists 0. split; [done|]. generalize (next 0). intros x. unfold range. replace (arith I32 (0 - - 2 ^ 31)) with (@UB Z) by (vm_compute; reflexivity). reflexivity.
Qed.
(** Any seed: the stream comes back to it before all states have been visited, and some state is never visited.  So
    the generator is not one cycle through all 64-bit states. *)
Theorem rng_cycle_refuted : forall seed, 0 <= seed < 2 ^ 64 ->
  (exists n, (0 < n)%nat /\ Z.of_nat n < 2 ^ 64 /\ Nat.iter n next seed = seed) /\
  (exists x, 0 <= x < 2 ^ 64 /\ forall n, output seed n <> x).
Proof.
  intros s Hs. destruct (RngParity.squirrel5_orbit Hs) as [(n & N1 & N2 & E) (y & Hy & H)]. split.
  - exists n. split_and!; [done|done|]. by rewrite (proj1 (iter_next n s Hs)).
  - exists y. split; [done|]. intros k. unfold output. rewrite (proj1 (iter_next (S k) s Hs)). apply H.
Qed.
Example rng_example : range U32 (next 7) 10 20 = Ok 16 /\ output 7 0 <> output 7 1 /\ in_ty U32 10 /\ in_ty U32 20.
Proof. vm_compute. split_and!; done. Qed.
Example rng_signed_premises : exists s, 0 <= s < 2 ^ 64 /\ 0 <= integer I32 (next s) /\ in_ty I32 (7 - 1) /\ range I32 (next s) 1 7 = Ok 6.
Proof. destruct (next_onto 5) as (s & Hs & E); [done|]. exists s. rewrite E. split; [exact Hs|]. clear. split_and!; vm_compute; done. Qed.
(** Seeding by thread id and time: streams of two threads seeded at the same time differ. *)
Theorem rng_seed_threads : forall id id' time, 0 <= id < 2 ^ 64 -> 0 <= id' < 2 ^ 64 -> id <> id' -> seed_of id time <> seed_of id' time.
Proof.
  intros a b t Ha Hb N E. apply N. exact (seed_of_inj a b t Ha Hb E).
Qed.

(** ** C55 *)
(** Every number unit() returns is in [0, 1). *)
Theorem unit_in_interval : forall s,
  (is_finite 24 128 (unit32 (next s)) = true /\ 0 <= B2R 24 128 (unit32 (next s)) < 1)%R /\
  (is_finite 53 1024 (unit64 (next s)) = true /\ 0 <= B2R 53 1024 (unit64 (next s)) < 1)%R.
Proof.
  intros s. pose proof (next_u s) as U. destruct (unit32_small _ U) as [F1 B1]. destruct (unit64_small _ U) as [F2 B2].
  assert (bpow radix2 (-55) < 1)%R by (apply (bpow_lt radix2 (-55) 0); lia). assert (bpow radix2 (-123) < 1)%R by (apply (bpow_lt radix2 (-123) 0); lia).
  split; (split; [done|lra]).
Qed.
(** But all of them are tiny: the literals 1e-24f and 1e-53 are powers of ten, where 2^-24 and 2^-53 were meant.  So a
    coin with any probability down to 2^-55 (f32) or 2^-123 (f64) always lands on the same side. *)
Theorem unit_spread_refuted : forall s,
  (B2R 24 128 (unit32 (next s)) <= bpow radix2 (-55))%R /\ (B2R 53 1024 (unit64 (next s)) <= bpow radix2 (-123))%R.
Proof. intros s. pose proof (next_u s) as U. destruct (unit32_small _ U). destruct (unit64_small _ U). lra. Qed.
Theorem coin_flip_refuted :
  (forall s p, is_finite 24 128 p = true -> (bpow radix2 (-55) < B2R 24 128 p)%R -> coin_flip32 (next s) p = true) /\
  (forall s p, is_finite 53 1024 p = true -> (bpow radix2 (-123) < B2R 53 1024 p)%R -> coin_flip64 (next s) p = true).
Proof.
  split; intros s p F L; pose proof (next_u s) as U.
  - destruct (unit32_small _ U) as [F1 B1]. unfold coin_flip32, f32_lt. rewrite Bcompare_correct by done. rewrite Rcompare_Lt by lra. done.
  - destruct (unit64_small _ U) as [F1 B1]. unfold coin_flip64, f64_lt. rewrite Bcompare_correct by done. rewrite Rcompare_Lt by lra. done.
Qed.
(** What does hold: probability 0 never, probability 1 always. *)
Theorem coin_flip_certain_partial : forall s,
  coin_flip32 (next s) (f32_of_Z 0) = false /\ coin_flip32 (next s) (f32_of_Z 1) = true /\
  coin_flip64 (next s) (f64_of_Z 0) = false /\ coin_flip64 (next s) (f64_of_Z 1) = true.
Proof.
  intros s. destruct (unit_in_interval s) as [[F1 B1] [F2 B2]]. unfold coin_flip32, coin_flip64, f32_lt, f64_lt.
  assert (B2R 24 128 (f32_of_Z 1) = 1)%R as V1.
  { rewrite <-FF2R_B2FF. replace (B2FF 24 128 (f32_of_Z 1)) with (F754_finite false 8388608 (-23)) by (vm_compute; reflexivity).
    cbn [FF2R cond_Zopp]. unfold F2R. cbn [Fnum Fexp bpow]. change (Z.pow_pos radix2 23) with 8388608. lra. }
  assert (B2R 53 1024 (f64_of_Z 1) = 1)%R as V2.
  { rewrite <-FF2R_B2FF. replace (B2FF 53 1024 (f64_of_Z 1)) with (F754_finite false 4503599627370496 (-52)) by (vm_compute; reflexivity).
    cbn [FF2R cond_Zopp]. unfold F2R. cbn [Fnum Fexp bpow]. change (Z.pow_pos radix2 52) with 4503599627370496. lra. }
  assert (B2R 24 128 (f32_of_Z 0) = 0)%R as V3 by reflexivity. assert (B2R 53 1024 (f64_of_Z 0) = 0)%R as V4 by reflexivity.
  rewrite !Bcompare_correct by (done || (vm_compute; done)). rewrite V1, V2, V3, V4. split_and!.
  - destruct (Rcompare_spec (B2R 24 128 (unit32 (next s))) 0); try done; lra.
  - rewrite Rcompare_Lt by lra. done.
  - destruct (Rcompare_spec (B2R 53 1024 (unit64 (next s))) 0); try done; lra.
  - rewrite Rcompare_Lt by lra. done.
Qed.
(** One half *)
Example coin_flip_premises : is_finite 24 128 (b32_of_bits 0x3F000000) = true /\ (bpow radix2 (-55) < B2R 24 128 (b32_of_bits 0x3F000000))%R.
Proof.
  split; [reflexivity|]. rewrite <-FF2R_B2FF. replace (B2FF 24 128 (b32_of_bits 0x3F000000)) with (F754_finite false 8388608 (-24)) by (vm_compute; reflexivity).
  cbn [FF2R cond_Zopp]. apply (Rlt_le_trans _ (bpow radix2 (-24))); [apply bpow_lt; lia|]. unfold F2R. cbn [Fnum Fexp]. pose proof (bpow_gt_0 radix2 (-24)). nra.
Qed.

(** ** C56 *)
Definition copied {V} : movable V := Movable V true (fun v => (v, v)) (fun _ s => (s, s)) (fun v => v).
(** A type whose moves leave null behind, and whose self-assignment clears. *)
Definition handles : movable (option Z) := Movable (option Z) false (fun v => (v, None)) (fun _ s => (s, None)) (fun _ => None).
Example moves_ex : moves (@copied Z) /\ moves handles.
Proof. by vm_compute. Qed.
Theorem shuffle_permutes : forall V (m : movable V) draw v, moves m -> u64s draw -> v <> [] -> Z.of_nat (length v) < 2 ^ 64 ->
  exists v', shuffle m draw v = Ok v' /\ v' ≡ₚ v.
Proof. intros V m draw v M U N B. eexists. split; [by apply shuffle_rounds|]. apply rounds_perm. Qed.
Theorem shuffle_every_order : forall V (m : movable V) v v', moves m -> v <> [] -> Z.of_nat (length v) < 2 ^ 64 -> v' ≡ₚ v ->
  exists draw, u64s draw /\ shuffle m draw v = Ok v'.
Proof.
  intros V m v v' M N B P. destruct (rounds_onto O v v' P N B) as (draw & U & E). exists draw. split; [done|].
  rewrite shuffle_rounds by done. by rewrite E.
Qed.
(** Distinct elements: the order depends on each of the numbers drawn only through its remainder, and on nothing
    less, so if remainders are equally likely then so are the orders. *)
Theorem shuffle_unbiased : forall V (m : movable V) v draw draw', moves m -> u64s draw -> u64s draw' -> v <> [] -> Z.of_nat (length v) < 2 ^ 64 -> NoDup v ->
  shuffle m draw v = shuffle m draw' v <->
  forall i, (i < length v - 1)%nat -> draw i mod Z.of_nat (length v - i) = draw' i mod Z.of_nat (length v - i).
Proof.
  intros V m v draw draw' M U U' N B ND. rewrite !shuffle_rounds by done. rewrite <- (rounds_choices draw draw' O v ND N). split; [by intros [= E]|by intros ->].
Qed.
Theorem shuffle_empty_refuted : forall V (m : movable V) draw, shuffle m draw [] = UB.
Proof. done. Qed.
Example shuffle_example : shuffle handles (output 3) [Some 1; Some 2; Some 3; Some 4] = Ok [Some 1; Some 4; Some 2; Some 3].
Proof. vm_compute. done. Qed.
Example output_u64s : u64s (output 3).
Proof. intros i. apply next_u. Qed.

(** A stream has only 2^64 states, fewer than the orders of 21 elements: for every longer vector some order comes out whatever the seed. *)
Fixpoint orders (n : nat) : Z := match n with O => 1 | S k => Z.of_nat n * orders k end.
Fixpoint pack (draw : nat -> Z) (n : nat) : Z := match n with O => 0 | S k => draw O mod Z.of_nat n + Z.of_nat n * pack (fun i => draw (S i)) k end.
Fixpoint unpack (n : nat) (x : Z) (i : nat) : Z := match n with O => 0 | S k => match i with O => x mod Z.of_nat n | S i => unpack k (x / Z.of_nat n) i end end.
Lemma orders_pos n : 0 < orders n.
Proof. induction n as [|n IH]; cbn [orders]; lia. Qed.
Lemma pack_unpack n x : 0 <= x < orders n -> pack (unpack n x) n = x.
Proof.
  revert x. induction n as [|n IH]; intros x H; [cbn in *; lia|]. cbn [pack orders] in *. change (unpack (S n) x 0) with (x mod Z.of_nat (S n)). rewrite Z.mod_mod by lia.
  change (fun i => unpack (S n) x (S i)) with (unpack n (x / Z.of_nat (S n))). rewrite IH; [pose proof (Z.div_mod x (Z.of_nat (S n)) ltac:(lia)); lia|].
  split; [apply Z.div_pos; lia|apply Z.div_lt_upper_bound; lia].
Qed.
Lemma unpack_u n x : Z.of_nat n < 2 ^ 64 -> u64s (unpack n x).
Proof.
  intros H i. revert x i. induction n as [|n IH]; intros x i; [cbn; lia|]. destruct i as [|i].
  - change (unpack (S n) x 0) with (x mod Z.of_nat (S n)). pose proof (Z.mod_pos_bound x (Z.of_nat (S n)) ltac:(lia)). lia.
  - change (unpack (S n) x (S i)) with (unpack n (x / Z.of_nat (S n)) i). apply IH. lia.
Qed.
Lemma pack_same draw draw' n : (forall i, (i < n)%nat -> draw i mod Z.of_nat (n - i) = draw' i mod Z.of_nat (n - i)) -> pack draw n = pack draw' n.
Proof.
  revert draw draw'. induction n as [|n IH]; intros draw draw' H; [done|]. cbn [pack]. pose proof (H O ltac:(lia)) as H0. rewrite Nat.sub_0_r in H0. rewrite H0. f_equal. f_equal. apply IH. intros i Hi. exact (H (S i) ltac:(lia)).
Qed.
Lemma orders_21 n : (21 <= n)%nat -> 2 ^ 64 < orders n.
Proof.
  intros H. replace n with (n - 21 + 21)%nat by lia. induction (n - 21)%nat as [|k IH]; [vm_compute; done|]. change (S k + 21)%nat with (S (k + 21)). cbn [orders]. pose proof (orders_pos (k + 21)). nia.
Qed.
Theorem shuffle_seeds_refuted : forall V (m : movable V) v, moves m -> NoDup v -> (21 <= length v)%nat -> Z.of_nat (length v) < 2 ^ 64 ->
  exists v', v' ≡ₚ v /\ forall seed, 0 <= seed < 2 ^ 64 -> shuffle m (output seed) v <> Ok v'.
Proof.
  intros V m v M ND L B. pose proof (orders_21 _ L) as O. assert (v <> []) as N by (intros ->; cbn in L; lia). set (n := length v) in *.
  set (reached := (fun s => pack (output s) n) <$> seqZ 0 (2 ^ 64)). assert (Z.of_nat (length reached) = 2 ^ 64) as Len. { unfold reached. rewrite fmap_length, seqZ_length, Z2Nat.id; [done|clear; lia]. }
  destruct (decide (Forall (fun x => x ∈ reached) (seqZ 0 (orders n)))) as [F|F].
  - exfalso. assert (length (seqZ 0 (orders n)) <= length reached)%nat as X. { apply submseteq_length, NoDup_submseteq; [apply NoDup_seqZ|]. by rewrite Forall_forall in F. }
    rewrite seqZ_length in X. lia.
  - apply not_Forall_Exists in F; [|intros x; apply _]. rewrite Exists_exists in F. destruct F as (x & Hx & F). apply elem_of_seqZ in Hx.
    pose proof (unpack_u n x B) as U. destruct (shuffle_permutes V m (unpack n x) v M U N B) as (v' & E & P). exists v'. split; [exact P|]. intros s Hs E'. apply F. unfold reached. apply elem_of_list_fmap. exists s. split; [|apply elem_of_seqZ; lia].
    rewrite <- E' in E. assert (u64s (output s)) as U' by (intros i; apply next_u). pose proof (proj1 (shuffle_unbiased V m v (unpack n x) (output s) M U U' N B ND) E) as E2.
    rewrite <- (pack_unpack n x) at 1 by lia. apply pack_same. intros i Hi. destruct (decide (i = n - 1)%nat) as [->|D]; [|apply E2; unfold n in *; lia].
    replace (n - (n - 1))%nat with 1%nat by lia. by rewrite !Z.mod_1_r.
Qed.
Example shuffle_seeds_premises : NoDup (seqZ 0 21) /\ length (seqZ 0 21) = 21%nat /\ moves (@copied Z).
Proof. split; [apply NoDup_seqZ|]. by vm_compute. Qed.

(** ** C68 *)
Theorem swap_exchanges : forall V (m : movable V) i j mem a b, moves m -> mem !! i = Some a -> mem !! j = Some b ->
  exists mem' tmp, swap m i j mem = Ok (mem', tmp) /\ exchanged i j mem mem'.
Proof.
  intros V m i j mem a b M Hi Hj. destruct (swap_ok m i j mem a b M Hi Hj) as [tmp E]. do 2 eexists. split; [exact E|].
  pose proof (lookup_lt_Some _ _ _ Hi). pose proof (lookup_lt_Some _ _ _ Hj). unfold exchanged. rewrite !insert_length. split_and!; [done|..].
  - destruct (decide (i = j)) as [<-|N]; [rewrite list_lookup_insert by (by rewrite insert_length); congruence|].
    rewrite list_lookup_insert_ne by done. by rewrite list_lookup_insert.
  - rewrite list_lookup_insert by (by rewrite insert_length). done.
  - intros k N1 N2. by rewrite !list_lookup_insert_ne by done.
Qed.
Example swap_example : swap handles 0 2 [Some 1; Some 2; Some 3] = Ok ([Some 3; Some 2; Some 1], Some None) /\
  swap handles 1 1 [Some 1; Some 2; Some 3] = Ok ([Some 1; Some 2; Some 3], Some None).
Proof. by vm_compute. Qed.

Print Assumptions rng_bijective.
Print Assumptions rng_integer.
Print Assumptions rng_range_unsigned.
Print Assumptions rng_range_signed_partial.
Print Assumptions rng_range_signed_below.
Print Assumptions rng_range_signed_refuted.
Print Assumptions rng_cycle_refuted.
Print Assumptions rng_seed_threads.
Print Assumptions unit_in_interval.
Print Assumptions unit_spread_refuted.
Print Assumptions coin_flip_refuted.
Print Assumptions coin_flip_certain_partial.
Print Assumptions shuffle_permutes.
Print Assumptions shuffle_every_order.
Print Assumptions shuffle_unbiased.
Print Assumptions shuffle_empty_refuted.
Print Assumptions swap_exchanges.
Close Scope Z_scope.
Print Assumptions shuffle_seeds_refuted.
