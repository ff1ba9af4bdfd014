(** Property theorems for the integer math functions: C29, C30, C31, C67. *)
From Verif Require Import Word MathModel MathSpec MathProofs.
From Coq Require Import QArith Lqa.
Open Scope Z_scope.

(** ** C29 *)
Theorem log2_floor : forall w x, 0 <= w -> 0 < x < 2 ^ w ->
  2 ^ log2 w x <= x < 2 ^ (log2 w x + 1).
Proof.
  intros w x Hw Hx. rewrite log2_spec_Z by (unfold is_u; lia).
  pose proof (Z.log2_spec x ltac:(lia)). replace (Z.log2 x + 1) with (Z.succ (Z.log2 x)) by lia. lia.
Qed.
Print Assumptions log2_floor.
Example log2_floor_ex : log2 64 1000 = 9 /\ log2 32 (2 ^ 32 - 1) = 31 /\ log2 64 0 = 2 ^ 64 - 1.
Proof. by vm_compute. Qed.

(** The leading-zero count: the value has exactly [w - ctlz] significant bits. *)
Theorem ctlz_counts_leading_zeros : forall w x, 0 <= w -> 0 <= x < 2 ^ w ->
  0 <= ctlz w x <= w /\ x < 2 ^ (w - ctlz w x) /\ (x <> 0 -> 2 ^ (w - ctlz w x - 1) <= x).
Proof.
  intros w x Hw Hx. destruct (Z.eq_dec x 0) as [->|Hne].
  - unfold ctlz. rewrite Z.eqb_refl, Z.sub_diag. cbn. lia.
  - rewrite ctlz_log2 by (unfold is_u; lia).
    pose proof (Z.log2_spec x ltac:(lia)) as [L1 L2].
    pose proof (log2_lt_w w x ltac:(lia) ltac:(unfold is_u; lia)). pose proof (Z.log2_nonneg x).
    replace (w - (w - 1 - Z.log2 x)) with (Z.succ (Z.log2 x)) by lia.
    replace (Z.succ (Z.log2 x) - 1) with (Z.log2 x) by lia. lia.
Qed.
Print Assumptions ctlz_counts_leading_zeros.
Example ctlz_ex : ctlz 64 1 = 63 /\ ctlz 64 0 = 64 /\ ctlz 32 (2 ^ 31) = 0.
Proof. by vm_compute. Qed.

Theorem popcount_counts_ones : forall w x, 0 <= w -> 0 <= x < 2 ^ w ->
  exists l, binary_expansion x l /\ popcount w x = Z.of_nat (length l).
Proof.
  intros w x Hw Hx. destruct (popcount_bits_spec x (Z.to_nat w) ltac:(lia)) as (l & ND & R & S & P).
  exists l. split; [|exact P]. split; [by apply NoDup_ListNoDup|]. split.
  - apply Forall_forall. intros i Hi. apply R in Hi. lia.
  - rewrite Z2Nat.id, Z.mod_small in S by lia. exact S.
Qed.
Print Assumptions popcount_counts_ones.
Example popcount_ex : popcount 64 255 = 8 /\ popcount 32 0 = 0.
Proof. by vm_compute. Qed.

Theorem prev_pow2_greatest : forall w x, 0 <= w -> 0 < x < 2 ^ w ->
  exists y, prev_pow2 w x = Ok y /\ greatest_power_of_2 x y.
Proof.
  intros w x Hw Hx. rewrite prev_pow2_Z by (unfold is_u; lia). eexists. split; [done|].
  pose proof (Z.log2_spec x ltac:(lia)) as [L1 L2]. pose proof (Z.log2_nonneg x).
  split; [eexists; eauto|]. split; [done|]. intros z (k & Hk & ->) Hz.
  apply Z.pow_le_mono_r; [lia|]. apply Z.log2_le_pow2; lia.
Qed.
Print Assumptions prev_pow2_greatest.
Theorem prev_pow2_zero : forall w, prev_pow2 w 0 = Ok 0.
Proof. done. Qed.

Theorem next_pow2_least : forall w x, 1 < w -> 0 < x <= 2 ^ (w - 1) ->
  exists y, next_pow2 w x = Ok y /\ least_power_of_2 x y.
Proof.
  intros w x Hw Hx. destruct (next_pow2_Z w x Hw) as (k & Hk & E & L & Hlow); [lia..|].
  exists (2 ^ k). split; [done|]. split; [exists k; split; [lia|done]|]. split; [done|].
  intros z (j & Hj & ->) Hz. apply Z.pow_le_mono_r; [lia|].
  destruct Hlow as [->|Hlow]; [lia|]. destruct (Z_lt_ge_dec j k); [|lia].
  assert (2 ^ j <= 2 ^ (k - 1)) by (apply Z.pow_le_mono_r; lia). lia.
Qed.
Print Assumptions next_pow2_least.
Example next_pow2_ex : next_pow2 64 33 = Ok 64 /\ next_pow2 64 64 = Ok 64 /\ next_pow2 32 (2 ^ 31) = Ok (2 ^ 31).
Proof. by vm_compute. Qed.

(** Boundary values: 0 for 0, and 0 when the answer would be 2^w. *)
Theorem next_pow2_boundary : forall w x, 1 < w -> x = 0 \/ 2 ^ (w - 1) < x < 2 ^ w ->
  next_pow2 w x = Ok 0.
Proof.
  intros w x Hw [->|H]; [done|]. pose proof (pow2_pos (w - 1) ltac:(lia)).
  apply next_pow2_overflow; unfold is_u; lia.
Qed.
Print Assumptions next_pow2_boundary.

(** ** C30 *)
Lemma least_multiple_intro a x y : 0 < a -> (a | y) -> x <= y < x + a -> least_multiple a x y.
Proof.
  intros Ha [q ->] H. split; [by exists q|]. split; [lia|]. intros z [p ->] Hz.
  assert (q < p + 1) by (apply (Z.mul_lt_mono_pos_r a); lia). nia.
Qed.
Lemma greatest_multiple_intro a x y : 0 < a -> (a | y) -> y <= x < y + a -> greatest_multiple a x y.
Proof.
  intros Ha [q ->] H. split; [by exists q|]. split; [lia|]. intros z [p ->] Hz.
  assert (p < q + 1) by (apply (Z.mul_lt_mono_pos_r a); lia). nia.
Qed.
Lemma least_multiple_unique a x y z : least_multiple a x y -> least_multiple a x z -> y = z.
Proof. intros (D1 & L1 & M1) (D2 & L2 & M2). pose proof (M1 z D2 L2). pose proof (M2 y D1 L1). lia. Qed.

Theorem align_down_greatest : forall w x a, 0 <= w -> 0 <= x < 2 ^ w -> 0 < a < 2 ^ w ->
  exists y, align_down w x a = Ok y /\ greatest_multiple a x y.
Proof.
  intros w x a Hw Hx Ha. unfold align_down. destruct (Z.eqb_spec a 0); [lia|].
  eexists. split; [done|]. pose proof (Z.mod_pos_bound x a ltac:(lia)).
  pose proof (Z.mod_le x a ltac:(lia) ltac:(lia)).
  assert ((if x mod a =? 0 then x else wrap w (x - x mod a)) = x - x mod a) as ->.
  { destruct (Z.eqb_spec (x mod a) 0); [lia|]. apply wrap_small. unfold is_u. lia. }
  apply greatest_multiple_intro; [lia| |lia].
  exists (x / a). pose proof (Z.div_mod x a ltac:(lia)). lia.
Qed.
Print Assumptions align_down_greatest.

Theorem align_down_pow2_greatest : forall w k x, 0 <= k < w -> 0 <= x < 2 ^ w ->
  greatest_multiple (2 ^ k) x (align_down_pow2 w x (2 ^ k)).
Proof.
  intros w k x Hk Hx. unfold align_down_pow2. rewrite wrap_pow_pred, land_high by (unfold is_u; lia).
  pose proof (pow2_pos k ltac:(lia)). pose proof (Z.mod_pos_bound x (2 ^ k) ltac:(lia)).
  apply greatest_multiple_intro; [lia| |lia].
  exists (x / 2 ^ k). pose proof (Z.div_mod x (2 ^ k) ltac:(lia)). lia.
Qed.
Print Assumptions align_down_pow2_greatest.

(** Rounding up gives the least multiple whenever that number fits. *)
Theorem align_least : forall w x a y, 0 <= w -> 0 <= x < 2 ^ w -> 0 < a < 2 ^ w ->
  least_multiple a x y -> y < 2 ^ w -> align w x a = Ok y.
Proof.
  intros w x a y Hw Hx Ha HL Hy. unfold align. destruct (Z.eqb_spec a 0); [lia|]. f_equal.
  pose proof (Z.mod_pos_bound x a ltac:(lia)). pose proof (Z.div_mod x a ltac:(lia)) as E.
  destruct (Z.eqb_spec (x mod a) 0) as [E0|E0].
  - apply (least_multiple_unique a x); [|done].
    apply least_multiple_intro; [lia| |lia]. apply Z.mod_divide; lia.
  - rewrite wrap_add_r.
    assert (y = x + (a - x mod a)) as ->; [|apply wrap_small; unfold is_u; lia].
    apply (least_multiple_unique a x); [done|]. apply least_multiple_intro; [lia| |lia].
    exists (x / a + 1). lia.
Qed.
Print Assumptions align_least.

Theorem align_pow2_least : forall w k x y, 0 <= k < w -> 0 <= x < 2 ^ w ->
  least_multiple (2 ^ k) x y -> y < 2 ^ w -> align_pow2 w x (2 ^ k) = y.
Proof.
  intros w k x y Hk Hx HL Hy. unfold align_pow2.
  pose proof (pow2_pos k ltac:(lia)) as Hp.
  destruct (round_up x (2 ^ k) Hp ltac:(lia)) as [M1 M2].
  set (z := x + 2 ^ k - 1 - (x + 2 ^ k - 1) mod 2 ^ k) in *.
  assert (y = z).
  { apply (least_multiple_unique (2 ^ k) x); [done|]. apply least_multiple_intro; [lia| |lia].
    apply Z.mod_divide; lia. }
  assert (x + 2 ^ k - 1 < 2 ^ w).
  { assert (2 ^ w = 2 ^ (w - k) * 2 ^ k) as Ew by (rewrite <- Z.pow_add_r by lia; f_equal; lia).
    destruct HL as ([q Hq] & Hle & _).
    assert (q < 2 ^ (w - k)) by (apply (Z.mul_lt_mono_pos_r (2 ^ k)); lia).
    assert (q * 2 ^ k <= (2 ^ (w - k) - 1) * 2 ^ k) by (apply Z.mul_le_mono_nonneg_r; lia). lia. }
  rewrite (wrap_small w (x + 2 ^ k - 1)) by (unfold is_u; lia).
  rewrite wrap_pow_pred, land_high by (unfold is_u; lia). subst y. done.
Qed.
Print Assumptions align_pow2_least.

Example align_ex : align 64 13 8 = Ok 16 /\ align 64 13 5 = Ok 15 /\ align_pow2 64 13 8 = 16 /\
  align_down_pow2 64 13 8 = 8 /\ align_down 64 13 5 = Ok 10 /\ align 64 13 0 = UB.
Proof. by vm_compute. Qed.
Example align_pow2_least_ex : least_multiple 8 13 16.
Proof. apply least_multiple_intro; [lia| |lia]. by exists 2. Qed.

(** Past the top of the range rounding up wraps round to 0. *)
Theorem align_pow2_wraps : forall w k x, 0 <= k < w -> 2 ^ w - 2 ^ k < x < 2 ^ w ->
  align_pow2 w x (2 ^ k) = 0.
Proof.
  intros w k x Hk Hx. unfold align_pow2.
  pose proof (pow2_pos k ltac:(lia)) as Hp.
  assert (2 ^ k < 2 ^ w) by (apply Z.pow_lt_mono_r; lia).
  assert (wrap w (x + 2 ^ k - 1) = x + 2 ^ k - 1 - 2 ^ w) as ->.
  { unfold wrap. symmetry. apply Z.mod_unique_pos with 1; lia. }
  rewrite wrap_pow_pred by lia. rewrite land_high by (unfold is_u; lia).
  rewrite (Z.mod_small (x + 2 ^ k - 1 - 2 ^ w)); lia.
Qed.
Print Assumptions align_pow2_wraps.

(** ** C31 *)
(** Unsigned 8, 32 and 64 bit types: the power modulo the width, always. *)
Theorem pow_unsigned : forall t b e, t = U8 \/ t = U32 \/ t = U64 ->
  in_ty t b -> in_ty t e -> pow t b e = Ok (b ^ e mod 2 ^ width t).
Proof. exact pow_mod_u. Qed.
Print Assumptions pow_unsigned.
(** Narrow signed types: defined for every base and non-negative exponent, and
    the true power whenever it fits. *)
Theorem pow_signed_narrow : forall t b e, t = I8 \/ t = I16 ->
  in_ty t b -> in_ty t e -> 0 <= e ->
  exists r, pow t b e = Ok r /\ in_ty t r /\ r mod 2 ^ width t = b ^ e mod 2 ^ width t /\
    (in_ty t (b ^ e) -> r = b ^ e).
Proof.
  intros t b e Ht Hb He He0. rewrite pow_mod_narrow by done. eexists. split; [done|].
  assert (signed t = true) as Hs by (destruct Ht as [->| ->]; done).
  assert (1 <= width t) by (destruct Ht as [->| ->]; cbn; lia).
  unfold in_ty. rewrite Hs. split; [by apply to_signed_range|].
  split; [by apply wrap_to_signed|]. intros. by apply to_signed_small.
Qed.
Print Assumptions pow_signed_narrow.
(** i32 and i64: exact provided the square computed after the last multiply
    fits too (that square is never used). *)
Theorem pow_signed_partial : forall t b e, t = I32 \/ t = I64 ->
  in_ty t b -> in_ty t e -> 0 <= e ->
  (e = 0 \/ Z.abs (b ^ (2 ^ (Z.log2 e + 1))) < 2 ^ (width t - 1)) ->
  pow t b e = Ok (b ^ e).
Proof.
  intros t b e Ht Hb He He0 [->|H].
  - unfold pow. destruct Ht as [->| ->]; reflexivity.
  - destruct (Z.eq_dec e 0) as [->|]; [destruct Ht as [->| ->]; reflexivity|].
    apply pow_exact; auto with lia.
Qed.
Print Assumptions pow_signed_partial.
Example pow_ex : pow U8 3 7 = Ok 139 /\ pow I64 (-3) 7 = Ok (-2187) /\ pow I16 181 2 = Ok 32761 /\
  Z.abs ((-3) ^ (2 ^ (Z.log2 7 + 1))) < 2 ^ (width I64 - 1).
Proof. by vm_compute. Qed.

(** The full statement fails: a representable power can still overflow, since
    the loop squares the base once more than it needs to. *)
Theorem pow_signed_refuted : exists b e, in_ty I32 b /\ in_ty I32 e /\ 0 <= e /\ in_ty I32 (b ^ e) /\
  pow I32 b e = UB.
Proof. exists 10, 9. by vm_compute. Qed.
Print Assumptions pow_signed_refuted.
(** u16 operands are promoted to int, whose overflow is undefined. *)
Theorem pow_u16_refuted : exists b e, in_ty U16 b /\ in_ty U16 e /\ in_ty U16 (b ^ e) /\ pow U16 b e = UB.
Proof. exists 65535, 1. by vm_compute. Qed.
Print Assumptions pow_u16_refuted.
(** A negative exponent never returns, however long it runs. *)
Theorem pow_negative_exponent : forall t fuel b e, e < 0 ->
  pow_loop t fuel 1 b e = UB \/ pow_loop t fuel 1 b e = Diverge \/ pow_loop t fuel 1 b e = Die.
Proof.
  intros t fuel b e He. pose proof (pow_loop_neg t fuel 1 b e He).
  destruct (pow_loop t fuel 1 b e); auto. done.
Qed.
Print Assumptions pow_negative_exponent.

(** ** C67 *)
Theorem min_list_least : forall (T : Type) (lt : T -> T -> bool) limit l,
  strict_weak_order lt -> l <> [] ->
  (forall x, x ∈ l -> lt x limit = true \/ x = limit) ->
  min_list lt limit l ∈ l /\ forall x, x ∈ l -> lt x (min_list lt limit l) = false.
Proof.
  intros T lt limit l [I Tr N] Hne Hl.
  destruct (min_list_acc lt I Tr N l limit) as (H1 & H2 & H3). split; [|done].
  destruct H1 as [H1|H1]; [|done].
  destruct l as [|x l]; [done|]. destruct (Hl x ltac:(left)) as [Hx|Hx].
  - pose proof (H3 x ltac:(left)) as H. rewrite H1 in H. congruence.
  - rewrite H1, <- Hx. left.
Qed.
Print Assumptions min_list_least.

Theorem max_list_greatest : forall (T : Type) (lt : T -> T -> bool) limit l,
  strict_weak_order lt -> l <> [] ->
  (forall x, x ∈ l -> lt limit x = true \/ x = limit) ->
  max_list lt limit l ∈ l /\ forall x, x ∈ l -> lt (max_list lt limit l) x = false.
Proof.
  intros T lt limit l [I Tr N] Hne Hl.
  apply (min_list_least T (fun a b => lt b a) limit l); [|done|done].
  split; [done| |]; intros a b c Ha Hb; eauto.
Qed.
Print Assumptions max_list_greatest.
Example min_list_ex : min_list Z.ltb (2 ^ 31 - 1) [5; 3; 7] = 3 /\ max_list Z.ltb (- 2 ^ 31) [5; -3; 7] = 7.
Proof. by vm_compute. Qed.
Example Zltb_swo : strict_weak_order Z.ltb.
Proof. split; intros; lia. Qed.

(** For floating point the limit is the largest finite value, so a list of
    infinities is answered with a value that is not in it. *)
Definition ext_lt (a b : option Z) : bool :=
  match a, b with Some x, Some y => x <? y | Some _, None => true | None, _ => false end.
Theorem min_list_infinity_refuted : strict_weak_order ext_lt /\
  exists limit l, l <> [] /\ min_list ext_lt limit l ∉ l.
Proof.
  split.
  - split; intros; destruct a; try destruct b; try destruct c; cbn in *; try done; lia.
  - exists (Some 100), [None]. split; [done|]. cbn.
    intros [H|H]%elem_of_cons; [discriminate|inversion H].
Qed.
Print Assumptions min_list_infinity_refuted.

Theorem clamp_in_range : forall (T : Type) (lt : T -> T -> bool) x lo hi,
  strict_weak_order lt -> lt hi lo = false ->
  lt (clamp lt x lo hi) lo = false /\ lt hi (clamp lt x lo hi) = false /\
  (lt x lo = false -> lt hi x = false -> (forall a b, lt a b = false -> lt b a = false -> a = b) ->
     clamp lt x lo hi = x).
Proof.
  intros T lt x lo hi [I Tr N] H. unfold clamp, min2, max2.
  assert (forall a b, lt a b = true -> lt b a = false) as As by (intros; by apply (MathProofs.lt_asym lt)).
  destruct (lt lo x) eqn:E1; [destruct (lt x hi) eqn:E2|destruct (lt lo hi) eqn:E2];
    repeat split; auto; intros; eauto.
Qed.
Print Assumptions clamp_in_range.
Example clamp_ex : clamp Z.ltb 5 0 3 = 3 /\ clamp Z.ltb (-1) 0 3 = 0 /\ clamp Z.ltb 2 0 3 = 2.
Proof. by vm_compute. Qed.

Theorem lerp_endpoints_between : forall s e t, (s <= e)%Q -> (0 <= t)%Q -> (t <= 1)%Q ->
  (lerp s e 0 == s /\ lerp s e 1 == e /\ s <= lerp s e t /\ lerp s e t <= e)%Q.
Proof. intros s e t H H0 H1. unfold lerp. repeat split; try ring; nra. Qed.
Print Assumptions lerp_endpoints_between.

Lemma Qltb_swo : strict_weak_order Qltb.
Proof.
  split; unfold Qltb; intros.
  - assert (Qle_bool a a = true) as -> by (apply Qle_bool_iff; lra). done.
  - apply negb_true_iff. apply negb_true_iff in H, H0. apply not_true_iff_false. rewrite Qle_bool_iff.
    apply not_true_iff_false in H, H0. rewrite Qle_bool_iff in H, H0. lra.
  - apply negb_false_iff. apply negb_false_iff in H, H0. rewrite Qle_bool_iff in *. lra.
Qed.

Theorem smoothstep_in_unit : forall e0 e1 x, (0 <= smoothstep e0 e1 x /\ smoothstep e0 e1 x <= 1)%Q.
Proof.
  intros e0 e1 x. unfold smoothstep.
  destruct (clamp_in_range Q Qltb ((x - e0) / (e1 - e0))%Q 0%Q 1%Q Qltb_swo ltac:(done)) as (H1 & H2 & _).
  set (t := clamp Qltb _ _ _) in *. clearbody t. unfold Qltb in *.
  apply negb_false_iff in H1, H2. rewrite Qle_bool_iff in *.
  assert (0 <= (1 - t) * (1 - t) * (1 + (2#1) * t))%Q.
  { apply Qmult_le_0_compat; [|lra]. apply Qmult_le_0_compat; lra. }
  assert (0 <= t * t)%Q by (apply Qmult_le_0_compat; lra).
  split; [apply Qmult_le_0_compat; lra|]. lra.
Qed.
Print Assumptions smoothstep_in_unit.
(** The curve starts at 0, ends at 1, is 1/2 half way and never decreases. *)
Lemma Qltb_true a b : Qltb a b = true <-> (a < b)%Q.
Proof.
  unfold Qltb. rewrite negb_true_iff. destruct (Qle_bool b a) eqn:E.
  - apply Qle_bool_iff in E. split; [done|]. intros. exfalso. lra.
  - split; [|done]. intros _. apply Qnot_le_lt. intros L. apply Qle_bool_iff in L. congruence.
Qed.
Lemma Qltb_false a b : Qltb a b = false <-> (b <= a)%Q.
Proof.
  unfold Qltb. rewrite negb_false_iff. apply Qle_bool_iff.
Qed.
Lemma smooth_mono t t' : (0 <= t -> t <= t' -> t' <= 1 ->
  t * t * ((3#1) - (2#1) * t) <= t' * t' * ((3#1) - (2#1) * t'))%Q.
Proof.
  intros H0 H1 H2.
  assert (0 <= (t' - t) * ((2#1) * t' * (1 - t') + (t' - t) + (2#1) * t * ((2#1) - t - t')))%Q as H.
  { apply Qmult_le_0_compat; [lra|].
    assert (0 <= (2#1) * t' * (1 - t'))%Q by (apply Qmult_le_0_compat; lra).
    assert (0 <= (2#1) * t * ((2#1) - t - t'))%Q by (apply Qmult_le_0_compat; lra). lra. }
  assert ((t' - t) * ((2#1) * t' * (1 - t') + (t' - t) + (2#1) * t * ((2#1) - t - t'))
    == t' * t' * ((3#1) - (2#1) * t') - t * t * ((3#1) - (2#1) * t))%Q as E by ring.
  rewrite E in H. lra.
Qed.
Theorem smoothstep_shape : forall e0 e1, (e0 < e1)%Q ->
  (forall x, (x <= e0)%Q -> (smoothstep e0 e1 x == 0)%Q) /\
  (forall x, (e1 <= x)%Q -> (smoothstep e0 e1 x == 1)%Q) /\
  (smoothstep e0 e1 ((e0 + e1) / (2#1)) == (1#2))%Q /\
  (forall x y, (x <= y)%Q -> (smoothstep e0 e1 x <= smoothstep e0 e1 y)%Q).
Proof.
  intros e0 e1 He.
  assert (forall x, (x - e0) / (e1 - e0) * (e1 - e0) == x - e0)%Q as Hd.
  { intros x. field. lra. }
  assert (forall x, exists t, smoothstep e0 e1 x = (t * t * ((3#1) - (2#1) * t))%Q /\ (0 <= t /\ t <= 1)%Q /\
    ((x - e0) / (e1 - e0) <= 0 -> t == 0)%Q /\ (1 <= (x - e0) / (e1 - e0) -> t == 1)%Q /\
    (0 <= (x - e0) / (e1 - e0) -> (x - e0) / (e1 - e0) <= 1 -> t == (x - e0) / (e1 - e0))%Q) as HT.
  { intros x. unfold smoothstep. exists (clamp Qltb ((x - e0) / (e1 - e0))%Q 0%Q 1%Q). split; [done|].
    unfold clamp, min2, max2. set (t := ((x - e0) / (e1 - e0))%Q). clearbody t.
    destruct (Qltb 0 t) eqn:E; [apply Qltb_true in E|apply Qltb_false in E];
    [destruct (Qltb t 1) eqn:E'|destruct (Qltb 0 1) eqn:E'];
    (apply Qltb_true in E' || apply Qltb_false in E');
    split_and!; intros; lra. }
  assert (forall x y, x <= y -> (x - e0) / (e1 - e0) <= (y - e0) / (e1 - e0))%Q as HM.
  { intros x y L. apply Qmult_le_r with (z := (e1 - e0)%Q); [lra|]. rewrite !Hd. lra. }
  split_and!.
  - intros x L. destruct (HT x) as (t & -> & _ & T0 & _). rewrite T0; [lra|].
    apply Qmult_le_r with (z := (e1 - e0)%Q); [lra|]. rewrite Hd. lra.
  - intros x L. destruct (HT x) as (t & -> & _ & _ & T1 & _). rewrite T1; [lra|].
    apply Qmult_le_r with (z := (e1 - e0)%Q); [lra|]. rewrite Hd. lra.
  - destruct (HT ((e0 + e1) / (2#1))%Q) as (t & -> & _ & _ & _ & T).
    assert (((e0 + e1) / (2#1) - e0) / (e1 - e0) == (1#2))%Q as E by (field; lra).
    rewrite T by (rewrite E; lra). rewrite E. lra.
  - intros x y L. destruct (HT x) as (t & -> & B & X0 & X1 & X). destruct (HT y) as (t' & -> & B' & Y0 & Y1 & Y).
    specialize (HM x y L).
    apply smooth_mono; [tauto| |tauto].
    destruct (Qlt_le_dec ((x - e0) / (e1 - e0)) 0) as [D|D].
    { rewrite X0 by lra. tauto. }
    destruct (Qlt_le_dec 1 ((y - e0) / (e1 - e0))) as [D'|D'].
    { rewrite Y1 by lra. tauto. }
    rewrite X, Y by lra. done.
Qed.
Print Assumptions smoothstep_shape.
Example smoothstep_ex : (smoothstep 2 6 3 == (5#32))%Q.
Proof. done. Qed.

(** KB, MB and GB are the powers of 1024, modulo 2^64. *)
Theorem KB_MB_GB_exact : forall n, is_u 64 n ->
  KB n = (n * 2 ^ 10) mod 2 ^ 64 /\ MB n = (n * 2 ^ 20) mod 2 ^ 64 /\ GB n = (n * 2 ^ 30) mod 2 ^ 64.
Proof. intros n _. split; [done|]. split; done. Qed.
Print Assumptions KB_MB_GB_exact.
Example KB_ex : KB 3 = 3072 /\ GB 4 = 4294967296.
Proof. done. Qed.

(** abs is the absolute value; of the most negative value it is undefined. *)
Theorem abs_correct : forall t x, (t = I32 \/ t = I64) -> is_i (width t) x ->
  (x <> - 2 ^ (width t - 1) -> exists y, abs t x = Ok y /\ 0 <= y /\ is_i (width t) y /\ (y = x \/ y = - x)) /\
  (x = - 2 ^ (width t - 1) -> abs t x = UB).
Proof.
  intros t x Ht [H1 H2]. unfold abs.
  assert (in_tyb t (Z.abs x) = true <-> Z.abs x < 2 ^ (width t - 1)) as HB.
  { destruct Ht as [-> | ->]; unfold in_tyb; cbn in *; rewrite andb_true_iff, Z.leb_le, Z.ltb_lt; lia. }
  split.
  - intros N. rewrite (proj2 HB) by lia. exists (Z.abs x). unfold is_i. split; [done|]. lia.
  - intros ->. destruct (in_tyb t _); [|done]. pose proof (proj1 HB eq_refl). lia.
Qed.
Print Assumptions abs_correct.
Example abs_ex : abs I32 (-7) = Ok 7 /\ abs I32 (- 2 ^ 31) = UB.
Proof. done. Qed.
Close Scope Z_scope.
