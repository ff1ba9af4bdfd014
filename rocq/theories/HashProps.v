(** Property theorems for hashing: C13, C14, C70, C71. *)
From Verif Require Import Word MathModel HashModel HashProofs.
From Flocq Require Import IEEE754.Binary IEEE754.Bits.
Open Scope Z_scope.

(** ** C13 *)
Theorem hash_u64_bijective :
  (forall x, 0 <= x < 2 ^ 64 -> 0 <= hash_int x < 2 ^ 64) /\
  (forall x y, 0 <= x < 2 ^ 64 -> 0 <= y < 2 ^ 64 -> hash_int x = hash_int y -> x = y) /\
  (forall h, 0 <= h < 2 ^ 64 -> exists x, 0 <= x < 2 ^ 64 /\ hash_int x = h).
Proof.
  split; [|split].
  - intros x _. rewrite hash_int_eq. apply squirrel5_range, wrap_range. lia.
  - intros x y Hx Hy E. rewrite !hash_int_eq, !wrap_small in E by done.
    by apply squirrel5_inj.
  - intros h Hh. destruct (squirrel5_surj h Hh) as (x & Hx & E). exists x. split; [done|].
    by rewrite hash_int_eq, wrap_small.
Qed.
Print Assumptions hash_u64_bijective.

(** Distinct values of any one integer type never collide. *)
Theorem hash_integer_injective : forall t x y, in_ty t x -> in_ty t y ->
  hash_int x = hash_int y -> x = y.
Proof.
  intros t x y Hx Hy E. rewrite !hash_int_eq in E. apply squirrel5_inj in E; [|apply wrap_range; lia..].
  assert (is_i 64 x /\ is_i 64 y \/ is_u 64 x /\ is_u 64 y) as [[Ix Iy]|[Ux Uy]].
  { unfold in_ty, is_i, is_u in *. destruct t; cbn in *; lia. }
  - rewrite <- (to_signed_small 64 x), <- (to_signed_small 64 y) by (done || lia).
    unfold to_signed. by rewrite E.
  - by rewrite !wrap_small in E.
Qed.
Print Assumptions hash_integer_injective.
Example hash_integer_ex : in_ty I8 (-1) /\ in_ty I8 127 /\ hash_int (-1) <> hash_int 127.
Proof. by vm_compute. Qed.

(** ** C14 *)
Theorem hash_f64_equal_keys_partial : forall x y, f64_eq x y = true ->
  hash_f64 x = hash_f64 y \/ (exists s, x = B754_zero 53 1024 s /\ y = B754_zero 53 1024 (negb s)).
Proof.
  intros x y E. destruct (f64_eq_cases x y E) as [->|(s & t & -> & ->)]; [auto|].
  destruct s, t; eauto.
Qed.
Print Assumptions hash_f64_equal_keys_partial.
Theorem hash_f32_equal_keys_partial : forall x y, f32_eq x y = true ->
  hash_f32 x = hash_f32 y \/ (exists s, x = B754_zero 24 128 s /\ y = B754_zero 24 128 (negb s)).
Proof.
  intros x y E. destruct (f32_eq_cases x y E) as [->|(s & t & -> & ->)]; [auto|].
  destruct s, t; eauto.
Qed.
Print Assumptions hash_f32_equal_keys_partial.
Example hash_f64_equal_ex : f64_eq (b64_of_bits 0x3FF0000000000000) (b64_of_bits 0x3FF0000000000000) = true.
Proof. by vm_compute. Qed.

(** 0.0 == -0.0 but their hashes differ. *)
Theorem hash_float_equal_keys_refuted :
  (exists x y, f64_eq x y = true /\ hash_f64 x <> hash_f64 y) /\
  (exists x y, f32_eq x y = true /\ hash_f32 x <> hash_f32 y).
Proof.
  split.
  - exists (B754_zero 53 1024 false), (B754_zero 53 1024 true). by vm_compute.
  - exists (B754_zero 24 128 false), (B754_zero 24 128 true). by vm_compute.
Qed.
Print Assumptions hash_float_equal_keys_refuted.

Theorem hash_nonzero_literal_nonzero :
  (forall h, 0 <= h < 2 ^ 64 -> hash_nonzero h <> 0 /\ 0 <= hash_nonzero h < 2 ^ 64) /\
  (forall bytes seed, hash_literal bytes seed <> 0).
Proof.
  split.
  - intros h Hh. unfold hash_nonzero.
    assert (Z.testbit (Z.lor h 1) 0 = true) as T by (rewrite Z.lor_spec; cbn; apply orb_true_r).
    assert (0 <= Z.lor h 1) by (apply Z.lor_nonneg; lia).
    split; [intros E; rewrite E in T; discriminate|]. split; [done|].
    apply Z.log2_lt_pow2; [destruct (Z.eq_dec (Z.lor h 1) 0) as [E|]; [rewrite E in T; discriminate|lia]|].
    rewrite Z.log2_lor by lia. change (Z.log2 1) with 0. apply Z.max_lub_lt; [|lia].
    destruct (Z.eq_dec h 0) as [->|]; [done|]. apply Z.log2_lt_pow2; lia.
  - intros bytes seed. unfold hash_literal. destruct (Z.eqb_spec (fold_left
      (fun h c => hash_combine h (hash_int (to_signed 8 c))) bytes seed) 0); lia.
Qed.
Print Assumptions hash_nonzero_literal_nonzero.

(** A compile-time literal hash agrees with the run-time hash of the same text
    for 7-bit text (and a non-zero hash). *)
Theorem hash_literal_ascii : forall bytes, Forall (fun c => 0 <= c < 128) bytes ->
  hash_bytes bytes <> 0 -> hash_literal bytes 0 = hash_bytes bytes.
Proof.
  intros bytes H Hne.
  assert (forall (f : Z -> Z -> Z) h, fold_left (fun h c => f h (to_signed 8 c)) bytes h =
                    fold_left f bytes h) as E.
  { clear Hne. intros f. induction H as [|c l Hc Hl IH]; intros h; cbn [fold_left]; [done|].
    rewrite (to_signed_small 8 c); [apply IH|lia|]. unfold is_i.
    change (2 ^ (8 - 1)) with 128. lia. }
  unfold hash_literal. rewrite (E (fun h c => hash_combine h (hash_int c))). fold (hash_bytes bytes).
  destruct (Z.eqb_spec (hash_bytes bytes) 0); [done|done].
Qed.
Print Assumptions hash_literal_ascii.
Example hash_literal_ascii_ex : hash_bytes [104; 105] <> 0.
Proof. by vm_compute. Qed.
Theorem hash_literal_utf8_refuted : exists bytes, Forall (fun c => 0 <= c < 256) bytes /\
  hash_bytes bytes <> 0 /\ hash_literal bytes 0 <> hash_bytes bytes.
Proof. exists [195; 169]. split; [repeat (constructor; [lia|]); constructor|by vm_compute]. Qed.
Print Assumptions hash_literal_utf8_refuted.

(** ** C70: two strings that differ in exactly one byte never collide. *)
Theorem hash_one_byte_change : forall p s c d, 0 <= c < 256 -> 0 <= d < 256 -> c <> d ->
  hash_bytes (p ++ c :: s) <> hash_bytes (p ++ d :: s).
Proof.
  intros p s c d Hc Hd Hne E. apply hash_bytes_change in E.
  apply Hne. apply (hash_integer_injective U8); [exact Hc|exact Hd|done].
Qed.
Print Assumptions hash_one_byte_change.
Example hash_one_byte_change_ex : 0 <= 97 < 256 /\ hash_bytes [97; 98] <> hash_bytes [97; 99].
Proof. by vm_compute. Qed.

(** ** C71: hash(a, b) does not depend on the argument order, so every pair
    collides with its mirror image. *)
Theorem hash_many_order_insensitive : forall hs hs', hs ≡ₚ hs' -> hash_many hs = hash_many hs'.
Proof.
  intros hs hs' P. unfold hash_many. f_equal.
  induction P as [|x l l' P IH|x y l|]; cbn [foldr]; [done|by rewrite IH| |congruence].
  rewrite !wrap_add_r. f_equal. lia.
Qed.
Print Assumptions hash_many_order_insensitive.
Example hash_many_order_ex : hash_many [hash_int 1; hash_int 2] = hash_many [hash_int 2; hash_int 1] /\
  hash_many [hash_int 1; hash_int 2] <> hash_many [hash_int 1; hash_int 3].
Proof. by vm_compute. Qed.
Close Scope Z_scope.
