(** Fixed-width machine integers as elements of Z.

    An unsigned w-bit value is a Z in [0, 2^w); arithmetic on it is Z
    arithmetic followed by [wrap].  A signed w-bit value is a Z in
    [-2^(w-1), 2^(w-1)); overflow of signed arithmetic is undefined. *)
From Verif Require Export Base.
From Coq Require Export ZArith ZifyBool ZifyNat ZifyN.
Ltac Zify.zify_post_hook ::= Z.div_mod_to_equations.

Definition wrap (w : Z) (x : Z) : Z := (x mod 2 ^ w)%Z.

(** The value is representable as an unsigned w-bit integer. *)
Definition is_u (w : Z) (x : Z) : Prop := (0 <= x < 2 ^ w)%Z.
Definition is_i (w : Z) (x : Z) : Prop := (- 2 ^ (w - 1) <= x < 2 ^ (w - 1))%Z.

(** Conversion to a signed w-bit integer (modular since C++20). *)
Definition to_signed (w : Z) (x : Z) : Z :=
  let y := wrap w x in if (y <? 2 ^ (w - 1))%Z then y else (y - 2 ^ w)%Z.

Open Scope Z_scope.

Lemma wrap_range w x : 0 <= w -> is_u w (wrap w x).
Proof. intros. unfold is_u, wrap. apply Z.mod_pos_bound. apply Z.pow_pos_nonneg; lia. Qed.

Lemma wrap_small w x : is_u w x -> wrap w x = x.
Proof. apply Z.mod_small. Qed.

Lemma wrap_wrap w x : 0 <= w -> wrap w (wrap w x) = wrap w x.
Proof. intros. apply wrap_small, wrap_range; done. Qed.

Lemma wrap_add_l w x y : wrap w (wrap w x + y) = wrap w (x + y).
Proof. apply Zplus_mod_idemp_l. Qed.
Lemma wrap_add_r w x y : wrap w (x + wrap w y) = wrap w (x + y).
Proof. apply Zplus_mod_idemp_r. Qed.
Lemma wrap_mul_l w x y : wrap w (wrap w x * y) = wrap w (x * y).
Proof. apply Zmult_mod_idemp_l. Qed.
Lemma wrap_mul_r w x y : wrap w (x * wrap w y) = wrap w (x * y).
Proof. apply Zmult_mod_idemp_r. Qed.
Lemma wrap_sub_l w x y : wrap w (wrap w x - y) = wrap w (x - y).
Proof. apply Zminus_mod_idemp_l. Qed.
Lemma wrap_sub_r w x y : wrap w (x - wrap w y) = wrap w (x - y).
Proof. apply Zminus_mod_idemp_r. Qed.

Lemma to_signed_range w x : 1 <= w -> is_i w (to_signed w x).
Proof.
  intros Hw. unfold to_signed, is_i.
  pose proof (wrap_range w x ltac:(lia)) as [H1 H2].
  assert (2 ^ w = 2 * 2 ^ (w - 1)) as E.
  { rewrite <- Z.pow_succ_r by lia. f_equal. lia. }
  destruct (Z.ltb_spec (wrap w x) (2 ^ (w - 1))); lia.
Qed.

Lemma wrap_to_signed w x : 1 <= w -> wrap w (to_signed w x) = wrap w x.
Proof.
  intros Hw. unfold to_signed. destruct (_ <? _)%Z; [apply wrap_wrap; lia|].
  unfold wrap. rewrite <- (Z_mod_plus_full (x mod 2 ^ w - 2 ^ w) 1 (2 ^ w)).
  replace (x mod 2 ^ w - 2 ^ w + 1 * 2 ^ w) with (x mod 2 ^ w) by lia.
  apply Zmod_mod.
Qed.

Lemma to_signed_small w x : 1 <= w -> is_i w x -> to_signed w x = x.
Proof.
  intros Hw [H1 H2]. unfold to_signed.
  assert (2 ^ w = 2 * 2 ^ (w - 1)) as E.
  { rewrite <- Z.pow_succ_r by lia. f_equal. lia. }
  assert (0 < 2 ^ (w - 1)) by (apply Z.pow_pos_nonneg; lia).
  destruct (Z_le_gt_dec 0 x).
  - rewrite wrap_small by (split; lia). destruct (Z.ltb_spec x (2 ^ (w - 1))); lia.
  - assert (wrap w x = x + 2 ^ w) as Ew.
    { unfold wrap. rewrite <- (Z_mod_plus_full x 1 (2 ^ w)).
      rewrite Z.mod_small by lia. lia. }
    rewrite Ew. destruct (Z.ltb_spec (x + 2 ^ w) (2 ^ (w - 1))); lia.
Qed.
Lemma pow2_pos w : 0 <= w -> 0 < 2 ^ w.
Proof. intros. apply Z.pow_pos_nonneg; lia. Qed.
Close Scope Z_scope.
