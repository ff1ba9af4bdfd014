(** Proofs about HashModel. *)
From Verif Require Import Word HashModel.
From Flocq Require Import IEEE754.Binary IEEE754.Bits Core.Raux.
Open Scope Z_scope.

(** ** A self-map of [0, n) that is injective is onto. *)
Lemma inj_surj_range (n : Z) (f : Z -> Z) :
  (forall x, 0 <= x < n -> 0 <= f x < n) ->
  (forall x y, 0 <= x < n -> 0 <= y < n -> f x = f y -> x = y) ->
  forall z, 0 <= z < n -> exists x, 0 <= x < n /\ f x = z.
Proof.
  intros Hr Hi z Hz.
  assert (NoDup (f <$> seqZ 0 n)) as ND.
  { apply NoDup_fmap_2_strong; [|apply NoDup_seqZ].
    intros x y Hx Hy. rewrite !elem_of_seqZ in *. apply Hi; lia. }
  assert (f <$> seqZ 0 n ≡ₚ seqZ 0 n) as P.
  { apply submseteq_Permutation_length_eq; [by rewrite fmap_length|].
    apply NoDup_submseteq; [done|]. intros y (x & -> & Hx)%elem_of_list_fmap.
    rewrite !elem_of_seqZ in *. pose proof (Hr x). lia. }
  assert (z ∈ f <$> seqZ 0 n) as (x & -> & Hx)%elem_of_list_fmap.
  { rewrite P. apply elem_of_seqZ. lia. }
  rewrite elem_of_seqZ in Hx. exists x. split; [lia|done].
Qed.

Lemma xorshift_range k x : 0 <= k -> is_u 64 x -> is_u 64 (xorshift k x).
Proof.
  intros Hk [H1 H2]. unfold xorshift, is_u.
  assert (0 <= Z.shiftr x k) by (apply Z.shiftr_nonneg; lia).
  assert (0 <= Z.lxor x (Z.shiftr x k)) as H0 by (apply Z.lxor_nonneg; lia).
  split; [done|].
  destruct (Z.eq_dec (Z.lxor x (Z.shiftr x k)) 0) as [->|]; [lia|].
  apply Z.log2_lt_pow2; [lia|].
  apply Z.le_lt_trans with (Z.max (Z.log2 x) (Z.log2 (Z.shiftr x k))).
  { apply Z.log2_lxor; done. }
  assert (Z.log2 x < 64).
  { destruct (Z.eq_dec x 0) as [->|]; [done|]. apply Z.log2_lt_pow2; lia. }
  assert (Z.log2 (Z.shiftr x k) <= Z.log2 x); [|lia].
  apply Z.log2_le_mono. rewrite Z.shiftr_div_pow2 by lia.
  pose proof (pow2_pos k Hk). apply Z.div_le_upper_bound; nia.
Qed.

Lemma xorshift_inj k x y : 0 < k -> is_u 64 x -> is_u 64 y -> xorshift k x = xorshift k y -> x = y.
Proof.
  intros Hk [Hx _] [Hy _] E. unfold xorshift in E.
  set (z := Z.lxor x y).
  assert (z = Z.shiftr z k) as Ez.
  { subst z. rewrite Z.shiftr_lxor.
    apply Z.lxor_eq. rewrite <- (Z.lxor_nilpotent (Z.lxor x (Z.shiftr x k))).
    rewrite E at 2. rewrite <- !Z.lxor_assoc. f_equal.
    rewrite !Z.lxor_assoc. f_equal. apply Z.lxor_comm. }
  assert (0 <= z) as Hz by (apply Z.lxor_nonneg; lia).
  rewrite Z.shiftr_div_pow2 in Ez by lia.
  assert (z = 0) as Z0.
  { assert (2 ^ 1 <= 2 ^ k) by (apply Z.pow_le_mono_r; lia). change (2 ^ 1) with 2 in *.
    destruct (Z.eq_dec z 0); [done|]. pose proof (Z.div_lt z (2 ^ k) ltac:(lia) ltac:(lia)). lia. }
  apply Z.lxor_eq. exact Z0.
Qed.

Lemma mul_inj (c i x y : Z) : wrap 64 (c * i) = 1 -> is_u 64 x -> is_u 64 y ->
  wrap 64 (x * c) = wrap 64 (y * c) -> x = y.
Proof.
  intros Hc Hx Hy E.
  rewrite <- (wrap_small 64 x Hx), <- (wrap_small 64 y Hy).
  rewrite <- (Z.mul_1_r x), <- (Z.mul_1_r y), <- Hc.
  rewrite !wrap_mul_r, !Z.mul_assoc. rewrite <- wrap_mul_l, E, wrap_mul_l. done.
Qed.

Lemma add_inj (c x y : Z) : is_u 64 x -> is_u 64 y -> wrap 64 (x + c) = wrap 64 (y + c) -> x = y.
Proof.
  intros Hx Hy E. rewrite <- (wrap_small 64 x Hx), <- (wrap_small 64 y Hy).
  replace x with (x + c - c) by lia. replace y with (y + c - c) by lia.
  rewrite <- (wrap_sub_l 64 (x + c)), E, wrap_sub_l. done.
Qed.

(** A step that maps u64 to u64 one to one. *)
Definition good (f : Z -> Z) : Prop :=
  (forall x, is_u 64 x -> is_u 64 (f x)) /\
  (forall x y, is_u 64 x -> is_u 64 y -> f x = f y -> x = y).
Lemma good_comp f g : good f -> good g -> good (fun x => g (f x)).
Proof. intros [F1 F2] [G1 G2]. split; auto. Qed.
Lemma good_xorshift k : 0 < k -> good (xorshift k).
Proof.
  intros Hk. split.
  - intros. apply xorshift_range; [lia|done].
  - intros x y Hx Hy. by apply xorshift_inj.
Qed.
Lemma good_add c : good (fun x => wrap 64 (x + c)).
Proof. split; [intros; apply wrap_range; lia|]. intros x y Hx Hy. by apply add_inj. Qed.
Lemma good_mul c i : wrap 64 (c * i) = 1 -> good (fun x => wrap 64 (x * c)).
Proof. intros H. split; [intros; apply wrap_range; lia|]. intros x y Hx Hy. by apply (mul_inj c i). Qed.

Lemma good_squirrel5 : good squirrel5.
Proof.
  pose proof (good_mul BIT_NOISE1 0xB4B04D0130DB4AC5 ltac:(vm_compute; reflexivity)) as G.
  apply (good_comp _ (xorshift 9)) in G; [|apply good_xorshift; lia].
  apply (good_comp _ (fun x => wrap 64 (x + BIT_NOISE2))) in G; [|apply good_add].
  apply (good_comp _ (xorshift 11)) in G; [|apply good_xorshift; lia].
  apply (good_comp _ (fun x => wrap 64 (x * BIT_NOISE3))) in G; [|apply (good_mul _ 0xC4BEFB7435D0001B); vm_compute; reflexivity].
  apply (good_comp _ (xorshift 13)) in G; [|apply good_xorshift; lia].
  apply (good_comp _ (fun x => wrap 64 (x + BIT_NOISE4))) in G; [|apply good_add].
  apply (good_comp _ (xorshift 15)) in G; [|apply good_xorshift; lia].
  apply (good_comp _ (fun x => wrap 64 (x * BIT_NOISE5))) in G; [|apply (good_mul _ 0x2FB79CA89CF0BE97); vm_compute; reflexivity].
  apply (good_comp _ (xorshift 17)) in G; [|apply good_xorshift; lia].
  exact G.
Qed.
Lemma squirrel5_inj x y : is_u 64 x -> is_u 64 y -> squirrel5 x = squirrel5 y -> x = y.
Proof. apply (proj2 good_squirrel5). Qed.
Lemma squirrel5_range x : is_u 64 x -> is_u 64 (squirrel5 x).
Proof. apply (proj1 good_squirrel5). Qed.

Lemma squirrel5_surj z : is_u 64 z -> exists x, is_u 64 x /\ squirrel5 x = z.
Proof.
  intros Hz. apply (inj_surj_range (2 ^ 64) squirrel5); [| |exact Hz].
  - intros x Hx. by apply squirrel5_range.
  - intros x y Hx Hy. by apply squirrel5_inj.
Qed.

(** Unfolding lemmas, phrased so that the kernel never unfolds [squirrel5]. *)
Lemma hash_combine_eq a b : hash_combine a b = squirrel5 (wrap 64 (a + b)).
Proof. exact (eq_refl (squirrel5 (wrap 64 (a + b)))). Qed.
Lemma hash_int_eq a : hash_int a = squirrel5 (wrap 64 a).
Proof. exact (eq_refl (squirrel5 (wrap 64 a))). Qed.

Lemma hash_combine_range h1 h2 : is_u 64 (hash_combine h1 h2).
Proof. rewrite hash_combine_eq. apply squirrel5_range, wrap_range. lia. Qed.

Lemma hash_combine_inj_r h a b : is_u 64 a -> is_u 64 b -> hash_combine h a = hash_combine h b -> a = b.
Proof.
  intros Ha Hb E. rewrite !hash_combine_eq in E. apply squirrel5_inj in E; [|apply wrap_range; lia..].
  rewrite (Z.add_comm h a), (Z.add_comm h b) in E. by apply add_inj in E.
Qed.
Lemma hash_combine_inj_l h a b : is_u 64 a -> is_u 64 b -> hash_combine a h = hash_combine b h -> a = b.
Proof.
  intros Ha Hb E. rewrite !hash_combine_eq in E. apply squirrel5_inj in E; [|apply wrap_range; lia..]. by apply add_inj in E.
Qed.

Lemma fold_inv (P : Z -> Prop) (f : Z -> Z -> Z) : (forall h c, P (f h c)) ->
  forall s h, P h -> P (fold_left f s h).
Proof. intros Hf. induction s as [|c s IH]; intros h Hh; cbn [fold_left]; [done|]. apply IH, Hf. Qed.
Lemma fold_inj (P : Z -> Prop) (f : Z -> Z -> Z) : (forall h c, P (f h c)) ->
  (forall a b c, P a -> P b -> f a c = f b c -> a = b) ->
  forall s h h', P h -> P h' -> fold_left f s h = fold_left f s h' -> h = h'.
Proof.
  intros Hf Hi. induction s as [|c s IH]; intros h h' Hh Hh' E; cbn [fold_left] in E; [done|].
  apply IH in E; [|apply Hf..]. by apply (Hi h h' c).
Qed.
Lemma fold_change (P : Z -> Prop) (f : Z -> Z -> Z) : (forall h c, P (f h c)) ->
  (forall a b c, P a -> P b -> f a c = f b c -> a = b) ->
  forall p s c d h, fold_left f (p ++ c :: s) h = fold_left f (p ++ d :: s) h ->
  f (fold_left f p h) c = f (fold_left f p h) d.
Proof.
  intros Hf Hi p s c d h E. rewrite !fold_left_app in E. cbn [fold_left] in E.
  apply (fold_inj P f Hf Hi s); auto.
Qed.

Lemma hash_bytes_change p s c d :
  hash_bytes (p ++ c :: s) = hash_bytes (p ++ d :: s) -> hash_int c = hash_int d.
Proof.
  intros E. apply (fold_change (is_u 64)) in E.
  - apply hash_combine_inj_r in E; [done|rewrite hash_int_eq; apply squirrel5_range, wrap_range; lia..].
  - intros. apply hash_combine_range.
  - intros a b z Ha Hb. by apply hash_combine_inj_l.
Qed.

Lemma f64_eq_cases x y : f64_eq x y = true ->
  x = y \/ (exists s t, x = B754_zero 53 1024 s /\ y = B754_zero 53 1024 t).
Proof.
  unfold f64_eq. intros E.
  destruct (Bcompare 53 1024 x y) as [[| |]|] eqn:C; try discriminate. clear E.
  destruct x as [s|s|s pl Hp|s m e He]; destruct y as [t|t|t pl' Hp'|t m' e' He'];
    try (cbn in C; destruct s; discriminate); try (cbn in C; destruct t; discriminate);
    try (cbn in C; discriminate).
  - right. eauto.
  - cbn in C. destruct s, t; try discriminate; auto.
  - left. rewrite Bcompare_correct in C by done. injection C as C. apply Rcompare_Eq_inv in C.
    apply B2R_inj; done.
Qed.

Lemma f32_eq_cases x y : f32_eq x y = true ->
  x = y \/ (exists s t, x = B754_zero 24 128 s /\ y = B754_zero 24 128 t).
Proof.
  unfold f32_eq. intros E.
  destruct (Bcompare 24 128 x y) as [[| |]|] eqn:C; try discriminate. clear E.
  destruct x as [s|s|s pl Hp|s m e He]; destruct y as [t|t|t pl' Hp'|t m' e' He'];
    try (cbn in C; destruct s; discriminate); try (cbn in C; destruct t; discriminate);
    try (cbn in C; discriminate).
  - right. eauto.
  - cbn in C. destruct s, t; try discriminate; auto.
  - left. rewrite Bcompare_correct in C by done. injection C as C. apply Rcompare_Eq_inv in C.
    apply B2R_inj; done.
Qed.
Close Scope Z_scope.
