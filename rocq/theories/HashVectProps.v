(** C94: hashes of vectors and of source locations. *)
From Verif Require Import Word MathModel HashModel HashProofs HashProps HashVectModel.
From Flocq Require Import IEEE754.Binary IEEE754.Bits.
Open Scope Z_scope.

Lemma hash_vect_change p s a b : is_u 64 a -> is_u 64 b ->
  hash_vect (p ++ a :: s) = hash_vect (p ++ b :: s) -> a = b.
Proof.
  intros Ha Hb E. apply (fold_change (is_u 64)) in E.
  - by apply hash_combine_inj_r in E.
  - intros. apply hash_combine_range.
  - intros x y z Hx Hy. by apply hash_combine_inj_l.
Qed.

(** Integer vectors of any length that differ in one component never collide.
    [t] is the type of the components. *)
Theorem hash_vect_int_change : forall t p s a b, in_ty t a -> in_ty t b -> a <> b ->
  hash_vect_int (p ++ a :: s) <> hash_vect_int (p ++ b :: s).
Proof.
  intros t p s a b Ha Hb Hne E. unfold hash_vect_int in E. rewrite !fmap_app, !fmap_cons in E.
  apply hash_vect_change in E; [|rewrite hash_int_eq; apply squirrel5_range, wrap_range; lia..].
  apply Hne. by apply (hash_integer_injective t).
Qed.
Example hash_vect_int_change_ex : in_ty I32 (-7) /\ in_ty I32 2 /\
  hash_vect_int ([1] ++ (-7) :: [3]) <> hash_vect_int ([1] ++ 2 :: [3]).
Proof. vm_compute. repeat split; discriminate. Qed.

(** Unlike hash(a, b), the order of the components matters. *)
Theorem hash_vect_ordered : exists v w, v ≡ₚ w /\ hash_vect_int v <> hash_vect_int w.
Proof. exists [1; 2], [2; 1]. split; [apply Permutation_swap|by vm_compute]. Qed.

(** Vectors that are equal in every component hash the same, if no component of the one is zero. *)
Theorem hash_vect_equal_keys_partial : forall v w : list binary32,
  Forall2 (fun x y => f32_eq x y = true) v w ->
  (forall s, B754_zero 24 128 s ∉ v) -> hash_vect_f32 v = hash_vect_f32 w.
Proof.
  intros v w F Hz. unfold hash_vect_f32. f_equal. induction F as [|x y v w Hxy F IH]; [done|].
  rewrite !fmap_cons, IH by (intros s Hs; apply (Hz s); by constructor). f_equal.
  destruct (hash_f32_equal_keys_partial x y Hxy) as [|(s & -> & _)]; [done|].
  exfalso. apply (Hz s). constructor.
Qed.
Example hash_vect_equal_ex : let one := b32_of_bits 0x3F800000 in
  Forall2 (fun x y => f32_eq x y = true) [one; one] [one; one] /\ (forall s, B754_zero 24 128 s ∉ [one; one]).
Proof.
  cbn zeta. split; [repeat constructor|]. intros s [H|[H|H%elem_of_nil]%elem_of_cons]%elem_of_cons; [..|done];
    apply (f_equal (fun x => f32_eq x (B754_zero 24 128 true))) in H; revert H; destruct s; by vm_compute.
Qed.
(** Vec3(0, 1, 1) == Vec3(-0, 1, 1), but their hashes differ: at any length. *)
Theorem hash_vect_equal_keys_refuted : forall p s : list binary32, exists v w,
  v = p ++ B754_zero 24 128 false :: s /\ w = p ++ B754_zero 24 128 true :: s /\
  f32_eq (B754_zero 24 128 false) (B754_zero 24 128 true) = true /\ hash_vect_f32 v <> hash_vect_f32 w.
Proof.
  intros p s. eexists _, _. split_and!; [done..|]. intros E. unfold hash_vect_f32 in E.
  rewrite !fmap_app, !fmap_cons in E. apply hash_vect_change in E; [|split; by vm_compute..].
  revert E. by vm_compute.
Qed.

Lemma add_inj_r c x y : is_u 64 x -> is_u 64 y -> wrap 64 (c + x) = wrap 64 (c + y) -> x = y.
Proof. intros Hx Hy E. rewrite (Z.add_comm c x), (Z.add_comm c y) in E. by apply add_inj in E. Qed.
Lemma is_u_wrap x : is_u 64 (wrap 64 x).
Proof. apply wrap_range. lia. Qed.
Lemma hash_many_3 a b x : hash_many [a; b; x] = squirrel5 (wrap 64 (a + wrap 64 (b + wrap 64 (x + 0)))).
Proof. unfold hash_many. cbn [foldr]. reflexivity. Qed.
Lemma hash_many_last a b x y : is_u 64 x -> is_u 64 y -> hash_many [a; b; x] = hash_many [a; b; y] -> x = y.
Proof.
  intros Hx Hy E. rewrite !hash_many_3, !Z.add_0_r, (wrap_small 64 x Hx), (wrap_small 64 y Hy) in E.
  pose proof (squirrel5_inj _ _ (is_u_wrap _) (is_u_wrap _) E) as E1.
  pose proof (add_inj_r _ _ _ (is_u_wrap _) (is_u_wrap _) E1) as E2.
  exact (add_inj_r _ _ _ Hx Hy E2).
Qed.
Lemma hash_location_eq fn file l : hash_location (Loc fn file l) = hash_many [hash_bytes file; hash_bytes fn; hash_int l].
Proof. unfold hash_location. cbn [l_file l_function l_line]. reflexivity. Qed.
(** Two places of one file and function hash differently if their lines differ. *)
Theorem hash_location_line : forall fn file l l', 0 <= l < 2 ^ 64 -> 0 <= l' < 2 ^ 64 -> l <> l' ->
  hash_location (Loc fn file l) <> hash_location (Loc fn file l').
Proof.
  intros fn file l l' Hl Hl' Hne E. rewrite !hash_location_eq in E. apply hash_many_last in E.
  - apply Hne. by apply (hash_integer_injective U64).
  - apply hash_u64_bijective, Hl.
  - apply hash_u64_bijective, Hl'.
Qed.
Example hash_location_line_ex : hash_location (Loc [102] [97] 1) <> hash_location (Loc [102] [97] 2).
Proof. by vm_compute. Qed.
(** But function f of file g collides with function g of file f on the same line. *)
Theorem hash_location_swap : forall fn file l, hash_location (Loc fn file l) = hash_location (Loc file fn l).
Proof. intros fn file l. rewrite !hash_location_eq. apply hash_many_order_insensitive, Permutation_swap. Qed.
Close Scope Z_scope.
Print Assumptions hash_vect_int_change.
Print Assumptions hash_vect_ordered.
Print Assumptions hash_vect_equal_keys_partial.
Print Assumptions hash_vect_equal_keys_refuted.
Print Assumptions hash_location_line.
Print Assumptions hash_location_swap.
