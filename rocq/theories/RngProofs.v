(** Proofs about RNG and swap that use no real numbers. *)
From Verif Require Import Word MathModel HashModel HashProofs RngModel RngSpec.
Open Scope Z_scope.

Lemma next_u x : is_u 64 (next x).
Proof. unfold next. rewrite hash_int_eq. apply squirrel5_range, wrap_range. lia. Qed.
Lemma next_squirrel x : is_u 64 x -> next x = squirrel5 x.
Proof. intros H. unfold next. rewrite hash_int_eq. by rewrite wrap_small. Qed.
Lemma iter_next n x : is_u 64 x -> Nat.iter n next x = Nat.iter n squirrel5 x /\ is_u 64 (Nat.iter n next x).
Proof.
  intros H. induction n as [|n [IH U]]; [done|]. split.
  - change (next (Nat.iter n next x) = squirrel5 (Nat.iter n squirrel5 x)). rewrite next_squirrel by done. by rewrite IH.
  - change (is_u 64 (next (Nat.iter n next x))). apply next_u.
Qed.
Lemma next_onto z : is_u 64 z -> exists s, is_u 64 s /\ next s = z.
Proof. intros H. destruct (squirrel5_surj z H) as (s & Hs & E). exists s. by rewrite next_squirrel. Qed.
Lemma hash_int_u x : is_u 64 (hash_int x).
Proof. rewrite hash_int_eq. apply squirrel5_range, wrap_range. lia. Qed.
Lemma hash_int_inj x y : is_u 64 x -> is_u 64 y -> hash_int x = hash_int y -> x = y.
Proof. intros Hx Hy. rewrite !hash_int_eq, !(wrap_small 64) by done. by apply squirrel5_inj. Qed.
Lemma seed_of_eq a b : seed_of a b = squirrel5 (wrap 64 (hash_int (hash_int a) + wrap 64 (hash_int (hash_int b) + 0))).
Proof. exact (eq_refl (squirrel5 (wrap 64 (hash_int (hash_int a) + wrap 64 (hash_int (hash_int b) + 0))))). Qed.
Lemma seed_of_inj a b t : is_u 64 a -> is_u 64 b -> seed_of a t = seed_of b t -> a = b.
Proof.
  intros Ha Hb E. rewrite !seed_of_eq in E. apply squirrel5_inj in E; [|apply wrap_range; lia..].
  apply add_inj in E; [|apply hash_int_u..]. apply hash_int_inj in E; [|apply hash_int_u..]. by apply hash_int_inj in E.
Qed.
Lemma next_inj x y : is_u 64 x -> is_u 64 y -> next x = next y -> x = y.
Proof. intros Hx Hy. rewrite !next_squirrel by done. by apply squirrel5_inj. Qed.

Lemma in_tyb_spec t x : in_tyb t x = true <-> in_ty t x.
Proof. unfold in_tyb, in_ty, is_i, is_u. destruct (signed t); lia. Qed.
Lemma cast_in t x : in_ty t (cast t x).
Proof. unfold in_ty, cast. destruct t; cbn [signed width]; apply to_signed_range || apply wrap_range; lia. Qed.
Lemma cast_id t x : in_ty t x -> cast t x = x.
Proof. unfold in_ty, cast. destruct t; cbn [signed width]; intros; (apply to_signed_small || apply wrap_small); (done || lia). Qed.
Lemma arith_ok t r : in_ty t r -> arith t r = Ok r.
Proof.
  intros H. destruct t; unfold arith.
  all: try (rewrite cast_id by done); try (rewrite wrap_small by done); try done.
  all: try (rewrite (proj2 (in_tyb_spec _ _) H); done).
  all: rewrite (proj2 (in_tyb_spec I32 _)); [done|]; unfold in_ty, is_i, is_u in *; cbn in *; lia.
Qed.
Lemma rem_ok t a b : in_ty t a -> 0 < b -> rem t a b = Ok (Z.rem a b).
Proof.
  intros H Hb. unfold rem. destruct (Z.eqb_spec b 0); [lia|].
  assert (in_ty t (Z.quot a b) \/ signed t = false) as Q.
  { destruct (signed t) eqn:E; [left|by right]. unfold in_ty, is_i in *. rewrite E in *.
    pose proof (Z.quot_rem' a b). destruct (Z.le_gt_cases 0 a).
    - pose proof (Z.rem_bound_pos a b). assert (0 <= a ÷ b) by (apply Z.quot_pos; lia). nia.
    - pose proof (Z.rem_bound_neg_pos a b). nia. }
  destruct t; try done; destruct Q as [Q|]; try done; by rewrite (proj2 (in_tyb_spec _ _) Q).
Qed.
Lemma range_ok t x min max : in_ty t min -> in_ty t max -> min < max -> in_ty t (max - min) -> 0 <= cast t x ->
  range t x min max = Ok (min + cast t x mod (max - min)).
Proof.
  intros Hmin Hmax L Hd P. unfold range. rewrite arith_ok by done. cbn [mbind res_bind].
  rewrite rem_ok by (apply cast_in || lia). cbn [mbind res_bind]. rewrite Z.rem_mod_nonneg by lia.
  apply arith_ok. pose proof (Z.mod_pos_bound (cast t x) (max - min)).
  unfold in_ty, is_i, is_u in *. destruct (signed t); lia.
Qed.
Lemma range_unsigned t x min max : signed t = false -> in_ty t min -> in_ty t max -> min < max ->
  range t x min max = Ok (min + cast t x mod (max - min)).
Proof.
  intros U Hmin Hmax L. apply range_ok; try done.
  - unfold in_ty, is_u in *. rewrite U in *. lia.
  - pose proof (cast_in t x) as C. unfold in_ty, is_u in *. rewrite U in *. lia.
Qed.

(** ** swap and shuffle *)
Lemma swap_ok {V} (m : movable V) i j (mem : list V) a b : moves m -> mem !! i = Some a -> mem !! j = Some b ->
  exists tmp, swap m i j mem = Ok (<[j := a]> (<[i := b]> mem), tmp).
Proof.
  intros [C A] Hi Hj. pose proof (lookup_lt_Some _ _ _ Hi) as Li. pose proof (lookup_lt_Some _ _ _ Hj) as Lj.
  unfold swap. destruct (trivial m).
  - rewrite Hi. cbn [mbind res_bind]. rewrite Hj. cbn [mbind res_bind]. by eexists.
  - rewrite Hi. cbn [mbind res_bind]. specialize (C a). destruct (construct m a) as [tmp a'] eqn:EC. cbn in C. subst tmp.
    rewrite list_lookup_insert by done. destruct (decide (i = j)) as [<-|N]; cbn [mbind res_bind].
    + rewrite list_insert_insert, list_lookup_insert by done. cbn [mbind res_bind].
      specialize (A (self_assign m a') a). destruct (assign m _ a) as [b' tmp]. cbn in A. subst b'.
      eexists. by rewrite !list_insert_insert.
    + rewrite list_lookup_insert_ne by done. rewrite Hj. cbn [mbind res_bind].
      pose proof (A a' b) as A1. destruct (assign m a' b) as [a2 b2]. cbn in A1. subst a2. cbn [mbind res_bind].
      rewrite list_lookup_insert by (by rewrite !insert_length). cbn [mbind res_bind].
      specialize (A b2 a). destruct (assign m b2 a) as [b3 tmp]. cbn in A. subst b3. eexists. by rewrite !list_insert_insert.
Qed.
Lemma swap_perm {V} i j (l : list V) a b : l !! i = Some a -> l !! j = Some b -> <[j := a]> (<[i := b]> l) ≡ₚ l.
Proof.
  intros Hi Hj. destruct (decide (i = j)) as [<-|N].
  - rewrite list_insert_insert. by rewrite list_insert_id.
  - pose proof (lookup_lt_Some _ _ _ Hi). pose proof (lookup_lt_Some _ _ _ Hj).
    apply Permutation_inj. rewrite !insert_length. split; [done|].
    exists (fun k => if decide (k = i) then j else if decide (k = j) then i else k). split.
    + intros x y. repeat case_decide; congruence.
    + intros k. repeat case_decide; subst.
      * rewrite list_lookup_insert_ne by done. by rewrite list_lookup_insert, Hj.
      * rewrite list_lookup_insert by (by rewrite insert_length). by rewrite Hi.
      * by rewrite !list_lookup_insert_ne by done.
Qed.

Section shuffle.
  Context {V : Type} (m : movable V) (Hm : moves m).
  Implicit Types v w p : list V.

  (** One round, when [n] elements are done and [w] is left. *)
  Definition choice (draw : nat -> Z) (n : nat) w : nat := Z.to_nat (draw n mod Z.of_nat (length w)).
  Definition round (k : nat) w : list V := match w with [] => [] | x :: t => match k with O => w | S k => match t !! k with Some h => h :: <[k := x]> t | None => w end end end.
  Fixpoint rounds (draw : nat -> Z) (fuel n : nat) w : list V :=
    match fuel with
    | O => w
    | S fuel => match round (choice draw n w) w with h :: t => h :: rounds draw fuel (S n) t | [] => [] end
    end.
  Lemma round_eq k p w a b : w !! O = Some a -> w !! k = Some b -> <[(length p + k)%nat := a]> (<[length p := b]> (p ++ w)) = p ++ round k w.
  Proof using Type.
    intros Ha Hb. destruct w as [|x t]; [done|]. cbn in Ha. injection Ha as ->.
    replace (length p) with (length p + 0)%nat at 2 by lia. rewrite !insert_app_r. f_equal. unfold round. destruct k as [|k].
    - cbn in Hb |- *. congruence.
    - change ((a :: t) !! S k) with (t !! k) in Hb. by rewrite Hb.
  Qed.
  Lemma round_perm k w : round k w ≡ₚ w.
  Proof using Type.
    destruct w as [|x t]; [done|]. cbn. destruct k as [|k]; [done|]. destruct (t !! k) as [h|] eqn:E; [|done].
    pose proof (swap_perm O (S k) (x :: t) x h eq_refl E) as P. by cbn in P.
  Qed.
  Lemma round_head k w b : w !! k = Some b -> exists t, round k w = b :: t /\ b :: t ≡ₚ w.
  Proof using Type.
    intros E. pose proof (round_perm k w) as P. revert E P. destruct w as [|x t]; [done|]. unfold round. destruct k as [|k].
    - intros [= ->] P. by eexists.
    - change ((x :: t) !! S k) with (t !! k). intros E P. rewrite E in *. by eexists.
  Qed.
  Lemma choice_lt draw n w : w <> [] -> (choice draw n w < length w)%nat.
  Proof using Type.
    intros N. unfold choice. destruct w; [done|]. pose proof (Z.mod_pos_bound (draw n) (Z.of_nat (length (v :: w)))). cbn [length] in *. lia.
  Qed.
  Lemma loop_step draw fuel p w : u64s draw -> (2 <= length w)%nat -> Z.of_nat (length (p ++ w)) < 2 ^ 64 ->
    shuffle_from m draw (S fuel) (Z.of_nat (length p)) (p ++ w) = shuffle_from m draw fuel (Z.of_nat (S (length p))) (p ++ round (choice draw (length p) w) w).
  Proof using Hm.
    intros U L B. rewrite app_length in B. cbn [shuffle_from].
    rewrite app_length, wrap_small by (unfold is_u; lia).
    destruct (Z.ltb_spec (Z.of_nat (length p)) (Z.of_nat (length p + length w) - 1)); [|lia].
    rewrite Nat2Z.id. rewrite range_unsigned; [|done|unfold in_ty, is_u; cbn; lia..|lia].
    rewrite cast_id by (exact (U _)). cbn [mbind res_bind].
    replace (Z.of_nat (length p + length w) - Z.of_nat (length p)) with (Z.of_nat (length w)) by lia.
    pose proof (Z.mod_pos_bound (draw (length p)) (Z.of_nat (length w)) ltac:(lia)) as J.
    set (k := choice draw (length p) w). assert (draw (length p) mod Z.of_nat (length w) = Z.of_nat k) as Ek by (unfold k, choice; lia).
    assert (k < length w)%nat as Hk by lia. rewrite Ek.
    destruct (Z.ltb_spec (Z.of_nat (length p)) (Z.of_nat (length p + length w))); [|lia].
    destruct (Z.ltb_spec (Z.of_nat (length p) + Z.of_nat k) (Z.of_nat (length p + length w))); [|lia].
    cbn [assert_ mbind res_bind]. replace (Z.to_nat (Z.of_nat (length p) + Z.of_nat k)) with (length p + k)%nat by lia.
    destruct (lookup_lt_is_Some_2 w O) as [a Ha]; [lia|]. destruct (lookup_lt_is_Some_2 w k Hk) as [b Hb].
    destruct (swap_ok m (length p) (length p + k) (p ++ w) a b Hm) as [tmp E].
    { rewrite lookup_app_r by lia. by replace (length p - length p)%nat with O by lia. }
    { rewrite lookup_app_r by lia. by replace (length p + k - length p)%nat with k by lia. }
    rewrite E. cbn [mbind res_bind]. rewrite (round_eq k p w a b Ha Hb).
    f_equal. rewrite wrap_small by (unfold is_u; lia). lia.
  Qed.
  Lemma loop_end draw fuel p w : (length w <= 1)%nat -> (1 <= length (p ++ w))%nat -> Z.of_nat (length (p ++ w)) < 2 ^ 64 ->
    shuffle_from m draw fuel (Z.of_nat (length p)) (p ++ w) = Ok (p ++ w).
  Proof using Type.
    intros L N B. rewrite app_length in N, B. destruct fuel; cbn [shuffle_from]; rewrite app_length, wrap_small by (unfold is_u; lia);
      (destruct (Z.ltb_spec (Z.of_nat (length p)) (Z.of_nat (length p + length w) - 1)); [lia|done]).
  Qed.
  Lemma loop_rounds draw fuel p w : u64s draw -> (1 <= length w)%nat -> (length w <= S fuel)%nat -> Z.of_nat (length (p ++ w)) < 2 ^ 64 ->
    shuffle_from m draw fuel (Z.of_nat (length p)) (p ++ w) = Ok (p ++ rounds draw (length w - 1) (length p) w).
  Proof using Hm.
    intros U. revert p w. induction fuel as [|fuel IH]; intros p w L F B.
    - replace (length w - 1)%nat with O by lia. change (rounds draw 0 (length p) w) with w. apply loop_end; [lia|rewrite app_length; lia|done].
    - destruct (decide (length w <= 1)%nat) as [L1|L1].
      + replace (length w - 1)%nat with O by lia. change (rounds draw 0 (length p) w) with w. apply loop_end; [lia|rewrite app_length; lia|done].
      + rewrite loop_step by (done || lia). destruct (length w - 1)%nat as [|n] eqn:En; [lia|]. cbn [rounds].
        destruct (lookup_lt_is_Some_2 w (choice draw (length p) w)) as [h Hh]; [apply choice_lt; by intros ->|].
        destruct (round_head _ w h Hh) as (t & -> & P). apply Permutation_length in P. cbn in P.
        replace (p ++ h :: t) with ((p ++ [h]) ++ t) by (by rewrite <- app_assoc).
        replace (S (length p)) with (length (p ++ [h])) by (rewrite app_length; cbn; lia).
        rewrite IH; [|lia|lia|rewrite !app_length in *; cbn; lia]. rewrite <- app_assoc. cbn [app]. do 3 f_equal. rewrite !app_length. cbn [length]. f_equal; lia.
  Qed.
  Lemma shuffle_rounds draw v : u64s draw -> v <> [] -> Z.of_nat (length v) < 2 ^ 64 -> shuffle m draw v = Ok (rounds draw (length v - 1) 0 v).
  Proof using Hm.
    intros U N B. apply (loop_rounds draw (S (length v)) [] v U); [destruct v; [done|cbn; lia]|cbn; lia|done].
  Qed.
  Lemma rounds_perm draw fuel n w : rounds draw fuel n w ≡ₚ w.
  Proof using Type.
    revert n w. induction fuel as [|fuel IH]; intros n w; [done|]. cbn [rounds]. pose proof (round_perm (choice draw n w) w) as P.
    destruct (round _ w) as [|h t]; [done|]. by rewrite IH.
  Qed.
  Lemma rounds_ext draw draw' fuel n w : (forall i, (n <= i)%nat -> draw i = draw' i) -> rounds draw fuel n w = rounds draw' fuel n w.
  Proof using Type.
    revert n w. induction fuel as [|fuel IH]; intros n w E; [done|]. cbn [rounds]. unfold choice. rewrite E by lia.
    destruct (round _ w) as [|h t]; [done|]. f_equal. apply IH. intros i Hi. apply E. lia.
  Qed.
  Lemma rounds_onto n w w' : w' ≡ₚ w -> w <> [] -> Z.of_nat (length w) < 2 ^ 64 -> exists draw, u64s draw /\ rounds draw (length w - 1) n w = w'.
  Proof using Type.
    remember (length w) as len eqn:El. revert n w w' El. induction len as [|len IH]; intros n w w' El P N B; [by destruct w|].
    destruct (decide (len = O)) as [->|Nz].
    { exists (fun _ => 0). split; [by intros i|]. destruct w as [|x [|]]; cbn in *; try lia. by apply Permutation_singleton_r in P as ->. }
    destruct w' as [|h t']; [apply Permutation_nil in P; by subst|].
    assert (h ∈ w) as Hh by (rewrite <- P; left). apply elem_of_list_lookup in Hh as [k Hk]. pose proof (lookup_lt_Some _ _ _ Hk) as Lk.
    destruct (round_head k w h Hk) as (t & R & P1). pose proof (Permutation_length P1) as PL. cbn in PL.
    assert (t' ≡ₚ t) as P2 by (apply (Permutation_cons_inv (a := h)); by rewrite P, P1).
    destruct (IH (S n) t t') as (draw & U & E); [lia|done|destruct t; [cbn in PL; lia|done]|lia|].
    exists (fun i => if decide (i = n) then Z.of_nat k else draw i). split.
    - intros i. case_decide; [|apply U]. lia.
    - replace (S len - 1)%nat with (S (len - 1)) by lia. cbn [rounds].
      assert (choice (fun i => if decide (i = n) then Z.of_nat k else draw i) n w = k) as ->.
      { unfold choice. rewrite decide_True by done. rewrite Z.mod_small by lia. lia. }
      rewrite R. f_equal. rewrite <- E. apply rounds_ext. intros i Hi. rewrite decide_False by lia. done.
  Qed.
  Lemma rounds_choices draw draw' n w : NoDup w -> w <> [] ->
    rounds draw (length w - 1) n w = rounds draw' (length w - 1) n w <->
    (forall i, (i < length w - 1)%nat -> draw (n + i)%nat mod Z.of_nat (length w - i) = draw' (n + i)%nat mod Z.of_nat (length w - i)).
  Proof using Type.
    remember (length w) as len eqn:El. revert n w El. induction len as [|len IH]; intros n w El ND N; [by destruct w|].
    destruct (decide (len = O)) as [->|Nz]. { cbn. split; [lia|done]. }
    replace (S len - 1)%nat with (S (len - 1)) by lia. cbn [rounds].
    destruct (lookup_lt_is_Some_2 w (choice draw n w)) as [h Hh]; [by apply choice_lt|].
    destruct (lookup_lt_is_Some_2 w (choice draw' n w)) as [h' Hh']; [by apply choice_lt|].
    assert (choice draw n w = choice draw' n w <-> draw n mod Z.of_nat (S len) = draw' n mod Z.of_nat (S len)) as C.
    { unfold choice. rewrite <- El. pose proof (Z.mod_pos_bound (draw n) (Z.of_nat (S len))). pose proof (Z.mod_pos_bound (draw' n) (Z.of_nat (S len))). lia. }
    destruct (round_head _ w h Hh) as (t & R & P). destruct (round_head _ w h' Hh') as (t' & R' & P'). rewrite R, R'.
    assert (NoDup t) as NDt. { rewrite <- P in ND. by apply NoDup_cons in ND as [_ ?]. }
    pose proof (Permutation_length P) as PL. cbn in PL.
    assert (len = length t) as Elt by lia. assert (t <> []) as Nt by (destruct t; [cbn in *; lia|done]).
    pose proof (IH (S n) t Elt NDt Nt) as IHt. split.
    - intros E. injection E as -> E. assert (choice draw n w = choice draw' n w) as CE by (exact (NoDup_lookup w _ _ h' ND Hh Hh')).
      rewrite CE, R' in R. injection R as <-. rewrite IHt in E. intros [|i] Hi.
      + rewrite Nat.add_0_r, Nat.sub_0_r. by apply C.
      + specialize (E i ltac:(lia)). rewrite Nat.add_succ_r. rewrite Nat.sub_succ. exact E.
    - intros E. assert (choice draw n w = choice draw' n w) as CE.
      { apply C. specialize (E O ltac:(lia)). rewrite Nat.add_0_r, Nat.sub_0_r in E. exact E. }
      rewrite CE, R' in R. injection R as <- <-. f_equal. apply IHt. intros i Hi. specialize (E (S i) ltac:(lia)).
      rewrite Nat.add_succ_r in E. rewrite Nat.sub_succ in E. exact E.
  Qed.
End shuffle.
Close Scope Z_scope.
