(** C57: vector arithmetic is componentwise, and what the four-wide path computes. *)
From stdpp Require Import prelude list.
From Coq Require Import ZArith Reals Lra.
From Flocq Require Import Core IEEE754.BinarySingleNaN IEEE754.Binary IEEE754.Bits.
From Verif Require Import Base Word VectModel VectSpec.
Open Scope nat_scope.

(** ** Loops that write one component at a time. *)
Lemma loop_map {T} (N : nat) (g : nat -> option T) (body : nat -> list T -> res (list T)) (init : list T) :
  length init = N ->
  (forall i r, i < N -> length r = N -> (forall j, i <= j -> r !! j = init !! j) -> body i r = (z ← def (g i); put r i z)) ->
  match loop N 0 body init with
  | Ok r => length r = N /\ forall i, i < N -> exists z, g i = Some z /\ r !! i = Some z
  | UB => exists i, i < N /\ g i = None
  | _ => False
  end.
Proof.
  intros L B.
  assert (G : forall n k r, k + n = N -> length r = N -> (forall j, k <= j -> r !! j = init !! j) ->
    (forall i, i < k -> exists z, g i = Some z /\ r !! i = Some z) ->
    match loop n k body r with
    | Ok r => length r = N /\ forall i, i < N -> exists z, g i = Some z /\ r !! i = Some z
    | UB => exists i, i < N /\ g i = None
    | _ => False
    end).
  { induction n as [|n IH]; intros k r K Lr R D; cbn [loop].
    - split; [done|]. intros i Hi. apply D. lia.
    - rewrite (B k r) by (done || lia). destruct (g k) as [z|] eqn:E; cbn [def mbind res_bind].
      + unfold put. rewrite decide_True by lia. cbn [mbind res_bind]. apply IH; [lia|rewrite insert_length; done| |].
        * intros j Hj. rewrite list_lookup_insert_ne by lia. apply R. lia.
        * intros i Hi. destruct (decide (i = k)) as [->|Ne].
          -- exists z. split; [done|]. apply list_lookup_insert. lia.
          -- rewrite list_lookup_insert_ne by done. apply D. lia.
      + exists k. split; [lia|done]. }
  apply (G N 0 init); [lia|done|done|lia].
Qed.

Lemma get_lookup {T} (a : list T) i x : a !! i = Some x -> get a i = Ok x.
Proof. unfold get. intros ->. done. Qed.

Section General.
  Context {T : Type} (sc : scalar T) (N : nat).
  Lemma default_length : length (v_default sc N) = N.
  Proof using Type. apply replicate_length. Qed.

  Lemma op_cw (op : T -> T -> option T) a b : length a = N -> length b = N -> componentwise2 op a b (v_op sc N op a b).
  Proof using Type.
    intros La Lb. pose proof (loop_map N (fun i => match a !! i, b !! i with Some x, Some y => op x y | _, _ => None end)
      (fun i r => x ← get a i; y ← get b i; z ← def (op x y); put r i z) (v_default sc N) default_length) as M.
    unfold v_op. destruct (loop _ _ _ _) eqn:E; (assert (M' := M); clear M; lapply M'; clear M';
      [intros M|intros i r Hi _ _; destruct (lookup_lt_is_Some_2 a i) as [x Ex]; [lia|]; destruct (lookup_lt_is_Some_2 b i) as [y Ey]; [lia|];
        rewrite (get_lookup _ _ _ Ex), (get_lookup _ _ _ Ey), Ex, Ey; done]).
    - destruct M as [L M]. split; [lia|]. intros i x y Ex Ey. destruct (M i) as (z & Ez & Er); [rewrite <-La; eapply lookup_lt_Some; done|].
      rewrite Ex, Ey in Ez. eauto.
    - done.
    - destruct M as (i & Hi & M). destruct (lookup_lt_is_Some_2 a i) as [x Ex]; [lia|]. destruct (lookup_lt_is_Some_2 b i) as [y Ey]; [lia|].
      rewrite Ex, Ey in M. exists i, x, y. done.
    - done.
  Qed.
  Lemma assign_cw (op : T -> T -> option T) a b : length a = N -> length b = N -> componentwise2 op a b (v_assign N op a b).
  Proof using Type.
    intros La Lb. pose proof (loop_map N (fun i => match a !! i, b !! i with Some x, Some y => op x y | _, _ => None end)
      (fun i r => x ← get r i; y ← get b i; z ← def (op x y); put r i z) a La) as M.
    unfold v_assign. destruct (loop _ _ _ _) eqn:E; (assert (M' := M); clear M; lapply M'; clear M';
      [intros M|intros i r Hi _ R; destruct (lookup_lt_is_Some_2 a i) as [x Ex]; [lia|]; destruct (lookup_lt_is_Some_2 b i) as [y Ey]; [lia|];
        pose proof (R i (le_n i)) as Ri; rewrite Ex in Ri; rewrite (get_lookup _ _ _ Ri), (get_lookup _ _ _ Ey), Ex, Ey; done]).
    - destruct M as [L M]. split; [lia|]. intros i x y Ex Ey. destruct (M i) as (z & Ez & Er); [rewrite <-La; eapply lookup_lt_Some; done|].
      rewrite Ex, Ey in Ez. eauto.
    - done.
    - destruct M as (i & Hi & M). destruct (lookup_lt_is_Some_2 a i) as [x Ex]; [lia|]. destruct (lookup_lt_is_Some_2 b i) as [y Ey]; [lia|].
      rewrite Ex, Ey in M. exists i, x, y. done.
    - done.
  Qed.
  (** One operand: the body reads [a], or the array being written, at the same index. *)
  Lemma map_cw (op : T -> option T) body init a : length a = N -> length init = N ->
    (forall i r x, a !! i = Some x -> (r !! i = init !! i) -> body i r = (z ← def (op x); put r i z)) ->
    componentwise op a (loop N 0 body init).
  Proof using Type.
    intros La Li B. pose proof (loop_map N (fun i => match a !! i with Some x => op x | _ => None end) body init Li) as M.
    destruct (loop _ _ _ _) eqn:E; (assert (M' := M); clear M; lapply M'; clear M';
      [intros M|intros i r Hi _ R; destruct (lookup_lt_is_Some_2 a i) as [x Ex]; [lia|];
        rewrite (B i r x Ex (R i (le_n i))), Ex; done]).
    - destruct M as [L M]. split; [lia|]. intros i x Ex. destruct (M i) as (z & Ez & Er); [rewrite <-La; eapply lookup_lt_Some; done|].
      rewrite Ex in Ez. eauto.
    - done.
    - destruct M as (i & Hi & M). destruct (lookup_lt_is_Some_2 a i) as [x Ex]; [lia|]. rewrite Ex in M. exists i, x. done.
    - done.
  Qed.
  Lemma op_s_cw (op : T -> T -> option T) a s : length a = N -> componentwise (fun x => op x s) a (v_op_s sc N op a s).
  Proof using Type.
    intros La. apply map_cw; [done|apply default_length|]. intros i r x Ex _. rewrite (get_lookup _ _ _ Ex). done.
  Qed.
  Lemma assign_s_cw (op : T -> T -> option T) a s : length a = N -> componentwise (fun x => op x s) a (v_assign_s N op a s).
  Proof using Type.
    intros La. apply map_cw; [done|done|]. intros i r x Ex R. rewrite Ex in R. rewrite (get_lookup _ _ _ R). done.
  Qed.
End General.

(** C57: for every element type and every dimension, [+], [-], [*], [/] of two vectors, of a vector
    and a scalar, of a scalar and a vector, and the compound assignments are componentwise.
    (Vectors of dimension [N] are the lists of length [N].) *)
Theorem vect_componentwise {T} (sc : scalar T) (N : nat) (a b : list T) (s : T) : length a = N -> length b = N ->
  componentwise2 (s_add sc) a b (v_add sc N a b) /\ componentwise2 (s_sub sc) a b (v_sub sc N a b) /\
  componentwise2 (s_mul sc) a b (v_mul sc N a b) /\ componentwise2 (s_div sc) a b (v_div sc N a b) /\
  componentwise (fun x => s_add sc x s) a (v_add_s sc N a s) /\ componentwise (fun x => s_sub sc x s) a (v_sub_s sc N a s) /\
  componentwise (fun x => s_mul sc x s) a (v_mul_s sc N a s) /\ componentwise (fun x => s_div sc x s) a (v_div_s sc N a s) /\
  componentwise (fun x => s_add sc x s) a (s_add_v sc N s a) /\ componentwise (fun x => s_sub sc s x) a (s_sub_v sc N s a) /\
  componentwise (fun x => s_mul sc x s) a (s_mul_v sc N s a) /\ componentwise (fun x => s_div sc s x) a (s_div_v sc N s a).
Proof.
  intros La Lb. split_and!; try (apply op_cw; done); try (apply op_s_cw; done);
    (apply map_cw; [done|apply default_length|]; intros i r x Ex _; rewrite (get_lookup _ _ _ Ex); done).
Qed.
Theorem vect_assign_componentwise {T} (sc : scalar T) (N : nat) (a b : list T) (s : T) : length a = N -> length b = N ->
  componentwise2 (s_add sc) a b (v_add_assign sc N a b) /\ componentwise2 (s_sub sc) a b (v_sub_assign sc N a b) /\
  componentwise2 (s_mul sc) a b (v_mul_assign sc N a b) /\ componentwise2 (s_div sc) a b (v_div_assign sc N a b) /\
  componentwise (fun x => s_add sc x s) a (v_add_assign_s sc N a s) /\ componentwise (fun x => s_sub sc x s) a (v_sub_assign_s sc N a s) /\
  componentwise (fun x => s_mul sc x s) a (v_mul_assign_s sc N a s) /\ componentwise (fun x => s_div sc x s) a (v_div_assign_s sc N a s).
Proof. intros La Lb. split_and!; try (apply assign_cw; done); (apply assign_s_cw; done). Qed.

(** ** Constructors, minimum, maximum, absolute value, negation. *)
Theorem vect_constructors {T} (sc : scalar T) (N : nat) (x s : T) (f : list T) :
  v_fill sc N x = Ok (replicate N x) /\ (length f = N -> v_extend sc (S N) f s = Ok (f ++ [s])).
Proof.
  split.
  - pose proof (loop_map N (fun _ => Some x) (fun i r => put r i x) (v_default sc N) (default_length sc N)) as M.
    unfold v_fill. assert (M' := M ltac:(done)). destruct (loop _ _ _ _) as [r| | |]; try done; [|destruct M' as (? & ? & ?); done].
    destruct M' as [L M']. f_equal. apply list_eq. intros i. destruct (decide (i < N)) as [Hi|Hi].
    + destruct (M' i Hi) as (z & Ez & Er). injection Ez as <-. rewrite Er. symmetry. apply lookup_replicate_2. done.
    + rewrite !lookup_ge_None_2; [done|rewrite replicate_length; lia|lia].
  - intros Lf. unfold v_extend. replace (S N - 1) with N by lia.
    (* the last slot is not touched by the loop *)
    assert (G : forall n k r, k + n = N -> length r = S N -> (forall i, i < k -> r !! i = f !! i) ->
      exists r', loop n k (fun i r => x ← get f i; put r i x) r = Ok r' /\ length r' = S N /\ forall i, i < N -> r' !! i = f !! i).
    { induction n as [|n IH]; intros k r K Lr D; cbn [loop].
      - exists r. split_and!; [done|done|]. intros i Hi. apply D. lia.
      - destruct (lookup_lt_is_Some_2 f k) as [y Ey]; [lia|]. rewrite (get_lookup _ _ _ Ey). cbn [mbind res_bind]. unfold put.
        rewrite decide_True by lia. cbn [mbind res_bind]. apply IH; [lia|rewrite insert_length; done|].
        intros i Hi. destruct (decide (i = k)) as [->|Ne]; [rewrite list_lookup_insert by lia; done|].
        rewrite list_lookup_insert_ne by done. apply D. lia. }
    destruct (G N 0 (v_default sc (S N)) ltac:(lia) (default_length sc (S N)) ltac:(lia)) as (r & -> & Lr & R).
    cbn [mbind res_bind]. unfold put. rewrite decide_True by lia. f_equal. apply list_eq. intros i.
    destruct (decide (i < N)) as [Hi|Hi]; [|destruct (decide (i = N)) as [->|Hn]].
    + rewrite list_lookup_insert_ne by lia. rewrite R by done. rewrite lookup_app_l by lia. done.
    + rewrite list_lookup_insert by lia. rewrite lookup_app_r by lia. rewrite Lf, Nat.sub_diag. done.
    + rewrite !lookup_ge_None_2; [done|rewrite app_length; cbn; lia|rewrite insert_length; lia].
Qed.

Theorem vect_min_max_abs {T} (sc : scalar T) (N : nat) (a b : list T) : length a = N -> length b = N ->
  componentwise2 (fun x y => Some (if s_lt sc x y then x else y)) a b (v_min sc N a b) /\
  componentwise2 (fun x y => Some (if s_lt sc y x then x else y)) a b (v_max sc N a b) /\
  componentwise (s_abs sc) a (v_abs sc N a).
Proof.
  intros La Lb. split_and!.
  - exact (op_cw sc N (fun x y => Some (s_min sc x y)) a b La Lb).
  - exact (op_cw sc N (fun x y => Some (s_max sc x y)) a b La Lb).
  - apply map_cw; [done|apply default_length|]. intros i r x Ex _. rewrite (get_lookup _ _ _ Ex). done.
Qed.

(** Unary minus has the right value... *)
Theorem vect_neg_partial {T} (sc : scalar T) (N : nat) (a : list T) : length a = N ->
  componentwise (s_neg sc) a ('(_, r) ← v_neg sc N a; Ok r).
Proof.
  intros La. unfold v_neg.
  pose proof (map_cw N (s_neg sc) (fun i r => x ← get r i; z ← def (s_neg sc x); put r i z) a a La La) as M.
  lapply M; [|intros i r x Ex R; rewrite Ex in R; rewrite (get_lookup _ _ _ R); done]. clear M. intros M.
  destruct (loop _ _ _ _); exact M.
Qed.
(** ...but it is not free of effects: it overwrites its operand with the result. *)
Theorem vect_neg_refuted :
  ~ (forall (N : nat) (a a' r : list Z), v_neg i32_sc N a = Ok (a', r) -> a' = a) /\
  (forall T (sc : scalar T) N a a' r, v_neg sc N a = Ok (a', r) -> a' = r).
Proof.
  split.
  - intros H. specialize (H 2 [1%Z; 2%Z] [(-1)%Z; (-2)%Z] [(-1)%Z; (-2)%Z] eq_refl). done.
  - intros T sc N a a' r. unfold v_neg. destruct (loop _ _ _ _); cbn; [|done..]. congruence.
Qed.

(** ** Equality. *)
Lemma early_spec {T} (sc : scalar T) (d : bool) (a b : list T) n k s : k + n <= length a -> k + n <= length b ->
  exists s', loop n k (early sc d a b) s = Ok s' /\
    match s with
    | Some _ => s' = s
    | None => (s' = None /\ (forall i x y, k <= i < k + n -> a !! i = Some x -> b !! i = Some y -> s_eq sc x y = true)) \/
              (s' = Some d /\ exists i x y, k <= i < k + n /\ a !! i = Some x /\ b !! i = Some y /\ s_eq sc x y = false)
    end.
Proof.
  revert k s. induction n as [|n IH]; intros k s La Lb; cbn [loop].
  - exists s. split; [done|]. destruct s; [done|]. left. split; [done|]. intros. lia.
  - destruct s as [e|]; cbn [early mbind res_bind].
    + destruct (IH (S k) (Some e)) as (s' & E & H); [lia|lia|]. rewrite E. eauto.
    + destruct (lookup_lt_is_Some_2 a k) as [x Ex]; [lia|]. destruct (lookup_lt_is_Some_2 b k) as [y Ey]; [lia|].
      rewrite (get_lookup _ _ _ Ex), (get_lookup _ _ _ Ey). cbn [mbind res_bind]. destruct (s_eq sc x y) eqn:Q.
      * destruct (IH (S k) None) as (s' & E & H); [lia|lia|]. rewrite E. exists s'. split; [done|].
        destruct H as [[-> H]|[-> (i & x' & y' & Hi & H)]].
        -- left. split; [done|]. intros i x' y' Hi Ex' Ey'. destruct (decide (i = k)) as [->|Ne]; [congruence|]. apply (H i x' y'); [lia|done|done].
        -- right. split; [done|]. exists i, x', y'. split; [lia|done].
      * destruct (IH (S k) (Some d)) as (s' & E & H); [lia|lia|]. rewrite E. exists s'. split; [done|]. right. split; [done|].
        exists k, x, y. split; [lia|done].
Qed.
Theorem vect_equality {T} (sc : scalar T) (N : nat) (a b : list T) : length a = N -> length b = N ->
  exists e, v_eq sc N a b = Ok e /\ v_ne sc N a b = Ok (negb e) /\
    (e = true <-> forall i x y, a !! i = Some x -> b !! i = Some y -> s_eq sc x y = true).
Proof.
  intros La Lb. unfold v_eq, v_ne.
  destruct (early_spec sc false a b N 0 None) as (s1 & E1 & H1); [lia|lia|].
  destruct (early_spec sc true a b N 0 None) as (s2 & E2 & H2); [lia|lia|].
  rewrite E1, E2. cbn [mbind res_bind].
  destruct H1 as [[-> H1]|[-> (i & x & y & Hi & Ex & Ey & Q)]], H2 as [[-> H2]|[-> (i' & x' & y' & Hi' & Ex' & Ey' & Q')]].
  - exists true. split_and!; [done|done|]. split; [|done]. intros _ i x y Ex Ey. apply (H1 i x y); [|done|done].
    apply lookup_lt_Some in Ex. lia.
  - rewrite (H1 i' x' y') in Q' by (done || lia). done.
  - rewrite (H2 i x y) in Q by (done || lia). done.
  - exists false. split_and!; [done|done|]. split; [done|]. intros H. rewrite (H i x y Ex Ey) in Q. done.
Qed.

(** ** Dot products and lengths. *)
Lemma zip_lookup {T} (a b : list T) i x y : a !! i = Some x -> b !! i = Some y -> zip a b !! i = Some (x, y).
Proof. intros. apply lookup_zip_with_Some. eauto. Qed.
Theorem vect_dot {T} (sc : scalar T) (N : nat) (a b : list T) : length a = N -> length b = N ->
  v_dot sc N a b = def (sum_products (s_add sc) (s_mul sc) (s_zero sc) (zip a b)) /\
  v_norm2 sc N a = def (sum_products (s_add sc) (s_mul sc) (s_zero sc) (zip a a)).
Proof.
  assert (G : forall a b, length a = N -> length b = N -> forall n k z, k + n = N ->
    loop n k (fun i r => x ← get a i; y ← get b i; p ← def (s_mul sc x y); def (s_add sc r p)) z =
    def (sum_products (s_add sc) (s_mul sc) z (drop k (zip a b)))).
  { clear a b. intros a b La Lb. induction n as [|n IH]; intros k z K; cbn [loop].
    - rewrite drop_ge by (rewrite zip_with_length; lia). done.
    - destruct (lookup_lt_is_Some_2 a k) as [x Ex]; [lia|]. destruct (lookup_lt_is_Some_2 b k) as [y Ey]; [lia|].
      rewrite (get_lookup _ _ _ Ex), (get_lookup _ _ _ Ey), (drop_S _ _ _ (zip_lookup a b k x y Ex Ey)).
      cbn [mbind res_bind sum_products]. destruct (s_mul sc x y) as [p|]; [|done]. cbn [mbind res_bind def].
      destruct (s_add sc z p) as [z'|]; [|done]. cbn [mbind res_bind def]. apply IH. lia. }
  intros La Lb. split; [exact (G a b La Lb N 0 (s_zero sc) eq_refl)|].
  rewrite <-(G a a La La N 0 (s_zero sc) eq_refl : _ = def (sum_products _ _ _ (zip a a))). unfold v_norm2. generalize (s_zero sc).
  assert (E : forall n k z, loop n k (fun i r => x ← get a i; p ← def (s_mul sc x x); def (s_add sc r p)) z =
    loop n k (fun i r => x ← get a i; y ← get a i; p ← def (s_mul sc x y); def (s_add sc r p)) z).
  { induction n as [|n IH]; intros k z; cbn [loop]; [done|]. destruct (get a k) as [x| | |]; cbn [mbind res_bind]; [|done..].
    destruct (def (s_mul sc x x)) as [p| | |]; cbn [mbind res_bind]; [|done..]. destruct (def (s_add sc z p)); cbn [mbind res_bind]; [apply IH|done..]. }
  apply E.
Qed.

(** [unit()] and [normalize()] divide every component by the norm, the root of the dot product with
    itself; [proj()] divides all components but the last by the last. *)
Theorem vect_normalize {T} (sc : scalar T) (N : nat) (a : list T) : length a = N ->
  match v_norm sc N a with
  | Ok l => (exists n, sum_products (s_add sc) (s_mul sc) (s_zero sc) (zip a a) = Some n /\ s_sqrt sc n = Some l) /\
      componentwise (fun x => s_div sc x l) a (v_unit sc N a) /\
      componentwise (fun x => s_div sc x l) a ('(_, r) ← v_normalize sc N a; Ok r) /\
      (forall a' r, v_normalize sc N a = Ok (a', r) -> a' = r)
  | _ => True
  end.
Proof.
  intros La. unfold v_unit, v_normalize. destruct (v_norm sc N a) as [l| | |] eqn:E; [|done..]. cbn [mbind res_bind]. split_and!.
  - unfold v_norm in E. rewrite (proj2 (vect_dot sc N a a La La)) in E.
    destruct (sum_products _ _ _ _) as [n|]; [|done]. cbn in E. exists n. split; [done|]. destruct (s_sqrt sc n); [|done]. cbn in E. congruence.
  - apply map_cw; [done|apply default_length|]. intros i r x Ex _. rewrite (get_lookup _ _ _ Ex). done.
  - pose proof (map_cw N (fun x => s_div sc x l) (fun i r => x ← get r i; z ← def (s_div sc x l); put r i z) a a La La) as M.
    lapply M; [|intros i r x Ex R; rewrite Ex in R; rewrite (get_lookup _ _ _ R); done]. clear M. intros M.
    destruct (loop _ _ _ _); exact M.
  - intros a' r. destruct (loop _ _ _ _); cbn; [|done..]. congruence.
Qed.
Theorem vect_proj {T} (sc : scalar T) (N : nat) (a : list T) (w : T) : length a = N ->
  componentwise (fun x => s_div sc x w) a (v_proj sc (S N) (a ++ [w])).
Proof.
  intros La. unfold v_proj. replace (S N - 1) with N by lia. apply map_cw; [done|apply replicate_length|].
  intros i r x Ex _. rewrite (get_lookup (a ++ [w]) i x) by (apply lookup_app_l_Some; done).
  rewrite (get_lookup (a ++ [w]) N w) by (rewrite lookup_app_r by lia; rewrite La, Nat.sub_diag; done). done.
Qed.

(** ** The least and greatest component. *)
Section Order.
  Context {T : Type} (sc : scalar T) (P : T -> Prop) (W : weak_order P (s_lt sc)).
  Lemma least_loop (a : list T) n k r : Forall P a -> k + n = length a -> P r ->
    exists m, loop n k (fun i r => x ← get a i; Ok (s_min sc r x)) r = Ok m /\ P m /\ s_lt sc r m = false /\ (m = r \/ m ∈ a) /\
      forall i x, k <= i -> a !! i = Some x -> s_lt sc x m = false.
  Proof using W.
    destruct W as (W1 & W2 & W3). revert k r. induction n as [|n IH]; intros k r F K Hr; cbn [loop].
    - exists r. split_and!; [done|done|by apply W1|by left|]. intros i x Hi Ex. apply lookup_lt_Some in Ex. lia.
    - destruct (lookup_lt_is_Some_2 a k) as [x Ex]; [lia|]. rewrite (get_lookup _ _ _ Ex). cbn [mbind res_bind].
      assert (Px : P x) by exact (Forall_lookup_1 _ _ _ _ F Ex).
      assert (Pm : P (s_min sc r x)) by (unfold s_min; destruct (s_lt sc r x); done).
      assert (Mr : s_lt sc r (s_min sc r x) = false) by (unfold s_min; destruct (s_lt sc r x) eqn:Q; [by apply W1|done]).
      assert (Mx : s_lt sc x (s_min sc r x) = false).
      { unfold s_min. destruct (s_lt sc r x) eqn:Q; [|by apply W1]. destruct (s_lt sc x r) eqn:Q'; [|done].
        pose proof (W1 r Hr) as R. rewrite (W2 r x r) in R by done. done. }
      destruct (IH (S k) (s_min sc r x) F ltac:(lia) Pm) as (m & E & Hm & L & I & A). exists m. split_and!.
      + exact E.
      + done.
      + apply (W3 r (s_min sc r x) m); done.
      + destruct I as [->|I]; [|by right]. unfold s_min. destruct (s_lt sc r x); [by left|right]. eapply elem_of_list_lookup_2; done.
      + intros i y Hi Ey. destruct (decide (i = k)) as [->|Ne].
        * rewrite Ex in Ey. injection Ey as <-. apply (W3 x (s_min sc r x) m); done.
        * apply (A i y); [lia|done].
  Qed.
  Lemma greatest_loop (a : list T) n k r : Forall P a -> k + n = length a -> P r ->
    exists m, loop n k (fun i r => x ← get a i; Ok (s_max sc r x)) r = Ok m /\ P m /\ s_lt sc m r = false /\ (m = r \/ m ∈ a) /\
      forall i x, k <= i -> a !! i = Some x -> s_lt sc m x = false.
  Proof using W.
    destruct W as (W1 & W2 & W3). revert k r. induction n as [|n IH]; intros k r F K Hr; cbn [loop].
    - exists r. split_and!; [done|done|by apply W1|by left|]. intros i x Hi Ex. apply lookup_lt_Some in Ex. lia.
    - destruct (lookup_lt_is_Some_2 a k) as [x Ex]; [lia|]. rewrite (get_lookup _ _ _ Ex). cbn [mbind res_bind].
      assert (Px : P x) by exact (Forall_lookup_1 _ _ _ _ F Ex).
      assert (Pm : P (s_max sc r x)) by (unfold s_max; destruct (s_lt sc x r); done).
      assert (Mr : s_lt sc (s_max sc r x) r = false) by (unfold s_max; destruct (s_lt sc x r) eqn:Q; [by apply W1|done]).
      assert (Mx : s_lt sc (s_max sc r x) x = false).
      { unfold s_max. destruct (s_lt sc x r) eqn:Q; [|by apply W1]. destruct (s_lt sc r x) eqn:Q'; [|done].
        pose proof (W1 r Hr) as R. rewrite (W2 r x r) in R by done. done. }
      destruct (IH (S k) (s_max sc r x) F ltac:(lia) Pm) as (m & E & Hm & L & I & A). exists m. split_and!.
      + exact E.
      + done.
      + apply (W3 m (s_max sc r x) r); done.
      + destruct I as [->|I]; [|by right]. unfold s_max. destruct (s_lt sc x r); [by left|right]. eapply elem_of_list_lookup_2; done.
      + intros i y Hi Ey. destruct (decide (i = k)) as [->|Ne].
        * rewrite Ex in Ey. injection Ey as <-. apply (W3 m (s_max sc r x) x); done.
        * apply (A i y); [lia|done].
  Qed.
End Order.

Theorem vect_least_greatest {T} (sc : scalar T) (P : T -> Prop) (N : nat) (a : list T) :
  weak_order P (s_lt sc) -> Forall P a -> length a = N -> 1 <= N ->
  (exists m, v_least sc N a = Ok m /\ m ∈ a /\ forall x, x ∈ a -> s_lt sc x m = false) /\
  (exists m, v_greatest sc N a = Ok m /\ m ∈ a /\ forall x, x ∈ a -> s_lt sc m x = false).
Proof.
  intros W F La HN. destruct a as [|x0 a]; [cbn in La; lia|]. cbn in La. unfold v_least, v_greatest.
  assert (P0 : P x0) by (inversion F; done). split.
  - destruct (least_loop sc P W (x0 :: a) (N - 1) 1 x0 F ltac:(cbn; lia) P0) as (m & E & Hm & L & I & A).
    exists m. split_and!; [exact E|destruct I as [->|I]; [left|done]|]. intros x Hx.
    apply elem_of_list_lookup_1 in Hx as [[|i] Hi]; [injection Hi as <-; done|apply (A (S i) x); [lia|done]].
  - destruct (greatest_loop sc P W (x0 :: a) (N - 1) 1 x0 F ltac:(cbn; lia) P0) as (m & E & Hm & L & I & A).
    exists m. split_and!; [exact E|destruct I as [->|I]; [left|done]|]. intros x Hx.
    apply elem_of_list_lookup_1 in Hx as [[|i] Hi]; [injection Hi as <-; done|apply (A (S i) x); [lia|done]].
Qed.

(** [clamp] lies between its bounds, componentwise, and leaves a component that already does. *)
Theorem vect_clamp {T} (sc : scalar T) (P : T -> Prop) (N : nat) (a mn mx : list T) :
  weak_order P (s_lt sc) -> Forall P a -> Forall P mn -> Forall P mx -> length a = N -> length mn = N -> length mx = N ->
  (forall i l h, mn !! i = Some l -> mx !! i = Some h -> s_lt sc h l = false) ->
  exists r, v_clamp sc N a mn mx = Ok r /\ length r = N /\
    forall i x l h, a !! i = Some x -> mn !! i = Some l -> mx !! i = Some h -> exists z, r !! i = Some z /\
      s_lt sc z l = false /\ s_lt sc h z = false /\
      (s_lt sc x l = false -> s_lt sc h x = false -> s_lt sc z x = false /\ s_lt sc x z = false).
Proof.
  intros (W1 & W2 & W3) Fa Fl Fh La Ll Lh O. unfold v_clamp.
  pose proof (proj1 (vect_min_max_abs sc N a mx La Lh)) as M. destruct (v_min sc N a mx) as [m| | |]; [|done| |done].
  2: destruct M as (? & ? & ? & _ & _ & ?); done. destruct M as [Lm M]. cbn [mbind res_bind].
  pose proof (proj1 (proj2 (vect_min_max_abs sc N m mn ltac:(lia) Ll))) as X. destruct (v_max sc N m mn) as [r| | |]; [|done| |done].
  2: destruct X as (? & ? & ? & _ & _ & ?); done. destruct X as [Lr X]. exists r. split_and!; [done|lia|].
  intros i x l h Ex El Eh. destruct (M i x h Ex Eh) as (y & Ey & Em). injection Ey as <-.
  destruct (X i _ l Em El) as (z & Ez & Er). injection Ez as <-. eexists. split; [exact Er|].
  pose proof (Forall_lookup_1 _ _ _ _ Fa Ex) as Px. pose proof (Forall_lookup_1 _ _ _ _ Fl El) as Pl. pose proof (Forall_lookup_1 _ _ _ _ Fh Eh) as Ph.
  pose proof (O i l h El Eh) as Ol. pose proof (W1 x Px) as Rx. pose proof (W1 l Pl) as Rl. pose proof (W1 h Ph) as Rh.
  assert (A1 : forall u v, P u -> P v -> s_lt sc u v = true -> s_lt sc v u = false).
  { intros u v Pu Pv Q. destruct (s_lt sc v u) eqn:Q'; [|done]. pose proof (W1 u Pu) as R. rewrite (W2 u v u) in R by done. done. }
  destruct (s_lt sc x h) eqn:Q1.
  - destruct (s_lt sc l x) eqn:Q2; split_and!; auto.
  - destruct (s_lt sc l h) eqn:Q2; split_and!; auto.
    intros. split; [|done]. apply (W3 l h x); auto.
Qed.

(** [lerp]: [min + (max - min) * t] in every component. *)
Theorem vect_lerp {T} (sc : scalar T) (N : nat) (mn mx : list T) (t : T) : length mn = N -> length mx = N ->
  componentwise2 (fun l h => d ← s_sub sc h l; p ← s_mul sc d t; s_add sc l p) mn mx (v_lerp sc N mn mx t).
Proof.
  intros Ll Lh. unfold v_lerp. pose proof (op_cw sc N (s_sub sc) mx mn Lh Ll) as D. unfold v_sub.
  destruct (v_op sc N (s_sub sc) mx mn) as [d| | |]; [|done| |done].
  - destruct D as [Ld D]. cbn [mbind res_bind].
    pose proof (op_s_cw sc N (s_mul sc) d t ltac:(lia)) as M. unfold v_mul_s. destruct (v_op_s sc N (s_mul sc) d t) as [p| | |]; [|done| |done].
    + destruct M as [Lp M]. cbn [mbind res_bind]. pose proof (op_cw sc N (s_add sc) mn p Ll ltac:(lia)) as A. unfold v_add.
      destruct (v_op sc N (s_add sc) mn p) as [r| | |]; [|done| |done].
      * destruct A as [Lr A]. split; [done|]. intros i l h El Eh. destruct (D i h l Eh El) as (x & Ex & Exd).
        destruct (M i x Exd) as (y & Ey & Eyp). destruct (A i l y El Eyp) as (z & Ez & Er). rewrite Ex. cbn. rewrite Ey. cbn. eauto.
      * destruct A as (i & l & y & El & Ey & A). destruct (lookup_lt_is_Some_2 mx i) as [h Eh]; [apply lookup_lt_Some in El; lia|].
        destruct (D i h l Eh El) as (x & Ex & Exd). destruct (M i x Exd) as (y' & Ey' & Eyp). rewrite Ey in Eyp. injection Eyp as ->.
        exists i, l, h. rewrite Ex. cbn. rewrite Ey'. done.
    + destruct M as (i & x & Ex & M). destruct (lookup_lt_is_Some_2 mx i) as [h Eh]; [apply lookup_lt_Some in Ex; lia|].
      destruct (lookup_lt_is_Some_2 mn i) as [l El]; [apply lookup_lt_Some in Ex; lia|].
      destruct (D i h l Eh El) as (x' & Ex' & Exd). rewrite Ex in Exd. injection Exd as ->. exists i, l, h. rewrite Ex'. cbn. rewrite M. done.
  - destruct D as (i & h & l & Eh & El & D). exists i, l, h. rewrite D. done.
Qed.

(** ** Unsigned vectors: the dot product is the exact one modulo 2^32. *)
Theorem vect_dot_u32 (N : nat) (a b : list Z) : length a = N -> length b = N ->
  v_dot u32_sc N a b = Ok (wrap 32 (foldr Z.add 0%Z (zip_with Z.mul a b))).
Proof.
  intros La Lb. rewrite (proj1 (vect_dot u32_sc N a b La Lb)).
  assert (G : forall l z, sum_products (s_add u32_sc) (s_mul u32_sc) (wrap 32 z) l =
    Some (wrap 32 (z + foldr Z.add 0%Z (map (fun '(x, y) => x * y)%Z l)))).
  { induction l as [|[x y] l IH]; intros z; cbn [sum_products].
    - cbn. rewrite Z.add_0_r. done.
    - cbn [s_mul s_add u32_sc]. replace (wrap 32 (wrap 32 z + wrap 32 (x * y))) with (wrap 32 (z + x * y)).
      + rewrite IH. cbn [map foldr]. do 2 f_equal. lia.
      + unfold wrap. rewrite <-Z.add_mod by done. done. }
  change (s_zero u32_sc) with (wrap 32 0). rewrite G. cbn [def]. rewrite Z.add_0_l. do 3 f_equal.
  clear. revert b. induction a as [|x a IH]; intros [|y b]; cbn; [done..|]. f_equal. apply IH.
Qed.

(** ** The four-wide path. *)
Ltac four l H := destruct l as [|? [|? [|? [|? [|? ?]]]]]; cbn in H; try lia; clear H.
(** For every f32 value, it is the same function as the loop, for these operators. *)
Theorem simd_same (a b : list binary32) (s : binary32) : length a = 4 -> length b = 4 ->
  q_add a b = v_add f32_sc 4 a b /\ q_sub a b = v_sub f32_sc 4 a b /\ q_mul a b = v_mul f32_sc 4 a b /\ q_div a b = v_div f32_sc 4 a b /\
  q_add_s a s = v_add_s f32_sc 4 a s /\ q_sub_s a s = v_sub_s f32_sc 4 a s /\ q_mul_s a s = v_mul_s f32_sc 4 a s /\
  q_div_s a s = v_div_s f32_sc 4 a s /\ s_add_q s a = s_add_v f32_sc 4 s a /\ s_mul_q s a = s_mul_v f32_sc 4 s a /\
  q_abs a = v_abs f32_sc 4 a /\ q_dot a b = v_dot f32_sc 4 a b /\ q_norm2 a = v_norm2 f32_sc 4 a /\
  q_unit a = v_unit f32_sc 4 a /\ q_normalize a = v_normalize f32_sc 4 a /\
  q_min_sse a b = v_min f32_sc 4 a b /\ q_max_sse a b = v_max f32_sc 4 a b.
Proof. intros La Lb. four a La. four b Lb. split_and!; reflexivity. Qed.
(** [==] compares lanes with [&&] where the loop stops early. *)
Theorem simd_equality (a b : list binary32) : length a = 4 -> length b = 4 ->
  q_eq a b = v_eq f32_sc 4 a b /\ q_ne a b = v_ne f32_sc 4 a b.
Proof.
  intros La Lb. four a La. four b Lb. cbn -[f32_eq]. unfold cmpeq_all. cbn [l0 l1 l2 l3].
  repeat match goal with |- context [f32_eq ?x ?y] => destruct (f32_eq x y); cbn -[f32_eq] end; done.
Qed.

(** The scalar on the left of [-] and [/]: the four-wide path computes [v - s] and [v / s]. *)
Definition f32_of_int (z : Z) : binary32 := binary_normalize 24 128 eq_refl eq_refl mode_NE z 0 false.
Theorem simd_scalar_left_refuted :
  (exists s v, length v = 4 /\ ~ componentwise (s_sub f32_sc s) v (s_sub_q s v)) /\
  (exists s v, length v = 4 /\ ~ componentwise (s_div f32_sc s) v (s_div_q s v)) /\
  (forall s v, s_sub_q s v = q_sub_s v s) /\ (forall s v, s_div_q s v = q_div_s v s).
Proof.
  split_and!; [| |done|done].
  - exists (f32_of_int 3), (replicate 4 (f32_of_int 1)). split; [done|]. intros [_ H].
    destruct (H 0 _ eq_refl) as (z & E1 & E2). injection E1 as <-. apply (f_equal (option_map bits_of_b32)) in E2. revert E2. vm_compute. discriminate.
  - exists (f32_of_int 4), (replicate 4 (f32_of_int 2)). split; [done|]. intros [_ H].
    destruct (H 0 _ eq_refl) as (z & E1 & E2). injection E1 as <-. apply (f_equal (option_map bits_of_b32)) in E2. revert E2. vm_compute. discriminate.
Qed.

(** Comparison of finite floats is that of their values. *)
Lemma f32_lt_finite x y : Binary.is_finite 24 128 x = true -> Binary.is_finite 24 128 y = true ->
  f32_lt x y = true <-> (Binary.B2R 24 128 x < Binary.B2R 24 128 y)%R.
Proof.
  intros Fx Fy. unfold f32_lt, b32_compare. rewrite Binary.Bcompare_correct by done. destruct (Rcompare_spec (Binary.B2R 24 128 x) (Binary.B2R 24 128 y)); split; intros; try done; lra.
Qed.
Lemma f32_eq_finite x y : Binary.is_finite 24 128 x = true -> Binary.is_finite 24 128 y = true ->
  f32_eq x y = true <-> (Binary.B2R 24 128 x = Binary.B2R 24 128 y)%R.
Proof.
  intros Fx Fy. unfold f32_eq, b32_compare. rewrite Binary.Bcompare_correct by done. destruct (Rcompare_spec (Binary.B2R 24 128 x) (Binary.B2R 24 128 y)); split; intros; try done; lra.
Qed.
Lemma f32_weak_order : weak_order (fun x => Binary.is_finite 24 128 x = true) f32_lt.
Proof.
  assert (N : forall x y, Binary.is_finite 24 128 x = true -> Binary.is_finite 24 128 y = true -> f32_lt x y = false <-> ~ (Binary.B2R 24 128 x < Binary.B2R 24 128 y)%R).
  { intros x y Fx Fy. rewrite <-(f32_lt_finite x y Fx Fy). destruct (f32_lt x y); split; congruence. }
  split_and!.
  - intros x Fx. apply N; [done..|lra].
  - intros x y z Fx Fy Fz. rewrite !f32_lt_finite by done. lra.
  - intros x y z Fx Fy Fz. rewrite !N by done. lra.
Qed.
Lemma Z_weak_order (sc : scalar Z) : s_lt sc = s_lt i32_sc -> weak_order (fun _ => True) (s_lt sc).
Proof. intros ->. cbn. split_and!; intros; rewrite ?bool_decide_eq_true, ?bool_decide_eq_false in *; lia. Qed.

(** Unary minus: [0 - x] equals [-x] as a number for every finite [x]... *)
Theorem simd_neg_value (a : list binary32) : length a = 4 -> Forall (fun x => Binary.is_finite 24 128 x = true) a ->
  exists r, q_neg a = Ok (r, r) /\ length r = 4 /\ forall i x, a !! i = Some x -> exists z, r !! i = Some z /\ f32_eq z (b32_opp x) = true.
Proof.
  assert (G : forall x, Binary.is_finite 24 128 x = true -> f32_eq (b32_minus mode_NE f32_zero x) (b32_opp x) = true).
  { intros x Fx. assert (Fo : Binary.is_finite 24 128 (b32_opp x) = true) by (unfold b32_opp; rewrite Binary.is_finite_Bopp; done).
    pose proof (Binary.Bminus_correct 24 128 eq_refl eq_refl binop_nan_pl32 mode_NE f32_zero x eq_refl Fx) as C.
    assert (E : (Binary.B2R 24 128 f32_zero - Binary.B2R 24 128 x = - Binary.B2R 24 128 x)%R) by (cbn [Binary.B2R f32_zero]; lra).
    rewrite E in C. assert (R : Generic_fmt.round radix2 (SpecFloat.fexp 24 128) (BinarySingleNaN.round_mode mode_NE) (- Binary.B2R 24 128 x)%R = (- Binary.B2R 24 128 x)%R).
    { apply round_generic; [apply BinarySingleNaN.valid_rnd_round_mode|]. apply generic_format_opp. apply Binary.generic_format_B2R. }
    rewrite R in C. rewrite Rlt_bool_true in C.
    - destruct C as (C1 & C2 & _). apply f32_eq_finite; [exact C2|done|]. unfold b32_minus, b32_opp. rewrite Binary.B2R_Bopp. exact C1.
    - rewrite Rabs_Ropp. apply Binary.abs_B2R_lt_emax. }
  intros La F. four a La. repeat (apply Forall_cons in F as [? F]). eexists. split_and!; [reflexivity|done|].
  intros [|[|[|[|i]]]] x Ex; cbn in Ex; try done; injection Ex as <-; (eexists; split; [reflexivity|apply G; done]).
Qed.
(** ...but not as a float: where the loop gives -0 for +0, it gives +0.  It overwrites its operand too. *)
Theorem simd_neg_refuted :
  (exists a, length a = 4 /\ q_neg a <> v_neg f32_sc 4 a) /\
  (exists a a' r, length a = 4 /\ q_neg a = Ok (a', r) /\ a' <> a).
Proof.
  split.
  - exists (replicate 4 f32_zero). split; [done|]. intros H.
    apply (f_equal (fun o => match o with Ok (x :: _, _) => bits_of_b32 x | _ => 0%Z end)) in H. revert H. vm_compute. discriminate.
  - exists (replicate 4 (f32_of_int 1)). eexists _, _. split; [done|]. split; [reflexivity|]. intros H.
    apply (f_equal (fun o => match o with x :: _ => bits_of_b32 x | _ => 0%Z end)) in H. revert H. vm_compute. discriminate.
Qed.

(** [min] and [max] agree with the loop as numbers on finite components, and differ on a NaN. *)
Theorem simd_min_max_value (a b : list binary32) : length a = 4 -> length b = 4 ->
  Forall (fun x => Binary.is_finite 24 128 x = true) a -> Forall (fun x => Binary.is_finite 24 128 x = true) b ->
  exists r r' q q', q_min a b = Ok r /\ v_min f32_sc 4 a b = Ok r' /\ q_max a b = Ok q /\ v_max f32_sc 4 a b = Ok q' /\
    Forall2 (fun x y => f32_eq x y = true) r r' /\ Forall2 (fun x y => f32_eq x y = true) q q'.
Proof.
  assert (R : forall x, Binary.is_finite 24 128 x = true -> f32_eq x x = true) by (intros; apply f32_eq_finite; done).
  assert (G : forall x y, Binary.is_finite 24 128 x = true -> Binary.is_finite 24 128 y = true ->
    f32_eq (fmin x y) (if f32_lt x y then x else y) = true /\ f32_eq (fmax x y) (if f32_lt y x then x else y) = true).
  { intros x y Fx Fy. assert (Nx : Binary.is_nan 24 128 x = false) by (destruct x; done). assert (Ny : Binary.is_nan 24 128 y = false) by (destruct y; done).
    unfold fmin, fmax. rewrite Nx, Ny. pose proof (f32_lt_finite x y Fx Fy) as A. pose proof (f32_lt_finite y x Fy Fx) as B.
    destruct (f32_lt x y), (f32_lt y x); try (split; apply R; done).
    - exfalso. pose proof (proj1 A eq_refl). pose proof (proj1 B eq_refl). lra.
    - assert (E : Binary.B2R 24 128 x = Binary.B2R 24 128 y).
      { destruct (Rtotal_order (Binary.B2R 24 128 x) (Binary.B2R 24 128 y)) as [L|[L|L]]; [apply A in L; done|done|apply B in L; done]. }
      split; apply f32_eq_finite; done. }
  intros La Lb Fa Fb. four a La. four b Lb. repeat (apply Forall_cons in Fa as [? Fa]). repeat (apply Forall_cons in Fb as [? Fb]).
  eexists _, _, _, _. split_and!; [reflexivity..| |]; repeat constructor; apply G; done.
Qed.
Theorem simd_min_nan_refuted : exists a b, length a = 4 /\ length b = 4 /\ q_min a b <> v_min f32_sc 4 a b /\ q_max a b <> v_max f32_sc 4 a b.
Proof.
  exists (replicate 4 (f32_of_int 1)), (replicate 4 (proj1_sig default_nan_pl32)). split_and!; [done|done| |]; intros H;
  apply (f_equal (fun o => match o with Ok (x :: _) => bits_of_b32 x | _ => 0%Z end)) in H; revert H; vm_compute; discriminate.
Qed.
(** With SSE the dot product of the same vectors can be another number. *)
Theorem simd_dot_sse_refuted : exists a b x y, length a = 4 /\ length b = 4 /\ q_dot_sse a b = Ok x /\ v_dot f32_sc 4 a b = Ok y /\ f32_eq x y = false.
Proof.
  exists (List.map f32_of_int [16777216; 1; 1; -16777216]%Z), (replicate 4 (f32_of_int 1)).
  eexists _, _. split_and!; [done|done|reflexivity|reflexivity|vm_compute; reflexivity].
Qed.

(** ** Witnesses. *)
Example i32_add : v_add i32_sc 3 [1; 2; 3]%Z [10; 20; 30]%Z = Ok [11; 22; 33]%Z. Proof. reflexivity. Qed.
Example i32_add_overflow : v_add i32_sc 2 [1; 2 ^ 31 - 1]%Z [1; 1]%Z = UB. Proof. reflexivity. Qed.
Example u32_left : s_sub_v u32_sc 2 5%Z [3; 6]%Z = Ok [2; 2 ^ 32 - 1]%Z. Proof. reflexivity. Qed.
Example i32_minmax : v_least i32_sc 3 [4; -1; 7]%Z = Ok (-1)%Z /\ v_greatest i32_sc 3 [4; -1; 7]%Z = Ok 7%Z /\
  weak_order (fun _ => True) (s_lt i32_sc) /\ v_clamp i32_sc 2 [9; -9]%Z [0; 0]%Z [5; 5]%Z = Ok [5; 0]%Z.
Proof. split_and!; try reflexivity. by apply Z_weak_order. Qed.
Definition bits_of (o : res (list binary32)) : list Z := match o with Ok l => List.map bits_of_b32 l | _ => [] end.
Example f32_vectors : bits_of (q_add (replicate 4 (f32_of_int 1)) (List.map f32_of_int [1; 2; 3; 4]%Z)) = bits_of (Ok (List.map f32_of_int [2; 3; 4; 5]%Z)) /\
  Forall (fun x => Binary.is_finite 24 128 x = true) (List.map f32_of_int [1; 2; 3; 4]%Z) /\
  bits_of (v_unit f32_sc 2 (List.map f32_of_int [3; 0]%Z)) = bits_of (Ok (List.map f32_of_int [1; 0]%Z)).
Proof. split_and!; [vm_compute; reflexivity|repeat constructor|vm_compute; reflexivity]. Qed.

Print Assumptions vect_componentwise.
Print Assumptions vect_assign_componentwise.
Print Assumptions vect_constructors.
Print Assumptions vect_min_max_abs.
Print Assumptions vect_neg_partial.
Print Assumptions vect_neg_refuted.
Print Assumptions vect_equality.
Print Assumptions vect_dot.
Print Assumptions vect_normalize.
Print Assumptions vect_proj.
Print Assumptions vect_least_greatest.
Print Assumptions vect_clamp.
Print Assumptions vect_lerp.
Print Assumptions vect_dot_u32.
Print Assumptions simd_same.
Print Assumptions simd_equality.
Print Assumptions simd_scalar_left_refuted.
Print Assumptions simd_neg_value.
Print Assumptions simd_neg_refuted.
Print Assumptions simd_min_max_value.
Print Assumptions simd_min_nan_refuted.
Print Assumptions simd_dot_sse_refuted.
