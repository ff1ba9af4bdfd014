(** Property theorems for Queue: C06-C09. *)
From Verif Require Import Slots Word VecModel VecProofs QueueModel QueueSpec QueueProofs.

(** ** C06: every history on a Queue gives the answers of a FIFO list, reaches
    the list's contents, destroys what the list drops, and stops exactly where
    the list contract is broken.  [UB] and divergence are excluded. *)
Theorem queue_is_fifo : forall (T : Type) (cap : nat) (ops : list (queue_op T)),
  match fifo_run [] ops with
  | Some (l, outs, destroyed) =>
      exists q, queue_run (queue_with_capacity cap) ops = Ok (q, outs, destroyed) /\
        queue_iterate q = Ok l /\ qlength q = length l
  | None => queue_run (queue_with_capacity cap) ops = Die
  end.
Proof.
  intros T cap ops.
  pose proof (queue_run_spec ops (queue_with_capacity cap) [] 0 (qrep_empty cap)) as H.
  destruct (fifo_run [] ops) as [[[l outs] ds]|]; [|exact H].
  destruct H as (q & h & E & R). exists q. split; [exact E|].
  pose proof (qr_len _ _ _ R) as L. split; [|done].
  unfold queue_iterate. rewrite L. by rewrite (read_at_spec q l h R).
Qed.
Print Assumptions queue_is_fifo.

(** The example wraps the ring and then grows it while wrapped. *)
Example queue_is_fifo_ex :
  fifo_run [] [QPush 1; QPush 2; QPush 3; QPop; QPop; QPush 4; QPush 5; QPush 6; QPush 7; QSet 1 9; QPop; QBack; QIterate]
  = Some ([9; 5; 6; 7], [VUnit; VUnit; VUnit; VUnit; VUnit; VUnit; VUnit; VUnit; VUnit; VUnit; VUnit; VVal 7; VList [9; 5; 6; 7]],
      [1; 2; 4; 3]).
Proof. reflexivity. Qed.
Example queue_is_fifo_wrapped_ex : exists q,
  queue_run (queue_with_capacity 4) [QPush 1; QPush 2; QPush 3; QPop; QPop; QPush 4; QPush 5; QPush 6]
    = Ok (q, replicate 8 VUnit, [1; 2]) /\
  qlast q = 2 /\ qlength q = 4 /\ qcapacity q = 4 /\ qdata q = [Live 5; Live 6; Live 3; Live 4].
Proof. exists (mk_queue [Live 5; Live 6; Live 3; Live 4] 4 2 4). by vm_compute. Qed.

Theorem queue_of_list_contents : forall (T : Type) (xs : list T),
  exists q, queue_of xs = Ok q /\ queue_iterate q = Ok xs /\ qlength q = length xs.
Proof.
  intros T xs. destruct (queue_of_spec xs) as (q & h & E & R). exists q. split; [exact E|].
  pose proof (qr_len _ _ _ R) as L. split; [|done].
  unfold queue_iterate. rewrite L. by rewrite (read_at_spec q xs h R).
Qed.
Print Assumptions queue_of_list_contents.

(** The u64 expressions of the code: start_idx (queue.h:335-338), idx_at
    (343-346), pop (173) and operator[] (227-231), modulo 2^64. *)
Section u64.
  Local Open Scope Z_scope.
  Definition start_idx_u64 (last len cap : Z) : Z :=
    let idx := wrap 64 (last - len) in if cap <=? idx then wrap 64 (idx + cap) else idx.
  Definition idx_at_u64 (last len cap i : Z) : Z :=
    let idx := wrap 64 (wrap 64 (last - len) + i) in if cap <=? idx then wrap 64 (idx + cap) else idx.
  Definition pop_idx_u64 (last len cap : Z) : Z :=
    if len <=? last then wrap 64 (last - len) else wrap 64 (wrap 64 (last - len) + cap).
  Definition sub_idx_u64 (last len cap idx : Z) : Z :=
    let i := wrap 64 (idx + start_idx_u64 last len cap) in if cap <=? i then wrap 64 (i - cap) else i.
End u64.

Lemma wrap64_neg x : (- 2 ^ 64 <= x < 0)%Z -> wrap 64 x = (x + 2 ^ 64)%Z.
Proof. intros. unfold wrap. symmetry. apply Z.mod_unique with (-1)%Z; lia. Qed.
Lemma wrap64_id x : (0 <= x < 2 ^ 64)%Z -> wrap 64 x = x.
Proof. intros. apply wrap_small. unfold is_u. lia. Qed.
Lemma wrap64_over x : (2 ^ 64 <= x < 2 * 2 ^ 64)%Z -> wrap 64 x = (x - 2 ^ 64)%Z.
Proof. intros. unfold wrap. symmetry. apply Z.mod_unique with 1%Z; lia. Qed.

Theorem queue_index_arithmetic : forall (T : Type) (q : queue T) i,
  qlast q < qcapacity q -> qlength q <= qcapacity q -> (Z.of_nat (qcapacity q) <= 2 ^ 63)%Z ->
  i < qlength q ->
  start_idx_u64 (Z.of_nat (qlast q)) (Z.of_nat (qlength q)) (Z.of_nat (qcapacity q)) = Z.of_nat (start_idx q) /\
  idx_at_u64 (Z.of_nat (qlast q)) (Z.of_nat (qlength q)) (Z.of_nat (qcapacity q)) (Z.of_nat i) = Z.of_nat (idx_at q i) /\
  pop_idx_u64 (Z.of_nat (qlast q)) (Z.of_nat (qlength q)) (Z.of_nat (qcapacity q)) =
    Z.of_nat (if qlength q <=? qlast q then qlast q - qlength q else qlast q + qcapacity q - qlength q) /\
  sub_idx_u64 (Z.of_nat (qlast q)) (Z.of_nat (qlength q)) (Z.of_nat (qcapacity q)) (Z.of_nat i) = Z.of_nat (sub_idx q i).
Proof.
  intros T [m len last cap] i. unfold start_idx_u64, idx_at_u64, pop_idx_u64, sub_idx_u64, start_idx_u64, sub_idx, idx_at, start_idx.
  cbn [qlast qlength qcapacity]. clear m T.
  assert (2 ^ 64 = 2 * 2 ^ 63)%Z as E64 by reflexivity. assert (0 < 2 ^ 63)%Z by done.
  generalize (2 ^ 63)%Z E64 H. clear H E64. intros M E64 HM HL Hlen Hc Hi.
  destruct (Nat.leb_spec len last).
  - rewrite (wrap64_id (Z.of_nat last - Z.of_nat len)) by lia.
    destruct (Z.leb_spec (Z.of_nat cap) (Z.of_nat last - Z.of_nat len)); [lia|].
    destruct (Z.leb_spec (Z.of_nat len) (Z.of_nat last)); [|lia].
    rewrite !wrap64_id by lia.
    destruct (Z.leb_spec (Z.of_nat cap) (Z.of_nat last - Z.of_nat len + Z.of_nat i)); [lia|].
    destruct (Nat.leb_spec len (last + i)); [|lia].
    destruct (Nat.leb_spec cap (i + (last - len))), (Z.leb_spec (Z.of_nat cap) (Z.of_nat i + (Z.of_nat last - Z.of_nat len))); try lia.
  - rewrite (wrap64_neg (Z.of_nat last - Z.of_nat len)) by lia.
    destruct (Z.leb_spec (Z.of_nat cap) (Z.of_nat last - Z.of_nat len + 2 ^ 64)); [|lia].
    destruct (Z.leb_spec (Z.of_nat len) (Z.of_nat last)); [lia|].
    rewrite (wrap64_over (Z.of_nat last - Z.of_nat len + 2 ^ 64 + Z.of_nat cap)) by lia.
    assert (wrap 64 (Z.of_nat last - Z.of_nat len + 2 ^ 64 + Z.of_nat i) =
      if Nat.leb len (last + i) then (Z.of_nat last - Z.of_nat len + Z.of_nat i)%Z
      else (Z.of_nat last - Z.of_nat len + 2 ^ 64 + Z.of_nat i)%Z) as ->.
    { destruct (Nat.leb_spec len (last + i)); [rewrite wrap64_over by lia; lia|by rewrite wrap64_id by lia]. }
    rewrite (wrap64_id (Z.of_nat i + _)) by lia.
    split; [lia|]. split.
    + destruct (Nat.leb_spec len (last + i)).
      * destruct (Z.leb_spec (Z.of_nat cap) (Z.of_nat last - Z.of_nat len + Z.of_nat i)); lia.
      * destruct (Z.leb_spec (Z.of_nat cap) (Z.of_nat last - Z.of_nat len + 2 ^ 64 + Z.of_nat i)); [|lia].
        rewrite wrap64_over by lia. lia.
    + split; [lia|].
      destruct (Nat.leb_spec cap (i + (last + cap - len))),
        (Z.leb_spec (Z.of_nat cap) (Z.of_nat i + (Z.of_nat last - Z.of_nat len + 2 ^ 64 + Z.of_nat cap - 2 ^ 64))); try lia.
      rewrite wrap64_id by lia. lia.
Qed.
Print Assumptions queue_index_arithmetic.
Example queue_index_arithmetic_ex : start_idx_u64 2 5 8 = 5%Z /\ idx_at_u64 2 5 8 4 = 1%Z /\
  pop_idx_u64 2 5 8 = 5%Z /\ sub_idx_u64 2 5 8 4 = 1%Z.
Proof. by vm_compute. Qed.

(** ** C09: in every history each slot is constructed only when vacant and
    destroyed only when live (any violation would be [UB], which [Ok] rules
    out), destruction leaves nothing alive, and every value that entered was
    destroyed exactly once by the end. *)
Theorem queue_lifetimes : forall (T : Type) (cap : nat) (ops : list (queue_op T)) q outs destroyed,
  queue_run (queue_with_capacity cap) ops = Ok (q, outs, destroyed) ->
  exists rest, queue_destroy q = Ok (queue_empty, rest) /\
    destroyed ++ rest ≡ₚ fifo_created ops.
Proof.
  intros T cap ops q outs ds E.
  pose proof (queue_run_spec ops (queue_with_capacity cap) [] 0 (qrep_empty cap)) as H. rewrite E in H.
  destruct (fifo_run [] ops) as [[[l outs'] ds']|] eqn:Er; [|discriminate].
  destruct H as (q' & h & E' & R). injection E' as <- <- <-.
  exists l. split; [by eapply queue_destroy_spec|].
  apply fifo_run_account in Er. cbn in Er. rewrite Er. apply Permutation_app_comm.
Qed.
Print Assumptions queue_lifetimes.
Theorem queue_never_ub : forall (T : Type) (cap : nat) (ops : list (queue_op T)),
  queue_run (queue_with_capacity cap) ops <> UB /\ queue_run (queue_with_capacity cap) ops <> Diverge.
Proof.
  intros T cap ops. pose proof (queue_is_fifo T cap ops) as H.
  destruct (fifo_run [] ops) as [[[l outs] ds]|].
  - destruct H as (q & -> & _). done.
  - by rewrite H.
Qed.
Print Assumptions queue_never_ub.
Example queue_lifetimes_ex :
  (q ← queue_run (queue_with_capacity 2) [QPush 1; QPush 2; QPop; QPush 3; QPush 4; QSet 0 5];
   queue_destroy (fst (fst q))) = Ok (queue_empty, [5; 3; 4]) /\
  fifo_created [QPush 1; QPush 2; QPop; QPush 3; QPush 4; QSet 0 5] = [1; 2; 3; 4; 5].
Proof. by vm_compute. Qed.

(** Move assignment between distinct queues destroys the target's elements
    and hands over the source's. *)
Theorem queue_move_assign_spec : forall (T : Type) c1 c2 ops1 ops2 (q1 q2 : queue T) o1 o2 d1 d2 l1 l2,
  queue_run (queue_with_capacity c1) ops1 = Ok (q1, o1, d1) -> queue_iterate q1 = Ok l1 ->
  queue_run (queue_with_capacity c2) ops2 = Ok (q2, o2, d2) -> queue_iterate q2 = Ok l2 ->
  exists q, queue_move_assign q1 q2 = Ok (q, queue_empty, l1) /\ queue_iterate q = Ok l2.
Proof.
  intros T c1 c2 ops1 ops2 q1 q2 o1 o2 d1 d2 l1 l2 E1 I1 E2 I2.
  pose proof (queue_run_spec ops1 (queue_with_capacity c1) [] 0 (qrep_empty c1)) as H. rewrite E1 in H.
  destruct (fifo_run [] ops1) as [[[l outs'] ds']|] eqn:Er; [|discriminate].
  destruct H as (q' & h & E' & R). injection E' as <- <- <-.
  unfold queue_iterate in I1. rewrite (qr_len _ _ _ R) in I1. rewrite (read_at_spec q1 l h R) in I1 by done.
  injection I1 as <-. unfold queue_move_assign. rewrite (queue_destroy_spec q1 l h R). cbn. eauto.
Qed.
Print Assumptions queue_move_assign_spec.

(** ** C07: clone.  For a trivially copyable element type the copy is exact
    (queue.h:77 copies every byte, so the clone is the same queue). *)
Theorem queue_clone_trivial_exact_partial : forall (T : Type) (q : queue T),
  queue_iterate (queue_clone_trivial q) = queue_iterate q /\ queue_back (queue_clone_trivial q) = queue_back q.
Proof. done. Qed.
(** For every other element type the loop stops before the last element: the
    clone of EVERY nonempty queue reports the full length, agrees with the
    original on all elements but the last, and its last element is an object
    that was never constructed. *)
Theorem queue_clone_refuted : forall (T : Type) cap ops (q : queue T) outs ds,
  queue_run (queue_with_capacity cap) ops = Ok (q, outs, ds) -> qlength q <> 0 ->
  exists c, queue_clone q = Ok c /\ qlength c = qlength q /\
    (forall i, i < qlength q - 1 -> queue_get c i = queue_get q i) /\
    queue_back c = UB /\ queue_iterate c = UB /\ queue_destroy c = UB.
Proof.
  intros T cap ops q outs ds E Hne.
  pose proof (queue_run_spec ops (queue_with_capacity cap) [] 0 (qrep_empty cap)) as H. rewrite E in H.
  destruct (fifo_run [] ops) as [[[l outs'] ds']|] eqn:Er; [|discriminate].
  destruct H as (q' & h & E' & R). injection E' as <- <- <-.
  pose proof (qr_len _ _ _ R) as L.
  destruct (queue_clone_nonempty q l h R) as (c & Ec & B & Lc & G); [lia|].
  exists c. split; [done|]. split; [lia|]. split; [intros i Hi; apply G; lia|]. split; [done|].
  assert (qlast c = qlast q /\ qcapacity c = qcapacity q) as [Ela Eca].
  { unfold queue_clone in Ec. destruct (clone_loop _ _ _ _ _); [|discriminate..].
    cbn in Ec. injection Ec as <-. done. }
  assert (forall i, idx_at c i = idx_at q i) as Hidx.
  { intros i. unfold idx_at. by rewrite Ela, Eca, Lc, L. }
  assert (end_idx c = end_idx q) as Hend by (unfold end_idx; by rewrite Ela, Eca).
  assert (m_read (qdata c) (idx_at c (length l - 1)) = UB) as Hub.
  { rewrite Hidx, (idx_at_rep q l h) by (done || lia). rewrite <- (end_idx_rep q l h) by (done || lia).
    rewrite <- Hend. unfold queue_back, queue_is_empty in B. rewrite Lc in B.
    destruct (Nat.eqb_spec (length l) 0); [lia|]. done. }
  assert (forall i, i < length l - 1 -> exists x, m_read (qdata c) (idx_at c i) = Ok x /\
      qdata c !! idx_at c i = Some (Live x)) as Hrd.
  { intros i Hi. specialize (G i Hi). destruct (lookup_lt_is_Some_2 l i) as [x Hx]; [lia|].
    exists x. unfold queue_get in G. rewrite Lc, L, assert_lt in G by lia. cbn in G.
    assert (sub_idx c i = sub_idx q i) as Es.
    { unfold sub_idx, start_idx. by rewrite Ela, Eca, Lc, L. }
    rewrite Es, (sub_idx_rep q l h i R), (qrep_read q l h i x R Hx) in G by lia.
    rewrite Hidx, (idx_at_rep q l h i R) by lia. split; [done|].
    unfold m_read in G. destruct (qdata c !! _) as [[]|]; try discriminate. by injection G as ->. }
  split.
  - unfold queue_iterate. rewrite Lc.
    assert (forall n i, i + n = length l -> 0 < n -> read_at c i n = UB) as Hr.
    { induction n as [|n IH]; intros i Hi Hn; [lia|]. cbn [read_at].
      destruct (decide (n = 0)) as [->|].
      - replace i with (length l - 1) by lia. by rewrite Hub.
      - destruct (Hrd i) as (x & -> & _); [lia|]. cbn [mbind res_bind]. by rewrite IH by lia. }
    apply Hr; lia.
  - unfold queue_destroy, queue_clear. rewrite Lc.
    pose proof (qr_fit _ _ _ R) as F. pose proof (qr_head _ _ _ R) as Hh.
    assert (forall n i m, i + n = length l -> 0 < n ->
      (forall k, i <= k < length l -> m !! idx_at c k = qdata c !! idx_at c k) -> destroy_at c m i n = UB) as Hr.
    { induction n as [|n IH]; intros i m Hi Hn Hm; [lia|]. cbn [destroy_at].
      destruct (decide (n = 0)) as [->|].
      - unfold m_destroy. rewrite Hm by lia. unfold m_read in Hub.
        replace i with (length l - 1) by lia.
        assert (qdata c !! idx_at c (length l - 1) <> Some Husk) as Hnh.
        { rewrite Hidx, (idx_at_rep q l h) by (done || lia). clear -Ec R Hne L.
          destruct (clone_loop_spec q l h R ltac:(lia) (length l - 1) (m_alloc (qcapacity q)) 0 (qcapacity q)) as (m & E & Hm).
          - lia.
          - pose proof (qr_fit _ _ _ R). lia.
          - apply m_alloc_length.
          - intros k Hk. apply m_alloc_lookup, ring_bound; [|lia]. pose proof (qr_head _ _ _ R). lia.
          - unfold queue_clone in Ec. rewrite (start_idx_rep q l h R), (end_idx_rep q l h R) in Ec by lia.
            pose proof (qr_fit _ _ _ R). pose proof (qr_head _ _ _ R).
            rewrite Nat.add_0_r, (ring_lt _ h) in E by lia. rewrite E in Ec. cbn in Ec. injection Ec as <-.
            cbn [qdata]. rewrite Hm by lia. destruct (decide _); [lia|].
            rewrite m_alloc_lookup by (apply ring_bound; lia). done. }
        destruct (qdata c !! _) as [[]|]; done.
      - destruct (Hrd i) as (x & _ & Hx); [lia|]. rewrite (m_destroy_live _ _ x).
        2:{ rewrite Hm by lia. done. }
        cbn [mbind res_bind]. rewrite IH; [done|lia|lia|].
        intros k Hk. rewrite list_lookup_insert_ne; [apply Hm; lia|].
        rewrite !Hidx, !(idx_at_rep q l h) by (done || lia). intros Hinj. apply ring_inj in Hinj; lia. }
    rewrite Hr; [done|lia|lia|done].
Qed.
Print Assumptions queue_clone_refuted.
Example queue_clone_refuted_ex : exists q c,
  queue_run (queue_with_capacity 2) [QPush 7] = Ok (q, [VUnit], []) /\ qlength q = 1 /\
  queue_clone q = Ok c /\ qlength c = 1 /\ qdata c = [Raw; Raw].
Proof. exists (mk_queue [Live 7; Raw] 1 1 2), (mk_queue [Raw; Raw] 1 1 2). by vm_compute. Qed.
(** And cloning an EMPTY queue with room for two or more reads an object that
    does not exist. *)
Theorem queue_clone_empty_refuted : forall (T : Type) cap,
  2 <= cap -> queue_clone (@queue_with_capacity T cap) = UB.
Proof.
  intros T cap Hc. unfold queue_clone, queue_with_capacity, start_idx, end_idx. cbn [qlength qlast qcapacity qdata].
  destruct cap as [|[|cap]]; [lia..|]. cbn. done.
Qed.
Print Assumptions queue_clone_empty_refuted.

(** ** C08: erase_first.  The claim: *)
Definition erases_first {T} (eqb : T -> T -> bool) (trivial : bool) (q : queue T) (v : T) : Prop :=
  exists l, queue_iterate q = Ok l /\
    match remove_first (fun x => eqb x v) l with
    | None => exists q' ds, queue_erase_first eqb trivial q v = Ok (q', false, ds) /\ queue_iterate q' = Ok l
    | Some l' => exists q' ds, queue_erase_first eqb trivial q v = Ok (q', true, ds) /\ queue_iterate q' = Ok l'
    end.
(** It holds when nothing matches or when only the last element matches... *)
Theorem queue_erase_first_partial : forall (T : Type) (eqb : T -> T -> bool) trivial cap ops (q : queue T) outs ds l v,
  queue_run (queue_with_capacity cap) ops = Ok (q, outs, ds) ->
  queue_iterate q = Ok l -> (forall i x, S i < length l -> l !! i = Some x -> eqb x v = false) ->
  erases_first eqb trivial q v.
Proof.
  intros T eqb trivial cap ops q outs ds l v E Hit Hno.
  pose proof (queue_run_spec ops (queue_with_capacity cap) [] 0 (qrep_empty cap)) as H. rewrite E in H.
  destruct (fifo_run [] ops) as [[[l0 outs'] ds']|] eqn:Er; [|discriminate].
  destruct H as (q' & h & E' & R). injection E' as <- <- <-.
  pose proof Hit as Hit'. unfold queue_iterate in Hit. rewrite (qr_len _ _ _ R), (read_at_spec q l0 h R) in Hit by done.
  rewrite drop_0 in Hit. assert (l0 = l) by congruence. subst l0. exists l. split; [done|]. clear Er E.
  assert (forall l, (forall i x, l !! i = Some x -> eqb x v = false) ->
    remove_first (fun x => eqb x v) l = None) as Hnone.
  { clear. induction l as [|x l IH]; intros Hl; [done|]. cbn. rewrite (Hl 0 x eq_refl).
    rewrite IH; [done|]. intros i y Hi. by apply (Hl (S i)). }
  destruct l as [|x l _] using rev_ind.
  { cbn. unfold queue_erase_first. rewrite (qr_len _ _ _ R). cbn. eexists _, _. split; [reflexivity|]. done. }
  rewrite app_length in Hno. cbn [length] in Hno.
  assert (forall k y, l !! k = Some y -> eqb y v = false) as Hl.
  { intros k y Hk. apply (Hno k y); [|by apply lookup_app_l_Some]. apply lookup_lt_Some in Hk. lia. }
  pose proof (qr_len _ _ _ R) as L. pose proof (qr_fit _ _ _ R) as F. pose proof (qr_head _ _ _ R) as Hh.
  rewrite app_length in L, F. cbn [length] in L, F.
  destruct (eqb x v) eqn:Ex.
  - assert (remove_first (fun x => eqb x v) (l ++ [x]) = Some l) as ->.
    { clear -Hl Ex. induction l as [|y l IH]; cbn; [by rewrite Ex|].
      rewrite (Hl 0 y eq_refl). rewrite IH; [done|]. intros k z Hk. by apply (Hl (S k)). }
    unfold queue_erase_first.
    pose proof (erase_loop_last eqb trivial q l x h v R Ex (qlength q) (qdata q) 0) as El.
    rewrite Nat.add_0_r, ring_lt in El by lia. rewrite (start_idx_rep _ _ _ R).
    rewrite El by (done || lia). clear El. cbn [mbind res_bind].
    eexists _, _. split; [reflexivity|]. destruct R as [D _ _ _ La Sl].
    rewrite app_length in La. cbn [length] in La.
    assert ((if qlast q =? 0 then qcapacity q - 1 else qlast q - 1) = ring (qcapacity q) (h + length l)) as ->.
    { rewrite La. destruct (Nat.eqb_spec (ring (qcapacity q) (h + (length l + 1))) 0).
      - unfold ring in *. repeat case_match; repeat match goal with H : (_ <? _) = _ |- _ => apply Nat.ltb_lt in H || apply Nat.ltb_ge in H end; lia.
      - unfold ring in *. repeat case_match; repeat match goal with H : (_ <? _) = _ |- _ => apply Nat.ltb_lt in H || apply Nat.ltb_ge in H end; lia. }
    assert (forall i, i < length l -> (if trivial then qdata q else <[ring (qcapacity q) (h + length l):=Raw]> (qdata q))
       !! ring (qcapacity q) (h + i) = Some (slot_of (l !! i))) as Hslots.
    { intros i Hi. assert (qdata q !! ring (qcapacity q) (h + i) = Some (slot_of (l !! i))) as E0.
      { rewrite Sl by lia. by rewrite lookup_app_l by lia. }
      destruct trivial; [done|]. rewrite slots_insert by lia. destruct (decide _); [lia|done]. }
    unfold queue_iterate. cbn [qlength]. rewrite L. replace (length l + 1 - 1) with (length l) by lia.
    match goal with |- read_at ?q0 _ _ = _ => set (q2 := q0) end.
    assert (forall n i, i + n = length l -> read_at q2 i n = Ok (drop i l)) as Hr.
    { induction n as [|n IH]; intros i Hi; cbn [read_at].
      - by rewrite drop_ge by lia.
      - assert (idx_at q2 i = ring (qcapacity q) (h + i)) as ->.
        { unfold idx_at, q2. cbn [qlast qlength qcapacity]. unfold ring.
          repeat case_match; repeat match goal with H : (_ <? _) = _ |- _ => apply Nat.ltb_lt in H || apply Nat.ltb_ge in H
            | H : (_ <=? _) = _ |- _ => apply Nat.leb_le in H || apply Nat.leb_gt in H end; lia. }
        destruct (lookup_lt_is_Some_2 l i) as [y Hy]; [lia|].
        rewrite (m_read_ok _ _ y).
        2:{ unfold q2; cbn [qdata]. rewrite Hslots by lia. by rewrite Hy. }
        cbn [mbind res_bind]. rewrite IH by lia. cbn. by rewrite (drop_S l y i). }
    by rewrite Hr by lia.
  - assert (forall i y, (l ++ [x]) !! i = Some y -> eqb y v = false) as Hall.
    { intros i y. rewrite lookup_app_Some. intros [Hy|[Hy Hy']]; [by eapply Hl|].
      apply elem_of_list_lookup_2, elem_of_list_singleton in Hy'. by subst y. }
    rewrite (Hnone _ Hall). unfold queue_erase_first.
    pose proof (erase_loop_absent eqb trivial q (l ++ [x]) h v R (qlength q) (qdata q) 0) as El.
    rewrite Nat.add_0_r, ring_lt in El by lia. rewrite (start_idx_rep _ _ _ R), El; [|rewrite app_length; cbn; lia|done|].
    + cbn. eexists _, _. split; [reflexivity|]. destruct q. done.
    + intros k y _. apply Hall.
Qed.
Print Assumptions queue_erase_first_partial.
Example queue_erase_first_partial_ex : exists q,
  queue_run (queue_with_capacity 2) [QPush 1; QPush 2; QPop; QPush 3] = Ok (q, [VUnit; VUnit; VUnit; VUnit], [1]) /\
  queue_iterate q = Ok [2; 3] /\ erases_first Nat.eqb false q 3 /\ erases_first Nat.eqb true q 4.
Proof.
  exists (mk_queue [Live 3; Live 2] 2 1 2). split; [by vm_compute|]. split; [by vm_compute|].
  split; exists [2; 3]; (split; [by vm_compute|]); cbn.
  - exists (mk_queue [Raw; Live 2] 1 0 2), [3]. by vm_compute.
  - exists (mk_queue [Live 3; Live 2] 2 1 2), []. by vm_compute.
Qed.
(** ... but not otherwise: the loop shifts the following elements the wrong
    way.  Erasing 1 from [1, 2, 3] leaves [1, 2] for a trivial type (the wrong
    element is gone) and is undefined behaviour for any other. *)
Theorem queue_erase_first_refuted : exists q,
  queue_run (queue_with_capacity 4) [QPush 1; QPush 2; QPush 3] = Ok (q, [VUnit; VUnit; VUnit], []) /\
  queue_iterate q = Ok [1; 2; 3] /\
  ~ erases_first Nat.eqb true q 1 /\ ~ erases_first Nat.eqb false q 1 /\
  (exists q', queue_erase_first Nat.eqb true q 1 = Ok (q', true, [1]) /\ queue_iterate q' = Ok [1; 2]) /\
  queue_erase_first Nat.eqb false q 1 = UB.
Proof.
  exists (mk_queue [Live 1; Live 2; Live 3; Raw] 3 3 4).
  split; [by vm_compute|]. split; [by vm_compute|].
  split; [|split; [|split]].
  - intros (l & El & H). vm_compute in El. injection El as <-. destruct H as (q' & ds & E & Hi).
    vm_compute in E. injection E as <- <-. by vm_compute in Hi.
  - intros (l & El & H). vm_compute in El. injection El as <-. destruct H as (q' & ds & E & Hi).
    by vm_compute in E.
  - exists (mk_queue [Live 1; Live 2; Live 2; Live 2] 2 2 4). by vm_compute.
  - by vm_compute.
Qed.
Print Assumptions queue_erase_first_refuted.
