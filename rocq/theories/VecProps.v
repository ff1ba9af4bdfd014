(** Property theorems for Vec and Stack: C01-C05, C69. *)
From Verif Require Import Slots VecModel VecSpec VecProofs.

(** C01.  Every history on a Vec gives the answers of a list, reaches the
    list's contents, destroys what the list drops, and stops exactly where
    the list contract is broken. *)
Theorem vec_is_a_list : forall (T : Type) (d : T) (cap : nat) (ops : list (vec_op T)),
  match list_run d [] ops with
  | Some (l, outs, destroyed) =>
      exists v, vec_run d (vec_with_capacity cap) ops = Ok (v, outs, destroyed) /\
        vec_iterate v = Ok l /\ length_ v = length l
  | None => vec_run d (vec_with_capacity cap) ops = Die
  end.
Proof.
  intros T d cap ops.
  pose proof (vec_run_spec d ops (vec_with_capacity cap) [] (vrep_with_capacity cap)) as H.
  destruct (list_run d [] ops) as [[[l outs] ds]|]; [|exact H].
  destruct H as (v & E & R). exists v. split; [exact E|].
  pose proof (vec_step_spec d v l VIterate R) as (v' & Ei & _ & _). cbn in Ei.
  destruct (vec_iterate v); [|discriminate..]. cbn in Ei. split; [congruence|]. apply R.
Qed.
Print Assumptions vec_is_a_list.

Example vec_is_a_list_ex :
  list_run 0 [] [VPush 1; VPush 2; VExtend 9; VSet 0 7; VPushOwn 0; VResize 2; VReplaceByClone; VPop; VIterate]
  = Some ([7], [VUnit; VUnit; VUnit; VUnit; VUnit; VUnit; VUnit; VUnit; VList [7]],
      [1; 0; 0; 0; 0; 0; 0; 0; 0; 0; 7; 7; 2; 2]).
Proof. reflexivity. Qed.

(** clone(), the pack constructor and make() also produce the right list. *)
Theorem vec_clone_same : forall (T : Type) (d : T) cap ops v outs ds,
  vec_run d (vec_with_capacity cap) ops = Ok (v, outs, ds) ->
  exists c, vec_clone v = Ok c /\ vec_iterate c = vec_iterate v /\
    length_ c = length_ v /\ capacity_ c = capacity_ v.
Proof.
  intros T d cap ops v outs ds E.
  pose proof (vec_run_spec d ops (vec_with_capacity cap) [] (vrep_with_capacity cap)) as H.
  rewrite E in H. destruct (list_run d [] ops) as [[[l outs'] ds']|]; [|discriminate].
  destruct H as (v' & E' & R). injection E' as <- <- <-.
  destruct (vec_clone_spec v l R) as (c & Ec & Rc & Cc). exists c. split; [exact Ec|].
  destruct R as (Rd & Rn & Rl). destruct Rc as (Rd' & Rn' & Rl').
  unfold vec_iterate. rewrite Rd, Rd', Cc, Rn, Rn'. done.
Qed.
Print Assumptions vec_clone_same.

Example vec_clone_same_ex : exists v outs ds,
  vec_run 0 (vec_with_capacity 1) [VPush 4; VPush 5; VPush 6] = Ok (v, outs, ds) /\ vec_iterate v = Ok [4; 5; 6].
Proof. eexists _, _, _. split; vm_compute; reflexivity. Qed.

Theorem vec_of_list_contents : forall (T : Type) (xs : list T),
  exists v, vec_of xs = Ok v /\ vec_iterate v = Ok xs /\ length_ v = length xs.
Proof.
  intros T xs. destruct (vec_of_spec xs) as (v & E & R). exists v. split; [exact E|].
  destruct R as (Rd & Rn & _). unfold vec_iterate. rewrite Rd, Rn. split; [|done].
  exact (read_loop_spec xs [] (replicate (capacity_ v - length xs) Raw) 0 eq_refl).
Qed.
Print Assumptions vec_of_list_contents.

Theorem vec_make_contents : forall (T : Type) (d : T) n,
  exists v, vec_make d n = Ok v /\ vec_iterate v = Ok (replicate n d).
Proof.
  intros T d n. destruct (vec_make_spec d n) as (v & E & R & _). exists v. split; [exact E|].
  destruct R as (Rd & Rn & _). unfold vec_iterate. rewrite Rd, Rn.
  exact (read_loop_spec (replicate n d) [] (replicate (capacity_ v - length (replicate n d)) Raw) 0 eq_refl).
Qed.
Print Assumptions vec_make_contents.

(** C02.  No history reads, constructs over, destroys or leaks a wrong slot,
    and when the vector is finally destroyed every value that ever entered it
    has been destroyed exactly once. *)
Theorem vec_lifetimes : forall (T : Type) (d : T) cap ops,
  vec_run d (vec_with_capacity cap) ops <> UB /\
  (forall v outs destroyed,
     vec_run d (vec_with_capacity cap) ops = Ok (v, outs, destroyed) ->
     exists at_end, vec_destroy v = Ok (vec_empty, at_end) /\
       list_run_created d [] ops ≡ₚ destroyed ++ at_end).
Proof.
  intros T d cap ops.
  pose proof (vec_run_spec d ops (vec_with_capacity cap) [] (vrep_with_capacity cap)) as H.
  destruct (list_run d [] ops) as [[[l outs] ds]|] eqn:El.
  - destruct H as (v & E & R). split; [congruence|].
    intros v' outs' ds' E'. rewrite E in E'. injection E' as <- <- <-.
    exists l. split; [exact (vec_destroy_spec v l R)|].
    pose proof (list_run_account d ops [] l outs ds El) as A. cbn in A. rewrite A.
    apply Permutation_app_comm.
  - split; [congruence|]. intros. congruence.
Qed.
Print Assumptions vec_lifetimes.

Example vec_lifetimes_ex : exists v outs ds,
  vec_run 0 (vec_with_capacity 1) [VPush 4; VPush 5; VPop; VSet 0 9; VPush 6] = Ok (v, outs, ds) /\
  ds = [5; 4] /\ vec_destroy v = Ok (vec_empty, [9; 6]).
Proof. eexists _, _, _. repeat split; vm_compute; reflexivity. Qed.

(** Reallocation abandons the moved-from objects: their storage is released
    without calling their destructors (rpp/vec.h:127-132), so destructor
    calls do not match constructor calls one for one. *)
Theorem vec_reserve_destroys_moved_from_refuted :
  exists (v : vec nat) old m,
    vec_of [1; 2] = Ok v /\
    move_loop (data_ v) (m_alloc 8) 0 (length_ v) = Ok (old, m) /\
    old = [Husk; Husk] /\ m_free old = Ok tt /\
    vec_reserve v 8 = Ok (mk_vec m (length_ v) 8).
Proof. eexists _, _, _. repeat split; vm_compute; reflexivity. Qed.
Print Assumptions vec_reserve_destroys_moved_from_refuted.

(** C03.  Misuse of a reachable vector stops the program. *)
Theorem vec_misuse_dies : forall (T : Type) (d : T) cap ops v outs ds,
  vec_run d (vec_with_capacity cap) ops = Ok (v, outs, ds) ->
  (forall i, length_ v <= i -> vec_get v i = Die) /\
  (forall i x, length_ v <= i -> vec_set v i x = Die) /\
  (length_ v = 0 -> vec_pop v = Die /\ vec_front v = Die /\ vec_back v = Die) /\
  (forall i, i < length_ v -> exists x, vec_get v i = Ok x).
Proof.
  intros T d cap ops v outs ds E.
  pose proof (vec_run_spec d ops (vec_with_capacity cap) [] (vrep_with_capacity cap)) as H.
  rewrite E in H. destruct (list_run d [] ops) as [[[l outs'] ds']|]; [|discriminate].
  destruct H as (v' & E' & R). injection E' as <- <- <-.
  pose proof R as (Rd & Rn & Rl).
  split; [|split; [|split]].
  - intros i Hi. unfold vec_get. by rewrite assert_ge.
  - intros i x Hi. unfold vec_set. by rewrite assert_ge.
  - intros H0. unfold vec_pop, vec_front, vec_back. rewrite H0. done.
  - intros i Hi. rewrite Rn in Hi. destruct (lookup_lt_is_Some_2 l i Hi) as [x Hx].
    exists x. unfold vec_get. rewrite Rn, assert_lt by done.
    cbn. apply (vec_read_spec v l i x R Hx).
Qed.
Print Assumptions vec_misuse_dies.

Example vec_misuse_ex : exists v outs ds,
  vec_run 0 vec_empty [VPush 4; VPop] = Ok (v, outs, ds) /\ length_ v = 0 /\ capacity_ v = 8.
Proof. eexists _, _, _. repeat split; vm_compute; reflexivity. Qed.

(** unsafe_fill (rpp/vec.h:164-166) is the one member that exposes raw
    storage: reading an index it added is undefined. *)
Theorem vec_unsafe_fill_exposes_raw : forall (T : Type) (d : T) cap ops v outs ds i,
  vec_run d (vec_with_capacity cap) ops = Ok (v, outs, ds) ->
  length_ v <= i < capacity_ v ->
  vec_get v i = Die /\ vec_get (vec_unsafe_fill v) i = UB.
Proof.
  intros T d cap ops v outs ds i E Hi.
  pose proof (vec_run_spec d ops (vec_with_capacity cap) [] (vrep_with_capacity cap)) as H.
  rewrite E in H. destruct (list_run d [] ops) as [[[l outs'] ds']|]; [|discriminate].
  destruct H as (v' & E' & R). injection E' as <- <- <-.
  pose proof R as (Rd & Rn & Rl). unfold vec_get. cbn [vec_unsafe_fill data_ length_].
  rewrite assert_ge, assert_lt by lia. split; [done|]. cbn. unfold m_read. rewrite Rd.
  rewrite lookup_app_r by (rewrite fmap_length; lia).
  rewrite lookup_replicate_2; [done|]. rewrite fmap_length. lia.
Qed.
Print Assumptions vec_unsafe_fill_exposes_raw.

(** C04.  n pushes onto an empty Vec move at most 2n elements in total and
    leave a capacity between n and max(8, 2n). *)
Theorem vec_push_amortised : forall (T : Type) (xs : list T) v moves,
  push_all_moves vec_empty xs = Ok (v, moves) ->
  push_all vec_empty xs = Ok v /\
  moves <= 2 * length xs /\
  length xs <= capacity_ v <= Nat.max 8 (2 * length xs).
Proof.
  intros T xs v k E. split.
  - rewrite push_all_moves_push_all, E. done.
  - pose proof (push_all_moves_bound xs v k E). lia.
Qed.
Print Assumptions vec_push_amortised.

Example vec_push_amortised_ex : exists v, push_all_moves vec_empty (seq 0 100) = Ok (v, 120) /\ capacity_ v = 128.
Proof. eexists. split; vm_compute; reflexivity. Qed.

(** Capacity never falls (except through assignment of another vector) and
    always covers the length; reserve(n) reaches exactly max(capacity, n). *)
Theorem vec_capacity_discipline : forall (T : Type) (d : T) cap ops v outs ds,
  vec_run d (vec_with_capacity cap) ops = Ok (v, outs, ds) ->
  length_ v <= capacity_ v /\
  (forall n, exists v', vec_reserve v n = Ok v' /\ capacity_ v' = Nat.max (capacity_ v) n /\
     length_ v' = length_ v /\ vec_iterate v' = vec_iterate v) /\
  (forall o v' out ds', o <> VReplaceByClone ->
     vec_step d v o = Ok (v', out, ds') -> capacity_ v <= capacity_ v').
Proof.
  intros T d cap ops v outs ds E.
  pose proof (vec_run_spec d ops (vec_with_capacity cap) [] (vrep_with_capacity cap)) as H.
  rewrite E in H. destruct (list_run d [] ops) as [[[l outs'] ds']|]; [|discriminate].
  destruct H as (v' & E' & R). injection E' as <- <- <-.
  pose proof R as (Rd & Rn & Rl). split; [lia|]. split.
  - intros n. destruct (vec_reserve_spec v l n R) as (v' & Er & (Rd' & Rn' & Rl') & Rc).
    exists v'. split; [done|]. split; [done|]. split; [congruence|].
    unfold vec_iterate. rewrite Rn', Rn, Rd, Rd'.
    pose proof (read_loop_spec l [] (replicate (capacity_ v - length l) Raw) 0 eq_refl) as A.
    pose proof (read_loop_spec l [] (replicate (capacity_ v' - length l) Raw) 0 eq_refl) as B.
    cbn in A, B. by rewrite A, B.
  - intros o v' out ds' Ho Es. pose proof (vec_step_spec d v l o R) as Hs.
    destruct (list_step d l o) as [[[? ?] ?]|]; [|congruence].
    destruct Hs as (v2 & Es2 & _ & Hc). rewrite Es2 in Es. injection Es as <- <- <-. auto.
Qed.
Print Assumptions vec_capacity_discipline.

(** C05.  A Stack is LIFO. *)
Theorem stack_is_lifo : forall (T : Type) (d : T) cap (ops : list (stack_op T)),
  match lifo_run [] ops with
  | Some (s, outs) =>
      exists v ds, stack_run d (vec_with_capacity cap) ops = Ok (v, outs, ds) /\
        vec_iterate v = Ok (reverse s) /\ length_ v = length s
  | None => stack_run d (vec_with_capacity cap) ops = Die
  end.
Proof.
  intros T d cap ops.
  pose proof (stack_run_lifo d ops (vec_with_capacity cap) [] (vrep_with_capacity cap)) as H.
  destruct (lifo_run [] ops) as [[s outs]|]; [|exact H].
  destruct H as (v & ds & E & R). exists v, ds. split; [exact E|].
  pose proof (vec_step_spec d v _ VIterate R) as (v' & Ei & _ & _). cbn in Ei.
  destruct (vec_iterate v); [|discriminate..]. cbn in Ei. split; [congruence|].
  destruct R as (_ & R & _). by rewrite R, reverse_length.
Qed.
Print Assumptions stack_is_lifo.

Example stack_is_lifo_ex :
  lifo_run [] [SPush 1; SPush 2; SPush 3; SPop; STop; SIterate]
  = Some ([2; 1], [VUnit; VUnit; VUnit; VUnit; VVal 2; VList [1; 2]]).
Proof. reflexivity. Qed.

(** C69.  Appending one of the vector's own elements: [v.push(v[i])] always
    works (see [VPushOwn] in [vec_is_a_list]); [v.emplace(v[i])] works exactly
    when no reallocation is needed and reads freed storage otherwise. *)
Theorem vec_emplace_own_when_spare : forall (T : Type) (d : T) cap ops v outs ds i x,
  vec_run d (vec_with_capacity cap) ops = Ok (v, outs, ds) ->
  length_ v < capacity_ v -> vec_get v i = Ok x ->
  exists v' l, vec_emplace_own v i = Ok v' /\ vec_iterate v = Ok l /\ vec_iterate v' = Ok (l ++ [x]).
Proof.
  intros T d cap ops v outs ds i x E Hc Hg.
  pose proof (vec_run_spec d ops (vec_with_capacity cap) [] (vrep_with_capacity cap)) as H.
  rewrite E in H. destruct (list_run d [] ops) as [[[l outs'] ds']|]; [|discriminate].
  destruct H as (v' & E' & R). injection E' as <- <- <-.
  pose proof R as (Rd & Rn & Rl). unfold vec_get in Hg.
  destruct (decide (i < length l)) as [Hi|Hi].
  2:{ rewrite assert_ge in Hg by lia. discriminate. }
  rewrite assert_lt in Hg by lia. cbn in Hg.
  destruct (lookup_lt_is_Some_2 l i Hi) as [y Hy].
  rewrite (vec_read_spec v l i y R Hy) in Hg. injection Hg as ->.
  destruct (vec_emplace_own_spare v l i x R) as (v' & Ee & R'); [lia|done|].
  exists v', l. split; [done|].
  pose proof (vec_step_spec d v l VIterate R) as (? & Ei & _ & _).
  pose proof (vec_step_spec d v' _ VIterate R') as (? & Ei' & _ & _). cbn in Ei, Ei'.
  destruct (vec_iterate v); [|discriminate..]. destruct (vec_iterate v'); [|discriminate..].
  cbn in *. split; congruence.
Qed.
Print Assumptions vec_emplace_own_when_spare.

Theorem vec_emplace_own_refuted :
  exists (v : vec nat) outs ds, vec_run 0 (vec_with_capacity 1) [VPush 5] = Ok (v, outs, ds) /\
    vec_get v 0 = Ok 5 /\ vec_emplace_own v 0 = UB.
Proof. exists (mk_vec [Live 5] 1 1), [VUnit], []. repeat split; vm_compute; reflexivity. Qed.
Print Assumptions vec_emplace_own_refuted.
