(** Property theorems for Heap: C10-C12. *)
From Verif Require Import Slots VecModel MathSpec HeapModel HeapSpec HeapProofs.

Lemma bag_run_weaken {T} (R R' : T -> list T -> Prop) : (forall x l, R x l -> R' x l) ->
  forall os bag bag' outs ds, bag_run R bag os bag' outs ds -> bag_run R' bag os bag' outs ds.
Proof.
  intros H os. induction os as [|o os IH]; intros bag bag' outs ds S; inversion S; subst.
  - by constructor.
  - econstructor; [|by apply IH].
    match goal with S : bag_step _ _ _ _ _ _ |- _ => destruct S end; econstructor; eauto.
Qed.

(** ** C10: for every strict weak order, every history that keeps the contract
    runs to completion, answers as a bag whose least member is on top, and
    ends with the bag's elements; pop() on an empty heap stops the program.
    (top() on an empty heap is undefined: heap.h:176-181 does not check.) *)
Theorem heap_is_priority_queue : forall (T : Type) (ltb : T -> T -> bool) (cap : nat) (ops : list (heap_op T)),
  strict_weak_order ltb ->
  match heap_contract 0 ops with
  | Ok _ => exists h outs destroyed l,
      heap_run ltb (heap_with_capacity cap) ops = Ok (h, outs, destroyed) /\
      heap_iterate h = Ok l /\ hlength h = length l /\
      bag_run (least ltb) [] ops l outs destroyed
  | Die => heap_run ltb (heap_with_capacity cap) ops = Die
  | UB => heap_run ltb (heap_with_capacity cap) ops = UB
  | Diverge => False
  end.
Proof.
  intros T ltb cap ops W.
  pose proof (heap_run_spec ltb ops (heap_with_capacity cap) [] (hrep_empty cap)) as H.
  cbn [length] in H. destruct (heap_contract 0 ops); try (apply H; intros _ i j ? ? ?; by rewrite lookup_nil).
  destruct H as (h & outs & ds & l & E & R & O & S); [intros _ i j ? ? ?; by rewrite lookup_nil|].
  exists h, outs, ds, l. split; [done|]. split; [by apply heap_iterate_spec|]. split; [apply R|].
  eapply bag_run_weaken; [|exact S]. intros x b [_ Hx]. by apply Hx.
Qed.
Print Assumptions heap_is_priority_queue.

Lemma nat_ltb_swo : strict_weak_order Nat.ltb.
Proof.
  split; intros *; rewrite ?Nat.ltb_lt, ?Nat.ltb_ge; try lia.
Qed.
(** Pairs ordered by their first component only: ties are not equal. *)
Lemma fst_swo : strict_weak_order (fun a b : nat * nat => fst a <? fst b).
Proof. split; intros *; rewrite ?Nat.ltb_lt, ?Nat.ltb_ge; try lia. Qed.

Example heap_is_priority_queue_ex : exists h,
  heap_contract 0 [HPush 5; HPush 3; HPush 8; HPush 1; HTop; HPop; HTop; HIterate] = Ok tt /\
  heap_run Nat.ltb (heap_with_capacity 1) [HPush 5; HPush 3; HPush 8; HPush 1; HTop; HPop; HTop; HIterate]
    = Ok (h, [VUnit; VUnit; VUnit; VUnit; VVal 1; VUnit; VVal 3; VList [3; 5; 8]], [1]).
Proof. exists (mk_heap [Live 3; Live 5; Live 8; Husk] 3 4). by vm_compute. Qed.

(** What top() shows is what pop() destroys, whatever the comparator. *)
Theorem heap_pop_removes_top : forall (T : Type) (ltb : T -> T -> bool) (h : heap T) x h' ds,
  heap_top h = Ok x -> heap_pop ltb h = Ok (h', ds) -> ds = [x].
Proof.
  intros T ltb h x h' ds Ht Hp. unfold heap_top, m_read in Ht. unfold heap_pop in Hp.
  destruct (hlength h) as [|n]; [done|]. cbn [Nat.ltb Nat.leb assert_ mbind res_bind] in Hp.
  destruct (hdata h !! 0) as [[]|] eqn:E0; try discriminate. injection Ht as ->.
  rewrite (m_destroy_live _ _ _ E0) in Hp. cbn [mbind res_bind] in Hp.
  match type of Hp with context [if ?b then _ else _] => destruct b end; [|congruence].
  destruct (m_take _ _) as [[m1 v]| | |]; try discriminate. cbn [mbind res_bind] in Hp.
  destruct (m_place m1 0 v); try discriminate. cbn [mbind res_bind] in Hp.
  destruct (reheap_down _ _ _ _ _); try discriminate. cbn in Hp. congruence.
Qed.
Print Assumptions heap_pop_removes_top.

(** The pack constructor. *)
Theorem heap_of_list_contents : forall (T : Type) (ltb : T -> T -> bool) (xs : list T),
  exists h l, heap_of ltb xs = Ok h /\ heap_iterate h = Ok l /\ l ≡ₚ xs /\ hlength h = length xs.
Proof.
  intros T ltb xs. destruct (heap_of_spec ltb xs) as (h & l & E & R & P & _).
  exists h, l. split; [done|]. split; [by apply heap_iterate_spec|]. split; [done|].
  rewrite (hr_len _ _ R). by rewrite P.
Qed.
Print Assumptions heap_of_list_contents.

(** ** C11: draining a heap sorts. *)
Theorem heap_drain_sorts : forall (T : Type) (ltb : T -> T -> bool) (xs : list T),
  strict_weak_order ltb ->
  exists h out, heap_of ltb xs = Ok h /\ heap_drain ltb (hlength h) h = Ok out /\
    out ≡ₚ xs /\ sorted_by ltb out.
Proof.
  intros T ltb xs W. destruct (heap_of_spec ltb xs) as (h & l & E & R & P & O).
  destruct (heap_drain_spec ltb (hlength h) h l) as (out & Eo & Po & S); [by rewrite (hr_len _ _ R)|done|done|].
  exists h, out. split; [done|]. split; [done|]. split; [by rewrite Po|]. by apply S.
Qed.
Print Assumptions heap_drain_sorts.
(** The same after any history. *)
Theorem heap_drain_sorts_any : forall (T : Type) (ltb : T -> T -> bool) cap ops h outs ds l,
  strict_weak_order ltb ->
  heap_run ltb (heap_with_capacity cap) ops = Ok (h, outs, ds) -> heap_iterate h = Ok l ->
  exists out, heap_drain ltb (hlength h) h = Ok out /\ out ≡ₚ l /\ sorted_by ltb out.
Proof.
  intros T ltb cap ops h outs ds l W E Hi.
  pose proof (heap_run_spec ltb ops (heap_with_capacity cap) [] (hrep_empty cap)) as H. cbn [length] in H.
  rewrite E in H. specialize (H ltac:(intros _ i j ? ? ?; by rewrite lookup_nil)).
  destruct (heap_contract 0 ops); try done.
  destruct H as (h' & outs' & ds' & l' & E' & R & O & S). injection E' as <- <- <-.
  rewrite (heap_iterate_spec h l' R) in Hi. injection Hi as ->.
  destruct (heap_drain_spec ltb (hlength h) h l) as (out & Eo & Po & So); [by rewrite (hr_len _ _ R)|done|done|].
  exists out. split; [done|]. split; [done|]. by apply So.
Qed.
Print Assumptions heap_drain_sorts_any.
Example heap_drain_sorts_ex : strict_weak_order (fun a b : nat * nat => fst a <? fst b) /\
  (h ← heap_of (fun a b => fst a <? fst b) [(5,0); (2,1); (9,2); (2,3); (7,4)];
   heap_drain (fun a b => fst a <? fst b) (hlength h) h) = Ok [(2,1); (2,3); (5,0); (7,4); (9,2)].
Proof. split; [apply fst_swo|by vm_compute]. Qed.

(** ** C12: with any comparator at all, every history stays in bounds, ends,
    and keeps the multiset of elements. *)
Theorem heap_any_comparator_safe : forall (T : Type) (ltb : T -> T -> bool) (cap : nat) (ops : list (heap_op T)),
  heap_contract 0 ops = Ok tt ->
  exists h outs destroyed l,
    heap_run ltb (heap_with_capacity cap) ops = Ok (h, outs, destroyed) /\
    heap_iterate h = Ok l /\ bag_run (fun x bag => x ∈ bag) [] ops l outs destroyed.
Proof.
  intros T ltb cap ops C.
  pose proof (heap_run_spec ltb ops (heap_with_capacity cap) [] (hrep_empty cap)) as H. cbn [length] in H.
  rewrite C in H. destruct H as (h & outs & ds & l & E & R & O & S); [intros _ i j ? ? ?; by rewrite lookup_nil|].
  exists h, outs, ds, l. split; [done|]. split; [by apply heap_iterate_spec|].
  eapply bag_run_weaken; [|exact S]. by intros x b [Hx _].
Qed.
Print Assumptions heap_any_comparator_safe.
Example heap_any_comparator_safe_ex : exists h,
  heap_run (fun _ _ => true) (heap_with_capacity 0) [HPush 5; HPush 3; HPush 8; HPop; HPop; HIterate]
    = Ok (h, [VUnit; VUnit; VUnit; VUnit; VUnit; VList [3]], [8; 5]).
Proof. exists (mk_heap ([Live 3; Husk; Husk] ++ replicate 5 Raw) 1 8). by vm_compute. Qed.

(** Every value pushed is destroyed exactly once by the end. *)
Definition pushed {T} (os : list (heap_op T)) : list T :=
  omap (fun o => match o with HPush x => Some x | _ => None end) os.
Theorem heap_lifetimes : forall (T : Type) (ltb : T -> T -> bool) cap ops h outs destroyed,
  heap_run ltb (heap_with_capacity cap) ops = Ok (h, outs, destroyed) ->
  Forall (fun o => match o with HReplaceByClone => False | _ => True end) ops ->
  exists rest, heap_destroy h = Ok (heap_empty, rest) /\ destroyed ++ rest ≡ₚ pushed ops.
Proof.
  intros T ltb cap ops h outs ds E F.
  pose proof (heap_run_spec ltb ops (heap_with_capacity cap) [] (hrep_empty cap)) as H. cbn [length] in H.
  rewrite E in H. specialize (H ltac:(intros _ i j ? ? ?; by rewrite lookup_nil)).
  destruct (heap_contract 0 ops); try done.
  destruct H as (h' & outs' & ds' & l' & E' & R & O & S). injection E' as <- <- <-.
  exists l'. split; [by apply heap_destroy_spec|]. clear E R O.
  change (pushed ops) with ([] ++ pushed ops). revert F S. generalize (@nil T) as b.
  intros b F S. revert F. induction S as [b b' P|b o os b1 out ds1 b2 outs2 ds2 Hs Hr IH]; intros F.
  - cbn. by rewrite app_nil_r.
  - apply Forall_cons in F as [Ho F]. specialize (IH F). rewrite <- app_assoc, IH.
    destruct Hs; cbn in *; try done.
    + rewrite H. cbn. by rewrite Permutation_middle.
    + by rewrite H0.
    + by rewrite H.
Qed.
Print Assumptions heap_lifetimes.
Example heap_lifetimes_ex : exists h,
  heap_run Nat.ltb (heap_with_capacity 0) [HPush 5; HPush 3; HPush 8; HPop] = Ok (h, replicate 4 VUnit, [3]) /\
  heap_destroy h = Ok (heap_empty, [5; 8]).
Proof. exists (mk_heap ([Live 5; Live 8; Husk] ++ replicate 5 Raw) 2 8). by vm_compute. Qed.
