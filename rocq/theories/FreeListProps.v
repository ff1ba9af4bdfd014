(** C38: a free list never hands out one block twice, and gives every cached
    block back exactly once. *)
From stdpp Require Import gmap.
From Verif Require Import Base FreeListModel FreeListSpec FreeListProofs.

(** A history used below: two lists; three objects, two destroyed in turn and
    recycled; one list moved over the other; everything cleared. *)
Definition fl_hist : list (fl_op Z) :=
  [FLMake 0 10%Z; FLMake 0 11%Z; FLMake 1 12%Z; FLDestroy 0 0; FLDestroy 0 1; FLMake 0 13%Z; FLDestroy 1 2; FLMove 0 1; FLMake 0 14%Z].
Example fl_hist_runs : exists st, fl_run (fl_init 2) fl_hist =
  Ok (st, [FLMade 0; FLMade 1; FLMade 2; FLDestroyed 10%Z; FLDestroyed 11%Z; FLMade 1; FLDestroyed 12%Z;
           FLReturned [0]; FLMade 2]).
Proof. eexists. vm_compute. reflexivity. Qed.

(** Every history does what stacks of cached blocks and a map of live objects
    do; only histories that break the contract are undefined. *)
Theorem free_list_refines {T} (n : nat) (os : list (fl_op T)) :
  match fls_run (fls_init n) os with
  | Some (_, xs) => exists st, fl_run (fl_init n) os = Ok (st, xs)
  | None => fl_run (fl_init n) os = UB
  end.
Proof.
  destruct (rel_init (T := T) n) as [R A]. pose proof (run_rel os _ _ _ R A) as H.
  destruct (fls_run (fls_init n) os) as [[s xs]|]; [|done]. destruct H as (st & E & _). by exists st.
Qed.

(** Whatever was done so far, no block is in the hands of two owners, no block
    was given back twice, and none that was given back is still owned. *)
Theorem free_list_exclusive {T} (n : nat) (os : list (fl_op T)) st xs :
  fl_run (fl_init n) os = Ok (st, xs) -> NoDup (owned [] os xs ++ returned xs).
Proof.
  intros (s & _ & _ & A & O)%run_account. rewrite O.
  assert (NoDup (List.concat (cached s) ++ (map_to_list (alive s)).*1 ++ returned xs)) as ND by (rewrite A; apply NoDup_seq).
  by apply NoDup_app in ND as (_ & _ & ND).
Qed.

(** A new object is never put in a block that somebody still owns, or that was
    given back. *)
Theorem free_list_make_unowned {T} (n : nat) (os : list (fl_op T)) st xs i x st' p :
  fl_run (fl_init n) os = Ok (st, xs) -> fl_make st i x = Ok (st', p) ->
  p ∉ owned [] os xs /\ p ∉ returned xs.
Proof.
  intros E M. assert (fl_run (fl_init n) (os ++ [FLMake i x]) = Ok (st', xs ++ [FLMade p])) as E2.
  { clear -E M. revert E. generalize (@fl_init T n). revert xs.
    induction os as [|o os IH]; intros xs s0 E; cbn [app fl_run] in *.
    - injection E as <- <-. cbn [fl_step]. by rewrite M.
    - destruct (fl_step s0 o) as [[s1 y]| | |]; cbn [mbind res_bind] in *; try done.
      destruct (fl_run s1 os) as [[s2 ys]| | |] eqn:F; cbn [mbind res_bind] in *; try done.
      injection E as <- <-. by rewrite (IH _ _ F). }
  pose proof (free_list_exclusive _ _ _ _ E2) as N.
  assert (length os = length xs) as L.
  { clear -E. revert E. generalize (@fl_init T n). revert xs.
    induction os as [|o os IH]; intros xs s0 E; cbn [fl_run] in *.
    - by injection E as <- <-.
    - destruct (fl_step s0 o) as [[s1 y]| | |]; cbn [mbind res_bind] in *; try done.
      destruct (fl_run s1 os) as [[s2 ys]| | |] eqn:F; cbn [mbind res_bind] in *; try done.
      injection E as <- <-. cbn [length]. f_equal. by eapply IH. }
  rewrite owned_app in N by done. cbn [owned own] in N.
  assert (returned (xs ++ [FLMade p]) = returned xs) as R.
  { unfold returned. rewrite map_app, concat_app. cbn. by rewrite app_nil_r. }
  rewrite R in N. cbn [app] in N. apply NoDup_cons in N as [N _]. apply not_elem_of_app in N. done.
Qed.

(** Nothing leaks: once every list is cleared, the blocks obtained from the
    base allocator are the ones still owned and the ones given back, each once. *)
Theorem free_list_no_leak {T} (n : nat) (os : list (fl_op T)) st xs :
  fl_run (fl_init n) (os ++ map FLClear (seq 0 n)) = Ok (st, xs) ->
  owned [] (os ++ map FLClear (seq 0 n)) xs ++ returned xs ≡ₚ seq 0 (obtained st).
Proof.
  intros (s & E & R & A & O)%run_account. rewrite O. rewrite (rel_fresh _ _ R), <- A.
  rewrite fls_run_app in E. destruct (fls_run (fls_init n) os) as [[s1 ys]|] eqn:E1; [|done].
  pose proof (fls_run_len _ _ _ _ E1) as L1. cbn in L1. rewrite replicate_length in L1.
  destruct (clear_all n s1) as (s2 & zs & E2 & L2 & C & _); [lia|]. rewrite E2 in E. injection E as -> _.
  rewrite (concat_nils (cached s)); [done|]. intros i Hi. apply C. lia.
Qed.
(** Clearing is always allowed. *)
Theorem free_list_clear_total {T} (n : nat) (os : list (fl_op T)) st xs :
  fl_run (fl_init n) os = Ok (st, xs) ->
  exists st' ys, fl_run (fl_init n) (os ++ map FLClear (seq 0 n)) = Ok (st', ys).
Proof.
  intros (s & E & R & A & O)%run_account.
  pose proof (free_list_refines n (os ++ map FLClear (seq 0 n))) as H. rewrite fls_run_app, E in H.
  pose proof (fls_run_len _ _ _ _ E) as L1. cbn in L1. rewrite replicate_length in L1.
  destruct (clear_all n s) as (s2 & zs & E2 & _); [lia|]. rewrite E2 in H. destruct H as [st' H]. eauto.
Qed.

(** Blocks are recycled: an object made right after another was destroyed on
    the same list takes its block, without asking the base allocator. *)
Theorem free_list_recycles {T} (n : nat) (os : list (fl_op T)) st xs i p x y st1 :
  fl_run (fl_init n) os = Ok (st, xs) -> fl_destroy st i p = Ok (st1, x) ->
  exists st2, fl_make st1 i y = Ok (st2, p) /\ obtained st2 = obtained st.
Proof.
  intros _. unfold fl_destroy. destruct (mem st !! p) as [[|v]|]; try done. unfold head_of.
  destruct (lists st !! i) as [h|] eqn:E; cbn [mbind res_bind]; [|done]. intros [= <- <-].
  unfold fl_make, fl_alloc, head_of. cbn [set_head set_cell lists].
  rewrite list_lookup_insert by (by eapply lookup_lt_Some). cbn [mbind res_bind].
  unfold next_of. cbn [set_head set_cell mem]. rewrite lookup_insert. cbn [mbind res_bind]. by eexists.
Qed.
(** Destroying an object that is not alive is undefined. *)
Example free_list_double_destroy : @fl_run Z (fl_init 1) [FLMake 0 5%Z; FLDestroy 0 0; FLDestroy 0 0] = UB.
Proof. vm_compute. reflexivity. Qed.

(** The name of the pool for objects of [N] bytes is "Pool<N>" in decimal. *)
Theorem pool_name_decimal (N : Z) : (0 < N < 2 ^ 64)%Z -> exists ds,
  pool_name N = [80; 111; 111; 108; 60]%Z ++ ds ++ [62]%Z /\ Forall (fun d => 48 <= d <= 57)%Z ds /\
  head ds <> Some 48%Z /\ spelled ds = N.
Proof. apply pool_name_spec. Qed.
Example pool_name_1234 : pool_name 1234 = [80; 111; 111; 108; 60; 49; 50; 51; 52; 62]%Z.
Proof. vm_compute. reflexivity. Qed.

Print Assumptions free_list_refines.
Print Assumptions free_list_exclusive.
Print Assumptions free_list_make_unowned.
Print Assumptions free_list_no_leak.
Print Assumptions free_list_clear_total.
Print Assumptions free_list_recycles.
Print Assumptions pool_name_decimal.
