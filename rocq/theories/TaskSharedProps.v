(** C93: awaiting a Task from several coroutines, and chaining on a temporary. *)
From Verif Require Import Base TaskModel TaskSharedModel TaskSpec TaskProps.

(** No two agents use a Task at the same time. *)
Fixpoint one_at_a_time (s : tst) (es : list event) : Prop :=
  match es with
  | [] => True
  | e :: es =>
      match e with Begin a (Await v) | Begin a (Drop v) => is_Some (vars s v) -> free s v = true | _ => True end /\
      match step_shared s e with Ok s => one_at_a_time s es | _ => True end
  end.
Lemma run_same es : forall s, one_at_a_time s es -> run_shared s es = run s es.
Proof.
  induction es as [|e es IH]; intros s H; [done|]. cbn [run_shared run one_at_a_time] in *. destruct H as [H1 H2].
  assert (step_shared s e = step s e) as E.
  { destruct e as [a c|a|c]; try done. cbn. destruct (pcs s a); try done. destruct (running s a); try done. cbn [mbind res_bind]. f_equal.
    destruct c; try done; cbn in *.
    - unfold free in *. destruct (bool_decide (is_Some (vars s v))) eqn:B; [|done]. rewrite H1; [done|]. by apply bool_decide_eq_true in B.
    - unfold free in *. destruct (bool_decide (is_Some (vars s v))) eqn:B; [|by rewrite andb_false_r]. rewrite H1; [|by apply bool_decide_eq_true in B]. by rewrite andb_true_r. }
  rewrite E in *. destruct (step s e) as [s'| | |]; try done. cbn [mbind res_bind]. by apply IH.
Qed.
(** What C46 says of programs that use a Task from one place at a time. *)
Theorem task_shared_partial es : one_at_a_time tst_init es ->
  run_shared tst_init es <> UB /\
  forall s, run_shared tst_init es = Ok s ->
    forall l1 a c r l2, log s = l1 ++ OGot a c r :: l2 -> (exists x, returned l2 c x) /\ ((forall b q, OGot b c q ∉ l2) -> exists x, r = Some x /\ returned l2 c x).
Proof.
  intros O. rewrite (run_same _ _ O). split; [apply task_safe|]. intros s R l1 a c r l2 E. split; [|apply (task_result es s l1 a c r l2 R E)].
  apply (task_after_return es s l1 l2 c R). right. left. by exists a, r.
Qed.
(** Coroutine 1 runs; 2 and 3 await it; 3 goes on at once, with a value that was never there. *)
Theorem task_two_awaiters_refuted : exists es s l, run_shared tst_init es = Ok s /\ log s = OGot 3 1 None :: l /\ (forall x, OReturn 1 x ∉ l) /\ unfinished s 1.
Proof.
  exists [Begin 0 Call; Begin 0 Call; Begin 0 Call; Begin 2 (Await 0); Step 2; Step 2; Begin 3 (Await 0); Step 3; Step 3; Step 3].
  eexists _, [OSuspend 2 1]. split; [vm_compute; reflexivity|]. split; [by vm_compute|]. split; [|by vm_compute]. intros x [H|H]%elem_of_cons; [done|]. by apply elem_of_nil in H.
Qed.
(** auto t = f().then(g): the task of f is destroyed at the end of the statement, while then() awaits it. *)
Theorem task_then_temporary_refuted : run_shared tst_init
  [Begin 0 Call             (* f(): coroutine 1, task 0; it is not done yet *)
  ;Begin 0 Call             (* then(): coroutine 2, task 1 *)
  ;Begin 2 (Await 0); Step 2; Step 2   (* co_await *this *)
  ;Begin 0 (Drop 0); Step 0 (* the end of the statement *)
  ] = Die.
Proof. by vm_compute. Qed.
(** A coroutine awaits a task, gets its value and the task goes. *)
Definition demo : list event := [Begin 0 Call; Begin 0 Call; Begin 2 (Await 0); Step 2; Step 2; Begin 1 (Return 7); Step 1; Step 1; Step 1; Step 1; Step 1; Step 2; Begin 2 (Drop 0); Step 2; Step 2].
Example task_shared_ex : one_at_a_time tst_init demo /\ match run_shared tst_init demo with Ok s => log s = [ODestroy 1; OGot 2 1 (Some 7); OResume 1 2; OReturn 1 7; OSuspend 2 1] | _ => False end.
Proof. vm_compute. repeat split; intros; done. Qed.
Print Assumptions task_shared_partial.
Print Assumptions task_two_awaiters_refuted.
Print Assumptions task_then_temporary_refuted.
