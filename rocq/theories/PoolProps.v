(** C48: Pool runs each job at most once, in order, and strands nobody. *)
From Verif Require Import Base PoolModel PoolSpec PoolProofs PoolLog PoolTurns.
Local Open Scope nat_scope.

Section props.
Context (n m : nat).
Lemma reach tr s : run n m pst_init tr = Ok s -> Inv n m s /\ LInv n s.
Proof using Type. intros R. split; [by eapply Inv_run, R; apply Inv_init|]. eapply LInv_run, R; [apply Inv_init|apply LInv_init]. Qed.
Lemma run_app l k s s' : run n m s (l ++ k) = Ok s' <-> exists s1, run n m s l = Ok s1 /\ run n m s1 k = Ok s'.
Proof using Type.
  revert s. induction l as [|e l IH]; intros s; cbn [run app].
  - split; [intros R; by exists s|intros (s1 & [= <-] & R); done].
  - cbn [mbind res_bind]. destruct (step n m s e); cbn [res_bind]; [apply IH|..]; split; try done; by intros (? & ? & ?).
Qed.

(** With at least one worker, nothing the pool does is undefined. *)
Theorem pool_defined tr : 0 < n -> exists s, run n m pst_init tr = Ok s.
Proof using Type.
  intros Hn. generalize pst_init. induction tr as [|e tr IH]; intros s; cbn [run]; [by eexists|]. cbn [mbind res_bind].
  assert (exists s', step n m s e = Ok s') as [s' ->]; [|apply IH].
  destruct e; cbn [step]; try by eexists. unfold stepE. destruct (es s t); try by eexists.
  case_decide; [by eexists|]. case_decide; [lia|by eexists].
Qed.
(** Each worker runs what it is given, in the order in which it was given. *)
Theorem pool_fifo tr s i : run n m pst_init tr = Ok s -> exists later, pushes i (log s) = runs i (log s) ++ later.
Proof using Type.
  intros [_ L]%reach. destruct (l_push _ _ L) as (rem & E & _). rewrite E, (l_take _ _ L), <-app_assoc. by eexists.
Qed.
(** Every job run or destroyed had been enqueued, and none twice. *)
Theorem pool_once tr s : run n m pst_init tr = Ok s ->
  NoDup (ran (log s) ++ destroyed (log s)) /\ forall j, j ∈ ran (log s) ++ destroyed (log s) -> j ∈ pushed (log s).
Proof using Type.
  intros [_ L]%reach. pose proof (l_all _ _ L) as P. pose proof (l_nodup _ _ L) as N. rewrite P, app_assoc in N. split.
  - by apply NoDup_app in N as (N & _ & _).
  - intros j Hj. rewrite P, app_assoc. apply elem_of_app. by left.
Qed.
(** Once ~Pool has finished, every job ever enqueued has been run or destroyed, exactly once. *)
Theorem pool_settled tr s : run n m pst_init tr = Ok s -> ds s = DDone -> ran (log s) ++ destroyed (log s) ≡ₚ seq 0 (next s).
Proof using Type.
  intros [I L]%reach D. destruct (a_done _ _ _ I D) as (X & Y & Z).
  assert (H : held n s = []).
  { unfold held. assert (G : forall l, (forall i, In i l -> i < n) -> concat (map (fun i => hand (ws s i) ++ queues s i) l) = []).
    { induction l as [|i l IH]; intros H; [done|]. cbn. rewrite X by (apply H; by left). rewrite Z. apply IH. intros k Hk. apply H. by right. }
    apply G. intros i Hi%in_seq. lia. }
  pose proof (l_all _ _ L) as P. rewrite H, app_nil_r in P. rewrite <-P.
  apply NoDup_Permutation; [apply L|apply NoDup_ListNoDup, seq_NoDup|]. intros j. split.
  - intros Hj%(l_lt _ _ L). apply elem_of_list_In, in_seq. lia.
  - intros Hj%elem_of_list_In%in_seq. destruct (l_found _ _ L j) as [K|[t K]]; [lia|done|]. by rewrite Y in K.
Qed.
(** Jobs are only given to workers that exist. *)
Theorem pool_existing tr s i : run n m pst_init tr = Ok s -> i >= n -> pushes i (log s) = [].
Proof using Type.
  intros R Hi. apply reach in R as R'. destruct R' as [I L]. revert s R I L.
  induction tr as [|e tr IH] using rev_ind; intros s R I L; [by injection R as <-|].
  apply run_app in R as (s1 & R1 & R2). destruct (reach _ _ R1) as [I1 L1]. specialize (IH s1 R1 I1 L1).
  cbn [run mbind res_bind] in R2. destruct (step n m s1 e) as [s2| | |] eqn:E; try done. cbn [res_bind] in R2. injection R2 as <-.
  clear - IH E I1 Hi.
  destruct e; cbn [step] in E.
  - injection E as <-. case_decide; [|done]. unfold stepW.
    destruct (ws s1 i0); try done; [destruct (locks s1 i0); done|destruct (locks s1 i0); done| |]; [destruct (queues s1 i0); [done|]|]; cbn [say log set_w set_q];
      rewrite pushes_app, IH; done.
  - injection E as <-. by destruct (ws s1 i0).
  - injection E as <-. destruct (es s1 t), (ds s1); try done; by case_decide.
  - unfold stepE in E. destruct (es s1 t) eqn:Et; [by injection E as <-|..].
    + case_decide; [|case_decide; [done|]]; by injection E as <-.
    + destruct (locks s1 i0); by injection E as <-.
    + injection E as <-. cbn [say log set_e set_q]. rewrite pushes_app, IH. unfold pushes. cbn. rewrite decide_False; [done|]. intros ->.
      assert (i < n); [|lia]. apply (a_et _ _ _ I1 t). by rewrite Et.
    + injection E as <-. cbn [set_e log]. by destruct (signal_rest i0 s1) as (_ & _ & _ & _ & _ & _ & _ & ->).
    + by injection E as <-.
  - injection E as <-. by destruct (ds s1).
  - injection E as <-. unfold stepD. destruct (ds s1); try done.
    + case_decide; [destruct (locks s1 i0)|]; done.
    + cbn [set_d log]. by destruct (signal_rest i0 s1) as (_ & _ & _ & _ & _ & _ & _ & ->).
    + destruct (_ && _); [|done]. cbn [set_d destroy_all log]. rewrite pushes_app, IH.
      by destruct (other_map (concat (map (queues s1) (seq 0 n)))) as (O & _); destruct (O i) as (-> & _).
Qed.

(** *** Nobody is stranded *)
(** A worker asleep has nothing to do, or the signal that wakes it is the next step of somebody who holds its mutex;
    and if the pool is shutting down, ~Pool has still to signal it. *)
Theorem pool_not_stranded tr s i : run n m pst_init tr = Ok s -> ws s i = WAsleep ->
  (queues s i <> [] -> exists t, es s t = ESignal i /\ locks s i = Some (HE t) /\
     forall b h, exists s', step n m s (StepE t b h) = Ok s' /\ ws s' i = WWoken) /\
  (shutdown s = true -> yet_to_signal i (ds s)).
Proof using Type.
  intros [I L]%reach E. split; [|by apply (a_pend2 _ _ _ I)].
  intros Q. destruct (a_asleep _ _ _ I i E) as [|[t Et]]; [done|]. exists t. split_and!; [done|apply (a_e _ _ _ I); by rewrite Et|].
  intros b h. eexists. cbn [step]. unfold stepE. rewrite Et. split; [done|]. cbn [set_e ws]. by rewrite signal_ws, E.
Qed.
(** No thread keeps a mutex for more than three of its own steps. *)
Theorem pool_mutex_released tr s h i tr' : run n m pst_init tr = Ok s -> held_throughout n m h i s tr' ->
  length (List.filter (holder_step h i) tr') <= 3.
Proof using Type.
  intros [I L]%reach H. transitivity (hrank h i s); [|apply hrank_max].
  clear L. revert s I H. induction tr' as [|e tr' IH]; intros s I H; [cbn; lia|].
  cbn [held_throughout] in H. destruct H as [H1 H2]. destruct (step n m s e) as [s'| | |] eqn:E; try done.
  pose proof (Inv_step _ _ _ _ _ I E) as I'. specialize (IH s' I' H2).
  assert (H3 : locks s' i = Some h) by (destruct tr'; apply H2).
  pose proof (hrank_step n m h i s e s' I H1 E H3) as R. cbn [List.filter]. destruct (holder_step h i e); cbn [length]; lia.
Qed.
(** A worker whose queue is not empty takes a job within six turns, unless the pool shuts down. *)
Theorem pool_takes tr s i tr' s' : run n m pst_init tr = Ok s -> i < n -> queues s i <> [] -> run n m s tr' = Ok s' ->
  6 <= turns n m (its_turn i) s tr' -> shutdown s' = true \/ length (takes i (log s)) < length (takes i (log s')).
Proof using Type.
  intros [I L]%reach Hi Q R T.
  destruct (shutdown s) eqn:Es; [left; by eapply shutdown_run|].
  eapply (turns_reach n m (its_turn i) (fun s1 => queues s1 i <> [] /\ shutdown s1 = false /\ takes i (log s1) = takes i (log s))
    (fun s1 => shutdown s1 = true \/ length (takes i (log s)) < length (takes i (log s1))) (fun s1 => wrank (ws s1 i))); [..|exact R|].
  - intros s1 e s2 I1 (Q1 & S1 & T1) E. by eapply take_step.
  - intros s1 e s2 I1 [G|G] E; [left; by eapply shutdown_step|right]. pose proof (takes_grow n m i s1 e s2 E). lia.
  - done.
  - done.
  - pose proof (wrank_max (ws s i)). lia.
Qed.
(** Once ~Pool has signalled a worker, the worker returns within nine turns. *)
Theorem pool_exits tr s i tr' s' : run n m pst_init tr = Ok s -> i < n -> shutdown s = true -> ~ yet_to_signal i (ds s) -> run n m s tr' = Ok s' ->
  9 <= turns n m (its_turn i) s tr' -> ws s' i = WExit.
Proof using Type.
  intros [I L]%reach Hi Q P R T.
  eapply (turns_reach n m (its_turn i) (fun s1 => shutdown s1 = true /\ ~ yet_to_signal i (ds s1))
    (fun s1 => ws s1 i = WExit) (fun s1 => xrank (ws s1 i))); [..|exact R|].
  - intros s1 e s2 I1 (Q1 & S1) E. by eapply exit_step.
  - intros s1 e s2 I1 G E. by eapply exit_stays.
  - done.
  - done.
  - pose proof (xrank_max (ws s i)). lia.
Qed.
(** ~Pool gets past the mutexes of its workers: it joins them after at most 3n+2 turns. *)
Theorem pool_joins tr s tr' s' : run n m pst_init tr = Ok s -> ds s <> DIdle -> run n m s tr' = Ok s' ->
  3 * n + 2 <= turns n m d_turn s tr' -> ds s' = DJoin \/ ds s' = DDone.
Proof using Type.
  intros [I L]%reach P R T. destruct (decide (ds s = DJoin \/ ds s = DDone)) as [D|D].
  { clear - D R. revert s D R. induction tr' as [|e tr' IH]; intros s D; cbn [run]; [by intros [= <-]|]. cbn [mbind res_bind].
    destruct (step n m s e) eqn:E; try done. apply IH. by eapply joined_stays. }
  eapply (turns_reach n m d_turn (fun s1 => closing (ds s1)) (fun s1 => ds s1 = DJoin \/ ds s1 = DDone) (fun s1 => drank n (ds s1))); [..|exact R|].
  - intros s1 e s2 I1 Q1 E. by eapply join_step.
  - intros s1 e s2 I1 G E. by eapply joined_stays.
  - done.
  - split_and!; [done|..]; intros E; apply D; auto.
  - destruct (ds s); cbn; lia.
Qed.
(** An agent in the middle of enqueue has given its job to a worker after at most n+6 turns. *)
Theorem pool_gives tr s t j tr' s' : run n m pst_init tr = Ok s -> carried (es s t) = Some j -> run n m s tr' = Ok s' ->
  n + 6 <= turns n m (e_turn t) s tr' -> j ∈ pushed (log s').
Proof using Type.
  intros [I L]%reach P R T.
  eapply (turns_reach n m (e_turn t) (fun s1 => carried (es s1 t) = Some j) (fun s1 => j ∈ pushed (log s1)) (fun s1 => erank n (es s1 t))); [..|exact R|].
  - intros s1 e s2 I1 Q1 E. by eapply give_step.
  - intros s1 e s2 I1 G E. by eapply pushed_grow.
  - done.
  - done.
  - destruct (es s t); cbn; lia.
Qed.
(** ~Pool finishes: it is waiting in join, its workers have returned and nobody is in enqueue. *)
Theorem pool_destructor_ends tr s s' : run n m pst_init tr = Ok s -> ds s = DJoin -> (forall i, i < n -> ws s i = WExit) -> (forall t, t < m -> es s t = EIdle) ->
  step n m s StepD = Ok s' -> ds s' = DDone.
Proof using Type.
  intros _ D X Y. cbn [step]. unfold stepD. rewrite D. intros [= <-].
  assert (forallb (fun i => bool_decide (ws s i = WExit)) (seq 0 n) = true) as ->.
  { apply forallb_forall. intros i Hi%in_seq. apply bool_decide_eq_true. apply X. lia. }
  assert (forallb (fun t => bool_decide (es s t = EIdle)) (seq 0 m) = true) as ->; [|done].
  apply forallb_forall. intros t Ht%in_seq. apply bool_decide_eq_true. apply Y. lia.
Qed.
End props.
(** A pool without workers, as constructed on a machine with one hardware thread, cannot enqueue: the remainder by
    zero at pool.h:128 is undefined. *)
Theorem pool_no_workers_refuted : exists tr, run 0 1 pst_init tr = UB.
Proof. by exists [Enqueue 0; StepE 0 false 0]. Qed.

(** Two workers, two agents: two jobs; worker 0 sleeps, is woken and runs one; the pool is destroyed while a job waits. *)
Definition pool_trace : list event :=
  [Enqueue 0; Enqueue 1; StepW 0; StepW 0; StepW 0; StepW 0; StepE 0 true 0; StepE 0 true 0; StepE 0 true 0; StepE 1 false 0; StepE 1 false 0; StepE 1 false 3].
Definition pool_trace2 : list event :=
  replicate 2 (StepE 0 true 0) ++ replicate 4 (StepE 1 true 0) ++ replicate 6 (StepW 0) ++ [Destroy] ++ replicate 8 StepD ++
  replicate 5 (StepW 0) ++ replicate 4 (StepW 1) ++ [StepD].
Example pool_asleep : match run 2 2 pst_init pool_trace with Ok s => ws s 0 = WAsleep /\ queues s 0 = [0] /\ es s 0 = ESignal 0 /\ carried (es s 1) = Some 1 | _ => False end.
Proof. vm_compute. done. Qed.
Example pool_example : match run 2 2 pst_init (pool_trace ++ pool_trace2) with Ok s => ds s = DDone /\ ran (log s) = [0] /\ destroyed (log s) = [1] /\ next s = 2 | _ => False end.
Proof. vm_compute. done. Qed.
(** The premises of the progress theorems are met. *)
Example pool_takes_premises : match run 2 2 pst_init (pool_trace ++ take 2 pool_trace2) with
  | Ok s => queues s 0 = [0] /\ turns 2 2 (its_turn 0) s (replicate 6 (StepW 0)) = 6 /\ held_throughout 2 2 HW 0 (match step 2 2 s (StepW 0) with Ok s => s | _ => s end) [StepW 0; StepW 0; StepW 0] | _ => False end.
Proof. vm_compute. done. Qed.

Print Assumptions pool_defined.
Print Assumptions pool_fifo.
Print Assumptions pool_once.
Print Assumptions pool_settled.
Print Assumptions pool_existing.
Print Assumptions pool_not_stranded.
Print Assumptions pool_mutex_released.
Print Assumptions pool_takes.
Print Assumptions pool_exits.
Print Assumptions pool_joins.
Print Assumptions pool_gives.
Print Assumptions pool_destructor_ends.
Print Assumptions pool_no_workers_refuted.
