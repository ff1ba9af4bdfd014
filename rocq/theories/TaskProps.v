(** C45, C46: coroutine tasks under every interleaving.

    A history is any list of scheduling events, from one thread. *)
From Verif Require Import Base TaskModel TaskSpec TaskProofs TaskLog.

Lemma reach es s : run tst_init es = Ok s -> Inv s /\ LInv s.
Proof. apply run_log; [apply Inv_init|apply init_log]. Qed.

(** C45 *)
(** No schedule touches a destroyed frame, destroys one that may still run, or
    resumes one that is not suspended. *)
Theorem task_safe es : run tst_init es <> UB /\ run tst_init es <> Diverge.
Proof. pose proof (run_ok es _ Inv_init) as H. by destruct (run tst_init es). Qed.
(** The only way to stop the program is to use a null Task; in particular no Task
    is ever abandoned while being waited upon. *)
Theorem task_dies es s e : run tst_init es = Ok s -> step s e = Die ->
  exists a v, e = Step a /\ (pcs s a = Ready v \/ pcs s a = Blocking v \/ pcs s a = Asking v) /\ vars s v = Some None.
Proof. intros R D. pose proof (step_ok s e (proj1 (reach _ _ R))) as S. by rewrite D in S. Qed.
(** A frame is destroyed at most once, and then its coroutine has returned and
    stopped, and no Task refers to it. *)
Theorem task_frame_once es s c : run tst_init es = Ok s ->
  destroys (log s) c <= 1 /\ (0 < destroys (log s) c -> returns (log s) c = 1 /\ pcs s c = Ended /\ ~ owned s c /\ forall b, ~ waiting s b c).
Proof.
  intros R. destruct (reach _ _ R) as [I L]. rewrite (l_des _ L). unfold dead. destruct (frames s c) as [f|] eqn:Ef; [|split; lia].
  destruct (f_alive f) eqn:Al; [split; lia|]. split; [lia|]. intros _. pose proof (i_fr _ I c f Ef) as F. unfold frame_ok in F.
  assert (~ owned s c) as No. { intros [v Ev]. destruct (i_ref _ I v c Ev) as (g & Eg & Ag & _). congruence. }
  assert (pcs s c = Ended) as Ec. { destruct (pcs s c); try done; destruct F as [F _]; congruence. }
  split_and!; try done; [by rewrite (l_cnt _ L), Ec|]. intros b W. by apply No, (waiting_owned s b).
Qed.
(** It is destroyed exactly if the coroutine has stopped and its Task is gone,
    except while the ~Task that does so is in progress: nothing is leaked. *)
Theorem task_frame_exact es s c : run tst_init es = Ok s -> is_Some (frames s c) ->
  (0 < destroys (log s) c <-> pcs s c = Ended /\ ~ owned s c /\ forall a, ~ destroying s a c).
Proof.
  intros R [f Ef]. destruct (reach _ _ R) as [I L]. rewrite (l_des _ L), Ef. cbn. pose proof (i_fr _ I c f Ef) as F. split.
  - intros H. destruct (f_alive f) eqn:Al; [lia|]. destruct (task_frame_once es s c R) as [_ H1]. rewrite (l_des _ L), Ef in H1. cbn in H1. rewrite Al in H1.
    destruct (H1 H) as (_ & ? & ? & _). split_and!; try done. intros a (v & k & E). pose proof (i_pc _ I a) as P. unfold pc_ok in P. rewrite E in P.
    destruct P as (_ & g & Eg & Ag & _). congruence.
  - intros (E & No & Nd). unfold frame_ok in F. rewrite E in F. destruct F as [(_ & _ & O)|[(_ & _ & a & D)|Al]]; [done|by apply Nd in D|]. rewrite Al. lia.
Qed.
(** Each Task refers to a coroutine that exists, and no two refer to the same. *)
Theorem task_unique es s v c : run tst_init es = Ok s -> vars s v = Some (Some c) ->
  is_Some (frames s c) /\ destroys (log s) c = 0 /\ forall w, vars s w = Some (Some c) -> w = v.
Proof.
  intros R E. destruct (reach _ _ R) as [I L]. destruct (i_ref _ I v c E) as (f & Ef & Al & _). split_and!; [by eexists| |].
  - rewrite (l_des _ L), Ef. cbn. by rewrite Al.
  - intros w Ew. by apply (i_inj _ I w v c).
Qed.

(** C46 *)
(** Whoever suspended on a task has been resumed once for each time, or is still
    waiting for this one. *)
Theorem task_resumed_once es s a : run tst_init es = Ok s ->
  suspends (log s) a = resumes (log s) a + (if waits s a then 1 else 0).
Proof. intros R. destruct (reach _ _ R) as [I L]. apply (l_sus _ L). Qed.
(** Nobody waits for a coroutine that has finished, unless it is about to resume
    them: no wake-up is lost. *)
Theorem task_not_lost es s b v : run tst_init es = Ok s -> pcs s b = Waiting v ->
  exists c, vars s v = Some (Some c) /\ (unfinished s c \/ pcs s c = Resume b) /\ forall b', waiting s b' c -> b' = b.
Proof.
  intros R E. destruct (reach _ _ R) as [I L]. pose proof (i_pc _ I b) as P. unfold pc_ok in P. rewrite E in P. destruct P as [_ (c & f & Ev & Ef & P)].
  exists c. split_and!; [done|destruct P as [[_ ?]|?]; auto|]. intros b' (u & E1 & E2). assert (u = v) as -> by (by apply (i_inj _ I u v c)).
  apply (i_one _ I b' b v); [rewrite E1|rewrite E]; apply ment.
Qed.
(** It is resumed within five steps of the coroutine after it returns, and those
    steps cannot be disturbed. *)
Definition left (q : pc) : nat :=
  match q with Storing _ => 5 | Signalling => 4 | Notifying => 3 | Final => 2 | Self_Destroy | Resume _ => 1 | _ => 0 end.
Theorem task_finishes es s c : run tst_init es = Ok s -> 0 < left (pcs s c) ->
  (exists s', step s (Step c) = Ok s' /\ left (pcs s' c) < left (pcs s c) /\ (left (pcs s' c) = 0 -> pcs s' c = Ended) /\
     forall b v, pcs s b = Waiting v -> vars s v = Some (Some c) -> pcs s' b = if decide (pcs s c = Resume b) then Taking v else Waiting v) /\
  forall e s', e <> Step c -> step s e = Ok s' -> pcs s' c = pcs s c.
Proof.
  intros R H. destruct (reach _ _ R) as [I L]. split.
  - pose proof (i_pc _ I c) as P. unfold pc_ok in P. cbn [step]. rewrite running_ok by done. cbn [mbind res_bind].
    assert (forall p : nat -> pc, (forall x, x <> c -> p x = pcs s x) -> (forall b, pcs s c <> Resume b) -> left (pcs s c) <> 0 -> forall b v, pcs s b = Waiting v -> vars s v = Some (Some c) ->
      p b = if decide (pcs s c = Resume b) then Taking v else Waiting v) as X.
    { intros p Hx Nr H0 b v Eb _. rewrite decide_False by apply Nr. rewrite Hx; [done|]. intros ->. by rewrite Eb in H0. }
    unfold micro. destruct (pcs s c) as [| | |v|v|v|v|v|v|v k|d v k|v w|x| | | | |b|] eqn:Ec; try (exfalso; cbn in H; lia).
    + destruct (get_own s c I P) as (f & Ef & ->); [by rewrite Ec|]. cbn [mbind res_bind]. eexists. split; [done|]. cbn. uu. cbn. split_and!; [lia|done|].
      apply (X (upd (pcs s) c Signalling)); try done; intros; by uu.
    + destruct (get_own s c I P) as (f & Ef & ->); [by rewrite Ec|]. cbn [mbind res_bind]. eexists. split; [done|]. cbn. uu. cbn. split_and!; [lia|done|].
      apply (X (upd (pcs s) c Notifying)); try done; intros; by uu.
    + destruct (get_own s c I P) as (f & Ef & ->); [by rewrite Ec|]. cbn [mbind res_bind]. eexists. split; [done|]. cbn. uu. cbn. split_and!; [lia|done|].
      apply (X (upd (pcs s) c Final)); try done; intros; by uu.
    + destruct (get_own s c I P) as (f & Ef & ->); [by rewrite Ec|]. cbn [mbind res_bind]. pose proof (i_fr _ I c f Ef) as F. unfold frame_ok in F. rewrite Ec in F.
      destruct (f_state f); [| by destruct F as [_ []]| |]; (eexists; split; [done|]; cbn; uu; cbn; split_and!; [lia|done|]).
      * apply (X (upd (pcs s) c Ended)); try done; intros; by uu.
      * apply (X (upd (pcs s) c Self_Destroy)); try done; intros; by uu.
      * apply (X (upd (pcs s) c (Resume b))); try done; intros; by uu.
    + destruct (get_own s c I P) as (f & Ef & G); [by rewrite Ec|]. unfold destroy. rewrite G, Ec. cbn [mbind res_bind]. eexists. split; [done|]. cbn. uu. cbn. split_and!; [lia|done|].
      apply (X (upd (pcs s) c Ended)); try done; intros; by uu.
    + destruct P as [f Ef]. pose proof (i_fr _ I c f Ef) as F. unfold frame_ok in F. rewrite Ec in F. destruct F as (_ & _ & v & Eb & Ev).
      pose proof (i_pc _ I b) as Pb. unfold pc_ok in Pb. rewrite Eb in Pb. destruct (get_own s b I) as (g & Eg & ->); [apply Pb|by rewrite Eb|]. cbn [mbind res_bind].
      rewrite Eb. assert (b <> c) by congruence. eexists. split; [done|]. cbn. uu. cbn. split_and!; [lia|done|]. intros b' v' Eb' Ev'.
      assert (v' = v) as -> by (by apply (i_inj _ I v' v c)). assert (b' = b) as -> by (apply (i_one _ I b' b v); [rewrite Eb'|rewrite Eb]; apply ment).
      uu. by rewrite decide_True.
  - intros e s' Ne S. assert (forall a q s1, a <> c -> (upd (pcs s1) a q) c = pcs s1 c) as U by (intros; rewrite upd_ne; done).
    assert (c < agents s) as Lc by (eapply in_range; [done|done|intros E; rewrite E in H; cbn in H; lia]).
    destruct e as [a k|a|d]; cbn [step] in S.
    + destruct (pcs s a) eqn:Ea; try (by injection S as <-). rewrite running_ok in S by done. cbn [mbind res_bind] in S. injection S as <-.
      assert (c <> a) as Na by (intros ->; rewrite Ea in H; cbn in H; lia). assert (c <> agents s) as Nn by lia.
      destruct k; cbn; repeat case_match; cbn; by uu.
    + assert (c <> a) as Na by congruence. rewrite running_ok in S by done. cbn [mbind res_bind] in S. unfold micro, handle in S.
      destruct (pcs s a) as [| | |v|v|v|v|v|v|v k|d v k|v w|x| | | | |b|] eqn:Ea; try (by injection S as <-);
        try (unfold destroy, get in S; repeat (progress cbn [mbind res_bind] in S || match type of S with context [match ?x with _ => _ end] => destruct x eqn:? end); try done; injection S as <-; cbn; by uu).
      destruct (get s b); try done. cbn [mbind res_bind] in S. destruct (pcs s b) eqn:Eb; try done. injection S as <-. cbn. uu.
      assert (c <> b) by (intros ->; rewrite Eb in H; cbn in H; lia). by uu.
    + destruct (pcs s d) eqn:Ed; try (by injection S as <-). rewrite running_ok in S by done. cbn [mbind res_bind] in S. injection S as <-. cbn.
      assert (c <> d) by (intros ->; rewrite Ed in H; cbn in H; lia). by uu.
Qed.
(** An awaiter resumes, and block() and done() answer, only after the return; what
    an awaiter gets is the value returned, unless someone has moved it out before. *)
Lemma honest_suffix l1 o l2 : honest (l1 ++ o :: l2) -> honest (o :: l2).
Proof. induction l1 as [|p l1 IH]; [done|]. intros [H _]. by apply IH. Qed.
Theorem task_after_return es s l1 l2 c : run tst_init es = Ok s ->
  (exists b, log s = l1 ++ OResume c b :: l2) \/ (exists a r, log s = l1 ++ OGot a c r :: l2) \/ log s = l1 ++ ODone c true :: l2 ->
  exists x, returned l2 c x.
Proof.
  intros R H. pose proof (l_hon _ (proj2 (reach _ _ R))) as Hn. destruct H as [[b E]|[(a & r & E)|E]]; rewrite E in Hn; apply honest_suffix in Hn; apply Hn.
Qed.
Lemma result_fresh l c x : (forall a r, OGot a c r ∉ l) -> returns l c <= 1 -> returned l c x -> result l c = Some x.
Proof.
  unfold returned. induction l as [|o l IH]; intros Ng Nr Hx; [by apply not_elem_of_nil in Hx|].
  assert (forall a r, OGot a c r ∉ l) as Ng'. { intros a r Hi. apply (Ng a r). by apply elem_of_list_further. }
  unfold returns in *. rewrite count_cons in Nr. apply elem_of_cons in Hx as [<-|Hx]; [cbn; by rewrite decide_True|].
  specialize (IH Ng' ltac:(lia) Hx). cbn. destruct o as [d y| | |a d r| |]; try done.
  - case_decide as D; [|done]. subst d. exfalso. rewrite bool_decide_eq_true_2 in Nr by done.
    assert (0 < returns l c); [|unfold returns in *; lia]. destruct (returns l c) eqn:Z; [|lia]. by destruct (proj2 (returns_none l c Z) x).
  - case_decide as D; [|done]. subst d. destruct (Ng a r). apply elem_of_list_here.
Qed.
Theorem task_result es s l1 a c r l2 : run tst_init es = Ok s -> log s = l1 ++ OGot a c r :: l2 ->
  r = result l2 c /\ ((forall b q, OGot b c q ∉ l2) -> exists x, r = Some x /\ returned l2 c x).
Proof.
  intros R E. destruct (reach _ _ R) as [I L]. pose proof (l_hon _ L) as Hn. rewrite E in Hn. apply honest_suffix in Hn. destruct Hn as [_ [-> [x Hx]]].
  split; [done|]. intros Ng. exists x. split; [|done]. apply result_fresh; try done.
  pose proof (l_cnt _ L c) as C. rewrite E in C. unfold returns, count in *. rewrite List.filter_app, app_length in C. cbn in C. destruct (late (pcs s c)); lia.
Qed.
Theorem task_returns_once es s c : run tst_init es = Ok s -> returns (log s) c <= 1.
Proof. intros R. rewrite (l_cnt _ (proj2 (reach _ _ R))). destruct (late _); lia. Qed.
(** block() goes on, in one step, once the coroutine has got past signalling. *)
Theorem task_block_returns es s a v c : run tst_init es = Ok s -> pcs s a = Blocking v -> vars s v = Some (Some c) ->
  pcs s c = Notifying \/ pcs s c = Final \/ pcs s c = Ended ->
  exists s', step s (Step a) = Ok s' /\ pcs s' a = Taking v.
Proof.
  intros R Ea Ev Hc. destruct (reach _ _ R) as [I L]. assert (past (pcs s c) = true) as Pc by (destruct Hc as [->|[->| ->]]; done).
  pose proof (run_flag es _ _ init_flag R) as Fl. cbn [step]. rewrite running_ok by done. cbn [mbind res_bind]. unfold micro, handle. rewrite Ea, Ev. cbn [mbind res_bind].
  destruct (handle_get _ _ _ I Ev) as (f & Ef & -> & _). cbn [mbind res_bind]. rewrite (Fl c f Ef Pc). eexists. split; [done|]. cbn. by uu.
Qed.

(** A thread calls a coroutine that calls another and awaits it.  The first is
    abandoned by the thread while it waits; the second returns 7, resumes it, and it
    destroys the second's frame, returns 8 and destroys itself. *)
Definition demo : list event :=
  [Begin 0 Call; Begin 1 Call; Begin 1 (Await 1); Step 1; Step 1; Begin 0 (Drop 0); Step 0;
   Begin 2 (Return 7); Step 2; Step 2; Step 2; Step 2; Step 2; Step 1; Begin 1 (Drop 1); Step 1; Step 1;
   Begin 1 (Return 8); Step 1; Step 1; Step 1; Step 1; Step 1].
Example task_example :
  match run tst_init demo with
  | Ok s => log s = [ODestroy 1; OReturn 1 8; ODestroy 2; OGot 1 2 (Some 7); OResume 2 1; OReturn 2 7; OSuspend 1 2] /\
            pcs s 1 = Ended /\ pcs s 2 = Ended /\ vars s 0 = Some None /\ vars s 1 = Some None
  | _ => False
  end.
Proof. vm_compute. done. Qed.
(** The hypotheses about waiting and finishing: coroutine 1 waits for 2, which is about to return. *)
Example task_premises :
  match run tst_init (take 8 demo) with
  | Ok s => pcs s 1 = Waiting 1 /\ vars s 1 = Some (Some 2) /\ pcs s 2 = Storing 7 /\ is_Some (frames s 2)
  | _ => False
  end.
Proof. vm_compute. split_and!; try done. by eexists. Qed.
(** The thread blocks on a coroutine that has returned but not finished, gets the
    value, and drops the Task; the coroutine then destroys its own frame. *)
Example task_block_example :
  match run tst_init [Begin 0 Call; Begin 0 (Block 0); Step 0; Begin 1 (Return 5); Step 1; Step 1] with
  | Ok s => pcs s 0 = Blocking 0 /\ pcs s 1 = Notifying /\
      match run s [Step 0; Step 0; Begin 0 (Drop 0); Step 0; Step 1; Step 1; Step 1] with
      | Ok s => log s = [ODestroy 1; OGot 0 1 (Some 5); OReturn 1 5] /\ vars s 0 = Some None
      | _ => False
      end
  | _ => False
  end.
Proof. vm_compute. done. Qed.
(** A second co_await of the same task gets a moved-from value. *)
Example task_twice :
  match run tst_init [Begin 0 Call; Begin 0 Call; Begin 1 (Return 5); Step 1; Step 1; Step 1; Step 1;
                      Begin 2 (Await 0); Step 2; Step 2; Begin 2 (Await 0); Step 2; Step 2] with
  | Ok s => log s = [OGot 2 1 None; OGot 2 1 (Some 5); OReturn 1 5]
  | _ => False
  end.
Proof. vm_compute. done. Qed.
(** Dropping the null handle or using it. *)
Example task_null : run tst_init [Begin 0 Null; Begin 0 (Block 0); Step 0] = Die.
Proof. vm_compute. done. Qed.

Print Assumptions task_safe.
Print Assumptions task_dies.
Print Assumptions task_frame_once.
Print Assumptions task_frame_exact.
Print Assumptions task_unique.
Print Assumptions task_resumed_once.
Print Assumptions task_not_lost.
Print Assumptions task_finishes.
Print Assumptions task_after_return.
Print Assumptions task_result.
Print Assumptions task_returns_once.
Print Assumptions task_block_returns.
