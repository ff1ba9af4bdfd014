(** C40: Arc under every interleaving.

    A history is any list of scheduling events, fewer than 2^63 of them so that the
    counter cannot overflow. *)
From Verif Require Import Word ArcModel ArcSpec ArcProofs.

Lemma reach_inv es st : (Z.of_nat (length es) < 2 ^ 63)%Z -> run ast_init es = Ok st -> Inv (Z.of_nat (length es)) st.
Proof. intros L R. pose proof (run_ok es 0 ast_init ltac:(lia) L Inv_init) as H. by rewrite R in H. Qed.

(** No schedule makes a thread touch a destroyed object, destroy one twice, or hang. *)
Theorem arc_safe es : (Z.of_nat (length es) < 2 ^ 63)%Z -> run ast_init es <> UB /\ run ast_init es <> Diverge.
Proof. intros L. pose proof (run_ok es 0 ast_init ltac:(lia) L Inv_init) as H. by destruct (run ast_init es). Qed.
(** The only way to stop the program is to use a null handle. *)
Theorem arc_dies es st e : (Z.of_nat (length es) + 1 < 2 ^ 63)%Z -> run ast_init es = Ok st -> step st e = Die ->
  exists t th i, e = Step t /\ threads st !! t = Some th /\ at_ th = Using i /\ vars th !! i = Some None.
Proof.
  intros L R D. assert (Inv (Z.of_nat (length es)) st) as I by (apply reach_inv; [lia|done]).
  pose proof (step_ok (Z.of_nat (length es)) st e ltac:(lia) L I) as S. by rewrite D in S.
Qed.

(** At every moment: the counter is the number of handles; an object that has a
    handle is alive; each object that is not alive was destroyed exactly once, and
    freed at most once; one that is alive without handles is about to be destroyed. *)
Theorem arc_exact es st : (Z.of_nat (length es) < 2 ^ 63)%Z -> run ast_init es = Ok st ->
  (forall p o, objs st !! p = Some o -> a_refs o = Z.of_nat (handles st p)) /\
  (forall p, 0 < handles st p -> alive st p) /\
  (forall p, alive st p -> handles st p = 0 -> exists t th, threads st !! t = Some th /\ destroys th p) /\
  (NoDup (gone st) /\ forall p, p ∈ gone st <-> p < length (objs st) /\ ~ alive st p) /\
  (NoDup (freed st) /\ forall p, p ∈ freed st -> p ∈ gone st).
Proof.
  intros L R. pose proof (reach_inv _ _ L R) as I.
  assert (forall p, handles st p = tsum (nh p) (threads st) + cnt p (mail st)) as Hh by done. split_and!.
  - intros p o Eo. pose proof (v_obj _ _ I p) as V. cbn zeta in V. rewrite Eo in V. rewrite Hh. apply V.
  - intros p Hp. pose proof (v_obj _ _ I p) as V. cbn zeta in V. rewrite Hh in Hp. destruct (objs st !! p) as [o|] eqn:Eo; [|lia].
    exists o. split; [done|]. destruct V as (_ & _ & V). destruct (a_life o); [done|lia|lia].
  - intros p (o & Eo & El) H0. pose proof (v_obj _ _ I p) as V. cbn zeta in V. rewrite Eo in V. destruct V as (_ & _ & V). rewrite El in V.
    rewrite Hh in H0. rewrite decide_True in V by done. destruct (tsum_pos (nd p) (threads st)) as (t & th & Et & Hn); [lia|].
    exists t, th. split; [done|]. unfold nd in Hn. destruct (at_ th) eqn:A; try lia. unfold is_some in Hn. case_decide as D; [|lia].
    eexists _, _. split; [by left|done].
  - apply I.
  - intros p. rewrite (proj2 (v_gone _ _ I)). split.
    + intros (o & Eo & El). split; [by eapply lookup_lt_Some|]. intros (o' & Eo' & El'). congruence.
    + intros [Lp Na]. apply lookup_lt_is_Some in Lp as [o Eo]. exists o. split; [done|]. intros El. apply Na. by exists o.
  - apply I.
  - intros p (o & Eo & El)%(proj2 (v_freed _ _ I)). apply (proj2 (v_gone _ _ I)). exists o. split; [done|congruence].
Qed.

(** While one thread destroys or frees an object nobody holds a handle to it, and
    no other thread destroys or frees it. *)
Theorem arc_exclusive es st p t th : (Z.of_nat (length es) < 2 ^ 63)%Z -> run ast_init es = Ok st ->
  threads st !! t = Some th -> destroys th p ->
  handles st p = 0 /\ forall t' th', threads st !! t' = Some th' -> destroys th' p -> t' = t.
Proof.
  intros L R E D. pose proof (reach_inv _ _ L R) as I. pose proof (v_obj _ _ I p) as V. cbn zeta in V.
  assert (forall th, destroys th p -> 1 <= nd p th + nf p th) as Hd.
  { intros th0 (i & k & [A|A] & Ev); unfold nd, nf; rewrite A; unfold is_some; rewrite decide_True by done; lia. }
  pose proof (Hd th D) as H1. pose proof (tsum_le (nd p) _ _ _ E) as T1. pose proof (tsum_le (nf p) _ _ _ E) as T2. split.
  - change (tsum (nh p) (threads st) + cnt p (mail st) = 0). destruct (objs st !! p) as [o|]; [|lia]. destruct V as (_ & _ & V).
    destruct (a_life o); [|lia|lia]. destruct V as [V1 V2]. case_decide; [done|lia].
  - intros t' th' E' D'. destruct (decide (t' = t)) as [|N]; [done|]. exfalso. pose proof (Hd th' D') as H2.
    pose proof (tsum_two (nd p) _ _ _ _ _ E E' ltac:(congruence)) as T3. pose proof (tsum_two (nf p) _ _ _ _ _ E E' ltac:(congruence)) as T4.
    destruct (objs st !! p) as [o|]; [|lia]. destruct V as (_ & _ & V). destruct (a_life o); [|lia|lia]. destruct V as [V1 V2]. case_decide; lia.
Qed.

(** When no operation is in progress, an object is alive exactly if it has a
    handle, and otherwise it has been destroyed and freed. *)
Theorem arc_quiescent es st p : (Z.of_nat (length es) < 2 ^ 63)%Z -> run ast_init es = Ok st -> idle st -> p < length (objs st) ->
  (alive st p <-> 0 < handles st p) /\ (handles st p = 0 -> p ∈ gone st /\ p ∈ freed st).
Proof.
  intros L R Id Lp. pose proof (reach_inv _ _ L R) as I. pose proof (v_obj _ _ I p) as V. cbn zeta in V.
  unfold idle in Id. rewrite Forall_forall in Id.
  assert (tsum (nd p) (threads st) = 0) as Zd by (apply tsum_zero; intros th Hth; unfold nd; by rewrite (Id th Hth)).
  assert (tsum (nf p) (threads st) = 0) as Zf by (apply tsum_zero; intros th Hth; unfold nf; by rewrite (Id th Hth)).
  assert (handles st p = tsum (nh p) (threads st) + cnt p (mail st)) as Hh by done. rewrite Hh.
  apply lookup_lt_is_Some in Lp as [o Eo]. rewrite Eo in V. destruct V as (_ & _ & V). split.
  - split.
    + intros (o' & Eo' & El'). rewrite Eo in Eo'. injection Eo' as <-. rewrite El' in V. case_decide; lia.
    + intros H. exists o. split; [done|]. destruct (a_life o); [done|lia|lia].
  - intros H. assert (a_life o = Freed) as El. { destruct (a_life o); [|lia|done]. rewrite decide_True in V by done. lia. }
    split; [apply (proj2 (v_gone _ _ I))|apply (proj2 (v_freed _ _ I))]; exists o; (split; [done|congruence]).
Qed.

Ltac mic S := repeat (progress cbn [mbind res_bind] in S || discriminate S ||
  match type of S with context [match ?x with _ => _ end] => destruct x eqn:? end ||
  match type of S with context [live_obj ?a ?b] => destruct (live_obj a b) eqn:? end).
(** A destroyed object stays destroyed: no handle to it ever appears again. *)
Lemma step_gone st e st' x p : step st e = Ok (st', x) -> p ∈ gone st -> p ∈ gone st'.
Proof.
  destruct e as [t c|t]; cbn [step]; (destruct (threads st !! t) as [th|]; [|by intros [= <- _]]).
  - destruct (at_ th); try (by intros [= <- _]). intros [= <- _] H. unfold begin. destruct c; cbn; repeat case_match; done.
  - unfold micro. intros S H. destruct (at_ th); mic S; try discriminate;
      injection S as <- _; cbn; try done; by apply elem_of_list_further.
Qed.
Theorem arc_stays_destroyed es1 es2 st st' p : (Z.of_nat (length (es1 ++ es2)) < 2 ^ 63)%Z -> run ast_init es1 = Ok st -> run st es2 = Ok st' ->
  p ∈ gone st -> p ∈ gone st' /\ handles st' p = 0.
Proof.
  intros L R1 R2 G. assert (p ∈ gone st') as G'.
  { clear L R1. revert st R2 G. induction es2 as [|e es IH]; intros st R2 G; cbn [run] in R2; [by injection R2 as <-|].
    destruct (step st e) as [[st1 x]| | |] eqn:S; try done. cbn [mbind res_bind] in R2. eapply IH; [done|]. by eapply step_gone. }
  split; [done|]. assert (run ast_init (es1 ++ es2) = Ok st') as R.
  { clear L G G'. revert R1. generalize ast_init. induction es1 as [|e es IH]; intros st0 R1; cbn [run app] in *; [by injection R1 as ->|].
    destruct (step st0 e) as [[st1 x]| | |]; try done. cbn [mbind res_bind] in *. by apply IH. }
  destruct (arc_exact _ _ L R) as (_ & A & _ & [_ B] & _). apply B in G' as [_ Na]. destruct (handles st' p) as [|n] eqn:E; [done|].
  exfalso. apply Na, A. lia.
Qed.

(** references() returns the number of handles at that moment. *)
Theorem arc_references es st t th i p st' n : (Z.of_nat (length es) < 2 ^ 63)%Z -> run ast_init es = Ok st ->
  threads st !! t = Some th -> at_ th = Asking i -> vars th !! i = Some (Some p) -> step st (Step t) = Ok (st', n) ->
  n = Some (Z.of_nat (handles st p)) /\ 0 < handles st p.
Proof.
  intros L R E A Ev S. pose proof (reach_inv _ _ L R) as I. cbn [step] in S. rewrite E in S. unfold micro in S. rewrite A, Ev in S. cbn [mbind res_bind] in S.
  destruct (live_obj st p) as [o| | |] eqn:Lo; try done. cbn [mbind res_bind] in S. injection S as _ <-.
  destruct (arc_exact _ _ L R) as (A1 & _). unfold live_obj in Lo. destruct (objs st !! p) as [o'|] eqn:Eo; [|done].
  destruct (a_life o') eqn:El; try done. injection Lo as <-. rewrite (A1 p o' Eo). split; [done|].
  pose proof (tsum_le (nh p) _ _ _ E) as T. assert (1 <= nh p th) as Hn by (eapply nh_in; [done|unfold held; by rewrite A]).
  change (0 < tsum (nh p) (threads st) + cnt p (mail st)). lia.
Qed.

(** Every operation finishes within five steps of its own thread, whatever the
    other threads do: other threads do not disturb it and each step makes progress. *)
Definition left (q : pc) : nat :=
  match q with Idle => 0 | Duping _ | Using _ | Asking _ | Taking _ _ => 1 | Nulling _ _ => 2 | Freeing _ _ => 3 | Destroying _ _ => 4 | Dropping _ _ => 5 end.
Theorem arc_wait_free st e st' x t th : step st e = Ok (st', x) -> threads st !! t = Some th -> at_ th <> Idle ->
  exists th', threads st' !! t = Some th' /\ left (at_ th) <= 5 /\
    (e = Step t -> left (at_ th') < left (at_ th)) /\ (e <> Step t -> th' = th).
Proof.
  intros S E A. pose proof (lookup_lt_Some _ _ _ E) as Lt.
  assert (left (at_ th) <= 5) as L5 by (destruct (at_ th); cbn; lia).
  assert (forall t' th1, t' <> t -> <[t' := th1]> (threads st) !! t = Some th) as Ne by (intros; by rewrite list_lookup_insert_ne).
  destruct e as [t' c|t']; cbn [step] in S.
  - destruct (decide (t' = t)) as [->|N].
    + rewrite E in S. exists th. destruct (at_ th); try done; injection S as <- _; split_and!; try done.
    + exists th. split; [|done]. destruct (threads st !! t') as [th0|]; [|by injection S as <- _].
      destruct (at_ th0); injection S as <- _; try done. unfold begin. destruct c; cbn; repeat case_match; cbn; try done; try (by apply Ne); by rewrite lookup_app_l.
  - destruct (decide (t' = t)) as [->|N].
    + rewrite E in S. unfold micro in S. destruct (at_ th) eqn:At; try done; mic S;
        try discriminate; injection S as <- _; cbn; rewrite list_lookup_insert by done; eexists; (split; [done|]); split_and!; try done; cbn; try (case_match; cbn); try (intros; lia);
        destruct k; cbn; intros; lia.
    + exists th. split_and!; try done; [|congruence]. destruct (threads st !! t') as [th0|]; [|by injection S as <- _].
      unfold micro in S. destruct (at_ th0); mic S; try discriminate;
        injection S as <- _; cbn; try done; by apply Ne.
Qed.

(** Two threads hold the same object and drop it at the same time; the second to
    decrement destroys it, while the first is still inside its drop. *)
Example arc_example :
  let es := [Begin 0 New; Begin 0 (Dup 0); Step 0; Begin 0 Spawn; Begin 0 (Post 1); Begin 1 (Recv 0);
             Begin 1 (Refs 0); Step 1; Begin 0 (Clear 0); Begin 1 (Clear 0); Step 0; Step 1] in
  run ast_init es = Ok (mk_ast [mk_thread [Some 0; None] (Nulling 0 None); mk_thread [Some 0] (Destroying 0 None)] [mk_aobj 0 Live] [None] [] []) /\
  run ast_init (es ++ [Step 1; Step 0; Step 1; Step 1]) = Ok (mk_ast [mk_thread [None; None] Idle; mk_thread [None] Idle] [mk_aobj 0 Freed] [None] [0] [0]).
Proof. split; vm_compute; reflexivity. Qed.
(** The premises of the theorems about threads in the middle of something. *)
Example arc_premises :
  let es := [Begin 0 New; Begin 0 (Dup 0); Step 0; Begin 0 Spawn; Begin 0 (Post 1); Begin 1 (Recv 0); Begin 1 (Refs 0)] in
  exists st th, run ast_init es = Ok st /\ threads st !! 1 = Some th /\ at_ th = Asking 0 /\ vars th !! 0 = Some (Some 0) /\
    exists st', step st (Step 1) = Ok (st', Some 2%Z).
Proof. eexists _, _. split; [vm_compute; reflexivity|]. repeat (split; [reflexivity|]). eexists. vm_compute. reflexivity. Qed.

Print Assumptions arc_safe.
Print Assumptions arc_dies.
Print Assumptions arc_exact.
Print Assumptions arc_exclusive.
Print Assumptions arc_quiescent.
Print Assumptions arc_stays_destroyed.
Print Assumptions arc_references.
Print Assumptions arc_wait_free.
