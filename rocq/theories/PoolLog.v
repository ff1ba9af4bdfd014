(** What happens to the jobs: order, exactly once, none lost. *)
From Verif Require Import Base PoolModel PoolSpec PoolProofs.
Local Open Scope nat_scope.

Definition hand (q : wpc) : list nat := match q with WUnlock j | WRun j => [j] | _ => [] end.
Definition held (n : nat) (s : pst) : list nat := concat (map (fun i => hand (ws s i) ++ queues s i) (seq 0 n)).
Record LInv (n : nat) (s : pst) : Prop := mk_LInv {
  l_push : exists rem, (forall i, pushes i (log s) = takes i (log s) ++ rem i) /\ (ds s <> DDone -> forall i, rem i = queues s i);
  l_take : forall i, takes i (log s) = runs i (log s) ++ hand (ws s i);
  l_all : pushed (log s) ≡ₚ ran (log s) ++ destroyed (log s) ++ held n s;
  l_live : ds s <> DDone -> destroyed (log s) = [];
  l_nodup : NoDup (pushed (log s));
  l_lt : forall j, j ∈ pushed (log s) -> j < next s;
  l_carry : forall t j, carried (es s t) = Some j -> j < next s /\ j ∉ pushed (log s);
  l_apart : forall t u j, carried (es s t) = Some j -> carried (es s u) = Some j -> t = u;
  l_found : forall j, j < next s -> j ∈ pushed (log s) \/ exists t, carried (es s t) = Some j
}.
Lemma split_at (f g : nat -> list nat) i n : i < n -> (forall k, k <> i -> f k = g k) ->
  exists R, concat (map f (seq 0 n)) ≡ₚ f i ++ R /\ concat (map g (seq 0 n)) ≡ₚ g i ++ R.
Proof.
  intros Hi E. exists (concat (map f (seq 0 i)) ++ concat (map f (seq (S i) (n - S i)))).
  assert (H : seq 0 n = seq 0 i ++ i :: seq (S i) (n - S i)).
  { replace n with (i + S (n - S i)) at 1 by lia. rewrite seq_app. done. }
  assert (G : forall a b, (i < a \/ a + b <= i) -> concat (map g (seq a b)) = concat (map f (seq a b))).
  { intros a b Hab. f_equal. apply map_ext_in. intros k Hk%in_seq. symmetry. apply E. lia. }
  rewrite H, !map_app, !concat_app. cbn [map concat]. rewrite !G by lia. split; solve_Permutation.
Qed.
Lemma pushes_app i l k : pushes i (l ++ k) = pushes i l ++ pushes i k.
Proof. unfold pushes. by rewrite map_app, concat_app. Qed.
Lemma takes_app i l k : takes i (l ++ k) = takes i l ++ takes i k.
Proof. unfold takes. by rewrite map_app, concat_app. Qed.
Lemma runs_app i l k : runs i (l ++ k) = runs i l ++ runs i k.
Proof. unfold runs. by rewrite map_app, concat_app. Qed.
Lemma pushed_app l k : pushed (l ++ k) = pushed l ++ pushed k.
Proof. unfold pushed. by rewrite map_app, concat_app. Qed.
Lemma ran_app l k : ran (l ++ k) = ran l ++ ran k.
Proof. unfold ran. by rewrite map_app, concat_app. Qed.
Lemma destroyed_app l k : destroyed (l ++ k) = destroyed l ++ destroyed k.
Proof. unfold destroyed. by rewrite map_app, concat_app. Qed.
Lemma destroyed_map q : destroyed (map ODestroy q) = q.
Proof. unfold destroyed. rewrite map_map. induction q; cbn; congruence. Qed.
Lemma other_map q : (forall i, pushes i (map ODestroy q) = [] /\ takes i (map ODestroy q) = [] /\ runs i (map ODestroy q) = []) /\ pushed (map ODestroy q) = [] /\ ran (map ODestroy q) = [].
Proof. unfold pushes, takes, runs, pushed, ran. rewrite !map_map. split_and!; [intros i; split_and!|..]; induction q; cbn; auto. Qed.
Lemma held_same n s s' : (forall i, hand (ws s' i) ++ queues s' i = hand (ws s i) ++ queues s i) -> held n s' = held n s.
Proof. intros E. unfold held. f_equal. apply map_ext. done. Qed.
(** Nothing is said and no job moves. *)
Lemma LInv_quiet n s s' : LInv n s -> log s' = log s -> next s' = next s -> queues s' = queues s -> (ds s = DDone -> ds s' = DDone) ->
  (forall i, hand (ws s' i) = hand (ws s i)) -> (forall t, carried (es s' t) = carried (es s t)) -> LInv n s'.
Proof.
  intros [[rem [L1 L1']] L2 L3 L4 L5 L6 L7 L8 L9] El En Eq Ed Eh Ec.
  constructor; rewrite ?El, ?En; try done.
  - exists rem. split; [done|]. intros N i. rewrite Eq. auto.
  - intros i. by rewrite Eh.
  - rewrite (held_same n s s'); [done|]. intros i. by rewrite Eh, Eq.
  - auto.
  - intros t j. rewrite Ec. apply L7.
  - intros t u j. rewrite !Ec. apply L8.
  - intros j Hj. destruct (L9 j Hj) as [|[t Ht]]; [by left|right]. exists t. by rewrite Ec.
Qed.
Lemma hand_upd s i q k : hand q = hand (ws s i) -> hand (upd (ws s) i q k) = hand (ws s k).
Proof. intros E. unfold upd. case_decide; by subst. Qed.
Lemma carried_upd s t q k : carried q = carried (es s t) -> carried (upd (es s) t q k) = carried (es s k).
Proof. intros E. unfold upd. case_decide; by subst. Qed.
Lemma hand_signal i s k : hand (ws (signal i s) k) = hand (ws s k).
Proof. unfold signal. destruct (ws s i) eqn:E; try done. cbn. apply (hand_upd s). by rewrite E. Qed.
Lemma LInv_W n m s i : Inv n m s -> LInv n s -> i < n -> LInv n (stepW s i).
Proof.
  intros I L Hi. pose proof (not_done n m s i I Hi) as Nd. unfold stepW.
  destruct (ws s i) eqn:Ei; try done.
  - destruct (locks s i); [done|]. apply (LInv_quiet n s); try done. intros k. apply (hand_upd s). by rewrite Ei.
  - apply (LInv_quiet n s); try done. intros k. apply (hand_upd s). rewrite Ei. by destruct (queues s i).
  - apply (LInv_quiet n s); try done. intros k. apply (hand_upd s). rewrite Ei. by destruct (shutdown s).
  - apply (LInv_quiet n s); try done. intros k. apply (hand_upd s). by rewrite Ei.
  - destruct (locks s i); [done|]. apply (LInv_quiet n s); try done. intros k. apply (hand_upd s). by rewrite Ei.
  - apply (LInv_quiet n s); try done. intros k. apply (hand_upd s). rewrite Ei. by destruct (shutdown s).
  - destruct (queues s i) as [|j q] eqn:Eq; [done|].
    destruct L as [[rem [L1 L1']] L2 L3 L4 L5 L6 L7 L8 L9]. specialize (Nd ltac:(done)).
    assert (P : pushed (log s ++ [OTake i j]) = pushed (log s)) by by rewrite pushed_app, app_nil_r.
    constructor; cbn [say set_w set_q log ws es ds queues next]; rewrite ?P; try done.
    + exists (upd (queues s) i q). split; [|done]. intros k. rewrite pushes_app, takes_app, L1, app_nil_r, (L1' Nd).
      unfold takes at 2, upd. cbn. destruct (decide (i = k)) as [<-|N].
      * rewrite decide_True by done. rewrite Eq, <-app_assoc. done.
      * rewrite decide_False by done. by rewrite app_nil_r.
    + intros k. rewrite takes_app, runs_app, L2. change (runs k [OTake i j]) with (@nil nat). rewrite app_nil_r.
      change (takes k [OTake i j]) with ((if decide (i = k) then [j] else []) ++ []). unfold upd. destruct (decide (i = k)) as [<-|N].
      * rewrite decide_True by done. by rewrite Ei, <-app_assoc.
      * rewrite decide_False by done. by rewrite !app_nil_r.
    + rewrite ran_app, destroyed_app, !app_nil_r, L3. apply Permutation_app_head, Permutation_app_head, reflexive_eq. symmetry. apply held_same. intros k. cbn. unfold upd. case_decide; [subst|done]. by rewrite Ei, Eq.
    + intros _. by rewrite destroyed_app, L4.
  - apply (LInv_quiet n s); try done. intros k. apply (hand_upd s). by rewrite Ei.
  - destruct L as [[rem [L1 L1']] L2 L3 L4 L5 L6 L7 L8 L9]. specialize (Nd ltac:(done)).
    assert (P : pushed (log s ++ [ORun i j]) = pushed (log s)) by by rewrite pushed_app, app_nil_r.
    constructor; cbn [say set_w set_q log ws es ds queues next]; rewrite ?P; try done.
    + exists rem. split; [|done]. intros k. by rewrite pushes_app, takes_app, L1, !app_nil_r.
    + intros k. rewrite takes_app, runs_app, L2. change (takes k [ORun i j]) with (@nil nat). rewrite app_nil_r.
      change (runs k [ORun i j]) with ((if decide (i = k) then [j] else []) ++ []). unfold upd. destruct (decide (i = k)) as [<-|N].
      * rewrite decide_True by done. by rewrite Ei, app_nil_r.
      * rewrite decide_False by done. by rewrite !app_nil_r.
    + rewrite ran_app, destroyed_app, app_nil_r, L3. cbn [ran map concat].
      destruct (split_at (fun k => hand (ws s k) ++ queues s k) (fun k => hand (upd (ws s) i WLock k) ++ queues s k) i n Hi) as (R & R1 & R2).
      { intros k Hk. by rewrite upd_ne. }
      unfold held. cbn [ws queues say set_w]. rewrite R1, R2, Ei, upd_eq. cbn [hand]. change (ran [ORun i j]) with [j]. solve_Permutation.
    + intros _. by rewrite destroyed_app, L4.
  - apply (LInv_quiet n s); try done. intros k. apply (hand_upd s). by rewrite Ei.
Qed.
Lemma LInv_E n m s t b h s' : Inv n m s -> LInv n s -> stepE n s t b h = Ok s' -> LInv n s'.
Proof.
  intros I L. unfold stepE. pose proof (agent_lt n m s t I) as G. pose proof (a_et _ _ _ I t) as T.
  destruct (es s t) eqn:Et; cbn [etarget] in T; [by intros [= <-]|destruct (G ltac:(done)) as [Ht Nd]..].
  - case_decide as Hi; [|case_decide; [done|]]; intros [= <-]; apply (LInv_quiet n s); try done; intros k; apply (carried_upd s); rewrite Et; by destruct b.
  - destruct (locks s i) eqn:El; intros [= <-]; [done|]. apply (LInv_quiet n s); try done. intros k. apply (carried_upd s). by rewrite Et.
  - intros [= <-]. destruct L as [[rem [L1 L1']] L2 L3 L4 L5 L6 L7 L8 L9]. pose proof (T i eq_refl) as Hi.
    destruct (L7 t j) as [J1 J2]; [by rewrite Et|].
    assert (P : pushed (log s ++ [OPush i j]) = pushed (log s) ++ [j]) by by rewrite pushed_app.
    constructor; cbn [say set_e set_q log ws es ds queues next]; rewrite ?P.
    + exists (upd (queues s) i (queues s i ++ [j])). split; [|done]. intros k. rewrite pushes_app, takes_app, L1, app_nil_r, (L1' Nd).
      unfold pushes, upd. cbn. destruct (decide (i = k)) as [<-|N].
      * rewrite decide_True by done. by rewrite app_nil_r, <-app_assoc.
      * rewrite decide_False by done. by rewrite app_nil_r.
    + intros k. rewrite takes_app, runs_app, L2, !app_nil_r. done.
    + rewrite ran_app, destroyed_app, !app_nil_r, L3.
      destruct (split_at (fun k => hand (ws s k) ++ queues s k) (fun k => hand (ws s k) ++ upd (queues s) i (queues s i ++ [j]) k) i n Hi) as (R & R1 & R2).
      { intros k Hk. by rewrite upd_ne. }
      unfold held. cbn [ws queues say set_e set_q]. rewrite R1, R2, upd_eq. solve_Permutation.
    + intros _. by rewrite destroyed_app, L4.
    + apply NoDup_app. split_and!; [done| |by apply NoDup_singleton]. by intros x Hx ->%elem_of_list_singleton.
    + intros k [Hk| ->%elem_of_list_singleton]%elem_of_app; auto.
    + intros u k. unfold upd. case_decide; [done|]. intros Hu. destruct (L7 u k Hu) as [K1 K2]. split; [done|].
      intros [Hk| ->%elem_of_list_singleton]%elem_of_app; [done|]. eapply H, L8; [done|]. by rewrite Et.
    + intros u v k. unfold upd. case_decide; [done|]. case_decide; [done|]. apply L8.
    + intros k Hk. destruct (L9 k Hk) as [H|[u Hu]]; [left; apply elem_of_app; by left|]. unfold upd. destruct (decide (u = t)) as [->|N].
      * left. rewrite Et in Hu. injection Hu as ->. apply elem_of_app. right. by apply elem_of_list_singleton.
      * right. exists u. by rewrite decide_False.
  - intros [= <-]. destruct (signal_rest i s) as (R1 & R2 & R3 & R4 & R5 & R6 & R7 & R8).
    apply (LInv_quiet n s); cbn [set_e log ws es ds queues next]; rewrite ?R2, ?R3, ?R7, ?R8; try done.
    + intros k. apply hand_signal.
    + intros k. apply (carried_upd s). by rewrite Et.
  - intros [= <-]. apply (LInv_quiet n s); try done. intros k. apply (carried_upd s). by rewrite Et.
Qed.
Lemma LInv_D n m s all : Inv n m s -> LInv n s -> LInv n (stepD n s all).
Proof.
  intros I L. unfold stepD. destruct (ds s) eqn:Ed; try done.
  - apply (LInv_quiet n s); try done. by rewrite Ed.
  - case_decide; [destruct (locks s i); [done|]|]; apply (LInv_quiet n s); try done; by rewrite Ed.
  - destruct (signal_rest i s) as (R1 & R2 & R3 & R4 & R5 & R6 & R7 & R8).
    apply (LInv_quiet n s); cbn [set_d log ws es ds queues next]; rewrite ?R2, ?R3, ?R7, ?R8; try done; [by rewrite Ed|]. intros k. apply hand_signal.
  - apply (LInv_quiet n s); try done. by rewrite Ed.
  - destruct (forallb _ _) eqn:F; [|done]. destruct all; [|done]. cbn [andb].
    destruct L as [[rem [L1 L1']] L2 L3 L4 L5 L6 L7 L8 L9]. rewrite Ed in *.
    set (q := concat (map (queues s) (seq 0 n))). destruct (other_map q) as (O1 & O2 & O3).
    assert (P : pushed (log s ++ map ODestroy q) = pushed (log s)) by (rewrite pushed_app, O2; by rewrite app_nil_r).
    assert (X : forall i, i < n -> ws s i = WExit).
    { intros i Hi. rewrite forallb_forall in F. assert (In i (seq 0 n)) as H%F by (apply in_seq; lia). by apply bool_decide_eq_true in H. }
    constructor; cbn [set_d destroy_all log ws es ds queues next]; fold q; rewrite ?P; try done.
    + exists rem. split; [|done]. intros i. destruct (O1 i) as (E1 & E2 & _). by rewrite pushes_app, takes_app, E1, E2, !app_nil_r.
    + intros i. destruct (O1 i) as (_ & E2 & E3). by rewrite takes_app, runs_app, E2, E3, !app_nil_r.
    + rewrite ran_app, destroyed_app, O3, destroyed_map, app_nil_r, L3.
      assert (H1 : held n s = q).
      { unfold held, q. f_equal. apply map_ext_in. intros i Hi%in_seq. rewrite X by lia. done. }
      assert (H2 : held n (set_d DDone (destroy_all n s)) = []).
      { unfold held. cbn [ws queues set_d destroy_all]. assert (G : forall l, (forall i, In i l -> i < n) -> concat (map (fun i => hand (ws s i) ++ []) l) = []).
        { induction l as [|i l IH]; intros H; [done|]. cbn. rewrite X by (apply H; by left). apply IH. intros k Hk. apply H. by right. }
        apply G. intros i Hi%in_seq. lia. }
      rewrite H1, (L4 ltac:(done)). match goal with |- context [held n ?x] => change (held n x) with (held n (set_d DDone (destroy_all n s))) end. rewrite H2, app_nil_r. done.
Qed.
Lemma LInv_step n m s e s' : Inv n m s -> LInv n s -> step n m s e = Ok s' -> LInv n s'.
Proof.
  intros I L. destruct e; cbn [step].
  - intros [= <-]. case_decide; [by eapply LInv_W|done].
  - intros [= <-]. destruct (ws s i) eqn:Ei; try done. apply (LInv_quiet n s); try done. intros k. apply (hand_upd s). by rewrite Ei.
  - assert (X : es s t = EIdle -> ds s <> DDone -> LInv n (set_e t (EScan 0 (next s)) (mk_pst (ws s) (es s) (ds s) (queues s) (locks s) (shutdown s) (sequence s) (S (next s)) (log s)))).
    { intros Et Nd. destruct L as [[rem [L1 L1']] L2 L3 L4 L5 L6 L7 L8 L9]. constructor; cbn [set_e log ws es ds queues next]; try done.
      - by exists rem.
      - intros j Hj%L6. lia.
      - intros u j. unfold upd. case_decide; [|intros (A & B)%L7; split; [lia|done]]. intros [= <-]. split; [lia|]. intros Hj%L6. lia.
      - intros u v j. unfold upd. case_decide; case_decide; subst; try done.
        + intros [= <-] [Hu _]%L7. lia.
        + intros [Hu _]%L7 [= <-]. lia.
        + apply L8.
      - intros j Hj. destruct (decide (j = next s)) as [->|N].
        + right. exists t. by rewrite upd_eq.
        + destruct (L9 j) as [|[u Hu]]; [lia|by left|right]. exists u. rewrite upd_ne; [done|]. intros ->. by rewrite Et in Hu. }
    intros [= <-]. destruct (es s t), (ds s) eqn:Ed; try done; (case_decide; [done|by apply X]).
  - by eapply LInv_E.
  - intros [= <-]. destruct (ds s) eqn:Ed; try done. apply (LInv_quiet n s); try done. by rewrite Ed.
  - intros [= <-]. by eapply LInv_D.
Qed.
Lemma LInv_init n : LInv n pst_init.
Proof.
  constructor; cbn; try done; try (intros; lia).
  - by exists (fun _ => []).
  - unfold held. cbn. induction (seq 0 n); [done|]. done.
  - apply NoDup_nil_2.
  - intros j Hj. by apply elem_of_nil in Hj.
Qed.
Lemma LInv_run n m es s s' : Inv n m s -> LInv n s -> run n m s es = Ok s' -> LInv n s'.
Proof.
  revert s. induction es as [|e es IH]; intros s I L; cbn [run]; [by intros [= <-]|].
  cbn [mbind res_bind]. destruct (step n m s e) eqn:E; try done. cbn [res_bind]. apply IH; [by eapply Inv_step|by eapply LInv_step].
Qed.
