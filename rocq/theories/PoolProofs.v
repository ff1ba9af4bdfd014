(** The mutexes of the pool are held by whom the program says, and no wakeup is lost. *)
From Verif Require Import Base PoolModel PoolSpec.

Lemma upd_eq {A} (f : nat -> A) i x : upd f i x i = x.
Proof. unfold upd. by rewrite decide_True. Qed.
Lemma upd_ne {A} (f : nat -> A) i x j : j <> i -> upd f i x j = f j.
Proof. intros N. unfold upd. by rewrite decide_False. Qed.

Definition wh (q : wpc) : bool := match q with WCheck | WLoad | WSleepy | WIf | WPop | WUnlock _ | WReturn => true | _ => false end.
Definition eh (q : epc) : option nat := match q with EPush i _ | ESignal i | EUnlock i => Some i | _ => None end.
Definition dh (q : dpc) : option nat := match q with DSignal i | DUnlock i => Some i | _ => None end.
Definition etarget (q : epc) : option nat := match q with ELock i _ | EPush i _ | ESignal i | EUnlock i => Some i | _ => None end.
Definition started (q : dpc) : bool := match q with DIdle | DSet => false | _ => true end.
Definition pend (i : nat) (q : dpc) : Prop := match q with DLock k | DSignal k => (k <= i)%nat | DUnlock k => (k < i)%nat | _ => False end.

Record Inv (n m : nat) (s : pst) : Prop := mk_Inv {
  a_w : forall i, locks s i = Some HW <-> wh (ws s i) = true;
  a_e : forall t i, locks s i = Some (HE t) <-> eh (es s t) = Some i;
  a_d : forall i, locks s i = Some HD <-> dh (ds s) = Some i;
  a_hi : forall i, n <= i -> ws s i = WLock /\ queues s i = [];
  a_et : forall t i, etarget (es s t) = Some i -> i < n;
  a_em : forall t, m <= t -> es s t = EIdle;
  a_load : forall i, ws s i = WLoad -> queues s i = [];
  a_sleepy : forall i, ws s i = WSleepy -> queues s i = [];
  a_asleep : forall i, ws s i = WAsleep -> queues s i = [] \/ exists t, es s t = ESignal i;
  a_pop : forall i, ws s i = WPop -> queues s i <> [];
  a_if : forall i, ws s i = WIf -> queues s i <> [] \/ shutdown s = true;
  a_shut : shutdown s = started (ds s);
  a_pend1 : forall i, ws s i = WSleepy -> shutdown s = true -> pend i (ds s);
  a_pend2 : forall i, ws s i = WAsleep -> shutdown s = true -> pend i (ds s);
  a_ret : forall i, ws s i = WReturn \/ ws s i = WExit -> shutdown s = true;
  a_dk : forall i, dh (ds s) = Some i -> i < n;
  a_done : ds s = DDone -> (forall i, i < n -> ws s i = WExit) /\ (forall t, es s t = EIdle) /\ (forall i, queues s i = [])
}.
Lemma Inv_init n m : Inv n m pst_init.
Proof. constructor; cbn; try done; intros; naive_solver. Qed.

(** A step of worker [i]: its pc becomes [q]; it may take or release its mutex and change its queue. *)
Lemma Inv_w n m s s' i q : Inv n m s -> i < n ->
  ws s' = upd (ws s) i q -> es s' = es s -> ds s' = ds s -> shutdown s' = shutdown s ->
  (forall k, k <> i -> queues s' k = queues s k) ->
  (wh q = false /\ wh (ws s i) = false /\ (forall k, locks s' k = locks s k) \/
   (locks s i = None \/ locks s i = Some HW) /\ (forall k, locks s' k = upd (locks s) i (if wh q then Some HW else None) k)) ->
  ds s <> DDone ->
  (q = WLoad \/ q = WSleepy \/ q = WAsleep -> queues s' i = []) ->
  (q = WPop -> queues s' i <> []) ->
  (q = WIf -> queues s' i <> [] \/ shutdown s = true) ->
  (q = WSleepy \/ q = WAsleep -> shutdown s = true -> pend i (ds s)) ->
  (q = WReturn \/ q = WExit -> shutdown s = true) ->
  Inv n m s'.
Proof.
  intros [A1 A2 A3 A4 A5 A6 A7 A8 A9 A10 A11 A12 A13 A14 A15 A16 A17] Hi Ew Ee Ed Es Eq Hl Nd C1 C2 C3 C4 C5.
  assert (Q : forall k (P : wpc -> Prop), (k = i -> P q) -> (k <> i -> P (ws s k)) -> P (ws s' k)).
  { intros k P P1 P2. rewrite Ew. unfold upd. case_decide; auto. }
  constructor; rewrite ?Ee, ?Ed, ?Es; try done.
  - intros k. apply Q; intros Hk.
    + subst k. destruct Hl as [(W & W' & El)|[Hl El]].
      * rewrite El, A1, W, W'. done.
      * rewrite El, upd_eq. destruct (wh q); naive_solver.
    + assert (locks s' k = locks s k) as ->; [|apply A1]. destruct Hl as [(W & W' & El)|[Hl El]]; [done|]. by rewrite El, upd_ne.
  - intros t k. destruct Hl as [(W & W' & El)|[Hl El]]; [by rewrite El|].
    rewrite El. destruct (decide (k = i)) as [->|N]; [rewrite upd_eq|rewrite upd_ne by done; apply A2].
    rewrite <-A2. destruct Hl as [Hl|Hl]; rewrite Hl; by destruct (wh q).
  - intros k. destruct Hl as [(W & W' & El)|[Hl El]]; [by rewrite El|].
    rewrite El. destruct (decide (k = i)) as [->|N]; [rewrite upd_eq|rewrite upd_ne by done; apply A3].
    rewrite <-A3. destruct Hl as [Hl|Hl]; rewrite Hl; by destruct (wh q).
  - intros k Hk. assert (k <> i) by lia. apply Q; [done|]. intros _. rewrite Eq by done. by apply A4.
  - intros k. apply Q; intros Hk; [subst; auto|rewrite Eq by done; apply A7].
  - intros k. apply Q; intros Hk; [subst; auto|rewrite Eq by done; apply A8].
  - intros k. apply Q; intros Hk; [subst; auto|rewrite Eq by done; apply A9].
  - intros k. apply Q; intros Hk; [subst; auto|rewrite Eq by done; apply A10].
  - intros k. apply Q; intros Hk; [subst; auto|rewrite Eq by done; apply A11].
  - intros k. apply Q; intros Hk; [subst; auto|apply A13].
  - intros k. apply Q; intros Hk; [subst; auto|apply A14].
  - intros k. apply Q; intros Hk; [subst; auto|apply A15].
Qed.
Lemma not_done n m s i : Inv n m s -> i < n -> ws s i <> WExit -> ds s <> DDone.
Proof. intros I Hi N E. by apply N, (a_done _ _ _ I E). Qed.
Lemma upd_self {A} (f : nat -> A) i x k : f i = x -> f k = upd f i x k.
Proof. intros <-. unfold upd. by case_decide; subst. Qed.
Lemma Inv_W n m s i : Inv n m s -> i < n -> Inv n m (stepW s i).
Proof.
  intros I Hi. pose proof (a_w _ _ _ I i) as Aw. pose proof (not_done n m s i I Hi) as Nd.
  unfold stepW. destruct (ws s i) eqn:Ei; try done; cbn [wh] in Aw.
  - destruct (locks s i) eqn:El; [done|]. eapply (Inv_w n m s _ i WCheck I Hi); auto; naive_solver.
  - assert (L : locks s i = Some HW) by by apply Aw.
    destruct (queues s i) as [|j r] eqn:Eq;
      eapply (Inv_w n m s _ i _ I Hi); auto; try reflexivity; try (right; split; [by auto|intros; by apply upd_self]); cbn; rewrite ?Eq; naive_solver.
  - assert (L : locks s i = Some HW) by by apply Aw. pose proof (a_load _ _ _ I i Ei) as Q.
    destruct (shutdown s) eqn:Es;
      eapply (Inv_w n m s _ i _ I Hi); auto; try reflexivity; try (right; split; [by auto|intros; by apply upd_self]); cbn; rewrite ?Es; naive_solver.
  - assert (L : locks s i = Some HW) by by apply Aw. pose proof (a_sleepy _ _ _ I i Ei) as Q. pose proof (a_pend1 _ _ _ I i Ei) as P.
    eapply (Inv_w n m s _ i _ I Hi); auto; try reflexivity; cbn; naive_solver.
  - destruct (locks s i) eqn:El; [done|]. eapply (Inv_w n m s _ i WCheck I Hi); auto; naive_solver.
  - assert (L : locks s i = Some HW) by by apply Aw. pose proof (a_if _ _ _ I i Ei) as Q.
    destruct (shutdown s) eqn:Es;
      eapply (Inv_w n m s _ i _ I Hi); auto; try reflexivity; try (right; split; [by auto|intros; by apply upd_self]); cbn; rewrite ?Es; naive_solver.
  - assert (L : locks s i = Some HW) by by apply Aw.
    destruct (queues s i) as [|j q] eqn:Eq; [done|].
    eapply (Inv_w n m s _ i (WUnlock j) I Hi); auto; try reflexivity; try (right; split; [by auto|intros; by apply upd_self]); cbn; try naive_solver.
    intros. by rewrite upd_ne.
  - assert (L : locks s i = Some HW) by by apply Aw.
    eapply (Inv_w n m s _ i _ I Hi); auto; try reflexivity; cbn; naive_solver.
  - eapply (Inv_w n m s _ i WLock I Hi); auto; try (left; rewrite Ei; done); cbn; naive_solver.
  - assert (L : locks s i = Some HW) by by apply Aw. pose proof (a_ret _ _ _ I i) as R.
    eapply (Inv_w n m s _ i _ I Hi); auto; try reflexivity; cbn; naive_solver.
Qed.

Ltac nv := try done; try solve [intros; repeat match goal with H : _ \/ _ |- _ => destruct H | H : _ /\ _ |- _ => destruct H end; congruence].
(** A step of agent [t] that neither holds nor takes a mutex. *)
Lemma Inv_scan n m s s' t q : Inv n m s -> eh (es s t) = None -> eh q = None -> (forall i, etarget q = Some i -> i < n) -> t < m ->
  ds s <> DDone -> ws s' = ws s -> es s' = upd (es s) t q -> ds s' = ds s -> queues s' = queues s -> locks s' = locks s -> shutdown s' = shutdown s -> Inv n m s'.
Proof.
  intros [A1 A2 A3 A4 A5 A6 A7 A8 A9 A10 A11 A12 A13 A14 A15 A16 A17] H1 H2 H3 Ht Nd Ew Ee Ed Eq El Es.
  constructor; rewrite ?Ew, ?Ee, ?Ed, ?Es, ?Eq, ?El; try done.
  - intros u k. unfold upd. case_decide; [subst|done]. rewrite A2, H1, H2. done.
  - intros u k. unfold upd. case_decide; [apply H3|apply A5].
  - intros u Hu. rewrite upd_ne by lia. auto.
  - intros k Hk. destruct (A9 k Hk) as [|[u Hu]]; [by left|right]. exists u. rewrite upd_ne; [done|]. intros ->. by rewrite Hu in H1.
Qed.
Lemma agent_lt n m s t : Inv n m s -> es s t <> EIdle -> t < m /\ ds s <> DDone.
Proof.
  intros I N. split.
  - destruct (decide (m <= t)); [|lia]. by destruct N; eapply a_em.
  - intros E. by apply N, (a_done _ _ _ I E).
Qed.
(** A step of agent [t] on the mutex of worker [i]: before and after, either it holds that mutex or nobody does. *)
Lemma Inv_hold n m s s' t q i : Inv n m s -> i < n -> t < m -> ds s <> DDone ->
  es s' = upd (es s) t q -> ds s' = ds s -> shutdown s' = shutdown s ->
  (forall k, k <> i -> ws s' k = ws s k /\ queues s' k = queues s k /\ locks s' k = locks s k) ->
  (eh (es s t) = Some i \/ eh (es s t) = None /\ locks s i = None) ->
  (etarget q = Some i \/ q = EIdle) -> locks s' i = (match eh q with Some _ => Some (HE t) | None => None end) -> (eh q = None -> q = EIdle) ->
  (ws s' i = ws s i \/ ws s i = WAsleep /\ ws s' i = WWoken) ->
  (queues s i <> [] -> queues s' i <> []) ->
  (ws s' i = WAsleep -> queues s' i = [] \/ q = ESignal i) ->
  Inv n m s'.
Proof.
  intros I Hi Ht Nd Ee Ed Es Ek Hh Hq El Hq' Ew Eq Ea.
  assert (NW : wh (ws s i) = false).
  { destruct (wh (ws s i)) eqn:E; [|done]. apply (a_w _ _ _ I) in E. destruct Hh as [Hh|[_ Hh]]; [apply (a_e _ _ _ I) in Hh|]; congruence. }
  assert (ND : dh (ds s) <> Some i).
  { intros E. apply (a_d _ _ _ I) in E. destruct Hh as [Hh|[_ Hh]]; [apply (a_e _ _ _ I) in Hh|]; congruence. }
  assert (NE : forall u, u <> t -> eh (es s u) <> Some i).
  { intros u Nu E. apply (a_e _ _ _ I) in E. destruct Hh as [Hh|[_ Hh]]; [apply (a_e _ _ _ I) in Hh|]; congruence. }
  assert (NW' : wh (ws s' i) = false) by (destruct Ew as [->|[_ ->]]; done).
  pose proof I as [A1 A2 A3 A4 A5 A6 A7 A8 A9 A10 A11 A12 A13 A14 A15 A16 A17].
  assert (Hqi : eh q = Some i \/ eh q = None) by (destruct q; naive_solver).
  constructor; rewrite ?Ed, ?Es; try done.
  - intros k. destruct (decide (k = i)) as [->|N]; [|destruct (Ek k N) as (-> & _ & ->); apply A1].
    rewrite El, NW'. destruct (eh q); naive_solver.
  - intros u k. rewrite Ee. destruct (decide (k = i)) as [->|N].
    + rewrite El. unfold upd. case_decide; subst.
      * destruct Hqi as [->| ->]; naive_solver.
      * destruct (eh q); naive_solver.
    + destruct (Ek k N) as (_ & _ & ->). unfold upd. case_decide; subst; [|apply A2]. rewrite A2. destruct Hqi as [->| ->]; naive_solver.
  - intros k. destruct (decide (k = i)) as [->|N]; [|destruct (Ek k N) as (_ & _ & ->); apply A3].
    rewrite El. destruct (eh q); naive_solver.
  - intros k Hk. assert (k <> i) as N by lia. destruct (Ek k N) as (-> & -> & _). auto.
  - intros u k. rewrite Ee. unfold upd. case_decide; subst; [|apply A5]. naive_solver.
  - intros u Hu. rewrite Ee, upd_ne by lia. auto.
  - intros k. destruct (decide (k = i)) as [->|N]; [|destruct (Ek k N) as (-> & -> & _); apply A7]. intros E. by rewrite E in NW'.
  - intros k. destruct (decide (k = i)) as [->|N]; [|destruct (Ek k N) as (-> & -> & _); apply A8]. intros E. by rewrite E in NW'.
  - intros k. rewrite Ee. destruct (decide (k = i)) as [->|N].
    + intros Hk. destruct (Ea Hk) as [|Ea']; [by left|]. right. exists t. by rewrite upd_eq.
    + destruct (Ek k N) as (-> & -> & _). intros Hk. destruct (A9 k Hk) as [|[u Hu]]; [by left|right]. exists u.
      unfold upd. case_decide; subst; [|done]. destruct Hh as [Hh|[Hh _]]; rewrite Hu in Hh; naive_solver.
  - intros k. destruct (decide (k = i)) as [->|N]; [|destruct (Ek k N) as (-> & -> & _); apply A10]. intros E. by rewrite E in NW'.
  - intros k. destruct (decide (k = i)) as [->|N]; [|destruct (Ek k N) as (-> & -> & _); apply A11]. intros E. by rewrite E in NW'.
  - intros k. destruct (decide (k = i)) as [->|N]; [|destruct (Ek k N) as (-> & _ & _); apply A13]. intros E. by rewrite E in NW'.
  - intros k. destruct (decide (k = i)) as [->|N]; [|destruct (Ek k N) as (-> & _ & _); apply A14]. destruct Ew as [->|[_ ->]]; [apply A14|done].
  - intros k. destruct (decide (k = i)) as [->|N]; [|destruct (Ek k N) as (-> & _ & _); apply A15]. destruct Ew as [->|[_ ->]]; [apply A15|naive_solver].
Qed.
Lemma signal_ws i s : ws (signal i s) i = (match ws s i with WAsleep => WWoken | q => q end).
Proof. unfold signal. destruct (ws s i) eqn:E; cbn; rewrite ?upd_eq; done. Qed.
Lemma signal_rest i s : (forall k, k <> i -> ws (signal i s) k = ws s k) /\ es (signal i s) = es s /\ ds (signal i s) = ds s /\ queues (signal i s) = queues s /\
  locks (signal i s) = locks s /\ shutdown (signal i s) = shutdown s /\ next (signal i s) = next s /\ log (signal i s) = log s.
Proof. unfold signal. destruct (ws s i) eqn:E; cbn; split_and!; try done. intros. by rewrite upd_ne. Qed.
Lemma Inv_E n m s t b h s' : Inv n m s -> stepE n s t b h = Ok s' -> Inv n m s'.
Proof.
  intros I. unfold stepE. pose proof (agent_lt n m s t I) as G. pose proof (a_et _ _ _ I t) as T.
  destruct (es s t) eqn:Et; cbn [etarget] in T; [by intros [= <-]|destruct (G ltac:(done)) as [Ht Nd]..].
  - case_decide as Hi; [|case_decide; [done|]]; intros [= <-].
    + eapply (Inv_scan n m s _ t (if b then ELock i j else EScan (S i) j)); try done; rewrite ?Et; destruct b; nv; cbn; intros k [= <-]; done.
    + eapply (Inv_scan n m s _ t (ELock (h mod n) j)); try done; rewrite ?Et; nv. cbn. intros k [= <-]. by apply Nat.mod_upper_bound.
  - destruct (locks s i) eqn:El; intros [= <-]; [done|].
    eapply (Inv_hold n m s _ t (EPush i j) i); auto; cbn; rewrite ?Et, ?upd_eq; cbn; auto; nv.
    + intros k Hk. by rewrite upd_ne.
    + intros E. destruct (a_asleep _ _ _ I i E) as [|[u Hu]]; [by left|]. assert (eh (es s u) = Some i) as X by by rewrite Hu. apply (a_e _ _ _ I) in X. congruence.
  - intros [= <-]. eapply (Inv_hold n m s _ t (ESignal i) i); auto; cbn; rewrite ?Et, ?upd_eq; cbn; auto; nv.
    + intros k Hk. by rewrite !upd_ne.
    + apply (a_e _ _ _ I). by rewrite Et.
    + intros _. by destruct (queues s i).
  - intros [= <-]. destruct (signal_rest i s) as (R1 & R2 & R3 & R4 & R5 & R6 & _).
    eapply (Inv_hold n m s _ t (EUnlock i) i); auto; cbn [set_e ws es ds queues locks shutdown]; rewrite ?R2, ?R3, ?R4, ?R5, ?R6, ?signal_ws, ?Et; cbn [eh etarget]; auto; nv.
    + apply (a_e _ _ _ I). by rewrite Et.
    + destruct (ws s i); auto.
    + destruct (ws s i); done.
  - intros [= <-]. eapply (Inv_hold n m s _ t EIdle i); auto; cbn; rewrite ?Et, ?upd_eq; cbn; auto; nv.
    + intros k Hk. by rewrite !upd_ne.
    + intros E. destruct (a_asleep _ _ _ I i E) as [|[u Hu]]; [by left|]. assert (eh (es s u) = Some i) as X by by rewrite Hu. apply (a_e _ _ _ I) in X.
      assert (eh (es s t) = Some i) as Y by by rewrite Et. apply (a_e _ _ _ I) in Y. rewrite X in Y. injection Y as ->. congruence.
Qed.
(** ~Pool holds, takes or releases the mutex of worker [i]. *)
Lemma Inv_dhold n m s s' q i : Inv n m s -> i < n -> shutdown s = true -> q <> DDone -> ds s <> DDone -> started q = true ->
  es s' = es s -> ds s' = q -> shutdown s' = true -> queues s' = queues s ->
  (forall k, k <> i -> ws s' k = ws s k /\ locks s' k = locks s k) ->
  (dh (ds s) = Some i \/ dh (ds s) = None /\ locks s i = None) ->
  (dh q = Some i \/ dh q = None) -> locks s' i = (match dh q with Some _ => Some HD | None => None end) ->
  (ws s' i = ws s i \/ ws s i = WAsleep /\ ws s' i = WWoken) ->
  (forall k, pend k (ds s) -> pend k q \/ k = i) ->
  (ws s' i = WAsleep -> pend i q) ->
  Inv n m s'.
Proof.
  intros I Hi Sh Nq Nd Sq Ee Ed Es Eq Ek Hh Hq El Ew Pk Pi.
  pose proof I as [A1 A2 A3 A4 A5 A6 A7 A8 A9 A10 A11 A12 A13 A14 A15 A16 A17].
  assert (NW : wh (ws s i) = false).
  { destruct (wh (ws s i)) eqn:E; [|done]. apply A1 in E. destruct Hh as [Hh|[_ Hh]]; [apply A3 in Hh|]; congruence. }
  assert (NE : forall u, eh (es s u) <> Some i).
  { intros u E. apply A2 in E. destruct Hh as [Hh|[_ Hh]]; [apply A3 in Hh|]; congruence. }
  assert (NW' : wh (ws s' i) = false) by (destruct Ew as [->|[_ ->]]; done).
  constructor; rewrite ?Ed, ?Es, ?Ee, ?Eq; try done.
  - intros k. destruct (decide (k = i)) as [->|N]; [|destruct (Ek k N) as (-> & ->); apply A1].
    rewrite El, NW'. destruct (dh q); nv.
  - intros u k. destruct (decide (k = i)) as [->|N]; [|destruct (Ek k N) as (_ & ->); apply A2].
    rewrite El. pose proof (NE u). destruct (dh q); split; nv.
  - intros k. destruct (decide (k = i)) as [->|N].
    + rewrite El. destruct Hq as [->| ->]; done.
    + destruct (Ek k N) as (_ & ->). rewrite A3. destruct Hq as [->| ->], Hh as [->|[-> _]]; split; nv.
  - intros k Hk. assert (k <> i) as N by lia. destruct (Ek k N) as (-> & _). auto.
  - intros k. destruct (decide (k = i)) as [->|N]; [|destruct (Ek k N) as (-> & _); apply A7]. intros E. by rewrite E in NW'.
  - intros k. destruct (decide (k = i)) as [->|N]; [|destruct (Ek k N) as (-> & _); apply A8]. intros E. by rewrite E in NW'.
  - intros k. destruct (decide (k = i)) as [->|N]; [|destruct (Ek k N) as (-> & _); apply A9]. destruct Ew as [->|[_ ->]]; [apply A9|done].
  - intros k. destruct (decide (k = i)) as [->|N]; [|destruct (Ek k N) as (-> & _); apply A10]. intros E. by rewrite E in NW'.
  - intros k _. by right.
  - intros k. destruct (decide (k = i)) as [->|N]; [|destruct (Ek k N) as (-> & _)]; [intros E; by rewrite E in NW'|].
    intros E _. destruct (Pk k (A13 k E Sh)); done.
  - intros k. destruct (decide (k = i)) as [->|N]; [|destruct (Ek k N) as (-> & _)]; [intros; auto|].
    intros E _. destruct (Pk k (A14 k E Sh)); done.
  - intros k. destruct Hq as [->| ->]; [|done]. intros [= <-]. done.
Qed.
Lemma Inv_D n m s all : Inv n m s -> (all = true -> forall t, es s t = EIdle) -> Inv n m (stepD n s all).
Proof.
  intros I Hall. pose proof I as [A1 A2 A3 A4 A5 A6 A7 A8 A9 A10 A11 A12 A13 A14 A15 A16 A17]. unfold stepD.
  destruct (ds s) eqn:Ed; try done; cbn [started] in A12.
  - constructor; cbn; try done; try (intros; lia); try (intros i _; by right).
  - destruct (decide (i < n)) as [Hi|Hi].
    + destruct (locks s i) eqn:El; [done|].
      eapply (Inv_dhold n m s _ (DSignal i) i); auto; cbn; rewrite ?Ed, ?upd_eq; cbn; auto; nv.
      intros k Hk. by rewrite upd_ne.
    + constructor; cbn; try done.
      * intros k E. rewrite A12. intros _. pose proof (A13 k E A12) as P. cbn in P. destruct (A4 k) as [E' _]; [lia|congruence].
      * intros k E. rewrite A12. intros _. pose proof (A14 k E A12) as P. cbn in P. destruct (A4 k) as [E' _]; [lia|congruence].
  - destruct (signal_rest i s) as (R1 & R2 & R3 & R4 & R5 & R6 & _).
    assert (L : locks s i = Some HD) by by apply A3.
    eapply (Inv_dhold n m s _ (DUnlock i) i); auto; cbn [set_d ws es ds queues locks shutdown]; rewrite ?R2, ?R3, ?R4, ?R5, ?R6, ?signal_ws, ?Ed; auto; nv.
    + destruct (ws s i); auto.
    + cbn. intros k. lia.
    + intros E. by destruct (ws s i).
  - assert (L : locks s i = Some HD) by by apply A3.
    eapply (Inv_dhold n m s _ (DLock (S i)) i); auto; cbn; rewrite ?Ed, ?upd_eq; cbn; auto; nv.
    + intros k Hk. by rewrite upd_ne.
    + intros E. pose proof (A14 i E A12) as P. cbn in P. lia.
  - destruct (forallb _ _) eqn:F; [|done]. destruct all; [|done]. cbn [andb].
    assert (X : forall i, i < n -> ws s i = WExit).
    { intros i Hi. rewrite forallb_forall in F. assert (In i (seq 0 n)) as H%F by (apply in_seq; lia). by apply bool_decide_eq_true in H. }
    specialize (Hall eq_refl).
    assert (W : forall i, ws s i = WExit \/ ws s i = WLock).
    { intros i. destruct (decide (i < n)); [left; auto|right]. apply A4. lia. }
    constructor; cbn; try done.
    + intros i Hi. split; [by apply A4|done].
    + intros i Hi. by left.
    + intros i Hi. destruct (W i); congruence.
    + intros i Hi. destruct (W i); congruence.
Qed.
Lemma Inv_step n m s e s' : Inv n m s -> step n m s e = Ok s' -> Inv n m s'.
Proof.
  intros I. destruct e; cbn [step].
  - intros [= <-]. case_decide; [by apply Inv_W|done].
  - intros [= <-]. destruct (ws s i) eqn:Ei; try done. pose proof I as [A1 A2 A3 A4 A5 A6 A7 A8 A9 A10 A11 A12 A13 A14 A15 A16 A17].
    assert (Hi : i < n). { destruct (decide (i < n)); [done|]. destruct (A4 i); [lia|congruence]. }
    eapply (Inv_w n m s _ i WWoken I Hi); auto; try done; nv.
    + left. by rewrite Ei.
    + eapply not_done; try done. by rewrite Ei.
  - intros [= <-]. destruct (es s t) eqn:Et, (ds s) eqn:Ed; try done; (case_decide; [done|]).
    all: eapply (Inv_scan n m s _ t (EScan 0 (next s))); try done; rewrite ?Et, ?Ed; try done; cbn; lia || done.
  - apply Inv_E. done.
  - intros [= <-]. destruct (ds s) eqn:Ed; try done. pose proof I as [A1 A2 A3 A4 A5 A6 A7 A8 A9 A10 A11 A12 A13 A14 A15 A16 A17].
    rewrite Ed in *. constructor; cbn; try done; intros k E; rewrite A12; done.
  - intros [= <-]. apply Inv_D; [done|]. intros F t. destruct (decide (m <= t)); [by eapply a_em|].
    rewrite forallb_forall in F. assert (In t (seq 0 m)) as H%F by (apply in_seq; lia). by apply bool_decide_eq_true in H.
Qed.
Lemma Inv_run n m es s s' : Inv n m s -> run n m s es = Ok s' -> Inv n m s'.
Proof.
  revert s. induction es as [|e es IH]; intros s I; cbn [run]; [by intros [= <-]|].
  cbn [mbind res_bind]. destruct (step n m s e) eqn:E; try done. cbn [res_bind]. apply IH. by eapply Inv_step.
Qed.
