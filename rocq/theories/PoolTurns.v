(** Progress: every turn of a thread brings it closer to what it is after. *)
From Verif Require Import Base PoolModel PoolSpec PoolProofs PoolLog.
Local Open Scope nat_scope.

(** What a step leaves alone. *)
Definition woken (s s' : pst) (i : nat) : Prop := ws s' i = ws s i \/ ws s i = WAsleep /\ ws s' i = WWoken.
Lemma frame_W n m s k s' : step n m s (StepW k) = Ok s' ->
  es s' = es s /\ ds s' = ds s /\ shutdown s' = shutdown s /\ (forall i, i <> k -> ws s' i = ws s i /\ queues s' i = queues s i) /\ (k < n /\ s' = stepW s k \/ s' = s).
Proof.
  cbn [step]. intros [= <-]. case_decide; [|split_and!; auto]. unfold stepW.
  destruct (ws s k); try (destruct (locks s k)); try (destruct (queues s k)); split_and!; auto; cbn; intros; rewrite ?upd_ne; done.
Qed.
Lemma woken_signal s k i : woken s (signal k s) i.
Proof.
  unfold woken. destruct (decide (i = k)) as [->|N]; [rewrite signal_ws; destruct (ws s k); auto|left]. by apply signal_rest.
Qed.
Lemma frame_E n m s t b h s' : step n m s (StepE t b h) = Ok s' ->
  ds s' = ds s /\ shutdown s' = shutdown s /\ (forall u, u <> t -> es s' u = es s u) /\ (forall i, woken s s' i) /\ (forall i, queues s i <> [] -> queues s' i <> []).
Proof.
  cbn [step]. unfold stepE. destruct (es s t); cbn.
  - intros [= <-]. split_and!; try done. intros i. by left.
  - case_decide; [|case_decide; [done|]]; intros [= <-]; split_and!; cbn; try done; try (intros; by left); intros u Hu; by rewrite upd_ne.
  - destruct (locks s i); intros [= <-]; split_and!; cbn; try done; try (intros; by left); intros u Hu; by rewrite upd_ne.
  - intros [= <-]. split_and!; cbn; try done; try (intros; by left); [intros u Hu; by rewrite upd_ne|]. intros k. unfold upd. case_decide; [|done]. intros _. by destruct (queues s i).
  - intros [= <-]. destruct (signal_rest i s) as (R1 & R2 & R3 & R4 & R5 & R6 & _). split_and!; cbn [set_e ds shutdown es ws queues]; rewrite ?R2, ?R3, ?R4, ?R6; try done.
    + intros u Hu. by rewrite upd_ne.
    + intros k. apply woken_signal.
  - intros [= <-]. split_and!; cbn; try done; try (intros; by left); intros u Hu; by rewrite upd_ne.
Qed.
Lemma frame_D n m s s' : step n m s StepD = Ok s' ->
  es s' = es s /\ (forall i, woken s s' i) /\ (shutdown s = true -> shutdown s' = true) /\ (ds s' = DDone \/ queues s' = queues s).
Proof.
  cbn [step]. intros [= <-]. unfold stepD. destruct (ds s) eqn:Ed.
  1,2,7: split_and!; auto; intros; by left.
  - case_decide; [destruct (locks s i)|]; split_and!; auto; intros; by left.
  - destruct (signal_rest i s) as (R1 & R2 & R3 & R4 & R5 & R6 & _). split_and!; cbn [set_d ds shutdown es ws queues]; rewrite ?R2, ?R3, ?R4, ?R6; auto. intros k. apply woken_signal.
  - split_and!; auto; intros; by left.
  - destruct (_ && _); split_and!; auto; intros; by left.
Qed.
Lemma frame_rest n m s e s' : step n m s e = Ok s' -> match e with Spurious _ | Enqueue _ | Destroy => True | _ => False end ->
  (forall i, woken s s' i) /\ shutdown s' = shutdown s /\ queues s' = queues s /\ log s' = log s /\ (forall u, es s u <> EIdle -> es s' u = es s u) /\ (ds s <> DIdle -> ds s' = ds s) /\ locks s' = locks s.
Proof.
  destruct e; try done; cbn [step]; intros [= <-] _.
  - destruct (ws s i) eqn:Ei; split_and!; try done; intros k; unfold woken; try by left. cbn. unfold upd. case_decide; subst; auto.
  - destruct (es s t) eqn:Et, (ds s) eqn:Ed; try (split_and!; try done; intros; by left); case_decide; split_and!; try done; try (intros; by left).
    all: intros u Hu; cbn; rewrite upd_ne; [done|]; intros ->; congruence.
  - destruct (ds s) eqn:Ed; split_and!; try done; intros; by left.
Qed.

Definition hrank (h : holder) (i : nat) (s : pst) : nat :=
  match h with
  | HW => match ws s i with WCheck => 3 | WLoad => 2 | WIf => if shutdown s then 1 else 2 | WPop => 1 | _ => 0 end
  | HE t => match es s t with EPush _ _ => 2 | ESignal _ => 1 | _ => 0 end
  | HD => match ds s with DSignal _ => 1 | _ => 0 end
  end.
Lemma hrank_max h i s : hrank h i s <= 3.
Proof. destruct h; cbn; [destruct (ws s i)|destruct (es s t)|destruct (ds s)]; try lia. destruct (shutdown s); lia. Qed.
Lemma hrank_woken h i s s' : woken s s' i -> h = HW -> (shutdown s = true -> shutdown s' = true) -> hrank h i s' <= hrank h i s.
Proof.
  intros [E|[E1 E2]] -> Hs; cbn; [rewrite E|rewrite E1, E2; lia]. destruct (ws s i); try lia. destruct (shutdown s), (shutdown s'); try lia; by specialize (Hs eq_refl).
Qed.
Lemma hrank_step n m h i s e s' : Inv n m s -> locks s i = Some h -> step n m s e = Ok s' -> locks s' i = Some h ->
  hrank h i s' + (if holder_step h i e then 1 else 0) <= hrank h i s.
Proof.
  intros I H E H'. pose proof (Inv_step _ _ _ _ _ I E) as I'. destruct e as [k|k|t|t b hh| |].
  - destruct (frame_W _ _ _ _ _ E) as (E1 & E2 & E3 & E4 & E5). destruct h; cbn [holder_step hrank]; rewrite ?E1, ?E2; try lia.
    case_bool_decide as B; [subst k|destruct (E4 i) as [-> _]; [done|]; rewrite E3; lia].
    pose proof (proj1 (a_w _ _ _ I i) H) as W. pose proof (proj1 (a_w _ _ _ I' i) H') as W'.
    assert (Hi : i < n). { destruct (decide (i < n)); [done|]. destruct (a_hi _ _ _ I i) as [X _]; [lia|]. by rewrite X in W. }
    cbn [step] in E. injection E as <-. destruct (decide (i < n)); [|done].
    clear - W W' I. unfold stepW in *. pose proof (a_if _ _ _ I i). pose proof (a_pop _ _ _ I i).
    destruct (ws s i) eqn:Ei; try done; cbn in W'; rewrite ?upd_eq in W'; cbn; rewrite ?upd_eq; try lia; try done.
    + destruct (queues s i); [lia|]. destruct (shutdown s); lia.
    + destruct (shutdown s) eqn:Es; lia.
    + destruct (shutdown s) eqn:Es; lia.
    + destruct (queues s i); [naive_solver|]. cbn. rewrite upd_eq. lia.
  - destruct (frame_rest _ _ _ _ _ E Logic.I) as (F1 & F2 & F3 & F4 & F5 & F6 & F7).
    assert (hrank h i s' <= hrank h i s); [|destruct h; cbn [holder_step]; lia]. destruct h as [|u|].
    + apply hrank_woken; [auto|done|by rewrite F2].
    + cbn. rewrite F5; [done|]. intros X. apply (a_e _ _ _ I) in H. by rewrite X in H.
    + cbn. rewrite F6; [done|]. intros X. apply (a_d _ _ _ I) in H. by rewrite X in H.
  - destruct (frame_rest _ _ _ _ _ E Logic.I) as (F1 & F2 & F3 & F4 & F5 & F6 & F7).
    assert (hrank h i s' <= hrank h i s); [|destruct h; cbn [holder_step]; lia]. destruct h as [|u|].
    + apply hrank_woken; [auto|done|by rewrite F2].
    + cbn. rewrite F5; [done|]. intros X. apply (a_e _ _ _ I) in H. by rewrite X in H.
    + cbn. rewrite F6; [done|]. intros X. apply (a_d _ _ _ I) in H. by rewrite X in H.
  - destruct (frame_E _ _ _ _ _ _ _ E) as (E1 & E2 & E3 & E4 & E5). destruct h as [|u|].
    + cbn [holder_step]. rewrite Nat.add_0_r. apply hrank_woken; [auto|done|by rewrite E2].
    + cbn [holder_step hrank]. case_bool_decide as B; [subst u|by rewrite E3, Nat.add_0_r by done].
      pose proof (proj1 (a_e _ _ _ I t i) H) as W. pose proof (proj1 (a_e _ _ _ I' t i) H') as W'. clear - E W W'. cbn [step] in E. unfold stepE in E.
      destruct (es s t) eqn:Et; try done; injection E as <-; cbn in *; rewrite ?upd_eq in *; try lia; done.
    + cbn. rewrite E1. lia.
  - destruct (frame_rest _ _ _ _ _ E Logic.I) as (F1 & F2 & F3 & F4 & F5 & F6 & F7).
    assert (hrank h i s' <= hrank h i s); [|destruct h; cbn [holder_step]; lia]. destruct h as [|u|].
    + apply hrank_woken; [auto|done|by rewrite F2].
    + cbn. rewrite F5; [done|]. intros X. apply (a_e _ _ _ I) in H. by rewrite X in H.
    + cbn. rewrite F6; [done|]. intros X. apply (a_d _ _ _ I) in H. by rewrite X in H.
  - destruct (frame_D _ _ _ _ E) as (E1 & E2 & E3 & E4). destruct h as [|u|].
    + cbn [holder_step]. rewrite Nat.add_0_r. by apply hrank_woken.
    + cbn [holder_step hrank]. rewrite E1. lia.
    + pose proof (proj1 (a_d _ _ _ I i) H) as W. pose proof (proj1 (a_d _ _ _ I' i) H') as W'. clear - E W W'. cbn [step] in E. unfold stepD in E.
      cbn [hrank holder_step]. destruct (ds s) eqn:Ed; try done; injection E as <-; cbn in *; lia || done.
Qed.

(** A measure that no step raises and every turn lowers reaches its goal. *)
Lemma turns_reach n m (f : pst -> event -> bool) (K G : pst -> Prop) (rk : pst -> nat) :
  (forall s e s', Inv n m s -> K s -> step n m s e = Ok s' -> G s' \/ K s' /\ rk s' + (if f s e then 1 else 0) <= rk s) ->
  (forall s e s', Inv n m s -> G s -> step n m s e = Ok s' -> G s') ->
  forall l s s', Inv n m s -> K s -> run n m s l = Ok s' -> rk s < turns n m f s l -> G s'.
Proof.
  intros HK HG. assert (G' : forall l s s', Inv n m s -> G s -> run n m s l = Ok s' -> G s').
  { induction l as [|e l IH]; intros s s' I Gs; cbn [run]; [by intros [= <-]|]. cbn [mbind res_bind].
    destruct (step n m s e) eqn:E; try done. apply IH; [by eapply Inv_step|by eapply HG]. }
  induction l as [|e l IH]; intros s s' I Ks; cbn [run turns]; [lia|]. cbn [mbind res_bind].
  destruct (step n m s e) as [s1| | |] eqn:E; try done. cbn [res_bind]. intros R T. pose proof (Inv_step _ _ _ _ _ I E) as I1.
  destruct (HK s e s1 I Ks E) as [G1|[K1 R1]]; [by eapply G'|]. eapply IH; [exact I1|done|done|]. destruct (f s e); lia.
Qed.

(** *** Taking a job *)
Definition wrank (q : wpc) : nat := match q with WUnlock _ => 5 | WRun _ => 4 | WLock | WWoken | WAsleep => 3 | WCheck => 2 | WIf => 1 | WPop => 0 | _ => 0 end.
Lemma wrank_max q : wrank q <= 5.
Proof. destruct q; cbn; lia. Qed.
Lemma shutdown_step n m s e s' : shutdown s = true -> step n m s e = Ok s' -> shutdown s' = true.
Proof.
  intros H E. destruct e; [by destruct (frame_W _ _ _ _ _ E) as (_ & _ & -> & _)|..].
  1,2,4: by destruct (frame_rest _ _ _ _ _ E Logic.I) as (_ & -> & _).
  - by destruct (frame_E _ _ _ _ _ _ _ E) as (_ & -> & _).
  - destruct (frame_D _ _ _ _ E) as (_ & _ & X & _). auto.
Qed.
Lemma shutdown_run n m l s s' : shutdown s = true -> run n m s l = Ok s' -> shutdown s' = true.
Proof.
  revert s. induction l as [|e l IH]; intros s H; cbn [run]; [by intros [= <-]|]. cbn [mbind res_bind].
  destruct (step n m s e) eqn:E; try done. apply IH. by eapply shutdown_step.
Qed.
(** What is said about taking: only the worker itself says it. *)
Lemma takes_step n m i s e s' : step n m s e = Ok s' -> e <> StepW i -> takes i (log s') = takes i (log s).
Proof.
  intros E N. destruct e as [k| | |t b h| |]; cbn [step] in E.
  - injection E as <-. case_decide; [|done]. assert (k <> i) by congruence. unfold stepW.
    destruct (ws s k); try done; try (destruct (locks s k); done); [destruct (queues s k); [done|]|]; cbn [say log set_w set_q];
      rewrite takes_app; unfold takes at 2; cbn; rewrite ?decide_False by done; by rewrite app_nil_r.
  - injection E as <-. by destruct (ws s i0).
  - injection E as <-. destruct (es s t), (ds s); try done; by case_decide.
  - unfold stepE in E. destruct (es s t) eqn:Et; [by injection E as <-|..].
    + case_decide; [|case_decide; [done|]]; by injection E as <-.
    + destruct (locks s i0); by injection E as <-.
    + injection E as <-. cbn [say log set_e set_q]. rewrite takes_app. by rewrite app_nil_r.
    + injection E as <-. cbn [set_e log]. by destruct (signal_rest i0 s) as (_ & _ & _ & _ & _ & _ & _ & ->).
    + by injection E as <-.
  - injection E as <-. by destruct (ds s).
  - injection E as <-. unfold stepD. destruct (ds s); try done.
    + case_decide; [destruct (locks s i0)|]; done.
    + cbn [set_d log]. by destruct (signal_rest i0 s) as (_ & _ & _ & _ & _ & _ & _ & ->).
    + destruct (_ && _); [|done]. cbn [set_d destroy_all log]. rewrite takes_app.
      destruct (other_map (concat (map (queues s) (seq 0 n)))) as (O & _); destruct (O i) as (_ & -> & _). by rewrite app_nil_r.
Qed.
Lemma takes_grow n m i s e s' : step n m s e = Ok s' -> length (takes i (log s)) <= length (takes i (log s')).
Proof.
  intros E. destruct (decide (e = StepW i)) as [->|N]; [|by rewrite (takes_step n m i s e s' E N)].
  cbn [step] in E. injection E as <-. case_decide; [|done]. unfold stepW.
  destruct (ws s i); try done; try (destruct (locks s i); done); [destruct (queues s i); [done|]|]; cbn [say log set_w set_q]; rewrite takes_app, app_length; lia.
Qed.
Lemma wrank_woken s s' i : woken s s' i -> wrank (ws s' i) <= wrank (ws s i).
Proof. intros [->|[-> ->]]; done. Qed.
Lemma take_step n m i l s e s' : Inv n m s -> i < n -> queues s i <> [] -> shutdown s = false -> takes i (log s) = l -> step n m s e = Ok s' ->
  (shutdown s' = true \/ length l < length (takes i (log s'))) \/
  (queues s' i <> [] /\ shutdown s' = false /\ takes i (log s') = l) /\ wrank (ws s' i) + (if its_turn i s e then 1 else 0) <= wrank (ws s i).
Proof.
  intros I Hi Q Sh T E. destruct (decide (e = StepW i)) as [->|N].
  - cbn [step] in E. injection E as <-. rewrite decide_True by done. unfold its_turn. rewrite bool_decide_eq_true_2 by done. cbn [andb].
    pose proof (a_w _ _ _ I i) as W. pose proof (a_load _ _ _ I i) as A1. pose proof (a_sleepy _ _ _ I i) as A2. pose proof (a_asleep _ _ _ I i) as A3. pose proof (a_ret _ _ _ I i) as A4.
    unfold stepW. destruct (ws s i) eqn:Ei; cbn [wh] in W.
    + right. destruct (locks s i) as [[]|] eqn:El; cbn; rewrite ?Ei, ?upd_eq; cbn; split; try done; try lia. by destruct W as [W _]; specialize (W eq_refl).
    + right. destruct (queues s i) eqn:Eq; [done|]. cbn. rewrite upd_eq, Eq. cbn. split; [done|]. destruct (locks s i) as [[]|]; lia.
    + by destruct Q; apply A1.
    + by destruct Q; apply A2.
    + right. destruct (A3 eq_refl) as [|[t Et]]; [done|]. assert (L : locks s i = Some (HE t)) by (apply (a_e _ _ _ I); by rewrite Et). rewrite L, Ei. cbn. done.
    + right. destruct (locks s i) as [[]|] eqn:El; cbn; rewrite ?Ei, ?upd_eq; cbn; split; try done; try lia. by destruct W as [W _]; specialize (W eq_refl).
    + right. rewrite Sh. cbn. rewrite upd_eq. cbn. split; [done|]. destruct (locks s i) as [[]|]; lia.
    + left. right. destruct (queues s i) as [|j q]; [done|]. cbn [say log set_w set_q]. rewrite takes_app, app_length, T. unfold takes. cbn. rewrite decide_True by done. cbn. lia.
    + right. cbn. rewrite upd_eq. cbn. split; [done|]. destruct (locks s i) as [[]|]; lia.
    + right. cbn [say set_w log ws queues shutdown]. rewrite upd_eq. cbn [wrank]. split; [split_and!; try done; rewrite takes_app; by rewrite app_nil_r|]. destruct (locks s i) as [[]|]; lia.
    + rewrite A4 in Sh by auto. done.
    + rewrite A4 in Sh by auto. done.
  - assert (F : its_turn i s e = false) by (unfold its_turn; by rewrite bool_decide_eq_false_2). rewrite F, Nat.add_0_r.
    rewrite (takes_step n m i s e s' E N). destruct (shutdown s') eqn:Sh'; [by left; left|right].
    assert (woken s s' i /\ queues s' i <> []) as [W Q']; [|split; [done|by apply wrank_woken]].
    destruct e as [k| | |t b h| |].
    + destruct (frame_W _ _ _ _ _ E) as (_ & _ & _ & X & _). destruct (X i) as [X1 X2]; [congruence|]. rewrite X2. split; [by left|done].
    + destruct (frame_rest _ _ _ _ _ E Logic.I) as (X & _ & -> & _). auto.
    + destruct (frame_rest _ _ _ _ _ E Logic.I) as (X & _ & -> & _). auto.
    + destruct (frame_E _ _ _ _ _ _ _ E) as (_ & _ & _ & X & Y). auto.
    + destruct (frame_rest _ _ _ _ _ E Logic.I) as (X & _ & -> & _). auto.
    + destruct (frame_D _ _ _ _ E) as (_ & X & _ & [D| ->]); [|auto]. pose proof (a_shut _ _ _ (Inv_step _ _ _ _ _ I E)) as Y. rewrite D in Y. cbn in Y. congruence.
Qed.
(** *** Exiting *)
Definition xrank (q : wpc) : nat := match q with WPop => 8 | WUnlock _ => 7 | WRun _ => 6 | WLock | WWoken | WAsleep => 5 | WCheck => 4 | WLoad => 3 | WIf => 2 | WReturn => 1 | WSleepy | WExit => 0 end.
Lemma xrank_max q : xrank q <= 8.
Proof. destruct q; cbn; lia. Qed.
Lemma signalled_stays n m i s e s' : Inv n m s -> i < n -> shutdown s = true -> ~ yet_to_signal i (ds s) -> step n m s e = Ok s' -> ~ yet_to_signal i (ds s').
Proof.
  intros I Hi Sh P E. rewrite (a_shut _ _ _ I) in Sh. destruct e as [k| | |t b h| |].
  - by destruct (frame_W _ _ _ _ _ E) as (_ & -> & _).
  - destruct (frame_rest _ _ _ _ _ E Logic.I) as (_ & _ & _ & _ & _ & X & _). rewrite X; [done|]. intros D. by rewrite D in Sh.
  - destruct (frame_rest _ _ _ _ _ E Logic.I) as (_ & _ & _ & _ & _ & X & _). rewrite X; [done|]. intros D. by rewrite D in Sh.
  - by destruct (frame_E _ _ _ _ _ _ _ E) as (-> & _).
  - destruct (frame_rest _ _ _ _ _ E Logic.I) as (_ & _ & _ & _ & _ & X & _). rewrite X; [done|]. intros D. by rewrite D in Sh.
  - cbn [step] in E. injection E as <-. unfold stepD. destruct (ds s) eqn:Ed; cbn in P; try (rewrite Ed; done); try done.
    + case_decide; [destruct (locks s i0)|]; cbn; rewrite ?Ed; cbn; done || lia.
    + cbn. lia.
    + destruct (_ && _); cbn; rewrite ?Ed; cbn; done.
Qed.
Lemma xrank_woken s s' i : woken s s' i -> xrank (ws s' i) <= xrank (ws s i).
Proof. intros [->|[-> ->]]; done. Qed.
Lemma exit_step n m i s e s' : Inv n m s -> i < n -> shutdown s = true -> ~ yet_to_signal i (ds s) -> step n m s e = Ok s' ->
  ws s' i = WExit \/ (shutdown s' = true /\ ~ yet_to_signal i (ds s')) /\ xrank (ws s' i) + (if its_turn i s e then 1 else 0) <= xrank (ws s i).
Proof.
  intros I Hi Sh P E. destruct (decide (ws s i = WExit)) as [X|NX].
  { left. destruct (decide (e = StepW i)) as [->|N].
    - cbn [step] in E. injection E as <-. case_decide; [|done]. unfold stepW. by rewrite X.
    - assert (woken s s' i) as [->|[Y _]]; [|done|congruence]. destruct e as [k| | |t b h| |].
      + destruct (frame_W _ _ _ _ _ E) as (_ & _ & _ & Z & _). left. apply Z. congruence.
      + by destruct (frame_rest _ _ _ _ _ E Logic.I) as (Z & _).
      + by destruct (frame_rest _ _ _ _ _ E Logic.I) as (Z & _).
      + by destruct (frame_E _ _ _ _ _ _ _ E) as (_ & _ & _ & Z & _).
      + by destruct (frame_rest _ _ _ _ _ E Logic.I) as (Z & _).
      + by destruct (frame_D _ _ _ _ E) as (_ & Z & _). }
  assert (S' : shutdown s' = true) by by eapply shutdown_step.
  assert (P' : ~ yet_to_signal i (ds s')) by by eapply signalled_stays.
  destruct (decide (e = StepW i)) as [->|N].
  - cbn [step] in E. injection E as <-. rewrite decide_True in * by done. unfold its_turn. rewrite bool_decide_eq_true_2 by done. cbn [andb].
    pose proof (a_w _ _ _ I i) as W. pose proof (a_pop _ _ _ I i) as A1. pose proof (a_pend1 _ _ _ I i) as A2. pose proof (a_pend2 _ _ _ I i) as A3.
    revert S' P'. unfold stepW. destruct (ws s i) eqn:Ei; cbn [wh] in W; intros S' P'; try done.
    + right. split; [done|]. destruct (locks s i) as [[]|] eqn:El; cbn; rewrite ?Ei, ?upd_eq; cbn; try lia. by destruct W as [W _]; specialize (W eq_refl).
    + right. split; [done|]. cbn. rewrite upd_eq. destruct (queues s i), (locks s i) as [[]|]; cbn; lia.
    + right. split; [done|]. cbn. rewrite upd_eq, Sh. destruct (locks s i) as [[]|]; cbn; lia.
    + by destruct P; apply A2.
    + by destruct P; apply A3.
    + right. split; [done|]. destruct (locks s i) as [[]|] eqn:El; cbn; rewrite ?Ei, ?upd_eq; cbn; try lia. by destruct W as [W _]; specialize (W eq_refl).
    + right. split; [done|]. cbn. rewrite upd_eq, Sh. destruct (locks s i) as [[]|]; cbn; lia.
    + right. split; [done|]. destruct (queues s i) as [|j q]; [by destruct (A1 eq_refl)|]. cbn. rewrite upd_eq. destruct (locks s i) as [[]|]; cbn; lia.
    + right. split; [done|]. cbn. rewrite upd_eq. destruct (locks s i) as [[]|]; cbn; lia.
    + right. split; [done|]. cbn. rewrite upd_eq. destruct (locks s i) as [[]|]; cbn; lia.
    + left. cbn. by rewrite upd_eq.
  - right. split; [done|]. assert (F : its_turn i s e = false) by (unfold its_turn; by rewrite bool_decide_eq_false_2). rewrite F, Nat.add_0_r. apply xrank_woken.
    destruct e as [k| | |t b h| |].
      + destruct (frame_W _ _ _ _ _ E) as (_ & _ & _ & Z & _). left. apply Z. congruence.
      + by destruct (frame_rest _ _ _ _ _ E Logic.I) as (Z & _).
      + by destruct (frame_rest _ _ _ _ _ E Logic.I) as (Z & _).
      + by destruct (frame_E _ _ _ _ _ _ _ E) as (_ & _ & _ & Z & _).
      + by destruct (frame_rest _ _ _ _ _ E Logic.I) as (Z & _).
      + by destruct (frame_D _ _ _ _ E) as (_ & Z & _).
Qed.
Lemma exit_stays n m i s e s' : ws s i = WExit -> step n m s e = Ok s' -> ws s' i = WExit.
Proof.
  intros X E. destruct (decide (e = StepW i)) as [->|N].
  - cbn [step] in E. injection E as <-. case_decide; [|done]. unfold stepW. by rewrite X.
  - assert (woken s s' i) as [->|[Y _]]; [|done|congruence]. destruct e as [k| | |t b h| |].
    + destruct (frame_W _ _ _ _ _ E) as (_ & _ & _ & Z & _). left. apply Z. congruence.
    + by destruct (frame_rest _ _ _ _ _ E Logic.I) as (Z & _).
    + by destruct (frame_rest _ _ _ _ _ E Logic.I) as (Z & _).
    + by destruct (frame_E _ _ _ _ _ _ _ E) as (_ & _ & _ & Z & _).
    + by destruct (frame_rest _ _ _ _ _ E Logic.I) as (Z & _).
    + by destruct (frame_D _ _ _ _ E) as (_ & Z & _).
Qed.
(** *** Shutting down *)
Definition drank (n : nat) (q : dpc) : nat :=
  match q with DSet => 3 * n + 1 | DLock k => 3 * (n - k) | DSignal k => 3 * (n - k) - 1 | DUnlock k => 3 * (n - k) - 2 | _ => 0 end.
Definition closing (q : dpc) : Prop := q <> DIdle /\ q <> DJoin /\ q <> DDone.
Lemma join_step n m s e s' : Inv n m s -> closing (ds s) -> step n m s e = Ok s' ->
  (ds s' = DJoin \/ ds s' = DDone) \/ closing (ds s') /\ drank n (ds s') + (if d_turn s e then 1 else 0) <= drank n (ds s).
Proof.
  intros I (C1 & C2 & C3) E. destruct (decide (e = StepD)) as [->|N].
  - unfold d_turn. rewrite bool_decide_eq_true_2 by done. cbn [andb]. cbn [step] in E. injection E as <-. unfold stepD, closing. pose proof (a_dk _ _ _ I) as K.
    destruct (ds s) eqn:Ed; try done.
    + right. cbn [set_d ds drank]. split; [done|]. lia.
    + destruct (decide (i < n)).
      * right. destruct (locks s i); cbn [set_d set_l ds drank]; rewrite ?Ed; cbn [drank]; split; try done; lia.
      * left. by left.
    + right. cbn [set_d ds drank]. specialize (K i eq_refl). split; [done|]. lia.
    + right. cbn [set_d set_l ds drank]. specialize (K i eq_refl). split; [done|]. lia.
  - right. assert (F : d_turn s e = false) by (unfold d_turn; by rewrite bool_decide_eq_false_2). rewrite F, Nat.add_0_r.
    assert (ds s' = ds s) as ->; [|done]. destruct e; try done.
    + by destruct (frame_W _ _ _ _ _ E) as (_ & -> & _).
    + destruct (frame_rest _ _ _ _ _ E Logic.I) as (_ & _ & _ & _ & _ & X & _). auto.
    + destruct (frame_rest _ _ _ _ _ E Logic.I) as (_ & _ & _ & _ & _ & X & _). auto.
    + by destruct (frame_E _ _ _ _ _ _ _ E) as (-> & _).
    + destruct (frame_rest _ _ _ _ _ E Logic.I) as (_ & _ & _ & _ & _ & X & _). auto.
Qed.
Lemma joined_stays n m s e s' : ds s = DJoin \/ ds s = DDone -> step n m s e = Ok s' -> ds s' = DJoin \/ ds s' = DDone.
Proof.
  intros D E. destruct (decide (e = StepD)) as [->|N].
  - cbn [step] in E. injection E as <-. unfold stepD. destruct D as [D|D]; rewrite D; [destruct (_ && _)|]; cbn; auto.
  - assert (ds s' = ds s) as ->; [|done]. destruct e; try done.
    + by destruct (frame_W _ _ _ _ _ E) as (_ & -> & _).
    + destruct (frame_rest _ _ _ _ _ E Logic.I) as (_ & _ & _ & _ & _ & X & _). apply X. by destruct D as [-> | ->].
    + destruct (frame_rest _ _ _ _ _ E Logic.I) as (_ & _ & _ & _ & _ & X & _). apply X. by destruct D as [-> | ->].
    + by destruct (frame_E _ _ _ _ _ _ _ E) as (-> & _).
    + destruct (frame_rest _ _ _ _ _ E Logic.I) as (_ & _ & _ & _ & _ & X & _). apply X. by destruct D as [-> | ->].
Qed.
(** *** Enqueueing *)
Definition erank (n : nat) (q : epc) : nat := match q with EScan i _ => (n - i) + 5 | ELock _ _ => 4 | EPush _ _ => 3 | ESignal _ => 2 | EUnlock _ => 1 | EIdle => 0 end.
Lemma give_step n m t j s e s' : Inv n m s -> carried (es s t) = Some j -> step n m s e = Ok s' ->
  j ∈ pushed (log s') \/ carried (es s' t) = Some j /\ erank n (es s' t) + (if e_turn t s e then 1 else 0) <= erank n (es s t).
Proof.
  intros I C E. assert (Ht : es s t <> EIdle) by (intros X; by rewrite X in C).
  destruct e as [k| | |u b h| |].
  - destruct (frame_W _ _ _ _ _ E) as (-> & _). right. split; [done|]. cbn. lia.
  - destruct (frame_rest _ _ _ _ _ E Logic.I) as (_ & _ & _ & _ & X & _). right. rewrite X by done. split; [done|]. cbn. lia.
  - destruct (frame_rest _ _ _ _ _ E Logic.I) as (_ & _ & _ & _ & X & _). right. rewrite X by done. split; [done|]. cbn. lia.
  - destruct (decide (u = t)) as [->|N].
    + unfold e_turn. rewrite bool_decide_eq_true_2 by done. cbn [andb]. cbn [step] in E. unfold stepE in E. destruct (es s t) eqn:Et; try done; cbn in C; injection C as ->.
      * right. case_decide; [|case_decide; [done|]]; injection E as <-; cbn; rewrite upd_eq; destruct b; cbn; split; try done; lia.
      * right. destruct (locks s i); injection E as <-; cbn; rewrite ?Et, ?upd_eq; cbn; done.
      * left. injection E as <-. cbn [say log]. rewrite pushed_app. apply elem_of_app. right. by apply elem_of_list_singleton.
    + destruct (frame_E _ _ _ _ _ _ _ E) as (_ & _ & X & _). right. rewrite X by done. split; [done|]. unfold e_turn. rewrite bool_decide_eq_false_2 by done. cbn. lia.
  - destruct (frame_rest _ _ _ _ _ E Logic.I) as (_ & _ & _ & _ & X & _). right. rewrite X by done. split; [done|]. cbn. lia.
  - destruct (frame_D _ _ _ _ E) as (-> & _). right. split; [done|]. cbn. lia.
Qed.
Lemma pushed_grow n m s e s' j : step n m s e = Ok s' -> j ∈ pushed (log s) -> j ∈ pushed (log s').
Proof.
  intros E H. destruct e as [k| | |t b h| |]; cbn [step] in E.
  - injection E as <-. case_decide; [|done]. unfold stepW.
    destruct (ws s k); try done; try (destruct (locks s k); done); [destruct (queues s k); [done|]|]; cbn [say log set_w set_q]; rewrite pushed_app; apply elem_of_app; by left.
  - injection E as <-. by destruct (ws s i).
  - injection E as <-. destruct (es s t), (ds s); try done; by case_decide.
  - unfold stepE in E. destruct (es s t) eqn:Et; [by injection E as <-|..].
    + case_decide; [|case_decide; [done|]]; by injection E as <-.
    + destruct (locks s i); by injection E as <-.
    + injection E as <-. cbn [say log set_e set_q]. rewrite pushed_app. apply elem_of_app; by left.
    + injection E as <-. cbn [set_e log]. by destruct (signal_rest i s) as (_ & _ & _ & _ & _ & _ & _ & ->).
    + by injection E as <-.
  - injection E as <-. by destruct (ds s).
  - injection E as <-. unfold stepD. destruct (ds s); try done.
    + case_decide; [destruct (locks s i)|]; done.
    + cbn [set_d log]. by destruct (signal_rest i s) as (_ & _ & _ & _ & _ & _ & _ & ->).
    + destruct (_ && _); [|done]. cbn [set_d destroy_all log]. rewrite pushed_app. apply elem_of_app; by left.
Qed.
