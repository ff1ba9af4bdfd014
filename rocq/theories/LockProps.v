(** C66: scoped locks. *)
From Verif Require Import Base LockModel LockSpec.

Lemma upd_eq {A} (f : nat -> A) i x : upd f i x i = x.
Proof. unfold upd. by rewrite decide_True. Qed.
Lemma upd_ne {A} (f : nat -> A) i x j : j <> i -> upd f i x j = f j.
Proof. intros. unfold upd. by rewrite decide_False. Qed.
Ltac split_upd i j := destruct (decide (i = j)) as [->|?]; [rewrite ?upd_eq in *|rewrite ?upd_ne in * by done].

(** Two Locks never refer to one mutex, and a mutex a Lock refers to is held. *)
Record Inv (s : st) : Prop := {
  i_held : forall v m, vars s v = Some (Some m) -> owner s m <> None;
  i_one : forall v w m, vars s v = Some (Some m) -> vars s w = Some (Some m) -> v = w
}.
Lemma Inv_step s e s' : Inv s -> scoped s e -> polite s e -> step s e = Ok s' -> Inv s'.
Proof.
  intros [Ih Io] Sc P E. destruct e; cbn [step] in E; cbn in Sc, P.
  - unfold lock in E. destruct (owner s m) eqn:Em; injection E as <-; [done|]. split; cbn; intros *.
    + split_upd v0 v; [intros [= <-]; by rewrite upd_eq|]. intros H. split_upd m0 m; [done|]. by apply Ih in H.
    + split_upd v0 v; split_upd w v; try done.
      * intros [= <-] H. by apply Ih in H.
      * intros H [= <-]. by apply Ih in H.
      * apply Io.
  - unfold get in E. destruct Sc as [S1 S2]. destruct (vars s w) as [x|] eqn:Ew; [|done]. injection E as <-. assert (v <> w) by (intros ->; congruence). split; cbn; intros *.
    + split_upd v0 w; [done|]. split_upd v0 v; [intros [= ->]; by apply (Ih w)|apply Ih].
    + split_upd v0 w; [done|]. split_upd w0 w; [done|]. split_upd v0 v; split_upd w0 v; try done.
      * intros [= ->] H'. by apply (Io w w0 m) in Ew.
      * intros H' [= ->]. by apply (Io w v0 m) in Ew.
      * apply Io.
  - unfold get in E. destruct Sc as [S1 S2]. destruct (vars s v) as [y|] eqn:Ev; [|done]. cbn [mbind res_bind] in E. destruct (vars s w) as [x|] eqn:Ew; [|done]. injection E as <-. split; cbn; intros *.
    + split_upd v0 w; [done|]. split_upd v0 v; [intros [= ->]; by apply (Ih w)|apply Ih].
    + split_upd v0 w; [done|]. split_upd w0 w; [done|]. split_upd v0 v; split_upd w0 v; try done.
      * intros [= ->] H'. by apply (Io w w0 m) in Ew.
      * intros H' [= ->]. by apply (Io w v0 m) in Ew.
      * apply Io.
  - unfold get in E. destruct (vars s v) as [x|] eqn:Ev; [|done]. cbn [mbind res_bind] in E. destruct x as [m|].
    + unfold unlock in E. rewrite decide_True in E by (by apply P). injection E as <-. split; cbn; intros *.
      * split_upd v0 v; [done|]. intros H. split_upd m0 m; [by pose proof (Io _ _ _ H Ev)|]. by apply (Ih v0).
      * split_upd v0 v; [done|]. split_upd w v; [done|]. apply Io.
    + injection E as <-. split; cbn; intros *.
      * split_upd v0 v; [done|]. apply Ih.
      * split_upd v0 v; [done|]. split_upd w v; [done|]. apply Io.
  - unfold lock in E. destruct (owner s m) eqn:Em; injection E as <-; [done|]. split; cbn; [|done]. intros v m0 H. split_upd m0 m; [done|]. by apply (Ih v).
  - unfold unlock in E. destruct P as [P1 P2]. rewrite decide_True in E by done. injection E as <-. split; cbn; [|done]. intros v m0 H. split_upd m0 m; [by apply P2 in H|]. by apply (Ih v).
  - unfold lock in E. destruct (owner s m) eqn:Em; injection E as <-; [done|]. split; cbn; [|done]. intros v m0 H. split_upd m0 m; [done|]. by apply (Ih v).
Qed.
Lemma reach_Inv P s : reach P s -> Inv s.
Proof. induction 1; [by split|]. by eapply Inv_step. Qed.

Lemma mutex_after_snoc m h x : mutex_after m (h ++ [x]) = o ← mutex_after m h;
    match x with
    | Took t m' => if decide (m' = m) then match o with None => Some (Some t) | Some _ => None end else Some o
    | Gave t m' => if decide (m' = m) then if decide (o = Some t) then Some None else None else Some o
    | Busy _ m' => if decide (m' = m) then match o with None => None | Some _ => Some o end else Some o
    end.
Proof. unfold mutex_after. by rewrite foldl_app. Qed.
Lemma log_step s e s' : (forall m, mutex_after m (log s) = Some (owner s m)) -> step s e = Ok s' -> forall m, mutex_after m (log s') = Some (owner s' m).
Proof.
  intros L E m0.
  assert (forall t m s s', (forall m, mutex_after m (log s) = Some (owner s m)) -> unlock t m s = Ok s' -> forall m, mutex_after m (log s') = Some (owner s' m)) as U.
  { clear. intros t m s s' L E m0. unfold unlock in E. case_decide as D; [|done]. injection E as <-. cbn [log owner]. rewrite mutex_after_snoc, L. cbn [mbind option_bind].
    destruct (decide (m = m0)) as [->|Ne]; [rewrite upd_eq, decide_True by done; done|by rewrite upd_ne]. }
  assert (forall t m s', lock t m s = Some s' -> forall m, mutex_after m (log s') = Some (owner s' m)) as K.
  { clear m0 e s' E. intros t m s' E m0. unfold lock in E. destruct (owner s m) eqn:Em; [done|]. injection E as <-. cbn [log owner]. rewrite mutex_after_snoc, L. cbn [mbind option_bind].
    destruct (decide (m = m0)) as [->|Ne]; [by rewrite upd_eq, Em|by rewrite upd_ne]. }
  destruct e; cbn [step] in E.
  - destruct (lock t m s) as [s1|] eqn:El; injection E as <-; [exact (K _ _ _ El m0)|apply L].
  - unfold get in E. destruct (vars s w); [|done]. injection E as <-. apply L.
  - unfold get in E. destruct (vars s v); [|done]. destruct (vars s w); [|done]. injection E as <-. apply L.
  - unfold get in E. destruct (vars s v) as [[m|]|]; [|injection E as <-; apply L|done]. cbn [mbind res_bind] in E. destruct (unlock t m s) as [s1| | |] eqn:El; try done. injection E as <-. exact (U t m s s1 L El m0).
  - destruct (lock t m s) as [s1|] eqn:El; injection E as <-; [exact (K _ _ _ El m0)|apply L].
  - exact (U t m s s' L E m0).
  - destruct (lock t m s) as [s1|] eqn:El; injection E as <-; [exact (K _ _ _ El m0)|]. cbn [log owner]. rewrite mutex_after_snoc, L. cbn [mbind option_bind].
    unfold lock in El. destruct (owner s m) eqn:Em; [|done]. destruct (decide (m = m0)) as [->|Ne]; [by rewrite Em|done].
Qed.

(** ** C66 *)
Definition any (s : st) (e : event) : Prop := True.
(** No operation of a well-formed program on Locks and mutexes is undefined. *)
Theorem lock_defined : forall s e, reach any s -> scoped s e -> polite s e -> exists s', step s e = Ok s'.
Proof.
  intros s e R Sc P. destruct e; cbn [step]; cbn in Sc, P.
  - destruct (lock t m s); eauto.
  - unfold get. destruct Sc as [S1 S2]. destruct (vars s w); [|done]. cbn. eauto.
  - unfold get. destruct Sc as [S1 S2]. destruct (vars s v); [|done]. destruct (vars s w); [|done]. cbn. eauto.
  - unfold get. destruct (vars s v) as [[m|]|]; [| |done]; cbn [mbind res_bind]; [|eauto]. unfold unlock. rewrite decide_True by (by apply P). cbn. eauto.
  - destruct (lock t m s); eauto.
  - unfold unlock. rewrite decide_True by apply P. eauto.
  - destruct (lock t m s); eauto.
Qed.
(** Mutual exclusion: in every history each mutex is taken only when free, given back only by whoever took it, and
    try_lock() says no only when it is held. *)
Theorem lock_exclusion : forall s m, reach any s -> mutex_after m (log s) = Some (owner s m).
Proof. intros s m R. revert m. induction R as [|s e s' R IH Sc P _ E]; [done|]. by eapply log_step. Qed.
(** At any time a Lock refers to a mutex that is held, and no two Locks to the same. *)
Theorem lock_refers : forall s v w m, reach any s -> vars s v = Some (Some m) ->
  owner s m <> None /\ (vars s w = Some (Some m) -> w = v).
Proof. intros s v w m R E. destruct (reach_Inv _ _ R) as [Ih Io]. split; [by eapply Ih|]. intros E'. by eapply Io. Qed.
(** Moving takes no mutex and gives none back; the target refers to what the source referred to, the source to nothing. *)
Theorem lock_moves : forall s e s' v w, (exists t, e = MoveNew t v w \/ e = MoveAssign t v w) -> v <> w -> step s e = Ok s' ->
  owner s' = owner s /\ log s' = log s /\ vars s' v = vars s w /\ vars s' w = Some None /\ forall u, u <> v -> u <> w -> vars s' u = vars s u.
Proof.
  intros s e s' v w [t [-> | ->]] N E; cbn [step] in E; unfold get in E.
  - destruct (vars s w) as [x|] eqn:Ew; [|done]. injection E as <-. cbn. split_and!; try done.
    + by rewrite upd_ne, upd_eq.
    + by rewrite upd_eq.
    + intros u H1 H2. by rewrite !upd_ne.
  - destruct (vars s v); [|done]. destruct (vars s w) as [x|] eqn:Ew; [|done]. injection E as <-. cbn. split_and!; try done.
    + by rewrite upd_ne, upd_eq.
    + by rewrite upd_eq.
    + intros u H1 H2. by rewrite !upd_ne.
Qed.
(** A Lock that ends gives back exactly the mutex it refers to. *)
Theorem lock_ends : forall s t v s', step s (End t v) = Ok s' -> vars s' v = None /\
  match vars s v with
  | Some (Some m) => owner s m = Some t /\ owner s' m = None /\ log s' = log s ++ [Gave t m] /\ forall m', m' <> m -> owner s' m' = owner s m'
  | _ => owner s' = owner s /\ log s' = log s
  end.
Proof.
  intros s t v s' E. cbn [step] in E. unfold get in E. destruct (vars s v) as [[m|]|]; [| |done]; cbn [mbind res_bind] in E.
  - unfold unlock in E. case_decide as D; [|done]. injection E as <-. cbn. split_and!; try done; [by rewrite upd_eq..|]. intros m' H. by rewrite upd_ne.
  - injection E as <-. cbn. split_and!; try done. by rewrite upd_eq.
Qed.
(** In a program that takes mutexes through Locks only and assigns to no Lock that holds one: a mutex is held exactly
    while some Lock refers to it; so when the last Lock has ended, whatever moves there were, every mutex is free. *)
Definition tidy (s : st) (e : event) : Prop := no_overwrite s e /\ match e with MLock _ _ | MTry _ _ => False | _ => True end.
Theorem lock_releases_partial : forall s m, reach tidy s -> owner s m <> None <-> exists v, vars s v = Some (Some m).
Proof.
  intros s m R. split; [|intros [v E]; destruct (reach_Inv _ _ R) as [Ih _]; by eapply Ih].
  revert m. induction R as [|s e s' R IH Sc P [T1 T2] E]; [done|]. intros m0 H.
  destruct e; cbn [step] in E; cbn in Sc, P, T1, T2; try done.
  - unfold lock in E. destruct (owner s m) eqn:Em; injection E as <-; [by apply IH|]. cbn in *. split_upd m0 m; [exists v; by rewrite upd_eq|].
    destruct (IH _ H) as [u Hu]. exists u. rewrite upd_ne; [done|]. intros ->. congruence.
  - unfold get in E. destruct Sc as [S1 S2]. destruct (vars s w) as [x|] eqn:Ew; [|done]. injection E as <-. cbn in *. assert (v <> w) by (intros ->; congruence).
    destruct (IH _ H) as [u Hu]. destruct (decide (u = w)) as [->|?].
    + exists v. rewrite upd_ne, upd_eq by done. congruence.
    + exists u. rewrite !upd_ne; [done| |done]. intros ->. congruence.
  - unfold get in E. destruct T1 as [T1 T3]. rewrite T1 in E. cbn [mbind res_bind] in E. destruct (vars s w) as [x|] eqn:Ew; [|done]. injection E as <-. cbn in *.
    destruct (IH _ H) as [u Hu]. destruct (decide (u = w)) as [->|?].
    + exists v. rewrite upd_ne, upd_eq by done. congruence.
    + exists u. rewrite !upd_ne; [done| |done]. intros ->. congruence.
  - unfold get in E. destruct (vars s v) as [x|] eqn:Ev; [|done]. cbn [mbind res_bind] in E. destruct x as [m|].
    + unfold unlock in E. case_decide; [|done]. injection E as <-. cbn in *. split_upd m0 m; [done|]. destruct (IH _ H) as [u Hu]. exists u. rewrite upd_ne; [done|]. intros ->. congruence.
    + injection E as <-. cbn in *. destruct (IH _ H) as [u Hu]. exists u. rewrite upd_ne; [done|]. intros ->. congruence.
  - unfold unlock in E. destruct P as [P1 P2]. rewrite decide_True in E by done. injection E as <-. cbn in *. split_upd m0 m; [done|]. by apply IH.
Qed.

Fixpoint good (P : st -> event -> Prop) (s : st) (es : list event) : Prop :=
  match es with
  | [] => True
  | e :: es => scoped s e /\ polite s e /\ P s e /\ match step s e with Ok s' => good P s' es | _ => False end
  end.
Lemma run_reach P s es s' : reach P s -> run s es = Ok s' -> good P s es -> reach P s'.
Proof.
  revert s. induction es as [|e es IH]; intros s R E H; cbn [run good] in *; [by injection E as <-|]. destruct H as (H1 & H2 & H3 & H4).
  destruct (step s e) as [s1| | |] eqn:E1; try done. apply (IH s1); [by eapply reach_step|done|done].
Qed.
Example lock_premises : exists s, reach tidy s /\ reach any s /\ vars s 1 = Some (Some 7) /\ vars s 0 = Some None /\ owner s 7 = Some 5.
Proof.
  eexists. assert (forall P : st -> event -> Prop, (forall s, vars s 1 = None -> P s (LockNew 5 0 7)) -> (forall s, P s (MoveNew 5 1 0)) -> reach P
    (set_var 0 (Some None) (set_var 1 (Some (Some 7)) (set_var 0 (Some (Some 7)) (St (upd (fun _ => None) 7 (Some 5)) (fun _ => None) [Took 5 7]))))) as R.
  { intros P H1 H2. eapply (reach_step _ (set_var 0 (Some (Some 7)) (St (upd (fun _ => None) 7 (Some 5)) (fun _ => None) [Took 5 7])) (MoveNew 5 1 0)); [|by cbn|done|by apply H2|done].
    eapply (reach_step _ init (LockNew 5 0 7)); [constructor|done|done|by apply H1|done]. }
  split; [by apply R|]. split; [by apply R|]. done.
Qed.
(** Two threads, a wait, a move, a release *)
Example lock_example : exists s, run init [LockNew 1 0 9; LockNew 2 1 9; MoveNew 1 2 0; End 1 0; MTry 2 9; End 1 2; LockNew 2 1 9; End 2 1] = Ok s /\
  log s = [Took 1 9; Busy 2 9; Gave 1 9; Took 2 9; Gave 2 9] /\ owner s 9 = None.
Proof. eexists. split; [reflexivity|]. done. Qed.

(** In general this fails: assigning to a Lock that holds a mutex, or a Lock to itself, forgets the mutex.  All Locks
    have ended and the mutex is still held: nobody can take it again. *)
Theorem lock_assign_refuted : exists s,
  run init [LockNew 1 0 5; LockNew 1 1 6; MoveAssign 1 0 1; End 1 0; End 1 1] = Ok s /\ reach any s /\
  (forall v, vars s v = None) /\ owner s 5 = Some 1 /\ (forall t v, step s (LockNew t v 5) = Ok s).
Proof.
  eexists. split; [reflexivity|]. split.
  - apply (run_reach any init [LockNew 1 0 5; LockNew 1 1 6; MoveAssign 1 0 1; End 1 0; End 1 1]); [constructor|reflexivity|].
    vm_compute. split_and!; try done; intros m [= <-]; done.
  - split_and!; [|done|done]. intros [|[|v]]; done.
Qed.
Theorem lock_self_assign_refuted : exists s,
  run init [LockNew 1 0 5; MoveAssign 1 0 0; End 1 0] = Ok s /\ (forall v, vars s v = None) /\ owner s 5 = Some 1 /\ (forall t v, step s (LockNew t v 5) = Ok s).
Proof. eexists. split; [reflexivity|]. split_and!; [|done|done]. intros [|v]; done. Qed.

Print Assumptions lock_defined.
Print Assumptions lock_exclusion.
Print Assumptions lock_refers.
Print Assumptions lock_moves.
Print Assumptions lock_ends.
Print Assumptions lock_releases_partial.
Print Assumptions lock_assign_refuted.
Print Assumptions lock_self_assign_refuted.
