(** C47: Flag and Promise block exactly until signalled. *)
From Verif Require Import Base FlagModel FlagSpec.

Lemma upd_eq {A} (f : nat -> A) i x : upd f i x i = x.
Proof. unfold upd. by rewrite decide_True. Qed.
Lemma upd_ne {A} (f : nat -> A) i x j : j <> i -> upd f i x j = f j.
Proof. intros N. unfold upd. by rewrite decide_False. Qed.

Record Inv (s : fst_) : Prop := mk_Inv {
  v_flag : flag s <> 0%Z <-> signalled (log s);
  v_sleep : forall t, pcs s t = Asleep -> flag s <> 0%Z -> exists w, pcs s w = Waking;
  v_val : value s = due (log s);
  v_read : forall t, pcs s t = Reading -> signalled (log s);
  v_fill : (forall x, OFill x ∈ log s -> filled s = true /\ forall t y, pcs s t <> Storing y) /\
           (forall t x, pcs s t = Storing x -> filled s = true) /\
           (forall t u x y, pcs s t = Storing x -> pcs s u = Storing y -> t = u);
  v_hon : honest (log s)
}.
Lemma Inv_init : Inv fst_init.
Proof.
  constructor; cbn; try done.
  - split; [done|]. intros [t H]. by apply elem_of_nil in H.
  - split_and!; try done. intros x H. by apply elem_of_nil in H.
Qed.
Lemma sig_cons o l : (forall t, o <> OSignal t) -> signalled (o :: l) <-> signalled l.
Proof.
  intros N. split; intros [t H]; exists t; [|by apply elem_of_list_further]. apply elem_of_cons in H as [H|H]; [|done]. by destruct (N t).
Qed.
(** Only the pc of [t] changes. *)
Lemma Inv_pc s t q : Inv s -> pcs s t <> Waking -> (forall x, q <> Storing x) ->
  (q = Asleep -> flag s = 0%Z) -> (q = Reading -> signalled (log s)) -> Inv (set_pc t q s).
Proof.
  intros [V1 V2 V3 V4 V5 V6] Nw Ns Ha Hr. constructor; cbn; try done.
  - intros u. destruct (decide (u = t)) as [->|N].
    + rewrite upd_eq. intros Eq Nf. by rewrite Ha in Nf.
    + rewrite upd_ne by done. intros Eu Nf. destruct (V2 u Eu Nf) as [w Ew]. exists w. rewrite upd_ne; [done|]. by intros ->.
  - intros u. destruct (decide (u = t)) as [->|N]; [rewrite upd_eq; done|rewrite upd_ne by done; apply V4].
  - destruct V5 as (A & B & C). split_and!.
    + intros x Hx. destruct (A x Hx) as [A1 A2]. split; [done|]. intros u y. destruct (decide (u = t)) as [->|N]; [rewrite upd_eq|rewrite upd_ne by done]; [apply Ns|apply A2].
    + intros u x. destruct (decide (u = t)) as [->|N]; [rewrite upd_eq; by intros ?%Ns|rewrite upd_ne by done; apply B].
    + intros u w x y. destruct (decide (u = t)) as [->|N]; [rewrite upd_eq; by intros ?%Ns|rewrite (upd_ne _ t q u) by done].
      destruct (decide (w = t)) as [->|N']; [rewrite upd_eq; intros _; by intros ?%Ns|rewrite upd_ne by done; apply C].
Qed.
Lemma Inv_say s o : Inv s -> (forall t, o <> OSignal t) -> (forall x, o <> OFill x) -> (forall t r, o <> OGot t r) -> honest (o :: log s) -> Inv (say o s).
Proof.
  intros [V1 V2 V3 V4 V5 V6] N1 N2 N3 H. constructor; cbn [say pcs flag value filled log]; try done.
  - by rewrite sig_cons.
  - rewrite V3. destruct o; try done; [by destruct (N2 x)|by destruct (N3 t r)].
  - intros t Ht. apply sig_cons; [done|by eapply V4].
  - destruct V5 as (A & B & C). split_and!; try done. intros x [E|Hx]%elem_of_cons; [by destruct (N2 x)|by apply (A x)].
Qed.
Lemma micro_ok s t : Inv s -> Inv (micro s t).
Proof.
  intros I. pose proof I as [V1 V2 V3 V4 V5 V6]. unfold micro. destruct (pcs s t) eqn:Et; try done.
  - destruct V5 as (A & B & C). constructor; cbn [say set_pc pcs flag value filled log].
    + rewrite sig_cons by done. done.
    + intros u. destruct (decide (u = t)) as [->|N]; [by rewrite upd_eq|rewrite upd_ne by done]. intros Eu Nf. destruct (V2 u Eu Nf) as [w Ew]. exists w.
      rewrite upd_ne; [done|]. intros ->. congruence.
    + done.
    + intros u Hu. apply sig_cons; [done|]. destruct (decide (u = t)) as [->|N]; [by rewrite upd_eq in Hu|rewrite upd_ne in Hu by done]. by eapply V4.
    + split_and!.
      * intros y _. split; [by eapply B|]. intros u z. destruct (decide (u = t)) as [->|N]; [by rewrite upd_eq|rewrite upd_ne by done]. intros E. by apply N, (C u t z x).
      * intros u y. destruct (decide (u = t)) as [->|N]; [by rewrite upd_eq|rewrite upd_ne by done]. apply B.
      * intros u w y z. destruct (decide (u = t)) as [->|N]; [by rewrite upd_eq|rewrite (upd_ne _ _ _ u) by done].
        destruct (decide (w = t)) as [->|N']; [by rewrite upd_eq|rewrite upd_ne by done]. apply C.
    + split; [done|]. intros y Hy. by apply (proj2 (A y Hy) t x).
  - assert (signalled (OSignal t :: log s)) as Sg by (exists t; apply elem_of_list_here).
    destruct V5 as (A & B & C). constructor; cbn [say set_pc pcs flag value filled log].
    + split; [done|]. lia.
    + intros u Hu _. exists t. by rewrite upd_eq.
    + done.
    + done.
    + split_and!.
      * intros x [E|Hx]%elem_of_cons; [done|]. destruct (A x Hx) as [A1 A2]. split; [done|]. intros u y.
        destruct (decide (u = t)) as [->|N]; [by rewrite upd_eq|rewrite upd_ne by done]. apply A2.
      * intros u y. destruct (decide (u = t)) as [->|N]; [by rewrite upd_eq|rewrite upd_ne by done]. apply B.
      * intros u w y z. destruct (decide (u = t)) as [->|N]; [by rewrite upd_eq|rewrite (upd_ne _ _ _ u) by done].
        destruct (decide (w = t)) as [->|N']; [by rewrite upd_eq|rewrite upd_ne by done]. apply C.
    + done.
  - set (p := fun u => match pcs s u with Asleep => Loading | q => q end).
    assert (forall u q, upd p t Idle u = q -> q <> Idle -> q <> Loading -> pcs s u = q /\ q <> Asleep) as X.
    { intros u q E N1 N2. destruct (decide (u = t)) as [->|N]; [rewrite upd_eq in E; congruence|rewrite upd_ne in E by done]. unfold p in E.
      destruct (pcs s u); subst; done. }
    destruct V5 as (A & B & C). constructor; cbn [pcs flag value filled log]; try done.
    + intros u Hu. by destruct (X u _ Hu) as [_ ?].
    + intros u Hu. destruct (X u _ Hu) as [? _]; try done. by eapply V4.
    + split_and!.
      * intros x Hx. destruct (A x Hx) as [A1 A2]. split; [done|]. intros u y Hu. destruct (X u _ Hu) as [? _]; try done. by eapply A2.
      * intros u x Hu. destruct (X u _ Hu) as [? _]; try done. by eapply B.
      * intros u w x y Hu Hw. destruct (X u _ Hu) as [? _]; try done. destruct (X w _ Hw) as [? _]; try done. by eapply C.
  - destruct (Z.eqb_spec (flag s) 0) as [E|E].
    + apply Inv_pc; try done. by rewrite Et.
    + apply Inv_say; try done; [|split; [done|by apply V1]]. apply Inv_pc; try done; [by rewrite Et|]. intros _. by apply V1.
  - destruct (Z.eqb_spec (flag s) 0) as [E|E]; (apply Inv_pc; [done|by rewrite Et|done|done|done]).
  - assert (Inv (set_pc t Idle s)) as [W1 W2 W3 W4 W5 W6] by (apply Inv_pc; [done|by rewrite Et|done|done|done]).
    constructor; cbn [say set_pc pcs flag value filled log] in *; try done.
    + by rewrite sig_cons.
    + intros u Hu. apply sig_cons; [done|by eapply W4].
    + destruct W5 as (A & B & C). split_and!; try done. intros x [E|Hx]%elem_of_cons; [done|by apply (A x)].
    + split; [done|]. split; [|done]. by eapply V4.
  - apply Inv_say; try done.
    + apply Inv_pc; [done|by rewrite Et|done|done|done].
    + split; [done|]. rewrite <- V1. destruct (Z.eqb_spec (flag s) 0); cbn; done.
Qed.
Lemma step_ok s e s' : Inv s -> step s e = Ok s' -> Inv s'.
Proof.
  intros I. destruct e as [t c|t|t|t]; cbn [step].
  - intros [= <-]. destruct (pcs s t) eqn:Et; try done. destruct c; cbn [begin].
    + destruct (filled s) eqn:Fl; [done|]. destruct I as [V1 V2 V3 V4 V5 V6]. destruct V5 as (A & B & C).
      assert (forall u y, pcs s u <> Storing y) as NS by (intros u y E; apply B in E; congruence).
      constructor; cbn [set_pc pcs flag value filled log]; try done.
      * intros u. destruct (decide (u = t)) as [->|N]; [by rewrite upd_eq|rewrite upd_ne by done]. intros Eu Nf. destruct (V2 u Eu Nf) as [w Ew]. exists w. rewrite upd_ne; [done|]. intros ->. congruence.
      * intros u. destruct (decide (u = t)) as [->|N]; [by rewrite upd_eq|rewrite upd_ne by done]. apply V4.
      * split_and!; try done.
        -- intros y Hy. destruct (A y Hy) as [? _]. congruence.
        -- intros u w y z. destruct (decide (u = t)) as [->|N]; [|rewrite (upd_ne _ _ _ u) by done; by intros ?%NS].
           destruct (decide (w = t)) as [->|N']; [done|rewrite (upd_ne _ _ _ w) by done]. intros _. by intros ?%NS.
    + apply Inv_pc; [done|by rewrite Et|done|done|done].
    + apply Inv_pc; [done|by rewrite Et|done|done|done].
    + apply Inv_pc; [done|by rewrite Et|done|done|done].
  - intros [= <-]. by apply micro_ok.
  - intros [= <-]. destruct (pcs s t) eqn:Et; try done. apply Inv_pc; [done|by rewrite Et|done|done|done].
  - destruct (pcs s t); try done; by intros [= <-].
Qed.
Lemma run_ok es : forall s s', Inv s -> run s es = Ok s' -> Inv s'.
Proof.
  induction es as [|e es IH]; intros s s' I; cbn [run]; [by intros [= <-]|]. pose proof (step_ok s e) as S.
  destruct (step s e); cbn [mbind res_bind]; try done. apply IH. by apply S.
Qed.

(** Without interruptions every history runs. *)
Theorem flag_runs es : quiet es -> exists s, run fst_init es = Ok s.
Proof.
  generalize fst_init. induction es as [|e es IH]; intros s Q; cbn [run]; [by eexists|].
  assert (exists s1, step s e = Ok s1) as [s1 ->].
  { destruct e as [t c|t|t|t]; cbn [step]; try by eexists. destruct (Q t). apply elem_of_list_here. }
  cbn [mbind res_bind]. apply IH. intros t H. apply (Q t). by apply elem_of_list_further.
Qed.
(** block() returns only after a signal(); Promise::block returns the value that
    was filled in, if no other block took it; ready() tells whether the flag is set. *)
Lemma honest_suffix l1 o l2 : honest (l1 ++ o :: l2) -> honest (o :: l2).
Proof. induction l1 as [|p l1 IH]; [done|]. intros [H _]. by apply IH. Qed.
Theorem flag_block_after_signal es s l1 t l2 : run fst_init es = Ok s -> log s = l1 ++ OUnblock t :: l2 -> signalled l2.
Proof. intros R E. pose proof (v_hon _ (run_ok _ _ _ Inv_init R)) as H. rewrite E in H. apply honest_suffix in H. apply H. Qed.
Theorem flag_ready es s l1 t b l2 : run fst_init es = Ok s -> log s = l1 ++ OReady t b :: l2 -> b = true <-> signalled l2.
Proof. intros R E. pose proof (v_hon _ (run_ok _ _ _ Inv_init R)) as H. rewrite E in H. apply honest_suffix in H. apply H. Qed.
Theorem promise_value es s l1 t r l2 : run fst_init es = Ok s -> log s = l1 ++ OGot t r :: l2 ->
  signalled l2 /\ r = due l2 /\ (forall x, (forall u q, OGot u q ∉ l2) -> OFill x ∈ l2 -> r = Some x).
Proof.
  intros R E. pose proof (v_hon _ (run_ok _ _ _ Inv_init R)) as H. rewrite E in H. apply honest_suffix in H. destruct H as [H [S ->]]. split_and!; try done.
  intros x Ng Hx. clear - H Ng Hx. induction l2 as [|o l IH]; [by apply elem_of_nil in Hx|]. destruct H as [H Ho].
  assert (forall u q, OGot u q ∉ l) as Ng' by (intros u q Hq; apply (Ng u q); by apply elem_of_list_further).
  apply elem_of_cons in Hx as [<-|Hx]; [done|]. specialize (IH H Ng' Hx). destruct o as [y| | |t' r'|]; try done.
  - by destruct (Ho x).
  - destruct (Ng t' r'). apply elem_of_list_here.
Qed.
(** No wake-up is lost: once the flag is set a thread sleeps only while the signal
    that will wake it is about to, and then it takes one step of that thread and at
    most two of its own to return, whatever the others do in between. *)
Theorem flag_no_lost_wakeup es s t : run fst_init es = Ok s -> signalled (log s) -> pcs s t = Asleep ->
  exists w, pcs s w = Waking /\ forall s', step s (Step w) = Ok s' -> pcs s' t = Loading.
Proof.
  intros R Sg Et. pose proof (run_ok _ _ _ Inv_init R) as I. destruct (v_sleep _ I t Et) as [w Ew]; [by apply (v_flag _ I)|].
  exists w. split; [done|]. intros s'. cbn [step]. unfold micro. rewrite Ew. intros [= <-]. cbn. rewrite upd_ne by congruence. by rewrite Et.
Qed.
Theorem flag_returns es s t : run fst_init es = Ok s -> signalled (log s) -> pcs s t = Calling \/ pcs s t = Loading ->
  exists s', run s (if decide (pcs s t = Calling) then [Step t; Step t] else [Step t]) = Ok s' /\ pcs s' t = Reading /\ OUnblock t ∈ log s'.
Proof.
  intros R Sg Et. pose proof (run_ok _ _ _ Inv_init R) as I. assert (flag s <> 0%Z) as Nf by (by apply (v_flag _ I)).
  assert ((flag s =? 0)%Z = false) as Ef by (by apply Z.eqb_neq).
  destruct Et as [Et|Et]; [rewrite decide_True by done|rewrite decide_False by congruence]; cbn [run step]; unfold micro; rewrite Et, Ef; cbn [mbind res_bind].
  - eexists. split; [done|]. cbn. rewrite upd_eq. cbn. rewrite Ef. cbn. rewrite upd_eq. split; [done|apply elem_of_list_here].
  - eexists. split; [done|]. cbn. rewrite upd_eq. split; [done|apply elem_of_list_here].
Qed.
(** Steps of other threads never move a blocked thread backwards: once the flag is
    set it can only be woken. *)
Definition dist (q : pc) : nat := match q with Asleep => 3 | Calling => 2 | Loading => 1 | _ => 0 end.
Theorem flag_undisturbed es s e s' t : run fst_init es = Ok s -> signalled (log s) -> in_block (pcs s t) -> step s e = Ok s' ->
  signalled (log s') /\ (pcs s' t = pcs s t \/ dist (pcs s' t) < dist (pcs s t)).
Proof.
  intros R Sg Et S. pose proof (run_ok _ _ _ Inv_init R) as I. assert (flag s <> 0%Z) as Nf by (by apply (v_flag _ I)).
  assert ((flag s =? 0)%Z = false) as Ef by (by apply Z.eqb_neq).
  assert (forall o, signalled (o :: log s)) as Sg' by (intros o; destruct Sg as [w Hw]; exists w; by apply elem_of_list_further).
  destruct e as [u c|u|u|u]; cbn [step] in S; injection S as <- || idtac.
  - destruct (pcs s u) eqn:Eu; try (by split; [|left]). assert (t <> u) as N by (intros ->; by rewrite Eu in Et).
    destruct c; cbn [begin]; repeat case_match; cbn; rewrite ?upd_ne by done; (split; [done|by left]).
  - unfold micro. destruct (decide (u = t)) as [->|N].
    + destruct (pcs s t) eqn:E; try done; rewrite ?Ef; cbn; rewrite ?upd_eq; split; try done; try (right; cbn; lia); by left.
    + destruct (pcs s u) eqn:Eu; rewrite ?Ef; cbn; rewrite ?upd_ne by done; split; try done; try (by left).
      destruct (pcs s t) eqn:E; try (by left). right. cbn. lia.
  - destruct (decide (u = t)) as [->|N].
    + destruct (pcs s t) eqn:E; try done; cbn; rewrite ?upd_eq; rewrite ?E; (split; [done|]); try (by left). right. cbn. lia.
    + destruct (pcs s u) eqn:Eu; cbn; rewrite ?upd_ne by done; (split; [done|by left]).
  - destruct (pcs s u); try done; injection S as <-; (split; [done|by left]).
Qed.
(** A promise that is only ever filled, never signalled by hand: block returns something a thread asked to fill it
    with, unless an earlier block took it. *)
Record Fills (es : list event) (s : fst_) : Prop := {
  i_ex : forall t, pcs s t = Exchanging -> exists x, OFill x ∈ log s;
  i_sig : forall l1 l2, log s = l1 ++ l2 -> signalled l2 -> exists x, OFill x ∈ l2;
  i_log : forall x, OFill x ∈ log s -> exists t, Begin t (Fill x) ∈ es;
  i_st : forall t x, pcs s t = Storing x -> exists u, Begin u (Fill x) ∈ es
}.
Lemma Fills_more es s e : Fills es s -> Fills (es ++ [e]) s.
Proof.
  intros [A B C D]. constructor; try done.
  - intros x Hx. destruct (C x Hx) as [t Ht]. exists t. apply elem_of_app. by left.
  - intros t x Hx. destruct (D t x Hx) as [u Hu]. exists u. apply elem_of_app. by left.
Qed.
(** [t] goes to [q], saying what [o] has. *)
Lemma Fills_pc es s s' t q o : Fills es s -> (forall u, pcs s' u = q /\ u = t \/ pcs s' u = pcs s u \/ pcs s' u = Loading) ->
  log s' = o ++ log s -> length o <= 1 -> (forall x, q = Storing x -> exists u, Begin u (Fill x) ∈ es) ->
  (q = Exchanging -> exists x, OFill x ∈ log s') -> (forall u, OSignal u ∈ o -> pcs s t = Exchanging) ->
  (forall x, OFill x ∈ o -> exists u, Begin u (Fill x) ∈ es) -> Fills es s'.
Proof.
  intros [A B C D] P L Lo Q1 Q2 O1 O2. constructor.
  - intros u Eu. destruct (P u) as [[E ->]|[E|E]]; rewrite E in Eu; [by apply Q2|destruct (A u Eu) as [x Hx]; exists x; rewrite L; apply elem_of_app; by right|done].
  - rewrite L. intros [|b l1] l2 E Sg.
    + cbn in E. subst l2. destruct Sg as [u [Hu|Hu]%elem_of_app].
      * destruct (A t (O1 u Hu)) as [x Hx]. exists x. apply elem_of_app. by right.
      * destruct (B [] (log s) eq_refl) as [x Hx]; [by exists u|]. exists x. apply elem_of_app. by right.
    + destruct o as [|b' [|]]; [|injection E as <- E|cbn in Lo; lia]; by eapply B.
  - intros x. rewrite L. intros [H|H]%elem_of_app; [by apply O2|by apply C].
  - intros u x Eu. destruct (P u) as [[E ->]|[E|E]]; rewrite E in Eu; [by apply Q1|by apply (D u)|done].
Qed.
Lemma upd_cases {A} (f : nat -> A) t q u : upd f t q u = q /\ u = t \/ upd f t q u = f u.
Proof. unfold upd. destruct (decide (u = t)); auto. Qed.
Lemma Fills_step es s e s' : (forall t, e <> Begin t Signal) -> Fills es s -> step s e = Ok s' -> Fills (es ++ [e]) s'.
Proof.
  intros Ns I S. pose proof (Fills_more _ _ e I) as I'. destruct e as [t c|t|t|t]; cbn [step] in S; [injection S as <-..|].
  - destruct (pcs s t); try done. destruct c as [x| | |]; cbn [begin].
    + destruct (filled s); [done|]. apply (Fills_pc _ _ _ t (Storing x) [] I'); cbn; try done; try lia.
      * intros u. destruct (upd_cases (pcs s) t (Storing x) u); tauto.
      * intros y [= <-]. exists t. apply elem_of_app. right. apply elem_of_list_here.
      * intros u H. by apply elem_of_nil in H.
      * intros u H. by apply elem_of_nil in H.
    + by destruct (Ns t).
    + apply (Fills_pc _ _ _ t Loading [] I'); cbn; try done; try lia; [|intros u H; by apply elem_of_nil in H..]. intros u. destruct (upd_cases (pcs s) t Loading u); tauto.
    + apply (Fills_pc _ _ _ t Asking [] I'); cbn; try done; try lia; [|intros u H; by apply elem_of_nil in H..]. intros u. destruct (upd_cases (pcs s) t Asking u); tauto.
  - unfold micro. destruct (pcs s t) eqn:Et; try done.
    + apply (Fills_pc _ _ _ t Exchanging [OFill x] I'); cbn; try done; try lia.
      * intros u. destruct (upd_cases (pcs s) t Exchanging u); tauto.
      * intros _. exists x. apply elem_of_list_here.
      * intros u H. by apply elem_of_list_singleton in H.
      * intros y H. apply elem_of_list_singleton in H as [= ->]. by apply (i_st _ _ I' t).
    + apply (Fills_pc _ _ _ t Waking [OSignal t] I'); cbn; try done; try lia; [|intros y H; by apply elem_of_list_singleton in H]. intros u. destruct (upd_cases (pcs s) t Waking u); tauto.
    + apply (Fills_pc _ _ _ t Idle [] I'); cbn; try done; try lia; [|intros u H; by apply elem_of_nil in H..].
      intros u. destruct (upd_cases (fun u => match pcs s u with Asleep => Loading | q => q end) t Idle u) as [|E]; [by left|right]. rewrite E. destruct (pcs s u); auto.
    + destruct (flag s =? 0)%Z.
      * apply (Fills_pc _ _ _ t Calling [] I'); cbn; try done; try lia; [|intros u H; by apply elem_of_nil in H..]. intros u. destruct (upd_cases (pcs s) t Calling u); tauto.
      * apply (Fills_pc _ _ _ t Reading [OUnblock t] I'); cbn; try done; try lia; [|intros y H; by apply elem_of_list_singleton in H..]. intros u. destruct (upd_cases (pcs s) t Reading u); tauto.
    + destruct (flag s =? 0)%Z.
      * apply (Fills_pc _ _ _ t Asleep [] I'); cbn; try done; try lia; [|intros u H; by apply elem_of_nil in H..]. intros u. destruct (upd_cases (pcs s) t Asleep u); tauto.
      * apply (Fills_pc _ _ _ t Loading [] I'); cbn; try done; try lia; [|intros u H; by apply elem_of_nil in H..]. intros u. destruct (upd_cases (pcs s) t Loading u); tauto.
    + apply (Fills_pc _ _ _ t Idle [OGot t (value s)] I'); cbn; try done; try lia; [|intros y H; by apply elem_of_list_singleton in H..]. intros u. destruct (upd_cases (pcs s) t Idle u); tauto.
    + apply (Fills_pc _ _ _ t Idle [OReady t (negb (flag s =? 0)%Z)] I'); cbn; try done; try lia; [|intros y H; by apply elem_of_list_singleton in H..]. intros u. destruct (upd_cases (pcs s) t Idle u); tauto.
  - destruct (pcs s t); try done. apply (Fills_pc _ _ _ t Loading [] I'); cbn; try done; try lia; [|intros u H; by apply elem_of_nil in H..]. intros u. destruct (upd_cases (pcs s) t Loading u); tauto.
  - destruct (pcs s t); try done; by injection S as <-.
Qed.
Lemma Fills_run es0 s es s' : (forall t, Begin t Signal ∉ es) -> Fills es0 s -> run s es = Ok s' -> Fills (es0 ++ es) s'.
Proof.
  revert es0 s. induction es as [|e es IH]; intros es0 s N I R; [injection R as <-; by rewrite app_nil_r|]. cbn [run] in R.
  destruct (step s e) as [s1| | |] eqn:E; try done. cbn [mbind res_bind] in R. replace (es0 ++ e :: es) with ((es0 ++ [e]) ++ es) by (by rewrite <- app_assoc).
  apply (IH _ s1); [|eapply Fills_step; [|done|done]|done].
  - intros t H. apply (N t). by apply elem_of_list_further.
  - intros t ->. apply (N t). apply elem_of_list_here.
Qed.
Theorem promise_filled es s l1 t r l2 : (forall u, Begin u Signal ∉ es) -> run fst_init es = Ok s -> log s = l1 ++ OGot t r :: l2 ->
  (forall u q, OGot u q ∉ l2) -> exists x u, r = Some x /\ Begin u (Fill x) ∈ es.
Proof.
  intros N R L Ng.
  assert (Fills [] fst_init) as I0.
  { constructor; cbn; try done.
    - intros l1' l2' E [u H]. destruct l1'; [|done]. cbn in E. subst l2'. by apply elem_of_nil in H.
    - intros x H. by apply elem_of_nil in H. }
  pose proof (Fills_run _ _ _ _ N I0 R) as I. cbn in I.
  destruct (promise_value _ _ _ _ _ _ R L) as (Sg & _ & V). destruct (i_sig _ _ I (l1 ++ [OGot t r]) l2) as [x Hx]; [by rewrite L, <- app_assoc|done|].
  destruct (i_log _ _ I x) as [u Hu]; [rewrite L; apply elem_of_app; right; by apply elem_of_list_further|]. exists x, u. split; [by apply V|done].
Qed.
(** A signal handler that runs while a thread blocks ends the program. *)
Theorem flag_interrupt_refuted : run fst_init [Begin 0 Block; Step 0; Step 0; Interrupt 0] = Die.
Proof. vm_compute. done. Qed.

(** The thread that signals still uses the flag after block() has returned elsewhere: who owns the flag cannot
    know when to destroy it. *)
Theorem flag_destroy_refuted : exists es s, run fst_init es = Ok s /\ log s = [OUnblock 0; OSignal 1] /\ pcs s 1 = Waking.
Proof. exists [Begin 1 Signal; Step 1; Begin 0 Block; Step 0]. eexists. split; [reflexivity|]. by vm_compute. Qed.

(** Two threads block, one asleep and one about to sleep, when a third fills the promise. *)
Definition demo : list event :=
  [Begin 0 Block; Step 0; Step 0; Begin 1 Block; Step 1; Begin 2 (Fill 9); Step 2; Step 2].
Example flag_premises :
  match run fst_init demo with
  | Ok s => pcs s 0 = Asleep /\ pcs s 1 = Calling /\ pcs s 2 = Waking /\ log s = [OSignal 2; OFill 9]
  | _ => False
  end.
Proof. vm_compute. done. Qed.
Example flag_example :
  match run fst_init (demo ++ [Step 1; Step 1; Step 1; Step 2; Step 0; Step 0; Begin 3 Ready; Step 3]) with
  | Ok s => log s = [OReady 3 true; OGot 0 None; OUnblock 0; OGot 1 (Some 9); OUnblock 1; OSignal 2; OFill 9]
  | _ => False
  end.
Proof. vm_compute. done. Qed.
Example flag_quiet : quiet demo.
Proof. intros t H. repeat (apply elem_of_cons in H as [H|H]; [done|]). by apply elem_of_nil in H. Qed.

Print Assumptions flag_runs.
Print Assumptions flag_block_after_signal.
Print Assumptions flag_ready.
Print Assumptions promise_value.
Print Assumptions promise_filled.
Print Assumptions flag_no_lost_wakeup.
Print Assumptions flag_returns.
Print Assumptions flag_undisturbed.
Print Assumptions flag_interrupt_refuted.
Print Assumptions flag_destroy_refuted.
