(** C86, continued: names of threads that come back do no harm, on POSIX and on Windows. *)
From stdpp Require Import gmap.
From Verif Require Import Base ThreadModel ThreadSpec ThreadProps ThreadNamesModel ThreadNamesSpec.

(** [s] with names is [b] without. *)
Record sim (o : os) (s : nst) (b : st) : Prop := {
  m_thr : nthr s = thr b;
  m_log : nlog s = log b;
  m_var : forall v, match nvars s !! v, vars b !! v with
                    | Some h, Some (Some t) => h <> 0%Z /\ opn s !! h = Some t
                    | Some h, Some None => h = 0%Z
                    | None, None => True
                    | _, _ => False
                    end;
  m_opn : forall h t, opn s !! h = Some t -> h <> 0%Z /\ h <> INVALID /\ (exists x, nthr s !! t = Some (x, Joinable)) /\
    (o = Posix -> tids s !! t = Some h);
  m_inj : forall h h' t, opn s !! h = Some t -> opn s !! h' = Some t -> h = h';
  m_tid : forall t, in_use s t -> is_Some (tids s !! t);
  m_ids : forall t t' i, in_use s t -> in_use s t' -> tids s !! t = Some i -> tids s !! t' = Some i -> t = t';
  m_zero : nthr s !! 0 = None
}.
Lemma opn_in_use o s b h t : sim o s b -> opn s !! h = Some t -> in_use s t.
Proof. intros M E. destruct (m_opn _ _ _ M _ _ E) as (_ & _ & [x Hx] & _). right. exists x, Joinable. auto. Qed.
Lemma active_in_use a s : n_active a s = true -> in_use s a.
Proof.
  unfold n_active, in_use. destruct (decide (a = 0)) as [->|N]; [by left|]. rewrite bool_decide_eq_false_2 by done. cbn.
  destruct (nthr s !! a) as [[[] h]|]; try done. intros _. right. eexists _, _. split; [done|]. by left.
Qed.
(** The assertion against joining oneself fails exactly when one does. *)
Lemma self_check o s b a h t : sim o s b -> n_active a s = true -> opn s !! h = Some t ->
  (exists i, sys_id o h s = Ok i /\ (i =? this_id a s)%Z = bool_decide (a = t) /\ (o = Posix -> i = h)).
Proof.
  intros M A E. pose proof (opn_in_use _ _ _ _ _ M E) as U. pose proof (active_in_use _ _ A) as V.
  destruct (m_tid _ _ _ M _ U) as [i Hi]. destruct (m_tid _ _ _ M _ V) as [j Hj].
  destruct (m_opn _ _ _ M _ _ E) as (N0 & NI & _ & P).
  exists i. assert ((i =? this_id a s)%Z = bool_decide (a = t)) as Q.
  { unfold this_id. rewrite Hj. cbn. destruct (Z.eqb_spec i j) as [->|N].
    - rewrite bool_decide_eq_true_2; [done|]. by eapply (m_ids _ _ _ M).
    - rewrite bool_decide_eq_false_2; [done|]. intros ->. congruence. }
  destruct o; unfold sys_id.
  - specialize (P eq_refl). assert (i = h) as -> by congruence. done.
  - apply Z.eqb_neq in NI. rewrite NI. cbn. rewrite E, Hi. cbn. done.
Qed.
(** The system's part of joining and detaching is that of ThreadModel. *)
Lemma sys_join_sim o s b a h t : sim o s b -> n_active a s = true -> opn s !! h = Some t ->
  n_sys_join o a h s =
    (assert_ (negb (bool_decide (a = t)));;
     match nthr s !! t with
     | Some (Exited, _) => Ok (Some (n_say (OJoin a t) (n_thr t (Exited, Joined) (n_close h s))))
     | _ => Ok None
     end).
Proof.
  intros M A E. destruct (self_check _ _ _ _ _ _ M A E) as (i & S & C & P).
  destruct (m_opn _ _ _ M _ _ E) as (N0 & NI & _ & _). unfold n_sys_join. destruct o.
  - specialize (P eq_refl) as ->. apply Z.eqb_neq in N0. rewrite N0, E, Z.eqb_sym, C. done.
  - rewrite S. cbn [mbind res_bind]. rewrite C. apply Z.eqb_neq in NI. rewrite NI, E. done.
Qed.
Lemma in_use_less s s' t : (forall u b h, nthr s' !! u = Some (b, h) -> exists b' h', nthr s !! u = Some (b', h') /\ ((b <> Exited \/ h = Joinable) -> (b' <> Exited \/ h' = Joinable))) ->
  in_use s' t -> in_use s t.
Proof. intros H [->|(b & h & E & U)]; [by left|]. destruct (H _ _ _ E) as (b' & h' & E' & U'). right. exists b', h'. auto. Qed.
(** A thread goes on, or is let go. *)
Lemma sim_thr o s b t x y p : sim o s b -> nthr s !! t = Some x -> (x.2 = y.2) -> (y.1 <> Exited -> x.1 <> Exited) ->
  sim o (n_say p (n_thr t y s)) (say p (set_thr t y b)).
Proof.
  intros M E H1 H2. destruct x as [xb xh], y as [yb yh]. cbn in H1, H2. subst yh.
  assert (forall u, in_use (n_say p (n_thr t (yb, xh) s)) u -> in_use s u) as L.
  { intros u. apply in_use_less. intros v b' h'. cbn. destruct (decide (v = t)) as [->|N].
    - rewrite lookup_insert. intros [= <- <-]. exists xb, xh. split; [done|]. tauto.
    - rewrite lookup_insert_ne by done. intros ?. eauto. }
  destruct M as [M1 M2 M3 M4 M5 M6 M7 M8]. split; cbn; try done.
  - by rewrite M1.
  - by rewrite M2.
  - intros h u Hu. destruct (M4 h u Hu) as (A & B & [z C] & D). split_and!; try done.
    destruct (decide (u = t)) as [->|N]; [rewrite lookup_insert|rewrite lookup_insert_ne by done]; [|eauto].
    rewrite E in C. injection C as -> ->. eauto.
  - intros u U. apply M6. by apply L.
  - intros u u' i U U'. apply M7; by apply L.
  - rewrite lookup_insert_ne; [done|]. intros ->. by rewrite E in M8.
Qed.

(** The thread that [v] has is joined or detached, and [v] is empty afterwards. *)
Lemma sim_let_go o s b v h t bd hn p : sim o s b -> inv b -> nvars s !! v = Some h -> vars b !! v = Some (Some t) -> opn s !! h = Some t ->
  thr b !! t = Some (bd, Joinable) -> hn <> Joinable ->
  sim o (n_set v 0%Z (n_say p (n_thr t (bd, hn) (n_close h s)))) (set_var v None (say p (set_thr t (bd, hn) b))).
Proof.
  intros M I Hn Hb Ho Ht Hh.
  assert (forall u, in_use (n_set v 0%Z (n_say p (n_thr t (bd, hn) (n_close h s)))) u -> in_use s u) as L.
  { intros u. apply in_use_less. intros w b' h'. cbn. destruct (decide (w = t)) as [->|N].
    - rewrite lookup_insert. intros [= <- <-]. exists bd, Joinable. rewrite (m_thr _ _ _ M). auto.
    - rewrite lookup_insert_ne by done. eauto. }
  destruct M as [M1 M2 M3 M4 M5 M6 M7 M8]. split; cbn; try done.
  - by rewrite M1.
  - by rewrite M2.
  - intros w. destruct (decide (w = v)) as [->|N]; [by rewrite !lookup_insert|]. rewrite !lookup_insert_ne by done.
    specialize (M3 w). destruct (nvars s !! w) as [h'|], (vars b !! w) as [[t'|]|] eqn:W; try done.
    destruct M3 as [? E]. split; [done|]. rewrite lookup_delete_ne; [done|]. intros ->.
    rewrite Ho in E. injection E as <-. apply N. by eapply (i_one _ I).
  - intros k u Hu. rewrite lookup_delete_Some in Hu. destruct Hu as [Nk Hu]. destruct (M4 k u Hu) as (A & B & [z C] & D). split_and!; try done.
    rewrite lookup_insert_ne; [eauto|]. intros ->. apply Nk. by eapply M5.
  - intros k k' u. rewrite !lookup_delete_Some. intros [_ ?] [_ ?]. by eapply M5.
  - intros u U. apply M6. by apply L.
  - intros u u' i U U'. apply M7; by apply L.
  - rewrite lookup_insert_ne; [done|]. intros ->. rewrite M1 in M8. by rewrite Ht in M8.
Qed.
Lemma sim_set_null o s b v : sim o s b -> nvars s !! v = None -> sim o (n_set v 0%Z s) (set_var v None b).
Proof.
  intros [M1 M2 M3 M4 M5 M6 M7 M8] N. split; cbn; try done. intros w. destruct (decide (w = v)) as [->|Nw]; [by rewrite !lookup_insert|].
  rewrite !lookup_insert_ne by done. apply M3.
Qed.
Lemma sim_delete o s b v : sim o s b -> sim o (NSt (nthr s) (delete v (nvars s)) (opn s) (tids s) (nlog s)) (St (thr b) (delete v (vars b)) (log b)).
Proof.
  intros [M1 M2 M3 M4 M5 M6 M7 M8]. split; cbn; try done. intros w. destruct (decide (w = v)) as [->|Nw]; [by rewrite !lookup_delete|].
  rewrite !lookup_delete_ne by done. apply M3.
Qed.
Lemma sim_take o s b v w : sim o s b -> n_exists s w ->
  exists s' b', n_take v w s = Ok s' /\ take_thread v w b = Ok b' /\ sim o s' b'.
Proof.
  intros M [h Hh]. pose proof (m_var _ _ _ M w) as V. rewrite Hh in V. destruct (vars b !! w) as [x|] eqn:E; [|done].
  unfold n_take, n_get, take_thread, get_var. rewrite Hh, E. cbn [mbind res_bind]. do 2 eexists. split; [done|]. split; [done|].
  destruct M as [M1 M2 M3 M4 M5 M6 M7 M8]. split; cbn; try done. intros u. destruct (decide (u = w)) as [->|Nw]; [by rewrite !lookup_insert|].
  rewrite !(lookup_insert_ne _ w) by done. destruct (decide (u = v)) as [->|Nv]; [by rewrite !lookup_insert|].
  rewrite !lookup_insert_ne by done. apply M3.
Qed.
(** Results with names and without. *)
Definition same (o : os) (x : res nst) (y : res st) : Prop :=
  match x, y with Ok s, Ok b => sim o s b | Die, Die => True | _, _ => False end.
Definition same_opt (o : os) (x : res (option nst)) (y : res (option st)) : Prop :=
  match x, y with Ok (Some s), Ok (Some b) => sim o s b | Ok None, Ok None => True | Die, Die => True | _, _ => False end.
Lemma join_sim o s b a v : sim o s b -> inv b -> n_active a s = true -> n_exists s v ->
  same_opt o (n_join o a v s) (join a v b) /\ (forall s', n_join o a v s = Ok (Some s') -> nvars s' = <[v := 0%Z]> (nvars s)).
Proof.
  intros M I A [h Hh]. pose proof (m_var _ _ _ M v) as V. rewrite Hh in V. unfold n_join, join, n_get, get_var. rewrite Hh.
  destruct (vars b !! v) as [[t|]|] eqn:E; [| |done].
  - destruct V as [V0 Vo]. cbn [mbind res_bind]. apply Z.eqb_neq in V0. rewrite V0. cbn [negb].
    rewrite (sys_join_sim _ _ _ _ _ _ M A Vo). unfold sys_join. rewrite <- (m_thr _ _ _ M). destruct (bool_decide (a = t)); [done|]. cbn.
    destruct (i_var _ I _ _ E) as [bd Ht]. pose proof Ht as Ht'. rewrite <- (m_thr _ _ _ M) in Ht. rewrite Ht. destruct bd; cbn; try done.
    split; [by eapply sim_let_go|]. intros s' [= <-]. done.
  - subst h. done.
Qed.
Lemma destruct_sim o s b a v : sim o s b -> inv b -> n_active a s = true -> n_exists s v ->
  same_opt o (n_destruct o a v s) (destruct_thread a v b) /\ (forall s', n_destruct o a v s = Ok (Some s') -> forall w, n_exists s w -> n_exists s' w).
Proof.
  intros M I A X. destruct (join_sim o s b a v M I A X) as [J1 J2]. destruct X as [h Hh]. pose proof (m_var _ _ _ M v) as V. rewrite Hh in V.
  unfold n_destruct, destruct_thread, n_get, get_var. rewrite Hh. cbn [mbind res_bind].
  destruct (vars b !! v) as [[t|]|] eqn:E; [| |done].
  - destruct V as [V0 Vo]. apply Z.eqb_neq in V0. rewrite V0. cbn [mbind res_bind]. split; [done|]. intros s' Hs w W.
    unfold n_exists. rewrite (J2 _ Hs). destruct (decide (w = v)) as [->|N]; [by rewrite lookup_insert|by rewrite lookup_insert_ne].
  - subst h. cbn. split; [done|]. by intros s' [= <-].
Qed.
Lemma active_same o s b a : sim o s b -> active a b = n_active a s.
Proof. intros M. unfold active, n_active. by rewrite (m_thr _ _ _ M). Qed.
Lemma fresh_same o s b : sim o s b -> fresh_id b = n_fresh s.
Proof. intros M. unfold fresh_id, n_fresh. by rewrite (m_thr _ _ _ M). Qed.
Lemma sim_start o s b a v h i : sim o s b -> nvars s !! v = None -> good_choice o s h i -> let t := n_fresh s in
  sim o (NSt (<[t := (Born, Joinable)]> (nthr s)) (<[v := h]> (nvars s)) (<[h := t]> (opn s)) (<[t := i]> (tids s)) (OStart a t :: nlog s))
        (set_var v (Some t) (say (OStart a t) (set_thr t (Born, Joinable) b))).
Proof.
  intros M N (H0 & HI & Ho & Hi & HP) t.
  assert (nthr s !! t = None) as Ft. { unfold t. rewrite <- (fresh_same _ _ _ M), (m_thr _ _ _ M). apply fresh_ok. }
  assert (t <> 0) as T0 by (unfold t, n_fresh; lia).
  assert (forall u, u <> t -> in_use (NSt (<[t := (Born, Joinable)]> (nthr s)) (<[v := h]> (nvars s)) (<[h := t]> (opn s)) (<[t := i]> (tids s)) (OStart a t :: nlog s)) u -> in_use s u) as L.
  { intros u Nu [->|(bd & hn & E & U)]; [by left|]. cbn in E. rewrite lookup_insert_ne in E by done. right. eauto. }
  clearbody t. destruct M as [M1 M2 M3 M4 M5 M6 M7 M8]. split; cbn.
  - by rewrite M1.
  - by rewrite M2.
  - intros w. destruct (decide (w = v)) as [->|Nw]; [rewrite !lookup_insert; done|]. rewrite !(lookup_insert_ne _ v) by done.
    specialize (M3 w). destruct (nvars s !! w) as [h'|], (vars b !! w) as [[t'|]|]; try done.
    destruct M3 as [? E]. split; [done|]. rewrite lookup_insert_ne; [done|]. intros ->. congruence.
  - intros k u. rewrite lookup_insert_Some. intros [[<- <-]|[Nk Hu]].
    + split_and!; try done; [eexists; apply lookup_insert|]. intros ->. rewrite lookup_insert. congruence.
    + destruct (M4 k u Hu) as (A & B & [z C] & D). assert (u <> t) by congruence. rewrite !lookup_insert_ne by done. split_and!; eauto.
  - intros k k' u. rewrite !lookup_insert_Some. intros [[<- <-]|[Nk Hu]] [[<- Eu]|[Nk' Hu']]; try done.
    + destruct (M4 _ _ Hu') as (_ & _ & [z C] & _). congruence.
    + subst u. destruct (M4 _ _ Hu) as (_ & _ & [z C] & _). congruence.
    + by eapply M5.
  - intros u U. destruct (decide (u = t)) as [->|Nu]; [rewrite lookup_insert; eauto|]. rewrite lookup_insert_ne by done. apply M6. by apply L.
  - intros u u' j U U'. destruct (decide (u = t)) as [->|Nu], (decide (u' = t)) as [->|Nu']; try done.
    + rewrite lookup_insert, lookup_insert_ne by done. intros [= <-] E. destruct (Hi u'); [by apply L|done].
    + rewrite lookup_insert, lookup_insert_ne by done. intros E [= <-]. destruct (Hi u); [by apply L|done].
    + rewrite !lookup_insert_ne by done. apply M7; by apply L.
  - by rewrite lookup_insert_ne.
Qed.
Lemma step_sim o s b e : sim o s b -> inv b -> n_allowed o s e -> same o (nstep o s e) (step b (nameless e)).
Proof.
  intros M I H. destruct e as [a v c|[a p|t|t]]; cbn [nameless nstep step].
  - rewrite (active_same _ _ _ _ M). destruct (n_active a s); [|done]. cbn [do_op]. destruct H as [N C].
    assert (nvars s !! v = None) as Nv. { destruct (nvars s !! v) eqn:E; [|done]. destruct N. by eexists. }
    pose proof (m_var _ _ _ M v) as V. rewrite Nv in *. destruct (vars b !! v); [done|].
    destruct c as [[h i]|]; [|done]. cbv iota beta. rewrite (fresh_same _ _ _ M). by apply sim_start.
  - rewrite (active_same _ _ _ _ M). destruct (n_active a s) eqn:A; [|done].
    assert (forall v, ~ n_exists s v -> nvars s !! v = None /\ vars b !! v = None) as NE.
    { intros v N. pose proof (m_var _ _ _ M v) as V. destruct (nvars s !! v) eqn:E; [destruct N; by eexists|]. by destruct (vars b !! v). }
    destruct p as [v|v g|v w|v w|v|v|v|v]; cbn [n_allowed] in H; cbn [n_op do_op].
    + destruct (NE v H) as [N1 N2]. rewrite N1, N2. by apply sim_set_null.
    + done.
    + destruct H as [H1 H2]. destruct (NE v H1) as [N1 N2]. rewrite N1, N2. destruct (sim_take o s b v w M H2) as (s' & b' & -> & -> & M'). done.
    + destruct H as [H1 H2]. destruct (destruct_sim o s b a v M I A H1) as [D1 D2]. unfold same_opt in D1.
      destruct (n_destruct o a v s) as [[s'|]| | |], (destruct_thread a v b) as [[b'|]| | |]; try done.
      cbn [mbind res_bind]. destruct (sim_take o s' b' v w D1) as (s2 & b2 & -> & -> & M'); [by eapply D2|done].
    + destruct (join_sim o s b a v M I A H) as [J _]. unfold same_opt in J.
      destruct (n_join o a v s) as [[s'|]| | |], (join a v b) as [[b'|]| | |]; done.
    + destruct H as [h Hh]. pose proof (m_var _ _ _ M v) as V. rewrite Hh in V. unfold n_get, get_var. rewrite Hh.
      destruct (vars b !! v) as [[t|]|] eqn:E; [| |done].
      * destruct V as [V0 Vo]. cbn [mbind res_bind]. destruct (m_opn _ _ _ M _ _ Vo) as (_ & NI & _). destruct (i_var _ I _ _ E) as [bd Ht].
        assert ((h =? match o with Posix => 0%Z | W32 => INVALID end)%Z = false) as Nn by (destruct o; by apply Z.eqb_neq).
        apply Z.eqb_neq in V0. rewrite V0. unfold n_sys_detach, sys_detach. rewrite Nn, Vo, (m_thr _ _ _ M), Ht. cbn. by eapply sim_let_go.
      * subst h. done.
    + destruct H as [h Hh]. pose proof (m_var _ _ _ M v) as V. rewrite Hh in V. unfold n_get, get_var. rewrite Hh.
      destruct (vars b !! v) as [[t|]|] eqn:E; [| |done].
      * destruct V as [V0 Vo]. cbn [mbind res_bind]. apply Z.eqb_neq in V0. rewrite V0. cbn.
        destruct (self_check _ _ _ _ _ _ M A Vo) as (i & -> & _). done.
      * subst h. done.
    + destruct (destruct_sim o s b a v M I A H) as [D1 _]. unfold same_opt in D1.
      destruct (n_destruct o a v s) as [[s'|]| | |], (destruct_thread a v b) as [[b'|]| | |]; try done. cbn. by apply sim_delete.
  - rewrite <- (m_thr _ _ _ M). destruct (nthr s !! t) as [[[] hn]|] eqn:E; try done. cbn. eapply sim_thr; [done|exact E|done|done].
  - rewrite <- (m_thr _ _ _ M). destruct (nthr s !! t) as [[[] hn]|] eqn:E; try done; cbn; (eapply sim_thr; [done|exact E|done|done]).
Qed.
Lemma allowed_valid o s b e : sim o s b -> n_allowed o s e -> match nameless e with Op a p => valid_op b p | _ => True end.
Proof.
  intros M H. assert (forall v, n_exists s v <-> exists_var b v) as X.
  { intros v. pose proof (m_var _ _ _ M v) as V. unfold n_exists, exists_var. destruct (nvars s !! v), (vars b !! v) as [[]|]; split; intros [? ?]; try done; by eexists. }
  destruct e as [a v c|[a []|t|t]]; cbn in *; rewrite <- ?X; tauto.
Qed.
Lemma run_sim o l : forall s b, sim o s b -> inv b -> n_valid o s l ->
  valid b (nameless <$> l) /\ same o (nrun o s l) (run b (nameless <$> l)).
Proof.
  induction l as [|e l IH]; intros s b M I V; [done|]. destruct V as [Ha V]. cbn [nrun run fmap list_fmap valid].
  pose proof (step_sim o s b e M I Ha) as S. pose proof (allowed_valid o s b e M Ha) as W. pose proof (step_ok b (nameless e) I W) as K.
  unfold same in S. destruct (nstep o s e) as [s'| | |], (step b (nameless e)) as [b'| | |]; try done.
  destruct (IH s' b' S K V) as [V' S']. split; [done|]. done.
Qed.
Lemma sim_init o main : sim o (ninit main) init.
Proof.
  assert (forall t, in_use (ninit main) t -> t = 0) as U. { intros t [->|(b & h & E & _)]; [done|]. cbn in E. by rewrite lookup_empty in E. }
  split; cbn; try done.
  - intros t ->%U. unfold ninit; cbn [tids]; eexists; reflexivity.
  - intros t t' i ->%U ->%U. done.
Qed.

(** C86.  Whatever names and ids the system chooses, and whenever it uses them again, the program runs as it would if
    every thread had a name of its own for ever: the same things happen, and it stops in the same places. *)
Theorem thread_names_reused : forall o main l, n_valid o (ninit main) l ->
  valid init (nameless <$> l) /\
  match nrun o (ninit main) l, run init (nameless <$> l) with
  | Ok s, Ok b => nlog s = log b /\ dom (nvars s) = dom (vars b)
  | Die, Die => True
  | _, _ => False
  end.
Proof.
  intros o main l V. destruct (run_sim o l _ _ (sim_init o main) inv_init V) as [W S]. split; [done|].
  unfold same in S. destruct (nrun o (ninit main) l) as [s| | |], (run init (nameless <$> l)) as [b| | |]; try done.
  split; [apply (m_log _ _ _ S)|]. apply set_eq. intros v. rewrite !elem_of_dom. pose proof (m_var _ _ _ S v) as X.
  destruct (nvars s !! v), (vars b !! v) as [[]|]; split; intros [? ?]; try done; by eexists.
Qed.
(** In particular no handle is used after it was closed, nothing is undefined, functions are called and destroyed once,
    and only misuse ends the program. *)
Theorem thread_names_safe : forall o main l, n_valid o (ninit main) l ->
  match nrun o (ninit main) l with
  | Ok s => honest (nlog s) /\ NoDup (nlog s)
  | Die => exists l1 e l2 b, nameless <$> l = l1 ++ e :: l2 /\ run init l1 = Ok b /\ misuse b e
  | _ => False
  end.
Proof.
  intros o main l V. destruct (thread_names_reused o main l V) as [W S]. pose proof (thread_safe _ W) as T.
  destruct (nrun o (ninit main) l) as [s| | |], (run init (nameless <$> l)) as [b| | |] eqn:R; try done.
  destruct S as [-> _]. split; [done|]. by destruct (thread_once _ _ W R).
Qed.
(** Two Thread objects that have threads have different ids, both different from main's. *)
Theorem thread_ids_distinct : forall o main l s v w h k i j, n_valid o (ninit main) l -> nrun o (ninit main) l = Ok s ->
  nvars s !! v = Some h -> nvars s !! w = Some k -> h <> 0%Z -> k <> 0%Z -> v <> w ->
  sys_id o h s = Ok i -> sys_id o k s = Ok j -> i <> j /\ i <> this_id 0 s.
Proof.
  intros o main l s v w h k i j V R Hv Hw Nh Nk N Hi Hj.
  destruct (run_sim o l _ _ (sim_init o main) inv_init V) as [W S]. rewrite R in S. unfold same in S.
  destruct (run init (nameless <$> l)) as [b| | |] eqn:Rb; try done. pose proof (reachable _ _ W Rb) as I.
  pose proof (m_var _ _ _ S v) as X. pose proof (m_var _ _ _ S w) as Y. rewrite Hv in X. rewrite Hw in Y.
  destruct (vars b !! v) as [[t|]|] eqn:Ev; [|done|done]. destruct (vars b !! w) as [[u|]|] eqn:Ew; [|done|done].
  destruct X as [_ X], Y as [_ Y]. assert (t <> u) as Ntu by (intros ->; apply N; by eapply (i_one _ I)).
  pose proof (opn_in_use _ _ _ _ _ S X) as Ut. pose proof (opn_in_use _ _ _ _ _ S Y) as Uu.
  assert (forall g x y, opn s !! g = Some x -> sys_id o g s = Ok y -> tids s !! x = Some y) as G.
  { intros g x y E F. destruct (m_opn _ _ _ S _ _ E) as (_ & NI & _ & P). unfold sys_id in F. destruct o.
    - injection F as <-. by apply P.
    - apply Z.eqb_neq in NI. rewrite NI in F. cbn in F. rewrite E in F. injection F as <-.
      destruct (m_tid _ _ _ S x) as [z ->]; [by eapply opn_in_use|done]. }
  pose proof (G _ _ _ X Hi) as Ti. pose proof (G _ _ _ Y Hj) as Tj. split.
  - intros <-. apply Ntu. by eapply (m_ids _ _ _ S).
  - assert (in_use s 0) as U0 by (by left). destruct (m_tid _ _ _ S 0 U0) as [z Hz]. unfold this_id. rewrite Hz. cbn. intros ->.
    assert (t = 0) as -> by (by eapply (m_ids _ _ _ S)). destruct (i_var _ I _ _ Ev) as [bd Ht]. rewrite <- (m_thr _ _ _ S), (m_zero _ _ _ S) in Ht. done.
Qed.
(** A program in which a handle and an id come back. *)
Definition reuse (h i : Z) : list nevent :=
  [NStart 0 1 (Some (h, i)); Other (Run 1); Other (Op 0 (Join 1)); Other (Return 1); Other (Run 1); Other (Run 1); Other (Op 0 (Join 1));
   NStart 0 2 (Some (h, i)); Other (Op 0 (Drop 1)); Other (Op 0 (GetId 2)); Other (Op 0 (Detach 2)); Other (Run 2)].
Example reuse_ex : n_valid W32 (ninit 77) (reuse 4 99) /\
  match nrun W32 (ninit 77) (reuse 4 99) with Ok s => nlog s = [OCall 2; ODetach 0 2; OStart 0 2; OJoin 0 1; OFree 1; ODestroy 1; OReturn 1; OCall 1; OStart 0 1] | _ => False end.
Proof.
  split; [|by vm_compute].
  assert (forall o s h i, match nthr s !! 0 with Some _ => False | None => True end -> h <> 0%Z -> h <> INVALID -> opn s !! h = None -> tids s !! 0 <> Some i ->
    (forall t x, nthr s !! t = Some x -> x = (Exited, Joined)) -> match o with Posix => i = h | W32 => i <> 0%Z end -> good_choice o s h i) as G.
  { intros o s h i _ A B C D E F. split_and!; try done. intros t [->|(bd & hn & X & U)]; [done|]. apply E in X. injection X as -> ->. by destruct U. }
  unfold reuse. cbn [n_valid n_allowed].
  repeat (match goal with |- _ /\ _ => split | |- match nstep ?o ?s ?e with _ => _ end => let r := eval vm_compute in (nstep o s e) in change (nstep o s e) with r; cbv iota; cbn [n_valid n_allowed] end);
    try exact Logic.I; try (by eexists; vm_compute); try (intros [x Hx]; by vm_compute in Hx).
  all: apply G; try done.
  all: intros t x Hx; apply elem_of_map_to_list in Hx; revert Hx.
  - match goal with |- _ ∈ ?l -> _ => let r := eval vm_compute in l in change l with r end. intros Hx. apply elem_of_list_singleton in Hx. by injection Hx.
Qed.
Print Assumptions thread_names_reused.
Print Assumptions thread_names_safe.
Print Assumptions thread_ids_distinct.
