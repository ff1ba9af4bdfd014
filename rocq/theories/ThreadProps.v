(** C86: threads. *)
From stdpp Require Import gmap.
From Verif Require Import Base ThreadModel ThreadSpec.

Definition subject (o : obs) : nat :=
  match o with OStart _ t | OCall t | OReturn t | ODestroy t | OFree t | OJoin _ t | ODetach _ t => t end.
Definition rank (b : body) : nat := match b with Born => 0 | InBody => 1 | Returned => 2 | Destroyed => 3 | Exited => 4 end.
Definition known (t : nat) (b : body) (h : handle) (l : list obs) : Prop :=
  t <> 0 /\ (exists a, OStart a t ∈ l) /\ (OCall t ∈ l <-> 1 <= rank b) /\ (OReturn t ∈ l <-> 2 <= rank b) /\
  (ODestroy t ∈ l <-> 3 <= rank b) /\ (OFree t ∈ l <-> 4 <= rank b) /\ (let_go t l <-> h <> Joinable).
Record inv (s : st) : Prop := {
  i_hon : honest (log s);
  i_var : forall v t, vars s !! v = Some (Some t) -> exists b, thr s !! t = Some (b, Joinable);
  i_one : forall v1 v2 t, vars s !! v1 = Some (Some t) -> vars s !! v2 = Some (Some t) -> v1 = v2;
  i_held : forall t b, thr s !! t = Some (b, Joinable) -> exists v, vars s !! v = Some (Some t);
  i_thr : forall t b h, thr s !! t = Some (b, h) -> known t b h (log s);
  i_new : forall o, o ∈ log s -> thr s !! subject o <> None;
  i_join : forall t b h, thr s !! t = Some (b, h) -> h = Joined -> b = Exited }.
Lemma inv_init : inv init.
Proof.
  split; unfold init; cbn; try done; intros; repeat match goal with
    | HH : ∅ !! _ = _ |- _ => by rewrite lookup_empty in HH
    | HH : _ ∈ [] |- _ => by apply elem_of_nil in HH end.
Qed.
Lemma let_go_cons t o l : let_go t (o :: l) <-> let_go t l \/ exists a, o = OJoin a t \/ o = ODetach a t.
Proof.
  unfold let_go. split.
  - intros [a [H|H]]; apply elem_of_cons in H as [<-|H]; eauto 6.
  - intros [[a [H|H]]|[a [->| ->]]]; exists a; [left|right|left|right]; try (by apply elem_of_list_further); apply elem_of_list_here.
Qed.
Lemma known_cons_ne t b h o l : known t b h l -> subject o <> t -> known t b h (o :: l).
Proof.
  intros (H0 & [a Ha] & H1 & H2 & H3 & H4 & H5) N. unfold known. rewrite let_go_cons, !elem_of_cons. split; [done|]. split; [exists a; by apply elem_of_list_further|].
  split_and!; try (rewrite <- H1 || rewrite <- H2 || rewrite <- H3 || rewrite <- H4 || rewrite <- H5); split; intros Hx; try (by right); try (by left).
  all: try (destruct Hx as [Hx|Hx]; [subst o; cbn in N; done|done]). destruct Hx as [Hx|(a' & [->| ->])]; [done|cbn in N; done|cbn in N; done].
Qed.
Ltac know := unfold known; rewrite ?let_go_cons, ?elem_of_cons.
(** A change of one thread that comes with one entry of the log. *)
Lemma inv_say s t b h b' h' o : inv s -> thr s !! t = Some (b, h) -> subject o = t -> known t b' h' (o :: log s) ->
  honest (o :: log s) -> (h' = Joined -> b' = Exited) -> h = h' -> inv (say o (set_thr t (b', h') s)).
Proof.
  intros [Ih Iv Io Ih2 It In Ij] E So K Hn J ->. split; cbn.
  - done.
  - intros v t'. intros Ev. destruct (Iv _ _ Ev) as [b0 E0]. destruct (decide (t' = t)) as [->|N]; [rewrite lookup_insert; rewrite E in E0; injection E0 as -> ->; eauto|]. rewrite lookup_insert_ne by done. eauto.
  - apply Io.
  - intros t' b0. destruct (decide (t' = t)) as [->|N]; [rewrite lookup_insert; intros [= -> ->]; eapply Ih2; done|]. rewrite lookup_insert_ne by done. apply Ih2.
  - intros t' b0 h0. destruct (decide (t' = t)) as [->|N]; [rewrite lookup_insert; intros [= -> ->]; done|]. rewrite lookup_insert_ne by done. intros E0. apply known_cons_ne; [by apply It|congruence].
  - intros o' Ho. destruct (decide (subject o' = t)) as [->|N]; [by rewrite lookup_insert|]. rewrite lookup_insert_ne by done. apply elem_of_cons in Ho as [->|Ho]; [done|]. by apply In.
  - intros t' b0 h0. destruct (decide (t' = t)) as [->|N]; [rewrite lookup_insert; intros [= -> ->]; done|]. rewrite lookup_insert_ne by done. apply Ij.
Qed.
(** A handle is given up: its variable is empty from then on. *)
Lemma inv_release s t v b h' o : inv s -> vars s !! v = Some (Some t) -> thr s !! t = Some (b, Joinable) -> subject o = t -> known t b h' (o :: log s) ->
  honest (o :: log s) -> (h' = Joined -> b = Exited) -> h' <> Joinable -> inv (set_var v None (say o (set_thr t (b, h') s))).
Proof.
  intros [Ih Iv Io Ih2 It In Ij] Ev E So K Hn J Nj. split; cbn.
  - done.
  - intros v1 t1. destruct (decide (v1 = v)) as [->|N]; [by rewrite lookup_insert|]. rewrite lookup_insert_ne by done. intros E1.
    assert (t1 <> t) by (intros ->; apply N; apply (Io v1 v t); done). rewrite lookup_insert_ne by done. apply (Iv v1); done.
  - intros v1 v2 t1. destruct (decide (v1 = v)) as [->|N1]; [by rewrite lookup_insert|]. destruct (decide (v2 = v)) as [->|N2]; [by rewrite lookup_insert|]. rewrite !lookup_insert_ne by done. apply Io.
  - intros t1 b1. destruct (decide (t1 = t)) as [->|N]; [rewrite lookup_insert; congruence|]. rewrite lookup_insert_ne by done. intros E1. destruct (Ih2 _ _ E1) as [v1 Ev1]. exists v1. rewrite lookup_insert_ne; [done|]. congruence.
  - intros t1 b1 h1. destruct (decide (t1 = t)) as [->|N]; [rewrite lookup_insert; intros [= -> ->]; done|]. rewrite lookup_insert_ne by done. intros E0. apply known_cons_ne; [by apply It|congruence].
  - intros o' Ho. destruct (decide (subject o' = t)) as [->|N]; [by rewrite lookup_insert|]. rewrite lookup_insert_ne by done. apply elem_of_cons in Ho as [->|Ho]; [done|]. by apply In.
  - intros t1 b1 h1. destruct (decide (t1 = t)) as [->|N]; [rewrite lookup_insert; intros [= -> ->]; done|]. rewrite lookup_insert_ne by done. apply Ij.
Qed.
Lemma inv_join s a t v : inv s -> vars s !! v = Some (Some t) -> a <> t ->
  match sys_join a t s with Ok (Some s') => inv (set_var v None s') /\ vars s' = vars s | Ok None => True | _ => False end.
Proof.
  intros I Ev Na. unfold sys_join. rewrite bool_decide_false by done. cbn. destruct (i_var _ I _ _ Ev) as [b E]. rewrite E. destruct b; try exact Logic.I. split; [|done].
  destruct (i_thr _ I _ _ _ E) as (H0 & [a0 Ha] & H1 & H2 & H3 & H4 & H5). eapply inv_release; try done.
  - know. cbn in *. split; [done|]. split; [exists a0; by apply elem_of_list_further|]. rewrite H1, H2, H3, H4, H5. split_and!; split; try done; try lia; try (intros _; right; lia). intros _. right. eauto.
  - cbn. split; [apply (i_hon _ I)|]. split; [done|]. split; [apply H4; cbn; lia|]. rewrite H5. intros Hf. by apply Hf.
Qed.
Lemma inv_delete s v : inv s -> vars s !! v = Some None \/ vars s !! v = None -> inv (St (thr s) (delete v (vars s)) (log s)).
Proof.
  intros [Ih Iv Io Ih2 It In Ij] Ev. split; cbn; try done.
  - intros v1 t1 H. apply lookup_delete_Some in H as [_ H]. eauto.
  - intros v1 v2 t1 A B. apply lookup_delete_Some in A as [_ A], B as [_ B]. eauto.
  - intros t1 b1 H. destruct (Ih2 _ _ H) as [v1 E1]. exists v1. rewrite lookup_delete_ne; [done|]. intros <-. destruct Ev; congruence.
Qed.
Lemma inv_empty s v : inv s -> vars s !! v = None -> inv (set_var v None s).
Proof.
  intros [Ih Iv Io Ih2 It In Ij] Ev. split; cbn; try done.
  - intros v1 t1. destruct (decide (v1 = v)) as [->|N]; [by rewrite lookup_insert|]. rewrite lookup_insert_ne by done. apply Iv.
  - intros v1 v2 t1. destruct (decide (v1 = v)) as [->|N1]; [by rewrite lookup_insert|]. destruct (decide (v2 = v)) as [->|N2]; [by rewrite lookup_insert|]. rewrite !lookup_insert_ne by done. apply Io.
  - intros t1 b1 H. destruct (Ih2 _ _ H) as [v1 E1]. exists v1. rewrite lookup_insert_ne; [done|]. congruence.
Qed.
Lemma inv_take s v w x : inv s -> vars s !! w = Some x -> vars s !! v = None \/ vars s !! v = Some None -> exists s', take_thread v w s = Ok s' /\ inv s' /\ log s' = log s /\ thr s' = thr s.
Proof.
  intros I Ew Ev. unfold take_thread, get_var. rewrite Ew. cbn [mbind res_bind]. eexists. split; [done|]. split; [|done].
  destruct I as [Ih Iv Io Ih2 It In Ij]. split; cbn; try done.
  - intros v1 t1. destruct (decide (v1 = w)) as [->|N]; [by rewrite lookup_insert|]. rewrite lookup_insert_ne by done.
    destruct (decide (v1 = v)) as [->|N2]; [rewrite lookup_insert; intros [= ->]; eauto|]. rewrite lookup_insert_ne by done. apply Iv.
  - intros v1 v2 t1. destruct (decide (v1 = w)) as [->|N1]; [by rewrite lookup_insert|]. destruct (decide (v2 = w)) as [->|N2]; [by rewrite lookup_insert|]. rewrite !(lookup_insert_ne _ w) by done.
    destruct (decide (v1 = v)) as [->|M1], (decide (v2 = v)) as [->|M2]; rewrite ?lookup_insert, ?lookup_insert_ne by done; intros E1 E2; [done|..].
    + injection E1 as ->. exfalso. apply N2. eapply Io; done.
    + injection E2 as ->. exfalso. apply N1. eapply Io; done.
    + eapply Io; done.
  - intros t1 b1 H. destruct (Ih2 _ _ H) as [v1 E1]. destruct (decide (v1 = w)) as [->|N].
    + rewrite Ew in E1. injection E1 as ->. destruct (decide (v = w)) as [->|M]; [destruct Ev; congruence|]. exists v. rewrite lookup_insert_ne by done. apply lookup_insert.
    + exists v1. rewrite lookup_insert_ne by done. rewrite lookup_insert_ne; [done|]. intros <-. destruct Ev; congruence.
Qed.
Lemma max_bound l x : x ∈ l -> x <= foldr Nat.max 0 l.
Proof. induction l as [|y l IH]; intros H; [by apply elem_of_nil in H|]. cbn. apply elem_of_cons in H as [->|H]; [lia|]. specialize (IH H). lia. Qed.
Lemma fresh_ok s : thr s !! fresh_id s = None.
Proof.
  unfold fresh_id. destruct (thr s !! _) as [x|] eqn:E; [|done]. exfalso. apply elem_of_map_to_list in E. apply (elem_of_list_fmap_1 fst) in E. apply max_bound in E. cbn in E. lia.
Qed.
Lemma inv_start s a v : inv s -> vars s !! v = None -> inv (set_var v (Some (fresh_id s)) (say (OStart a (fresh_id s)) (set_thr (fresh_id s) (Born, Joinable) s))).
Proof.
  intros I Ev. pose proof (fresh_ok s) as F. assert (fresh_id s <> 0) as N0 by (unfold fresh_id; lia). set (t := fresh_id s) in *. clearbody t.
  assert (Fr : forall o, o ∈ log s -> subject o <> t) by (intros o Ho <-; by apply (i_new _ I) in Ho).
  assert (Fv : forall v', vars s !! v' <> Some (Some t)) by (intros v' E; destruct (i_var _ I _ _ E); congruence).
  destruct I as [Ih Iv Io Ih2 It In Ij]. split; cbn.
  - split; [done|]. split; [done|]. intros a' Ha. by apply Fr in Ha.
  - intros v1 t1. destruct (decide (v1 = v)) as [->|N]; [rewrite lookup_insert; intros [= <-]; rewrite lookup_insert; eauto|]. rewrite lookup_insert_ne by done. intros E1.
    rewrite lookup_insert_ne by (intros <-; by apply Fv in E1). eauto.
  - intros v1 v2 t1. destruct (decide (v1 = v)) as [->|N1], (decide (v2 = v)) as [->|N2]; rewrite ?lookup_insert, ?lookup_insert_ne by done; intros E1 E2; [done|..].
    + injection E1 as <-. by apply Fv in E2.
    + injection E2 as <-. by apply Fv in E1.
    + eapply Io; done.
  - intros t1 b1. destruct (decide (t1 = t)) as [->|N]; [intros _; exists v; apply lookup_insert|]. rewrite lookup_insert_ne by done. intros H. destruct (Ih2 _ _ H) as [v1 E1]. exists v1.
    rewrite lookup_insert_ne; [done|]. congruence.
  - intros t1 b1 h1. destruct (decide (t1 = t)) as [->|N]; [|rewrite lookup_insert_ne by done; intros H; apply known_cons_ne; [by apply It|cbn; congruence]].
    rewrite lookup_insert. intros [= <- <-]. know. cbn. split; [done|]. split; [exists a; apply elem_of_list_here|].
    split_and!; split; try (intros; lia); try done; try (intros [H|H]; [done|exfalso; eapply Fr; [exact H|done]]).
    intros [(a' & [H|H])|(a' & [H|H])] _; try (exfalso; eapply Fr; [exact H|done]); done.
  - intros o Ho. destruct (decide (subject o = t)) as [->|N]; [by rewrite lookup_insert|]. rewrite lookup_insert_ne by done. apply elem_of_cons in Ho as [->|Ho]; [done|]. by apply In.
  - intros t1 b1 h1. destruct (decide (t1 = t)) as [->|N]; [rewrite lookup_insert; intros [= <- <-]; done|]. rewrite lookup_insert_ne by done. apply Ij.
Qed.
Lemma destruct_ok s a v : inv s -> exists_var s v -> vars s !! v <> Some (Some a) ->
  match destruct_thread a v s with Ok (Some s') => inv s' /\ vars s' !! v = Some None /\ (forall w, w <> v -> vars s' !! w = vars s !! w) | Ok None => True | _ => False end.
Proof.
  intros I [x Ev] Na. unfold destruct_thread, join, get_var. rewrite Ev. cbn [mbind res_bind]. destruct x as [t|]; [|done].
  assert (a <> t) as Nt by congruence. pose proof (inv_join s a t v I Ev Nt) as J. destruct (sys_join a t s) as [[s'|]| | |]; cbn [mbind res_bind option_map]; try done.
  destruct J as [J Vs]. split; [done|]. cbn. rewrite lookup_insert. split; [done|]. intros w Nw. rewrite lookup_insert_ne by done. by rewrite Vs.
Qed.
Lemma self_join_dies a s : sys_join a a s = Die.
Proof. unfold sys_join. by rewrite bool_decide_true. Qed.
Lemma step_ok s e : inv s -> match e with Op a o => valid_op s o | _ => True end -> match step s e with Ok s' => inv s' | Die => misuse s e | _ => False end.
Proof.
  intros I V. destruct e as [a o|t|t]; cbn [step].
  - destruct (active a s); [|done]. destruct o as [v|v granted|v w|v w|v|v|v|v]; cbn [do_op valid_op misuse] in *.
    + destruct (vars s !! v) eqn:E; [destruct V; by eexists|]. by apply inv_empty.
    + destruct (vars s !! v) eqn:E; [destruct V; by eexists|]. destruct granted; [|done]. by apply inv_start.
    + destruct V as [V [x W]]. destruct (vars s !! v) eqn:E; [destruct V; by eexists|]. destruct (inv_take s v w x I W) as (s' & -> & I' & _); [by left|]. done.
    + destruct V as [V [x W]]. destruct (decide (vars s !! v = Some (Some a))) as [E|N].
      { unfold destruct_thread, join, get_var. rewrite E. cbn [mbind res_bind]. rewrite self_join_dies. done. }
      pose proof (destruct_ok s a v I V N) as D. destruct (destruct_thread a v s) as [[s'|]| | |]; cbn [mbind res_bind]; try done. destruct D as (I' & E' & Eo).
      destruct (decide (w = v)) as [->|Nw].
      * destruct (inv_take s' v v None I' E') as (s2 & -> & I2 & _); [by right|]. done.
      * destruct (inv_take s' v w x I') as (s2 & -> & I2 & _); [by rewrite Eo|by right|]. done.
    + destruct V as [x Ev]. unfold join, get_var. rewrite Ev. cbn [mbind res_bind]. destruct x as [t|]; [|by left].
      destruct (decide (t = a)) as [->|N]; [rewrite self_join_dies; by right|]. pose proof (inv_join s a t v I Ev ltac:(congruence)) as J.
      destruct (sys_join a t s) as [[s'|]| | |]; cbn [mbind res_bind option_map default]; try done. by destruct J.
    + destruct V as [x Ev]. unfold get_var. rewrite Ev. cbn [mbind res_bind]. destruct x as [t|]; [|done]. unfold sys_detach. destruct (i_var _ I _ _ Ev) as [b E]. rewrite E. cbn [mbind res_bind].
      destruct (i_thr _ I _ _ _ E) as (H0 & [a0 Ha] & H1 & H2 & H3 & H4 & H5). eapply inv_release; try done.
      * know. split; [done|]. split; [exists a0; by apply elem_of_list_further|]. rewrite H1, H2, H3, H4, H5. split_and!; split; try done; try lia; try (intros [Hx|Hx]; [done|lia]); try (intros Hx; right; exact Hx). intros _. right. eauto.
      * cbn. split; [apply (i_hon _ I)|]. split; [eauto|]. rewrite H5. intros Hf. by apply Hf.
    + destruct V as [x Ev]. unfold get_var. rewrite Ev. cbn [mbind res_bind]. by destruct x.
    + destruct (decide (vars s !! v = Some (Some a))) as [E|N].
      { unfold destruct_thread, join, get_var. rewrite E. cbn [mbind res_bind]. rewrite self_join_dies. done. }
      pose proof (destruct_ok s a v I V N) as D. destruct (destruct_thread a v s) as [[s'|]| | |]; cbn [mbind res_bind]; try done. destruct D as (I' & E' & _). apply inv_delete; [done|by left].
  - destruct (thr s !! t) as [[b h]|] eqn:E; [|done]. destruct b; try done.
    destruct (i_thr _ I _ _ _ E) as (H0 & [a0 Ha] & H1 & H2 & H3 & H4 & H5). eapply inv_say; try done.
    + know. cbn in *. split; [done|]. split; [exists a0; by apply elem_of_list_further|]. rewrite H1, H2, H3, H4, H5. split_and!; split; try done; try lia; try (intros _; by left); try (intros [Hx|Hx]; [done|lia]); try (intros Hx; right; lia). intros [Hx|(a' & [Hx|Hx])]; done. intros Hx. by left.
    + cbn. split; [apply (i_hon _ I)|]. split; [apply H1; cbn; lia|]. rewrite H2. cbn. lia.
    + intros J. apply (i_join _ I) in E; done.
  - destruct (thr s !! t) as [[b h]|] eqn:E; [|done]. destruct b; try done; destruct (i_thr _ I _ _ _ E) as (H0 & [a0 Ha] & H1 & H2 & H3 & H4 & H5); eapply inv_say; try done.
    all: try (intros J; apply (i_join _ I) in E; done).
    all: try (know; cbn in *; split; [done|]; split; [exists a0; by apply elem_of_list_further|]; rewrite H1, H2, H3, H4, H5; split_and!; split; try done; try lia; try (intros _; by left); try (intros [Hx|Hx]; [done|lia]); try (intros Hx; right; lia); [intros [Hx|(a' & [Hx|Hx])]; done|intros Hx; by left]).
    + cbn. split; [apply (i_hon _ I)|]. split; [eauto|]. rewrite H1. cbn. lia.
    + cbn. split; [apply (i_hon _ I)|]. split; [apply H2; cbn; lia|]. rewrite H3. cbn. lia.
    + cbn. split; [apply (i_hon _ I)|]. split; [apply H3; cbn; lia|]. rewrite H4. cbn. lia.
Qed.
Lemma run_inv l : forall s, inv s -> valid s l ->
  match run s l with
  | Ok s' => inv s'
  | Die => exists l1 e l2 s1, l = l1 ++ e :: l2 /\ run s l1 = Ok s1 /\ misuse s1 e
  | _ => False
  end.
Proof.
  induction l as [|e l IH]; intros s I V; cbn [run]; [done|]. destruct V as [V Vl]. pose proof (step_ok s e I V) as S.
  destruct (step s e) as [s1| | |] eqn:E; cbn [mbind res_bind]; try done; [|by exists [], e, l, s].
  specialize (IH s1 S Vl). destruct (run s1 l); try done. destruct IH as (l1 & e1 & l2 & s2 & -> & R & M). exists (e :: l1), e1, l2, s2. split; [done|]. split; [|done].
  cbn [run]. rewrite E. done.
Qed.
Lemma reachable l s : valid init l -> run init l = Ok s -> inv s.
Proof. intros V R. pose proof (run_inv l init inv_init V) as H. by rewrite R in H. Qed.

(** C86.  Nothing is undefined; the program stops only through misuse. *)
Theorem thread_safe l : valid init l ->
  match run init l with
  | Ok s => honest (log s)
  | Die => exists l1 e l2 s, l = l1 ++ e :: l2 /\ run init l1 = Ok s /\ misuse s e
  | _ => False
  end.
Proof. intros V. pose proof (run_inv l init inv_init V) as H. destruct (run init l); try done. apply (i_hon _ H). Qed.
(** Nothing happens twice: a function is called once, destroyed once, its thread joined or detached once. *)
Theorem thread_once l s : valid init l -> run init l = Ok s ->
  NoDup (log s) /\ (forall a b t, OJoin a t ∈ log s -> ODetach b t ∉ log s) /\ (forall a b t, OJoin a t ∈ log s -> OJoin b t ∈ log s -> a = b) /\ (forall a b t, OStart a t ∈ log s -> OStart b t ∈ log s -> a = b).
Proof.
  intros V R. pose proof (i_hon _ (reachable _ _ V R)) as Hon. induction (log s) as [|o k IH]; [split_and!; [by apply NoDup_nil|intros a b t H; by apply elem_of_nil in H..]|].
  destruct Hon as [Hon Ho]. destruct (IH Hon) as (N & J1 & J2 & J3). clear IH. split_and!.
  - apply NoDup_cons. split; [|done]. destruct o; try tauto.
    + destruct Ho as [_ Ho]. apply Ho.
    + destruct Ho as (_ & _ & Ho). intros H. apply Ho. exists a. by left.
    + destruct Ho as (_ & Ho). intros H. apply Ho. exists a. by right.
  - intros a b t HA HB. apply elem_of_cons in HA as [<-|HA], HB as [HB|HB]; try done; try subst o; try by eapply J1.
    + destruct Ho as (_ & _ & Ho). apply Ho. exists b. by right.
    + destruct Ho as (_ & Ho). apply Ho. exists a. by left.
  - intros a b t HA HB. apply elem_of_cons in HA as [HA|HA], HB as [HB|HB]; try subst o; try by eapply J2.
    + congruence.
    + destruct Ho as (_ & _ & Ho). destruct Ho. exists b. by left.
    + destruct Ho as (_ & _ & Ho). destruct Ho. exists a. by left.
  - intros a b t HA HB. apply elem_of_cons in HA as [HA|HA], HB as [HB|HB]; try subst o; try by eapply J3.
    + congruence.
    + by destruct Ho as [_ Ho]; apply Ho in HB.
    + by destruct Ho as [_ Ho]; apply Ho in HA.
Qed.
Lemma honest_suffix l1 o l2 : honest (l1 ++ o :: l2) -> honest (o :: l2).
Proof. induction l1 as [|p l1 IH]; [done|]. intros [H _]. by apply IH. Qed.
Lemma honest_in o l : honest l -> o ∈ l -> exists l1 l2, l = l1 ++ o :: l2 /\ honest (o :: l2).
Proof. intros H Hin. apply elem_of_list_split in Hin as (l1 & l2 & ->). exists l1, l2. split; [done|]. by eapply honest_suffix. Qed.
Lemma further (o : obs) l1 p l2 : o ∈ l2 -> o ∈ l1 ++ p :: l2.
Proof. intros H. apply elem_of_app. right. by apply elem_of_list_further. Qed.
Lemma chain_free t l : honest l -> OFree t ∈ l -> ODestroy t ∈ l /\ OReturn t ∈ l /\ OCall t ∈ l /\ exists a, OStart a t ∈ l.
Proof.
  intros H Hin. destruct (honest_in _ _ H Hin) as (l1 & l2 & -> & (H2 & D & _)).
  destruct (honest_in _ _ H2 D) as (m1 & m2 & -> & (H3 & E & _)).
  destruct (honest_in _ _ H3 E) as (n1 & n2 & -> & (H4 & F & _)).
  destruct (honest_in _ _ H4 F) as (o1 & o2 & -> & (H5 & (a & G) & _)).
  split; [by apply further|]. split; [by apply further, further|]. split; [by apply further, further, further|]. exists a. by apply further, further, further, further.
Qed.
(** When join() returns the thread has called its function, which has returned and been destroyed, and its
    memory is released. *)
Theorem thread_join_after l s l1 a t l2 : valid init l -> run init l = Ok s -> log s = l1 ++ OJoin a t :: l2 ->
  a <> t /\ OCall t ∈ l2 /\ OReturn t ∈ l2 /\ ODestroy t ∈ l2 /\ OFree t ∈ l2.
Proof.
  intros V R E. pose proof (i_hon _ (reachable _ _ V R)) as H. rewrite E in H. apply honest_suffix in H as (H & N & F & _). split; [done|].
  destruct (chain_free _ _ H F) as (A & B & C & _). done.
Qed.
(** ~Thread returns if and only if the thread is done; if it has a thread, it joins it. *)
Theorem thread_drop_waits l s a v t s' : valid init l -> run init l = Ok s -> active a s = true -> vars s !! v = Some (Some t) -> step s (Op a (Drop v)) = Ok s' ->
  (OFree t ∈ log s /\ vars s' = delete v (vars s) /\ log s' = OJoin a t :: log s) \/ (OFree t ∉ log s /\ s' = s).
Proof.
  intros V R A E S. pose proof (reachable _ _ V R) as I. destruct (i_var _ I _ _ E) as [b Et]. destruct (i_thr _ I _ _ _ Et) as (_ & _ & _ & _ & _ & H4 & _).
  cbn [step] in S. rewrite A in S. cbn [do_op] in S. unfold destruct_thread, join, get_var in S. rewrite E in S. cbn [mbind res_bind] in S. unfold sys_join in S.
  destruct (bool_decide (a = t)); [done|]. cbn in S. rewrite Et in S. destruct b; cbn in S, H4; injection S as <-; try (right; split; [rewrite H4; lia|done]).
  left. split; [apply H4; lia|]. cbn. split; [|done]. by rewrite delete_insert_delete.
Qed.
(** When all Thread objects are gone, every thread has been joined or detached. *)
Theorem thread_none_left l s a t : valid init l -> run init l = Ok s -> vars s = ∅ -> OStart a t ∈ log s -> let_go t (log s).
Proof.
  intros V R E H. pose proof (reachable _ _ V R) as I. pose proof (i_new _ I _ H) as N. cbn in N. destruct (thr s !! t) as [[b h]|] eqn:Et; [|done].
  destruct (i_thr _ I _ _ _ Et) as (_ & _ & _ & _ & _ & _ & H5). apply H5. intros ->. destruct (i_held _ I _ _ Et) as [v Ev]. rewrite E, lookup_empty in Ev. done.
Qed.
(** A thread that was started can always go on to its end, whatever the others do. *)
Definition by_itself (t : nat) (e : event) : Prop := e = Run t \/ e = Return t.
Theorem thread_progress l s a t : valid init l -> run init l = Ok s -> OStart a t ∈ log s ->
  exists k s', Forall (by_itself t) k /\ length k <= 4 /\ run s k = Ok s' /\ OFree t ∈ log s' /\ vars s' = vars s.
Proof.
  intros V R H. pose proof (reachable _ _ V R) as I. pose proof (i_new _ I _ H) as N. cbn in N. destruct (thr s !! t) as [[b h]|] eqn:Et; [|done]. unfold by_itself.
  assert (Ll : forall (x y : body * handle) s0, thr (set_thr t x s0) !! t = Some x) by (intros; apply lookup_insert).
  destruct b.
  - exists [Run t; Return t; Run t; Run t]. eexists. split; [repeat constructor; tauto|]. split; [cbn; lia|]. cbn [run step]. rewrite Et. cbn [mbind res_bind say set_thr thr]. rewrite lookup_insert. cbn [mbind res_bind say set_thr thr]. rewrite lookup_insert. cbn [mbind res_bind say set_thr thr]. rewrite lookup_insert. split; [done|]. split; [apply elem_of_list_here|done].
  - exists [Return t; Run t; Run t]. eexists. split; [repeat constructor; tauto|]. split; [cbn; lia|]. cbn [run step]. rewrite Et. cbn [mbind res_bind say set_thr thr]. rewrite lookup_insert. cbn [mbind res_bind say set_thr thr]. rewrite lookup_insert. split; [done|]. split; [apply elem_of_list_here|done].
  - exists [Run t; Run t]. eexists. split; [repeat constructor; tauto|]. split; [cbn; lia|]. cbn [run step]. rewrite Et. cbn [mbind res_bind say set_thr thr]. rewrite lookup_insert. split; [done|]. split; [apply elem_of_list_here|done].
  - exists [Run t]. eexists. split; [repeat constructor; tauto|]. split; [cbn; lia|]. cbn [run step]. rewrite Et. split; [done|]. split; [apply elem_of_list_here|done].
  - exists [], s. split; [constructor|]. split; [cbn; lia|]. split; [done|]. split; [|done]. destruct (i_thr _ I _ _ _ Et) as (_ & _ & _ & _ & _ & H4 & _). apply H4. cbn. lia.
Qed.
(** Misuse does stop the program: using an empty Thread, and waiting for oneself. *)
Theorem thread_misuse_dies s a v : active a s = true ->
  (vars s !! v = Some None -> step s (Op a (Join v)) = Die /\ step s (Op a (Detach v)) = Die /\ step s (Op a (GetId v)) = Die) /\
  (vars s !! v = Some (Some a) -> step s (Op a (Join v)) = Die /\ step s (Op a (Drop v)) = Die).
Proof.
  intros A. cbn [step]. rewrite A. cbn [do_op]. unfold destruct_thread, join, get_var. split; intros ->; cbn [mbind res_bind]; [done|]. rewrite self_join_dies. done.
Qed.
(** Two threads: one is moved and joined, one detached. *)
Definition demo : list event :=
  [Op 0 (Start 1 true); Op 0 (Start 2 true); Run 1; Op 0 (Join 1); Return 1; Run 1; Op 0 (Detach 2); Run 2; Op 0 (MoveNew 3 1); Run 1; Op 0 (Drop 1); Op 0 (MoveAssign 2 3); Op 0 (Drop 2); Op 0 (Drop 3)].
Example thread_demo : valid init demo /\ match run init demo with Ok s => map_to_list (vars s) = [] /\ log s = [OJoin 0 1; OFree 1; OCall 2; ODetach 0 2; ODestroy 1; OReturn 1; OCall 1; OStart 0 2; OStart 0 1] | _ => False end.
Proof.
  split.
  - unfold demo. cbn [valid]. unfold valid_op, exists_var.
    repeat (match goal with |- _ /\ _ => split | |- match step ?s ?e with _ => _ end => let r := eval vm_compute in (step s e) in change (step s e) with r; cbv iota end);
      try exact Logic.I; try (by eexists; vm_compute); try (intros [x Hx]; by vm_compute in Hx).
  - by vm_compute.
Qed.
Print Assumptions thread_safe.
Print Assumptions thread_once.
Print Assumptions thread_join_after.
Print Assumptions thread_drop_waits.
Print Assumptions thread_none_left.
Print Assumptions thread_progress.
Print Assumptions thread_misuse_dies.
