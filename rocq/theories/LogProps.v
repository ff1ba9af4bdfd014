(** C62: log callbacks. *)
From Verif Require Import Base MapModel MapSpec MapProofs MapProps LogModel LogSpec.

Lemma upd_eq {A} (f : nat -> A) i x : upd f i x i = x.
Proof. unfold upd. by rewrite decide_True. Qed.
Lemma upd_ne {A} (f : nat -> A) i x j : j <> i -> upd f i x j = f j.
Proof. intros. unfold upd. by rewrite decide_False. Qed.

Lemma subscribed_app h h' : subscribed (h ++ h') = foldl (fun l o => match o with
    | Subscribed _ k f => l ++ [(k, f)]
    | Unsubscribed _ k => filter (fun x => fst x <> k) l
    | _ => l
    end) (subscribed h) h'.
Proof. unfold subscribed. by rewrite foldl_app. Qed.
Lemma subscribed_called h t m l : subscribed (h ++ List.map (fun '(k, f) => Called k f t m) l) = subscribed h.
Proof. rewrite subscribed_app. generalize (subscribed h). induction l as [|[k f] l IH]; intros x; [done|]. cbn. apply IH. Qed.
Lemma tokens_called h t m l : tokens (h ++ List.map (fun '(k, f) => Called k f t m) l) = tokens h.
Proof. unfold tokens. rewrite omap_app. assert (omap (λ o : obs, match o with Subscribed _ k _ => Some k | _ => None end) (List.map (λ '(k, f), Called k f t m) l) = []) as ->; [|by rewrite app_nil_r]. induction l as [|[k f] l IH]; [done|]. cbn. apply IH. Qed.
Lemma delivery_subscribed t i m rest h : in_delivery t i m rest h -> exists h0, story h0 /\ subscribed h = subscribed h0.
Proof.
  intros (h0 & l & S & P & ->). exists h0. split; [done|]. replace (h0 ++ Printed t i m :: _) with ((h0 ++ [Printed t i m]) ++ List.map (λ '(k, f), Called k f t m) l) by (by rewrite <-app_assoc).
  rewrite subscribed_called. rewrite subscribed_app. done.
Qed.

Lemma tokens_app h h' : tokens (h ++ h') = tokens h ++ tokens h'.
Proof. unfold tokens. apply omap_app. Qed.
Lemma token_in h t k f : Subscribed t k f ∈ h -> k ∈ tokens h.
Proof. intros H. unfold tokens. apply elem_of_list_omap. by exists (Subscribed t k f). Qed.

(** A subscription is in force when it was made and not ended since. *)
Theorem subscribed_iff h k f : (k, f) ∈ subscribed h <-> exists t h1 h2, h = h1 ++ Subscribed t k f :: h2 /\ forall t', Unsubscribed t' k ∉ h2.
Proof.
  induction h as [|o h IH] using rev_ind.
  - split; [intros H; by apply elem_of_nil in H|]. intros (t & h1 & h2 & E & _). by destruct h1.
  - assert (forall x : obs, (exists t h1 h2, h ++ [o] = h1 ++ Subscribed t k f :: h2 /\ forall t', Unsubscribed t' k ∉ h2) <->
      (exists t, o = Subscribed t k f) \/ ((k, f) ∈ subscribed h /\ forall t, o <> Unsubscribed t k)) as Q.
    { intros _. rewrite IH. split.
      - intros (t & h1 & h2 & E & N). destruct h2 as [|y h2 _] using rev_ind.
        + left. apply app_inj_tail in E. destruct E as [_ ->]. eauto.
        + right. rewrite app_comm_cons, app_assoc in E. apply app_inj_tail in E as [-> ->]. split.
          * exists t, h1, h2. split; [done|]. intros t' X. apply (N t'). apply elem_of_app. by left.
          * intros t' ->. apply (N t'). apply elem_of_app. right. by apply elem_of_list_singleton.
      - intros [[t ->]|[(t & h1 & h2 & -> & N) Ho]].
        + exists t, h, []. split; [done|]. intros t' X. by apply elem_of_nil in X.
        + exists t, h1, (h2 ++ [o]). split; [by rewrite <-app_assoc|]. intros t' X. apply elem_of_app in X as [X|X]; [by apply (N t')|]. apply elem_of_list_singleton in X. by apply (Ho t'). }
    rewrite (Q o), subscribed_app. destruct o as [| | |t0 k0 f0|t0 k0]; cbn.
    1-3: split; [intros H; right; by split|intros [[? ?]|[H _]]; done].
    + rewrite elem_of_app, elem_of_list_singleton. split; [intros [H|[= -> ->]]; [right; by split|left; by eexists]|intros [[t1 [= -> -> ->]]|[H _]]; [by right|by left]].
    + rewrite elem_of_list_filter. cbn. split.
      * intros [N H]. right. split; [done|]. intros t [= -> ->]. done.
      * intros [[t H]|[H N]]; [done|]. split; [|done]. intros ->. by apply (N t0).
Qed.

(** Facts about every history of the allowed shape *)
Definition cond (h : list obs) (o : obs) : Prop :=
  match o with
  | Called k f _ _ => (k, f) ∈ subscribed h
  | Unsubscribed _ k => exists f, (k, f) ∈ subscribed h
  | Subscribed _ k _ => k ∉ tokens h
  | _ => True
  end.
Definition conds (h : list obs) : Prop := forall h1 o h2, h = h1 ++ o :: h2 -> cond h1 o.
Lemma conds_snoc h o : conds h -> cond h o -> conds (h ++ [o]).
Proof.
  intros H Ho h1 x h2 E. destruct h2 as [|y h2 _] using rev_ind.
  - apply app_inj_tail in E. destruct E as [<- <-]. done.
  - rewrite app_comm_cons, app_assoc in E. apply app_inj_tail in E. destruct E as [-> _]. by apply (H h1 x h2).
Qed.
Lemma conds_calls h t m l : conds h -> (forall x, x ∈ l -> x ∈ subscribed h) -> conds (h ++ List.map (fun '(k, f) => Called k f t m) l).
Proof.
  intros C. induction l as [|[k f] l IH] using rev_ind; intros H; [by rewrite app_nil_r|]. rewrite map_app, app_assoc. apply conds_snoc.
  - apply IH. intros x Hx. apply H. apply elem_of_app. by left.
  - cbn. rewrite subscribed_called. apply H. apply elem_of_app. right. by apply elem_of_list_singleton.
Qed.
Lemma story_conds h : story h -> conds h.
Proof.
  induction 1 as [|h t k f S IH N|h t k f S IH N|h t i m l S IH P].
  - intros h1 o h2 E. by destruct h1.
  - by apply conds_snoc.
  - apply conds_snoc; [done|]. by exists f.
  - replace (h ++ Printed t i m :: _) with (((h ++ [Printed t i m]) ++ List.map (λ '(k, f), Called k f t m) l) ++ [Filed t i m]) by (by rewrite <-!app_assoc).
    apply conds_snoc; [|done]. apply conds_calls; [by apply conds_snoc|]. intros x Hx. rewrite subscribed_app. cbn. by rewrite <-P.
Qed.
Lemma delivery_conds t i m rest h : in_delivery t i m rest h -> conds h.
Proof.
  intros (h0 & l & S & P & ->). replace (h0 ++ Printed t i m :: _) with ((h0 ++ [Printed t i m]) ++ List.map (λ '(k, f), Called k f t m) l) by (by rewrite <-!app_assoc).
  apply conds_calls; [apply conds_snoc; [by apply story_conds|done]|]. intros x Hx. rewrite subscribed_app. cbn. rewrite <-P. apply elem_of_app. by left.
Qed.
Lemma story_complete h t i m h1 h2 : story h -> h = h1 ++ Printed t i m :: h2 ->
  exists l h3, h2 = List.map (fun '(k, f) => Called k f t m) l ++ Filed t i m :: h3 /\ l ≡ₚ subscribed h1.
Proof.
  intros S. revert h1 h2. induction S as [|h t' k f S IH N|h t' k f S IH N|h t' i' m' l S IH P]; intros h1 h2 E.
  - by destruct h1.
  - destruct h2 as [|y h2 _] using rev_ind; [by apply app_inj_tail in E as [_ ?]|]. rewrite app_comm_cons, app_assoc in E. apply app_inj_tail in E as [-> _].
    destruct (IH h1 h2 eq_refl) as (l & h3 & -> & P). exists l, (h3 ++ [y]). by rewrite <-app_assoc.
  - destruct h2 as [|y h2 _] using rev_ind; [by apply app_inj_tail in E as [_ ?]|]. rewrite app_comm_cons, app_assoc in E. apply app_inj_tail in E as [-> _].
    destruct (IH h1 h2 eq_refl) as (l & h3 & -> & P). exists l, (h3 ++ [y]). by rewrite <-app_assoc.
  - apply app_eq_inv in E. destruct E as [(c & -> & E)|(c & -> & E)].
    + destruct c as [|x c]; cbn in E.
      * rewrite app_nil_r in *. injection E as ? ? ? ?; subst. exists l, []. done.
      * injection E as ? ?; subst. destruct (IH h1 c eq_refl) as (l' & h3 & -> & P'). eexists l', _. split; [|done]. rewrite <-app_assoc. done.
    + destruct c as [|x c]; cbn in E.
      * rewrite app_nil_r. injection E as ? ? ? ?; subst. exists l, []. done.
      * exfalso. injection E as ? E; subst. assert (Printed t i m ∈ c ++ Printed t i m :: h2) as Q by (apply elem_of_app; right; constructor). rewrite <-E in Q.
        apply elem_of_app in Q as [Q|Q]; [|by apply elem_of_list_singleton in Q]. apply elem_of_list_In, in_map_iff in Q. destruct Q as ([k f] & Q & _). done.
Qed.

#[local] Instance cmd_eq_dec : EqDecision cmd.
Proof. solve_decision. Defined.
#[local] Instance event_eq_dec : EqDecision event.
Proof. solve_decision. Defined.

Section log.
  Variable hash : nat -> Z.
  Variable enters : nat -> nat -> bool.
  Hypothesis Hh : nonzero_u64 hash.

  Record Inv (s : st) : Prop := {
    i_map : minv hash (callbacks s);
    i_rel : exists f, mrel (callbacks s) f;
    i_subs : map_iterate (callbacks s) ≡ₚ subscribed (log s);
    i_len : mlength (callbacks s) = length (map_iterate (callbacks s));
    i_next : 1 <= next s;
    i_fresh : forall k f, (k, f) ∈ subscribed (log s) -> k < next s;
    i_tok : tokens (log s) = seq 1 (next s - 1);
    i_pc : forall t m rest, pcs s t = Calling m rest -> owner s = Some t;
    i_hist : match owner s with
             | None => story (log s)
             | Some t => match pcs s t with
                         | Calling m rest => in_delivery t (4 * indent s t) m rest (log s)
                         | Stuck => story (log s) \/ exists i m rest, in_delivery t i m rest (log s)
                         | _ => False
                         end
             end
  }.
  Lemma Inv_init : Inv init.
  Proof using Type.
    split; cbn; try done; try lia.
    - apply map_empty_minv.
    - exists fm_empty. intros k v. cbn. split; [intros H; by apply elem_of_nil in H|done].
    - intros k f H. by apply elem_of_nil in H.
    - constructor.
  Qed.
  Lemma mrel_subs s f k v : Inv s -> mrel (callbacks s) f -> f k = Some v <-> (k, v) ∈ subscribed (log s).
  Proof using Type. intros I R. rewrite <-(R k v). by rewrite (i_subs _ I). Qed.

  (** A thread that neither holds nor takes the mutex *)
  Lemma Inv_goto s t p : Inv s -> (forall m rest, pcs s t <> Calling m rest) -> (owner s = Some t -> p = Stuck /\ pcs s t = Stuck) -> (forall m rest, p <> Calling m rest) ->
    Inv (St (upd (pcs s) t p) (indent s) (owner s) (next s) (callbacks s) (log s)).
  Proof using Type.
    intros I N O Np. destruct I as [I1 I2 I3 I4 I5 I6 I7 I8 I9]. split; cbn; try done.
    - intros t' m rest. destruct (decide (t' = t)) as [->|?]; [rewrite upd_eq; intros H; by apply Np in H|rewrite upd_ne by done; apply I8].
    - destruct (owner s) as [t'|]; [|done]. destruct (decide (t' = t)) as [->|?]; [|by rewrite upd_ne by done].
      rewrite upd_eq. destruct (O eq_refl) as [-> E]. rewrite E in I9. done.
  Qed.
  Lemma Inv_begin s t c s' : Inv s -> begin s t c = Ok s' -> Inv s'.
  Proof using Type.
    intros I E. unfold begin in E. destruct (pcs s t) eqn:Ep; try (by injection E as <-).
    assert (owner s <> Some t) as O. { intros O. pose proof (i_hist _ I) as H. rewrite O, Ep in H. done. }
    assert (forall p, (forall m rest, p <> Calling m rest) -> Inv (St (upd (pcs s) t p) (indent s) (owner s) (next s) (callbacks s) (log s))) as G.
    { intros p Np. apply Inv_goto; [done|intros m rest; congruence|done|done]. }
    assert (forall n, Inv (St (pcs s) (upd (indent s) t n) (owner s) (next s) (callbacks s) (log s))) as K.
    { intros n. destruct I as [I1 I2 I3 I4 I5 I6 I7 I8 I9]. split; cbn; try done. destruct (owner s) as [t'|]; [|done]. assert (t' <> t) by congruence. by rewrite upd_ne. }
    destruct c; try (injection E as <-; by apply G); try (injection E as <-; apply K).
    destruct (0 <? indent s t); [|done]. injection E as <-. apply K.
  Qed.
  Lemma hist_other s t t0 : Inv s -> owner s = Some t0 -> t <> t0 -> forall m rest, pcs s t <> Calling m rest.
  Proof using Type. intros I O N m rest E. pose proof (i_pc _ I _ _ _ E). congruence. Qed.

  Lemma Inv_step_thread s t : Inv s -> exists s', step_thread hash enters s t = Ok s' /\ Inv s'.
  Proof using Hh.
    intros I. unfold step_thread. destruct (pcs s t) as [|m|m rest|f|k|] eqn:Ep.
    - eauto.
    - destruct (owner s) as [t0|] eqn:Eo; [eauto|]. eexists. split; [done|]. destruct I as [I1 I2 I3 I4 I5 I6 I7 I8 I9]. rewrite Eo in I9.
      split; cbn; try done.
      + by rewrite subscribed_app.
      + intros k f. rewrite subscribed_app. apply I6.
      + unfold tokens in *. rewrite omap_app. cbn. by rewrite app_nil_r.
      + intros t' m' rest'. destruct (decide (t' = t)) as [->|?]; [done|]. rewrite upd_ne by done. intros H. apply I8 in H. congruence.
      + rewrite upd_eq. exists (log s), []. split_and!; try done.
    - pose proof (i_pc _ I _ _ _ Ep) as Eo. pose proof (i_hist _ I) as D. rewrite Eo, Ep in D. destruct rest as [|[k f] rest].
      + eexists. split; [done|]. destruct I as [I1 I2 I3 I4 I5 I6 I7 I8 I9]. split; cbn; try done.
        * by rewrite subscribed_app.
        * intros k f. rewrite subscribed_app. apply I6.
        * unfold tokens in *. rewrite omap_app. cbn. by rewrite app_nil_r.
        * intros t' m' rest'. destruct (decide (t' = t)) as [->|?]; [by rewrite upd_eq|]. rewrite upd_ne by done. intros H. apply I8 in H. congruence.
        * destruct D as (h0 & l & S & P & ->). rewrite app_nil_r in P. rewrite <-app_assoc. by constructor.
      + eexists. split; [done|]. destruct I as [I1 I2 I3 I4 I5 I6 I7 I8 I9]. split; cbn; try done.
        * by rewrite subscribed_app.
        * intros k' f'. rewrite subscribed_app. apply I6.
        * unfold tokens in *. rewrite omap_app. cbn. by rewrite app_nil_r.
        * intros t' m' rest'. destruct (decide (t' = t)) as [->|?]; [done|]. rewrite upd_ne by done. intros H. apply I8 in H. congruence.
        * rewrite Eo, upd_eq. assert (in_delivery t (4 * indent s t) m rest (log s ++ [Called k f t m])) as D'.
          { destruct D as (h0 & l & S & P & E). exists h0, (l ++ [(k, f)]). split_and!; [done| |].
            - by rewrite <-app_assoc.
            - rewrite map_app, E. cbn. by rewrite <-app_assoc. }
          destruct (enters f m); [right; eauto|done].
    - destruct (owner s) as [t0|] eqn:Eo; [eauto|]. destruct (I) as [I1 [g I2] I3 I4 I5 I6 I7 I8 I9]. rewrite Eo in I9.
      assert (g (next s) = None) as Gn.
      { destruct (g (next s)) eqn:G; [|done]. apply (mrel_subs s g _ _ I I2) in G. apply I6 in G. lia. }
      destruct (map_insert_ok hash Hh (callbacks s) g (next s) f I1 I2) as (m' & i & ds & -> & J1 & J2 & _ & _ & J3 & J4 & J5). rewrite Gn in J5.
      destruct ds; [|done]. cbn [kvs fmap list_fmap app] in J3. cbn [mbind res_bind]. eexists. split; [done|]. split; cbn; try done; try lia.
      + by eexists.
      + rewrite subscribed_app. cbn. rewrite J3, I3. apply Permutation_cons_append.
      + rewrite J4, I4. by rewrite J3.
      + intros k' f'. rewrite subscribed_app. cbn. rewrite elem_of_app, elem_of_list_singleton. intros [H|[= -> ->]]; [apply I6 in H; lia|lia].
      + unfold tokens in *. rewrite omap_app, I7. cbn. rewrite Nat.sub_0_r. replace (next s) with (S (next s - 1)) at 3 by lia. rewrite seq_S. do 2 f_equal. lia.
      + intros t' m0 rest'. destruct (decide (t' = t)) as [->|?]; [by rewrite upd_eq|]. rewrite upd_ne by done. intros H. apply I8 in H. congruence.
      + constructor; [done|]. rewrite I7. rewrite elem_of_seq. lia.
    - destruct (owner s) as [t0|] eqn:Eo; [eauto|]. destruct (I) as [I1 [g I2] I3 I4 I5 I6 I7 I8 I9]. rewrite Eo in I9.
      destruct (map_try_erase_ok hash Hh (callbacks s) g k I1 I2) as (m' & ds & -> & J1 & J2 & _ & J3 & J4). cbn [mbind res_bind].
      destruct (g k) as [f|] eqn:G.
      + rewrite bool_decide_true by eauto.
        assert (mlength m' = length (map_iterate m')) as L.
        { pose proof (Permutation_length J3) as PL. rewrite app_length in PL. unfold kvs in PL. rewrite fmap_length in PL. lia. }
        assert (map_iterate m' ≡ₚ filter (fun x => fst x <> k) (subscribed (log s))) as P.
        { apply NoDup_Permutation.
          - apply (NoDup_fmap_1 fst), (iterate_nodup m'), J1.
          - apply NoDup_filter. rewrite <-I3. apply (NoDup_fmap_1 fst), (iterate_nodup (callbacks s)), I1.
          - intros [k' f']. rewrite elem_of_list_filter, (J2 k' f'), <-(mrel_subs s g k' f' I I2). unfold fm_delete. cbn. case_decide; naive_solver. }
        set (c := if map_is_empty m' then fst (map_destroy m') else m'). eexists. split; [done|].
        assert (minv hash c /\ (exists f, mrel c f) /\ map_iterate c = map_iterate m' /\ mlength c = mlength m') as (C1 & C2 & C3 & C4).
        { unfold c, map_is_empty. destruct (Nat.eqb_spec (mlength m') 0) as [Z|Z]; [|by eauto].
          assert (map_iterate m' = []) as Q by (apply nil_length_inv; lia). rewrite Q, Z. split_and!; try done; [apply map_empty_minv|].
          exists fm_empty. intros k0 v0. cbn. split; [intros H; by apply elem_of_nil in H|done]. }
        split; cbn; try done.
        * rewrite C3, subscribed_app. exact P.
        * by rewrite C3, C4.
        * intros k' f'. rewrite subscribed_app. cbn. rewrite elem_of_list_filter. intros [_ H]. by apply I6 in H.
        * unfold tokens in *. rewrite omap_app. cbn. by rewrite app_nil_r.
        * intros t' m0 rest'. destruct (decide (t' = t)) as [->|?]; [by rewrite upd_eq|]. rewrite upd_ne by done. intros H. apply I8 in H. congruence.
        * apply (story_unsub _ _ _ f); [done|]. by apply (mrel_subs s g _ _ I I2).
      + rewrite bool_decide_false by (by intros [? ?]). eexists. split; [done|].
        assert (forall x, x ∈ map_iterate m' <-> x ∈ map_iterate (callbacks s)) as Q.
        { intros [k' f']. rewrite (J2 k' f'), (I2 k' f'). unfold fm_delete. case_decide; [subst; by rewrite G|done]. }
        assert (map_iterate m' ≡ₚ map_iterate (callbacks s)) as P.
        { apply NoDup_Permutation; [apply (NoDup_fmap_1 fst), (iterate_nodup m'), J1|apply (NoDup_fmap_1 fst), (iterate_nodup (callbacks s)), I1|done]. }
        split; cbn; try done.
        * by eexists.
        * by rewrite P.
        * pose proof (Permutation_length J3) as PL. rewrite app_length in PL. unfold kvs in PL. rewrite fmap_length in PL. lia.
        * intros t' m0 rest'. destruct (decide (t' = t)) as [->|?]; [by rewrite upd_eq|]. rewrite upd_ne by done. intros H. apply I8 in H. congruence.
        * rewrite upd_eq. by left.
    - eauto.
  Qed.
  Lemma Inv_run es s s' : Inv s -> run hash enters s es = Ok s' -> Inv s'.
  Proof using Hh.
    revert s. induction es as [|e es IH]; intros s I E; [by injection E as <-|]. cbn in E.
    destruct (step hash enters s e) as [s1| | |] eqn:E1; try done. apply (IH s1); [|done]. destruct e as [t c|t]; cbn in E1.
    - by apply (Inv_begin s t c).
    - destruct (Inv_step_thread s t I) as (s2 & E2 & I2). rewrite E2 in E1. by injection E1 as <-.
  Qed.
  Lemma Inv_reach es s : run hash enters init es = Ok s -> Inv s.
  Proof using Hh. apply Inv_run, Inv_init. Qed.

  (** The model is never undefined and always answers; only more dedents than indents stop the program. *)
  Theorem log_defined es s e : run hash enters init es = Ok s ->
    match step hash enters s e with
    | Ok _ => True
    | Die => exists t, e = Begin t Dedent /\ pcs s t = Idle /\ indent s t = 0
    | UB | Diverge => False
    end.
  Proof using Hh.
    intros R. pose proof (Inv_reach es s R) as I. destruct e as [t c|t]; cbn.
    - unfold begin. destruct (pcs s t) eqn:E; try done. destruct c; try done. destruct (Nat.ltb_spec 0 (indent s t)); [done|]. cbn. exists t. split_and!; [done|done|lia].
    - destruct (Inv_step_thread s t I) as (s2 & -> & _). done.
  Qed.

  (** A printed message has reached exactly the callbacks subscribed when it was printed, each once, and is then written
      to the file, before anything else happens; or its delivery is still going on, or stuck. *)
  Theorem log_delivery es s h1 t i m h2 : run hash enters init es = Ok s -> log s = h1 ++ Printed t i m :: h2 ->
    exists l,
      (l ≡ₚ subscribed h1 /\ exists h3, h2 = List.map (fun '(k, f) => Called k f t m) l ++ Filed t i m :: h3) \/
      (h2 = List.map (fun '(k, f) => Called k f t m) l /\ owner s = Some t /\ exists rest, l ++ rest ≡ₚ subscribed h1 /\ (pcs s t = Calling m rest \/ pcs s t = Stuck)).
  Proof using Hh.
    intros R E. pose proof (Inv_reach es s R) as I. pose proof (i_hist _ I) as H.
    assert (forall t0 i0 m0 rest, in_delivery t0 i0 m0 rest (log s) -> owner s = Some t0 -> pcs s t0 = Calling m0 rest \/ pcs s t0 = Stuck ->
      exists l,
      (l ≡ₚ subscribed h1 /\ exists h3, h2 = List.map (fun '(k, f) => Called k f t m) l ++ Filed t i m :: h3) \/
      (h2 = List.map (fun '(k, f) => Called k f t m) l /\ owner s = Some t /\ exists rest, l ++ rest ≡ₚ subscribed h1 /\ (pcs s t = Calling m rest \/ pcs s t = Stuck))) as D.
    { intros t0 i0 m0 rest (h0 & l & S & P & L) O Q. rewrite E in L. apply app_eq_inv in L. destruct L as [(c & -> & L)|(c & -> & L)].
      - destruct c as [|x c]; cbn in L.
        + injection L as ? ? ? ?; subst. rewrite app_nil_r in *. exists l. right. eauto 10.
        + exfalso. injection L as ? L; subst. assert (Printed t i m ∈ c ++ Printed t i m :: h2) as X by (apply elem_of_app; right; constructor). rewrite <-L in X.
          apply elem_of_list_In, in_map_iff in X. destruct X as ([k f] & X & _). done.
      - destruct c as [|x c]; cbn in L.
        + injection L as ? ? ? ?; subst. rewrite app_nil_r in *. exists l. right. eauto 10.
        + injection L as ? L; subst. destruct (story_complete _ t i m h1 c S eq_refl) as (l' & h3 & -> & P'). exists l'. left. split; [done|]. eexists. by rewrite <-app_assoc. }
    destruct (owner s) as [t0|] eqn:O.
    - destruct (pcs s t0) eqn:Ep; try done.
      + eapply D; [exact H|done|]. rewrite Ep. by left.
      + destruct H as [H|(i0 & m0 & rest & H)]; [|eapply D; [exact H|done|by right]].
        destruct (story_complete _ t i m h1 h2 H E) as (l & h3 & -> & P). exists l. left. eauto.
    - destruct (story_complete _ t i m h1 h2 H E) as (l & h3 & -> & P). exists l. left. eauto.
  Qed.
  Lemma reach_conds es s : run hash enters init es = Ok s -> conds (log s).
  Proof using Hh.
    intros R. pose proof (i_hist _ (Inv_reach es s R)) as H. destruct (owner s) as [t0|]; [|by apply story_conds].
    destruct (pcs s t0) eqn:Ep; try done; [by eapply delivery_conds|]. destruct H as [H|(i0 & m0 & rest & H)]; [by apply story_conds|by eapply delivery_conds].
  Qed.

  (** Tokens are 1, 2, 3, ... in the order they are handed out: never zero, never twice. *)
  Theorem log_tokens es s : run hash enters init es = Ok s -> tokens (log s) = seq 1 (length (tokens (log s))).
  Proof using Hh. intros R. pose proof (i_tok _ (Inv_reach es s R)) as H. rewrite H at 1. f_equal. by rewrite H, seq_length. Qed.

  (** Only a callback whose subscription is in force is called. *)
  Theorem log_called es s h1 k f t m h2 : run hash enters init es = Ok s -> log s = h1 ++ Called k f t m :: h2 -> (k, f) ∈ subscribed h1.
  Proof using Hh. intros R E. apply (reach_conds es s R h1 _ h2 E). Qed.

  (** After unsubscribe returns the callback is never called again under that token. *)
  Theorem log_none_after es s h1 t k h2 : run hash enters init es = Ok s -> log s = h1 ++ Unsubscribed t k :: h2 ->
    forall f t' m, Called k f t' m ∉ h2.
  Proof using Hh.
    intros R E f t' m X. apply elem_of_list_split in X. destruct X as (a & b & ->).
    assert (log s = (h1 ++ Unsubscribed t k :: a) ++ Called k f t' m :: b) as E' by (by rewrite E, <-app_assoc).
    pose proof (reach_conds es s R _ _ _ E') as C. cbn in C. apply subscribed_iff in C. destruct C as (t1 & g1 & g2 & Eg & N).
    assert (NoDup (tokens (log s))) as ND by (rewrite (log_tokens es s R); apply NoDup_seq).
    pose proof (reach_conds es s R _ _ _ E) as [f' C]. apply subscribed_iff in C. destruct C as (t2 & g3 & g4 & -> & _).
    apply app_eq_inv in Eg. destruct Eg as [(c & Ea & Eb)|(c & Ea & Eb)].
    - assert (Unsubscribed t k ∈ g2); [|by eapply N]. destruct c; injection Eb as ? ?; subst; [done|]. apply elem_of_app. right. constructor.
    - destruct c as [|y c]; injection Eb as Eb1 Eb2; [done|].
      rewrite E in ND. rewrite tokens_app in ND. apply NoDup_app in ND. destruct ND as (_ & ND & _).
      apply (ND k).
      + apply (token_in _ t2 k f'). apply elem_of_app. right. constructor.
      + apply (token_in _ t1 k f). apply elem_of_list_further, elem_of_app. left. rewrite Eb2. apply elem_of_app. right. constructor.
  Qed.

  (** No callback is subscribed twice under one token, so "each once" above means what it says. *)
  Theorem log_distinct es s : run hash enters init es = Ok s -> NoDup (subscribed (log s)).*1.
  Proof using Hh. intros R. pose proof (Inv_reach es s R) as I. rewrite <-(i_subs _ I). apply (iterate_nodup (callbacks s)), (i_map _ I). Qed.

  (** While a message is delivered nobody else can change anything, and the steps its thread takes finish it. *)
  Lemma step_other s t e m rest s' : Inv s -> pcs s t = Calling m rest -> e <> Step t -> step hash enters s e = Ok s' ->
    pcs s' t = Calling m rest /\ log s' = log s /\ indent s' t = indent s t.
  Proof using Type.
    intros I Ep N E. pose proof (i_pc _ I _ _ _ Ep) as O. destruct e as [t' c|t']; cbn in E.
    - unfold begin in E. destruct (pcs s t') eqn:Ep'; try (by injection E as <-).
      assert (t <> t') by congruence.
      destruct c; try (injection E as <-; cbn; by rewrite ?upd_ne by done).
      destruct (0 <? indent s t'); [|done]. injection E as <-. cbn. by rewrite ?upd_ne by done.
    - assert (t <> t') by congruence. unfold step_thread in E. rewrite O in E. destruct (pcs s t') eqn:Ep'; try (by injection E as <-).
      apply (i_pc _ I) in Ep'. congruence.
  Qed.
  Fixpoint steps_of (t : nat) (es : list event) : nat :=
    match es with
    | [] => 0
    | Step t' :: es => if decide (t' = t) then S (steps_of t es) else steps_of t es
    | _ :: es => steps_of t es
    end.
  Theorem log_finishes es0 s t m rest es s' : run hash enters init es0 = Ok s -> pcs s t = Calling m rest ->
    (forall k f, (k, f) ∈ rest -> enters f m = false) ->
    steps_of t es = length rest -> run hash enters s (es ++ [Step t]) = Ok s' ->
    pcs s' t = Idle /\ owner s' = None /\ log s' = log s ++ List.map (fun '(k, f) => Called k f t m) rest ++ [Filed t (4 * indent s t) m].
  Proof using Hh.
    intros R. pose proof (Inv_reach es0 s R) as I. clear R. revert s rest I. induction es as [|e es IH]; intros s rest I Ep N L R.
    - destruct rest; [|done]. cbn in R. unfold step_thread in R. rewrite Ep in R. cbn in R. injection R as <-. cbn. rewrite upd_eq. done.
    - cbn [app run] in R. destruct (step hash enters s e) as [s1| | |] eqn:E1; try done. cbn [mbind res_bind] in R.
      assert (Inv s1) as I1. { apply (Inv_run [e] s s1 I). cbn [run]. by rewrite E1. }
      destruct (decide (e = Step t)) as [D|D].
      + subst e. cbn [steps_of] in L. rewrite decide_True in L by done. cbn in E1. unfold step_thread in E1. rewrite Ep in E1. destruct rest as [|[k f] rest]; [done|].
        rewrite (N k f) in E1 by constructor. injection E1 as <-. destruct (IH _ rest I1) as (A & B & C).
        * cbn. apply upd_eq.
        * intros k' f' H. apply (N k'). by constructor.
        * cbn in L. lia.
        * done.
        * split_and!; [done|done|]. rewrite C. cbn. by rewrite <-app_assoc.
      + destruct (step_other s t e m rest s1 I Ep D E1) as (A & B & C). rewrite <-B, <-C. apply IH; try done. destruct e as [|t']; [done|]. cbn in L. rewrite decide_False in L by congruence. done.
  Qed.
  (** A thread waits for itself only if a callback called into the log, or after unsubscribing what is not subscribed. *)
  Definition owns (s : st) : Prop := forall t, pcs s t = Stuck -> owner s = Some t.
  Definition came (s : st) (t : nat) : Prop :=
    (exists h k f m, log s = h ++ [Called k f t m] /\ enters f m = true).
  Lemma step_stuck s e s' : Inv s -> owns s -> step hash enters s e = Ok s' -> owns s' /\ forall t, pcs s' t = Stuck ->
    (pcs s t = Stuck /\ log s' = log s) \/ came s' t \/ (exists k, e = Step t /\ pcs s t = WantUnsub k /\ forall f, (k, f) ∉ subscribed (log s)).
  Proof using Hh.
    intros I W E. assert (forall s' p t' ind nx cb lg, p <> Stuck -> s' = St (upd (pcs s) t' p) ind (owner s) nx cb lg -> owns s') as K.
    { intros s1 p t' ind nx cb lg N -> t. cbn. destruct (decide (t = t')) as [->|D]; [by rewrite upd_eq|]. rewrite upd_ne by done. apply W. }
    destruct e as [t' c|t']; cbn in E.
    - unfold begin in E. destruct (pcs s t') eqn:Ep'; try (injection E as <-; split; [done|]; intros t H; left; done).
      destruct c; try (injection E as <-; split; [eapply K; [|reflexivity]; done|]; cbn; intros t; destruct (decide (t = t')) as [->|D]; [by rewrite upd_eq|]; rewrite upd_ne by done; intros H; left; done).
      + injection E as <-. split; [exact W|]. cbn. intros t H. by left.
      + destruct (0 <? indent s t'); [|done]. injection E as <-. split; [exact W|]. cbn. intros t H. by left.
    - unfold step_thread in E. destruct (pcs s t') as [|m|m rest|f|k|] eqn:Ep'.
      + injection E as <-. split; [done|]; intros t H; left; done.
      + destruct (owner s) as [t0|] eqn:O; [injection E as <-; split; [done|]; intros t H; left; done|]. injection E as <-.
        split; intros t; cbn; destruct (decide (t = t')) as [->|D]; rewrite ?upd_eq, ?upd_ne by done; try done; intros H; apply W in H; congruence.
      + pose proof (i_pc _ I _ _ _ Ep') as O. destruct rest as [|[k f] rest].
        * injection E as <-. split; intros t; cbn; destruct (decide (t = t')) as [->|D]; rewrite ?upd_eq, ?upd_ne by done; try done; intros H; apply W in H; congruence.
        * injection E as <-. split; intros t; cbn; destruct (decide (t = t')) as [->|D]; rewrite ?upd_eq, ?upd_ne by done; try done.
          -- apply W.
          -- destruct (enters f m) eqn:Ef; [|done]. intros _. right. left. exists (log s), k, f, m. done.
          -- intros H. apply W in H. congruence.
      + destruct (owner s) as [t0|] eqn:O; [injection E as <-; split; [done|]; intros t H; left; done|].
        destruct (map_insert hash (callbacks s) (next s) f) as [[[m' i] ds]| | |]; try done. cbn in E. injection E as <-.
        split; intros t; cbn; destruct (decide (t = t')) as [->|D]; rewrite ?upd_eq, ?upd_ne by done; try done; intros H; apply W in H; congruence.
      + destruct (owner s) as [t0|] eqn:O; [injection E as <-; split; [done|]; intros t H; left; done|].
        destruct (i_rel _ I) as [g G].
        destruct (map_try_erase_ok hash Hh (callbacks s) g k (i_map _ I) G) as (m' & ds & E' & _). rewrite E' in E. cbn [mbind res_bind] in E.
        destruct (g k) as [f|] eqn:Gk.
        * rewrite bool_decide_true in E by eauto. injection E as <-.
          split; intros t; cbn; destruct (decide (t = t')) as [->|D]; rewrite ?upd_eq, ?upd_ne by done; try done; intros H; apply W in H; congruence.
        * rewrite bool_decide_false in E by (by intros [? ?]). injection E as <-.
          split; intros t; cbn; destruct (decide (t = t')) as [->|D]; rewrite ?upd_eq, ?upd_ne by done; try done; try (intros H; apply W in H; congruence).
          intros _. right. right. exists k. split_and!; [done|done|]. intros f F. apply (mrel_subs s g _ _ I G) in F. congruence.
      + injection E as <-. split; [done|]; intros t H; left; done.
  Qed.
  Lemma run_app es es' s : run hash enters s (es ++ es') = (s1 ← run hash enters s es; run hash enters s1 es').
  Proof using Type. revert s. induction es as [|e es IH]; intros s; [done|]. cbn [app run]. destruct (step hash enters s e); try done. cbn [mbind res_bind]. apply IH. Qed.
  Lemma reach_owns es s : run hash enters init es = Ok s -> owns s.
  Proof using Hh.
    assert (forall s0, Inv s0 -> owns s0 -> run hash enters s0 es = Ok s -> owns s) as K; [|apply K; [apply Inv_init|by intros ?]].
    induction es as [|e es IH]; intros s0 I W R; [by injection R as <-|]. cbn [run] in R. destruct (step hash enters s0 e) as [s1| | |] eqn:E; try done. cbn [mbind res_bind] in R.
    apply (IH s1); [apply (Inv_run [e] s0 s1 I); cbn [run]; by rewrite E|by apply (step_stuck s0 e s1)|done].
  Qed.
  Theorem log_stuck es s t : run hash enters init es = Ok s -> pcs s t = Stuck ->
    (exists h k f m, log s = h ++ [Called k f t m] /\ enters f m = true) \/
    (exists es1 s1 es2 k, es = es1 ++ Step t :: es2 /\ run hash enters init es1 = Ok s1 /\ pcs s1 t = WantUnsub k /\ forall f, (k, f) ∉ subscribed (log s1)).
  Proof using Hh.
    revert s. induction es as [|e es IH] using rev_ind; intros s R P; [by injection R as <-|].
    rewrite run_app in R. destruct (run hash enters init es) as [s1| | |] eqn:R1; try done. cbn [mbind res_bind run] in R.
    destruct (step hash enters s1 e) as [s2| | |] eqn:E; try done. cbn [mbind res_bind] in R. injection R as ->.
    destruct (step_stuck s1 e s (Inv_reach es s1 R1) (reach_owns es s1 R1) E) as [_ Q].
    destruct (Q t P) as [[P1 L]|[C|(k & -> & Pk & N)]].
    - destruct (IH s1 eq_refl P1) as [C|(es1 & s0 & es2 & k & -> & C)]; [left; by rewrite L|]. right. exists es1, s0, (es2 ++ [e]), k. by rewrite <-app_assoc.
    - by left.
    - right. exists es, s1, [], k. done.
  Qed.
  (** Once that has happened nobody logs, subscribes or unsubscribes ever again. *)
  Theorem log_stuck_forever es s t es' s' : run hash enters init es = Ok s -> pcs s t = Stuck -> run hash enters s es' = Ok s' ->
    pcs s' t = Stuck /\ owner s' = Some t /\ log s' = log s.
  Proof using Hh.
    intros R P. pose proof (Inv_reach es s R) as I. pose proof (reach_owns es s R) as W. clear R. revert s I W P.
    induction es' as [|e es' IH]; intros s I W P R; [injection R as <-; split_and!; try done; by apply W|].
    cbn [run] in R. destruct (step hash enters s e) as [s1| | |] eqn:E; try done. cbn [mbind res_bind] in R.
    assert (pcs s1 t = Stuck /\ log s1 = log s) as [P1 L1].
    { pose proof (W t P) as O. destruct e as [t' c|t']; cbn in E.
      - unfold begin in E. destruct (pcs s t') eqn:Ep'; try (by injection E as <-). assert (t <> t') by congruence.
        destruct c; try (injection E as <-; cbn; by rewrite ?upd_ne by done). destruct (0 <? indent s t'); [|done]. by injection E as <-.
      - unfold step_thread in E. rewrite O in E. destruct (pcs s t') eqn:Ep'; try (by injection E as <-). exfalso. pose proof (i_pc _ I _ _ _ Ep'). congruence. }
    destruct (IH s1) as (A & B & C); try done.
    - apply (Inv_run [e] s s1 I). cbn [run]. by rewrite E.
    - by apply (step_stuck s e s1).
    - split_and!; [done|done|]. by rewrite C.
  Qed.

  (** A thread in no call may make any; waiting leaves everything as it is. *)
  Theorem log_begins s t c s' : pcs s t = Idle -> step hash enters s (Begin t c) = Ok s' ->
    log s' = log s /\ owner s' = owner s /\ (forall t', t' <> t -> pcs s' t' = pcs s t' /\ indent s' t' = indent s t') /\
    match c with
    | Log m => pcs s' t = WantLog m /\ indent s' t = indent s t
    | Subscribe f => pcs s' t = WantSub f /\ indent s' t = indent s t
    | Unsubscribe k => pcs s' t = WantUnsub k /\ indent s' t = indent s t
    | Indent => pcs s' t = Idle /\ indent s' t = indent s t + 1
    | Dedent => pcs s' t = Idle /\ indent s t = indent s' t + 1
    end.
  Proof using Type.
    intros P E. cbn in E. unfold begin in E. rewrite P in E. destruct c.
    5: { destruct (Nat.ltb_spec 0 (indent s t)); [|done]. injection E as <-. cbn. rewrite upd_eq. split_and!; try done; [|lia]. intros t' N. by rewrite upd_ne. }
    all: injection E as <-; cbn; rewrite ?upd_eq; split_and!; try done; try lia; intros t' N; by rewrite ?upd_ne.
  Qed.
  (** When nobody holds the mutex, whoever wants it gets on. *)
  Theorem log_enters es s t : run hash enters init es = Ok s -> owner s = None ->
    exists s', step hash enters s (Step t) = Ok s' /\
      match pcs s t with
      | WantLog m => pcs s' t = Calling m (map_iterate (callbacks s)) /\ log s' = log s ++ [Printed t (4 * indent s t) m]
      | WantSub f => pcs s' t = Idle /\ log s' = log s ++ [Subscribed t (S (length (tokens (log s)))) f]
      | WantUnsub k => (exists f, (k, f) ∈ subscribed (log s)) -> pcs s' t = Idle /\ log s' = log s ++ [Unsubscribed t k]
      | Idle => s' = s
      | Calling _ _ | Stuck => False
      end.
  Proof using Hh.
    intros R O. pose proof (Inv_reach es s R) as I. destruct (Inv_step_thread s t I) as (s' & E & I'). exists s'. split; [done|].
    unfold step_thread in E. destruct (pcs s t) as [|m|m rest|f|k|] eqn:Ep; rewrite ?O in E.
    - by injection E as <-.
    - injection E as <-. cbn. by rewrite upd_eq.
    - apply (i_pc _ I) in Ep. congruence.
    - destruct (map_insert hash (callbacks s) (next s) f) as [[[m' i] ds]| | |]; try done. cbn in E. injection E as <-. cbn. rewrite upd_eq. split; [done|].
      rewrite (i_tok _ I), seq_length. pose proof (i_next _ I). do 3 f_equal. lia.
    - intros [f F]. destruct (i_rel _ I) as [g G]. apply (mrel_subs s g _ _ I G) in F.
      destruct (map_try_erase_ok hash Hh (callbacks s) g k (i_map _ I) G) as (m' & ds & E' & _). rewrite E' in E. cbn [mbind res_bind] in E.
      rewrite F in E. rewrite bool_decide_true in E by eauto. injection E as <-. cbn. by rewrite upd_eq.
    - apply (reach_owns es s R) in Ep. congruence.
  Qed.
End log.

(** ** The hypotheses are met, and the two findings *)
Definition hash0 (k : nat) : Z := 1.
Lemma hash0_ok : nonzero_u64 hash0.
Proof. intros k. by vm_compute. Qed.
(** Two callbacks, three messages, one unsubscribe, from two threads *)
Definition demo : list event :=
  [Begin 0 (Subscribe 10); Step 0; Begin 1 (Subscribe 11); Step 1; Begin 0 (Log 5); Begin 1 Indent; Begin 1 (Log 6); Step 0; Step 1; Step 0; Step 0; Step 1; Step 0;
   Step 1; Step 1; Step 1; Step 1; Begin 0 (Unsubscribe 1); Step 0; Begin 0 (Log 7); Step 0; Step 0].
Example log_premises : exists s, run hash0 (fun _ _ => false) init demo = Ok s /\ pcs s 0 = Calling 7 [] /\
  log s = [Subscribed 0 1 10; Subscribed 1 2 11; Printed 0 0 5; Called 1 10 0 5; Called 2 11 0 5; Filed 0 0 5;
           Printed 1 4 6; Called 1 10 1 6; Called 2 11 1 6; Filed 1 4 6; Unsubscribed 0 1; Printed 0 0 7; Called 2 11 0 7].
Proof. vm_compute. eexists. split_and!; reflexivity. Qed.

(** A callback that logs (or whose assert fails) never returns, and no thread logs again. *)
Theorem log_reentrant_refuted : exists es s, run hash0 (fun f m => f =? 10) init es = Ok s /\
  log s = [Subscribed 0 1 10; Printed 0 0 5; Called 1 10 0 5] /\
  forall es' s', run hash0 (fun f m => f =? 10) s es' = Ok s' -> log s' = log s /\ owner s' = Some 0.
Proof.
  exists [Begin 0 (Subscribe 10); Step 0; Begin 0 (Log 5); Step 0; Step 0].
  destruct (run hash0 (fun f m => f =? 10) init [Begin 0 (Subscribe 10); Step 0; Begin 0 (Log 5); Step 0; Step 0]) as [s| | |] eqn:E; try (by vm_compute in E).
  exists s. assert (pcs s 0 = Stuck /\ log s = [Subscribed 0 1 10; Printed 0 0 5; Called 1 10 0 5]) as [P L] by (vm_compute in E; injection E as <-; done).
  split_and!; [done|done|]. intros es' s' R. destruct (log_stuck_forever _ _ hash0_ok _ _ _ _ _ E P R) as (_ & ? & ?). done.
Qed.
(** unsubscribe() of a token that is not in force should stop the program with a message: it hangs instead, holding the mutex. *)
Theorem log_unknown_token_refuted : exists es s, run hash0 (fun _ _ => false) init es = Ok s /\
  log s = [Subscribed 0 1 10; Unsubscribed 0 1] /\
  forall es' s', run hash0 (fun _ _ => false) s es' = Ok s' -> log s' = log s /\ owner s' = Some 0.
Proof.
  set (es := [Begin 0 (Subscribe 10); Step 0; Begin 0 (Unsubscribe 1); Step 0; Begin 0 (Unsubscribe 1); Step 0]). exists es.
  destruct (run hash0 (fun _ _ => false) init es) as [s| | |] eqn:E; try (by vm_compute in E).
  exists s. assert (pcs s 0 = Stuck /\ log s = [Subscribed 0 1 10; Unsubscribed 0 1]) as [P L] by (vm_compute in E; injection E as <-; done).
  split_and!; [done|done|]. intros es' s' R. destruct (log_stuck_forever _ _ hash0_ok _ _ _ _ _ E P R) as (_ & ? & ?). done.
Qed.

Print Assumptions subscribed_iff.
Print Assumptions log_defined.
Print Assumptions log_delivery.
Print Assumptions log_tokens.
Print Assumptions log_called.
Print Assumptions log_none_after.
Print Assumptions log_distinct.
Print Assumptions log_finishes.
Print Assumptions log_begins.
Print Assumptions log_enters.
Print Assumptions log_stuck.
Print Assumptions log_stuck_forever.
Print Assumptions log_reentrant_refuted.
Print Assumptions log_unknown_token_refuted.
