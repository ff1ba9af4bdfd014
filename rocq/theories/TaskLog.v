(** What is observed of tasks is consistent. *)
From Verif Require Import Base TaskModel TaskSpec TaskProofs.

Definition late (q : pc) : bool := match q with Signalling | Notifying | Final | Self_Destroy | Resume _ | Ended => true | _ => false end.
Definition is_wait (q : pc) : bool := match q with Waiting _ => true | _ => false end.
Definition dead (f : option frame) : nat := match f with Some f => if f_alive f then 0 else 1 | None => 0 end.
Record LInv (s : tst) : Prop := mk_LInv {
  l_val : forall c f, frames s c = Some f -> f_value f = result (log s) c;
  l_ret : forall c f, frames s c = Some f -> f_flag f = true \/ f_state f = TDone -> late (pcs s c) = true;
  l_cnt : forall c, returns (log s) c = if late (pcs s c) then 1 else 0;
  l_take : forall a v c, pcs s a = Taking v -> vars s v = Some (Some c) -> late (pcs s c) = true;
  l_des : forall c, destroys (log s) c = dead (frames s c);
  l_sus : forall a, suspends (log s) a = resumes (log s) a + (if is_wait (pcs s a) then 1 else 0);
  l_hon : honest (log s)
}.
Lemma returns_some l c : 0 < returns l c -> exists x, returned l c x.
Proof.
  unfold returns, count, returned. induction l as [|o l IH]; cbn; [lia|]. intros H. destruct o; try (destruct (IH H) as [y Hy]; exists y; by apply elem_of_list_further).
  case_bool_decide as E; [subst; exists x; apply elem_of_list_here|]. destruct (IH H) as [y Hy]. exists y. by apply elem_of_list_further.
Qed.
Lemma returns_none l c : returns l c = 0 -> result l c = None /\ forall x, ~ returned l c x.
Proof.
  unfold returns, count, returned. induction l as [|o l IH]; cbn; [intros _; split; [done|]; intros x; apply not_elem_of_nil|]. intros H.
  assert (length (List.filter (λ o : obs, match o with OReturn d _ => bool_decide (d = c) | _ => false end) l) = 0) as H'.
  { destruct o; try done. by case_bool_decide. }
  destruct (IH H') as [I1 I2]. split.
  - destruct o; try done.
    + case_decide as D; [|done]. exfalso. subst. by rewrite bool_decide_eq_true_2 in H.
    + by case_decide.
  - intros x [E|E]%elem_of_cons; [|by apply (I2 x)]. subst o. by rewrite bool_decide_eq_true_2 in H.
Qed.
Lemma late_returned s c : LInv s -> late (pcs s c) = true -> exists x, returned (log s) c x.
Proof. intros L H. apply returns_some. rewrite (l_cnt _ L), H. lia. Qed.
Lemma not_late_new s c : Inv s -> agents s <= c -> late (pcs s c) = false.
Proof. intros I H. apply (i_new _ I) in H. by rewrite H. Qed.

(** Nothing is observed. *)
Lemma quiet s s' : Inv s -> LInv s -> log s' = log s ->
  (forall a, late (pcs s' a) = late (pcs s a) /\ is_wait (pcs s' a) = is_wait (pcs s a)) ->
  (forall c, match frames s' c with
     | None => frames s c = None
     | Some f' => match frames s c with
        | Some f => f_value f' = f_value f /\ f_alive f' = f_alive f /\ (f_flag f' = true \/ f_state f' = TDone -> f_flag f = true \/ f_state f = TDone \/ late (pcs s c) = true)
        | None => agents s <= c /\ f' = mk_frame TStart false None true end
     end) ->
  (forall a v c, pcs s' a = Taking v -> vars s' v = Some (Some c) -> (pcs s a = Taking v /\ vars s v = Some (Some c)) \/ late (pcs s c) = true) -> LInv s'.
Proof.
  intros I L Hl Hp Hf Ht. constructor; rewrite ?Hl.
  - intros c f' E. specialize (Hf c). rewrite E in Hf. destruct (frames s c) as [f|] eqn:Ef.
    + destruct Hf as (-> & _). by apply (l_val _ L).
    + destruct Hf as [Hc ->]. cbn. symmetry. apply returns_none. rewrite (l_cnt _ L). by rewrite not_late_new.
  - intros c f' E H. specialize (Hf c). rewrite E in Hf. rewrite (proj1 (Hp c)). destruct (frames s c) as [f|] eqn:Ef.
    + destruct Hf as (_ & _ & Hf). destruct (Hf H) as [?|[?|?]]; [eapply (l_ret _ L); [done|auto]..|done].
    + destruct Hf as [_ ->]. by destruct H.
  - intros c. rewrite (proj1 (Hp c)). apply L.
  - intros a v c E1 E2. rewrite (proj1 (Hp c)). destruct (Ht a v c E1 E2) as [[? ?]|?]; [by eapply (l_take _ L)|done].
  - intros c. rewrite (l_des _ L). specialize (Hf c). destruct (frames s' c) as [f'|]; [|by rewrite Hf]. destruct (frames s c) as [f|]; cbn.
    + by destruct Hf as (_ & -> & _).
    + by destruct Hf as [_ ->].
  - intros a. rewrite (proj2 (Hp a)). apply L.
  - apply L.
Qed.
Lemma quiet_pc s a q : Inv s -> LInv s -> late q = late (pcs s a) -> is_wait q = is_wait (pcs s a) ->
  (forall v c, q = Taking v -> vars s v = Some (Some c) -> late (pcs s c) = true) -> LInv (set_pc a q s).
Proof.
  intros I L H1 H2 H3. apply (quiet s); try done.
  - intros b. cbn. dec b a; by uu.
  - intros c. cbn. destruct (frames s c); [|done]. split_and!; try done. naive_solver.
  - intros b v c. cbn. dec b a; uu; intros E1 E2; [right; by eapply H3|by left].
Qed.
(** The pc of [a] and one frame change, and nothing is observed. *)
Lemma quiet_frame s a q c f f' : Inv s -> LInv s -> late q = late (pcs s a) -> is_wait q = is_wait (pcs s a) -> (forall v, q <> Taking v) ->
  frames s c = Some f -> f_value f' = f_value f -> f_alive f' = f_alive f ->
  (f_flag f' = true \/ f_state f' = TDone -> f_flag f = true \/ f_state f = TDone \/ late (pcs s c) = true) ->
  LInv (set_pc a q (set_frame c f' s)).
Proof.
  intros I L H1 H2 H3 Ef Hv Ha Hs. apply (quiet s); try done.
  - intros b. cbn. dec b a; by uu.
  - intros d. cbn. dec d c; uu; [by rewrite Ef|]. destruct (frames s d); [|done]. split_and!; try done. naive_solver.
  - intros b v d. cbn. dec b a; uu; intros E1 E2; [by apply H3 in E1|by left].
Qed.
Lemma init_log : LInv tst_init.
Proof.
  constructor; cbn; try done.
  - intros c. change (returns [] c) with 0. unfold upd. by case_decide.
  - intros a. change (suspends [] a) with 0. change (resumes [] a) with 0. unfold upd. by case_decide.
Qed.
Lemma begin_log s a c : Inv s -> LInv s -> pcs s a = Idle -> LInv (begin s a c).
Proof.
  intros I L Ea. destruct c as [| | |v|v w|v|v|v|v| |x]; cbn [begin].
  - apply (quiet s); try done; cbn.
    + intros b. dec b (agents s); uu; [|done]. by rewrite (proj1 (i_new _ I (agents s))).
    + intros c. dec c (agents s); uu; [by apply (i_nof _ I)|]. destruct (frames s c); [|done]. split_and!; try done. naive_solver.
    + intros b v c. dec b (agents s); uu; [done|]. by left.
  - apply (quiet s); try done; cbn.
    + intros b. dec b (agents s); uu; [|done]. by rewrite (proj1 (i_new _ I (agents s))).
    + intros c. dec c (agents s); uu; [by rewrite (i_nof _ I)|]. destruct (frames s c); [|done]. split_and!; try done. naive_solver.
    + intros b v c. dec b (agents s); uu; [done|]. intros E1 E2. left. split; [done|]. dec v (nvars s); uu; [|done].
      destruct (i_dom _ I b (nvars s)) as [h Hh]; [rewrite E1; apply ment|]. by rewrite (i_var _ I) in Hh.
  - apply (quiet s); try done; cbn.
    + intros c. destruct (frames s c); [|done]. split_and!; try done. naive_solver.
    + intros b v c. intros E1 E2. left. split; [done|]. dec v (nvars s); uu; done.
  - destruct (free s v) eqn:F; [|done]. destruct (free_spec _ _ I F) as [[h Ev] Nm]. rewrite Ev. apply (quiet s); try done; cbn.
    + intros c. destruct (frames s c); [|done]. split_and!; try done. naive_solver.
    + intros b u c. intros E1 E2. left. split; [done|]. dec u v; uu; [done|]. dec u (nvars s); uu; [|done].
      destruct (i_dom _ I b (nvars s)) as [h' Hh]; [rewrite E1; apply ment|]. by rewrite (i_var _ I) in Hh.
  - destruct (free s v && free s w); [|done]. apply quiet_pc; try done; by rewrite Ea.
  - destruct (free s v); [|done]. apply quiet_pc; try done; by rewrite Ea.
  - destruct (free s v && is_coro s a); [|done]. apply quiet_pc; try done; by rewrite Ea.
  - destruct (free s v); [|done]. apply quiet_pc; try done; by rewrite Ea.
  - destruct (free s v); [|done]. apply quiet_pc; try done; by rewrite Ea.
  - destruct (is_coro s a); [|done]. apply quiet_pc; try done; by rewrite Ea.
  - destruct (is_coro s a); [|done]. apply quiet_pc; try done; by rewrite Ea.
Qed.
Lemma count_cons p o l : count p (o :: l) = (if p o then 1 else 0) + count p l.
Proof. unfold count. cbn. by destruct (p o). Qed.
Ltac counts := unfold returns, destroys, suspends, resumes in *; rewrite ?count_cons; cbn beta iota.
Lemma micro_log s a s' : Inv s -> LInv s -> micro s a = Ok s' -> LInv s'.
Proof.
  intros I L S. pose proof (i_pc _ I a) as P. unfold pc_ok in P. unfold micro in S.
  destruct (pcs s a) as [| | |v|v|v|v|v|v|v k|c v k|v w|x| | | | |b|] eqn:Ea; try (by injection S as <-).
  - (* Ready *) destruct (handle_cases s a v I) as [(c & Ev & E)|[Ev E]]; [rewrite Ea; apply ment| |]; rewrite E in S; cbn [mbind res_bind] in S; [|done].
    destruct (handle_get _ _ _ I Ev) as (f & Ef & E2 & _). rewrite E2 in S. cbn [mbind res_bind] in S. case_decide as D; injection S as <-.
    + apply quiet_pc; try done; try (by rewrite Ea). intros v' c' [= <-] E'. rewrite Ev in E'. injection E' as <-. by apply (l_ret _ L c f); [|right].
    + apply quiet_pc; try done; by rewrite Ea.
  - (* Register *) destruct P as [Pa [c Ev]]. unfold handle in S. rewrite Ev in S. cbn [mbind res_bind] in S. destruct (handle_get _ _ _ I Ev) as (f & Ef & E2 & Al & Sa). rewrite E2 in S. cbn [mbind res_bind] in S.
    case_decide as D; injection S as <-.
    + constructor; cbn [log say set_pc set_frame pcs frames vars].
      * intros d g. cbn. dec d c; uu; [intros [= <-]; cbn; by apply (l_val _ L)|apply (l_val _ L)].
      * intros d g Eg H. assert (late (pcs s d) = true) as Hd.
        { dec d c; uu; [|by apply (l_ret _ L d g)]. injection Eg as <-. apply (l_ret _ L c f); [done|]. left. by destruct H. }
        dec d a; uu; [by rewrite Ea in Hd|done].
      * intros d. counts. rewrite (l_cnt _ L d : count _ _ = _). dec d a; uu; [by rewrite Ea|done].
      * intros b u d E1 E3. dec b a; uu; [done|]. pose proof (l_take _ L b u d E1 E3) as H. dec d a; uu; [by rewrite Ea in H|done].
      * intros d. counts. rewrite (l_des _ L d : count _ _ = _). dec d c; uu; [by rewrite Ef|done].
      * intros b. counts. pose proof (l_sus _ L b) as H. counts. dec b a; uu; [rewrite bool_decide_eq_true_2 by done; rewrite Ea in H; cbn in *; lia|].
        rewrite bool_decide_eq_false_2 by done. lia.
      * split; [apply L|done].
    + apply quiet_pc; try done; try (by rewrite Ea). intros v' c' [= <-] E'. rewrite Ev in E'. injection E' as <-.
      pose proof (i_fr _ I c f Ef) as F. unfold frame_ok in F. destruct (f_state f) as [| | |b] eqn:St; try done; [by apply (l_ret _ L c f); [|right]|].
      exfalso. assert (waiting s b c) as (u & E3 & E4).
      { destruct (pcs s c); try done; try apply F; try (by destruct F as (_ & ? & _)). destruct F as [(_ & ? & _)|[(_ & ? & _)|?]]; try done. congruence. }
      assert (u = v) as -> by (by apply (i_inj _ I u v c)). assert (b = a) as ->; [|congruence]. apply (i_one _ I b a v); [rewrite E3|rewrite Ea]; apply ment.
  - (* Taking *) destruct P as [c Ev]. unfold handle in S. rewrite Ev in S. cbn [mbind res_bind] in S. destruct (handle_get _ _ _ I Ev) as (f & Ef & E2 & Al & Sa). rewrite E2 in S. cbn [mbind res_bind] in S.
    injection S as <-. constructor; cbn [log say set_pc set_frame pcs frames vars].
    * intros d g. cbn. dec d c; uu; [intros [= <-]; cbn; by rewrite decide_True|]. rewrite decide_False by done. apply (l_val _ L).
    * intros d g Eg H. assert (late (pcs s d) = true) as Hd.
      { dec d c; uu; [|by apply (l_ret _ L d g)]. injection Eg as <-. by apply (l_ret _ L c f). }
      dec d a; uu; [by rewrite Ea in Hd|done].
    * intros d. counts. rewrite (l_cnt _ L d : count _ _ = _). dec d a; uu; [by rewrite Ea|done].
    * intros b u d E1 E3. dec b a; uu; [done|]. pose proof (l_take _ L b u d E1 E3) as H. dec d a; uu; [by rewrite Ea in H|done].
    * intros d. counts. rewrite (l_des _ L d : count _ _ = _). dec d c; uu; [by rewrite Ef|done].
    * intros b. counts. pose proof (l_sus _ L b) as H. counts. dec b a; uu; [by rewrite Ea in H|done].
    * split; [apply L|]. split; [by apply (l_val _ L)|]. apply late_returned; [done|]. by apply (l_take _ L a v).
  - (* Blocking *) destruct (handle_cases s a v I) as [(c & Ev & E)|[Ev E]]; [rewrite Ea; apply ment| |]; rewrite E in S; cbn [mbind res_bind] in S; [|done].
    destruct (handle_get _ _ _ I Ev) as (f & Ef & E2 & _). rewrite E2 in S. cbn [mbind res_bind] in S. injection S as <-. destruct (f_flag f) eqn:Fl; [|done].
    apply quiet_pc; try done; try (by rewrite Ea). intros v' c' [= <-] E'. rewrite Ev in E'. injection E' as <-. by apply (l_ret _ L c f); [|left].
  - (* Asking *) destruct (handle_cases s a v I) as [(c & Ev & E)|[Ev E]]; [rewrite Ea; apply ment| |]; rewrite E in S; cbn [mbind res_bind] in S; [|done].
    destruct (handle_get _ _ _ I Ev) as (f & Ef & E2 & _). rewrite E2 in S. cbn [mbind res_bind] in S. injection S as <-.
    assert (LInv (set_pc a Idle s)) as L1 by (apply quiet_pc; try done; by rewrite Ea). destruct L1 as [A B C D E' F G].
    constructor; cbn [log say set_pc pcs frames vars] in *; try done.
    split; [apply L|]. case_bool_decide; [|done]. apply late_returned; [done|]. by apply (l_ret _ L c f); [|right].
  - (* Dropping *) destruct (i_dom _ I a v) as [[c|] Ev]; [rewrite Ea; cbn; by rewrite ment| |]; rewrite Ev in S.
    + destruct (handle_get _ _ _ I Ev) as (f & Ef & E2 & _). rewrite E2 in S. cbn [mbind res_bind] in S.
      assert (forall q, late q = false -> is_wait q = false -> (forall v, q <> Taking v) -> LInv (set_pc a q (set_var v None (set_frame c (with_state f TAbandoned) s)))) as X.
      { intros q Q1 Q2 Q3. apply (quiet s); try done.
        - intros b. cbn. dec b a; uu; [by rewrite Ea|done].
        - intros d. cbn. dec d c; uu; [rewrite Ef; split_and!; try done; intros [?|?]; [by left|done]|]. destruct (frames s d); [|done]. split_and!; try done. naive_solver.
        - intros b u d. cbn. dec b a; uu; intros E1 E3; [by apply Q3 in E1|]. dec u v; uu; [done|]. by left. }
      destruct (f_state f); try done; injection S as <-; apply X; try done; by destruct k.
    + injection S as <-. apply quiet_pc; try done; try (rewrite Ea; by destruct k). by destruct k.
  - (* Destroying *) destruct P as (Ev & f & Ef & Al & St & Ec). unfold destroy, get in S. rewrite Ef, Al, Ec in S. cbn [mbind res_bind] in S. injection S as <-.
    constructor; cbn [log say set_pc set_frame pcs frames vars].
    * intros d g. cbn. dec d c; uu; [intros [= <-]; cbn; by apply (l_val _ L)|apply (l_val _ L)].
    * intros d g Eg H. assert (late (pcs s d) = true) as Hd.
      { dec d c; uu; [|by apply (l_ret _ L d g)]. by rewrite Ec. }
      dec d a; uu; [by rewrite Ea in Hd|done].
    * intros d. counts. rewrite (l_cnt _ L d : count _ _ = _). dec d a; uu; [rewrite Ea; by destruct k|done].
    * intros b u d E1 E3. dec b a; uu; [by destruct k|]. pose proof (l_take _ L b u d E1 E3) as H. dec d a; uu; [by rewrite Ea in H|done].
    * intros d. counts. rewrite (l_des _ L d : count _ _ = _). dec d c; uu; [rewrite Ef; cbn; rewrite Al; by rewrite bool_decide_eq_true_2|]. by rewrite bool_decide_eq_false_2.
    * intros b. counts. pose proof (l_sus _ L b) as H. counts. dec b a; uu; [rewrite Ea in H; by destruct k|done].
    * split; [apply L|]. apply late_returned; [done|]. by rewrite Ec.
  - (* Stealing *) destruct (vars s w) as [h|] eqn:Ew; [|done]. injection S as <-. apply (quiet s); try done; cbn.
    + intros b. dec b a; uu; [by rewrite Ea|done].
    + intros c. destruct (frames s c); [|done]. split_and!; try done. naive_solver.
    + intros b u c E1 E3. dec b a; uu; [done|]. left. split; [done|].
      assert (u <> w /\ u <> v) as [N1 N2]; [|by uu].
      split; intros ->; apply n; (eapply (i_one _ I b a); [rewrite E1; apply ment|]); rewrite Ea; cbn; by rewrite ment, ?orb_true_r.
  - (* Storing *) destruct (get_own s a I P) as (f & Ef & E2); [by rewrite Ea|]. rewrite E2 in S. cbn [mbind res_bind] in S. injection S as <-.
    constructor; cbn [log say set_pc set_frame pcs frames vars].
    * intros d g. cbn. dec d a; uu; [intros [= <-]; cbn; by rewrite decide_True|]. rewrite decide_False by done. apply (l_val _ L).
    * intros d g Eg H. dec d a; uu; [done|]. by apply (l_ret _ L d g).
    * intros d. counts. rewrite (l_cnt _ L d : count _ _ = _). dec d a; uu; [rewrite Ea; by rewrite bool_decide_eq_true_2|]. by rewrite bool_decide_eq_false_2.
    * intros b u d E1 E3. dec b a; uu; [done|]. pose proof (l_take _ L b u d E1 E3) as H. dec d a; uu; [by rewrite Ea in H|done].
    * intros d. counts. rewrite (l_des _ L d : count _ _ = _). dec d a; uu; [by rewrite Ef|done].
    * intros b. counts. pose proof (l_sus _ L b) as H. counts. dec b a; uu; [by rewrite Ea in H|done].
    * split; [apply L|done].
  - (* Signalling *) destruct (get_own s a I P) as (f & Ef & E2); [by rewrite Ea|]. rewrite E2 in S. cbn [mbind res_bind] in S. injection S as <-.
    apply (quiet_frame s a _ a f); try done; rewrite ?Ea; try done. by auto.
  - (* Notifying *) destruct (get_own s a I P) as (f & Ef & E2); [by rewrite Ea|]. rewrite E2 in S. cbn [mbind res_bind] in S. injection S as <-.
    apply quiet_pc; try done; by rewrite Ea.
  - (* Final *) destruct (get_own s a I P) as (f & Ef & E2); [by rewrite Ea|]. rewrite E2 in S. cbn [mbind res_bind] in S.
    destruct (f_state f); try done; injection S as <-; (apply (quiet_frame s a _ a f); try done; rewrite ?Ea; try done; by auto).
  - (* Self_Destroy *) destruct (get_own s a I P) as (f & Ef & E2); [by rewrite Ea|]. unfold destroy in S. rewrite E2, Ea in S. cbn [mbind res_bind] in S. injection S as <-.
    assert (f_alive f = true) as Al by (unfold get in E2; rewrite Ef in E2; by destruct (f_alive f)).
    constructor; cbn [log say set_pc set_frame pcs frames vars].
    * intros d g. cbn. dec d a; uu; [intros [= <-]; cbn; by apply (l_val _ L)|apply (l_val _ L)].
    * intros d g Eg H. dec d a; uu; [done|]. by apply (l_ret _ L d g).
    * intros d. counts. rewrite (l_cnt _ L d : count _ _ = _). dec d a; uu; [by rewrite Ea|done].
    * intros b u d E1 E3. dec b a; uu; [done|]. pose proof (l_take _ L b u d E1 E3) as H. dec d a; uu; [done|done].
    * intros d. counts. rewrite (l_des _ L d : count _ _ = _). dec d a; uu; [rewrite Ef; cbn; rewrite Al; by rewrite bool_decide_eq_true_2|]. by rewrite bool_decide_eq_false_2.
    * intros b. counts. pose proof (l_sus _ L b) as H. counts. dec b a; uu; [by rewrite Ea in H|done].
    * split; [apply L|]. apply late_returned; [done|]. by rewrite Ea.
  - (* Resume *) destruct P as [f Ef]. pose proof (i_fr _ I a f Ef) as F. unfold frame_ok in F. rewrite Ea in F. destruct F as (_ & _ & v & Eb & Ev).
    pose proof (i_pc _ I b) as Pb. unfold pc_ok in Pb. rewrite Eb in Pb. destruct (get_own s b I) as (g & Eg & E2); [apply Pb|by rewrite Eb|].
    rewrite E2 in S. cbn [mbind res_bind] in S. rewrite Eb in S. injection S as <-. assert (a <> b) as Nab by congruence. assert (b <> a) as Nba by congruence.
    constructor; cbn [log say set_pc set_frame pcs frames vars].
    * apply L.
    * intros d h Eh H. pose proof (l_ret _ L d h Eh H) as Hd. dec d a; uu; [done|]. dec d b; uu; [by rewrite Eb in Hd|done].
    * intros d. counts. rewrite (l_cnt _ L d : count _ _ = _). dec d a; uu; [by rewrite Ea|]. dec d b; uu; [by rewrite Eb|done].
    * intros x u d E1 E3. assert (late (pcs s d) = true) as H.
      { dec x a; uu; [done|]. dec x b; uu; [|by apply (l_take _ L x u)]. injection E1 as <-. rewrite Ev in E3. injection E3 as <-. by rewrite Ea. }
      dec d a; uu; [done|]. dec d b; uu; [by rewrite Eb in H|done].
    * intros d. counts. by rewrite (l_des _ L d : count _ _ = _).
    * intros x. counts. pose proof (l_sus _ L x) as H. counts. dec x a; uu; [rewrite Ea in H; by rewrite bool_decide_eq_false_2|].
      dec x b; uu; [rewrite Eb in H; rewrite bool_decide_eq_true_2 by done; cbn in *; lia|by rewrite bool_decide_eq_false_2].
    * split; [apply L|]. apply late_returned; [done|]. by rewrite Ea.
Qed.
Lemma step_log s e s' : Inv s -> LInv s -> step s e = Ok s' -> LInv s'.
Proof.
  intros I L. destruct e as [a c|a|c]; cbn [step].
  - destruct (pcs s a) eqn:Ea; try (by intros [= <-]). rewrite running_ok by done. cbn [mbind res_bind]. intros [= <-]. by apply begin_log.
  - rewrite running_ok by done. cbn [mbind res_bind]. by apply micro_log.
  - destruct (pcs s c) eqn:Ec; try (by intros [= <-]). rewrite running_ok by done. cbn [mbind res_bind]. intros [= <-]. apply quiet_pc; try done; by rewrite Ec.
Qed.
Lemma run_log es : forall s s', Inv s -> LInv s -> run s es = Ok s' -> Inv s' /\ LInv s'.
Proof.
  induction es as [|e es IH]; intros s s' I L; cbn [run]; [by intros [= <-]|]. pose proof (step_ok s e I) as S. pose proof (step_log s e) as SL.
  destruct (step s e) as [s1| | |]; cbn [mbind res_bind]; try done. apply IH; [done|by apply SL].
Qed.

(** Past signalling, the flag is set. *)
Definition past (q : pc) : bool := match q with Notifying | Final | Self_Destroy | Resume _ | Ended => true | _ => false end.
Definition flagged (s : tst) : Prop := forall c f, frames s c = Some f -> past (pcs s c) = true -> f_flag f = true.
Lemma init_flag : flagged tst_init.
Proof. by intros c f. Qed.
Lemma flag_upd s s' : flagged s -> (forall c f', frames s' c = Some f' -> past (pcs s' c) = true -> f_flag f' = true \/ exists f, frames s c = Some f /\ f_flag f' = f_flag f /\ past (pcs s c) = true) -> flagged s'.
Proof. intros F H c f' E P. destruct (H c f' E P) as [?|(f & E1 & -> & P1)]; [done|by apply (F c)]. Qed.
Lemma step_flag s e s' : flagged s -> step s e = Ok s' -> flagged s'.
Proof.
  intros F S. destruct e as [a k|a|d]; cbn [step] in S.
  - destruct (pcs s a) eqn:Ea; try (by injection S as <-). destruct (running s a); try done. cbn [mbind res_bind] in S. injection S as <-.
    destruct k; cbn [begin]; repeat case_match; try done; (apply (flag_upd s); [done|]); cbn; intros c f' E P; right;
      try (by exists f'); try (dec c a; uu; [done|by exists f']); try (dec c (agents s); uu; [done|by exists f']).
  - destruct (running s a); try done. cbn [mbind res_bind] in S. unfold micro, handle, destroy, get in S.
    destruct (pcs s a) as [| | |v|v|v|v|v|v|v k|d v k|v w|x| | | | |b|] eqn:Ea; try (by injection S as <-);
      repeat (progress cbn [mbind res_bind] in S || match type of S with context [match ?x with _ => _ end] => destruct x eqn:? end); try done;
      injection S as <-; try done; (apply (flag_upd s); [done|]); cbn; intros c f' E P;
      repeat match goal with
        | H : context [upd _ ?i _ ?j] |- _ => first [rewrite (upd_eq _ i) in H | destruct (decide (j = i)) as [?|?]; [subst j|]; uu]
        end; try done; try (destruct k; done); try (injection E as <-; cbn; by left);
      right; try (injection E as <-); eexists; split_and!; try done; rewrite ?Ea; try done.
  - destruct (pcs s d) eqn:Ed; try (by injection S as <-). destruct (running s d); try done. cbn [mbind res_bind] in S. injection S as <-.
    apply (flag_upd s); [done|]. cbn. intros c f' E P. right. dec c d; uu; [done|by exists f'].
Qed.
Lemma run_flag es : forall s s', flagged s -> run s es = Ok s' -> flagged s'.
Proof.
  induction es as [|e es IH]; intros s s' F; cbn [run]; [by intros [= <-]|]. pose proof (step_flag s e) as SF.
  destruct (step s e) as [s1| | |]; cbn [mbind res_bind]; try done. apply IH. by apply SF.
Qed.
