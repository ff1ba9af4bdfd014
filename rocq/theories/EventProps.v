(** C50: jobs that wait for events stay paired with them. *)
From Verif Require Import Base EventModel EventSpec.
Local Open Scope nat_scope.

Lemma upd_eq {A} (f : nat -> A) i x : upd f i x i = x.
Proof. unfold upd. by rewrite decide_True. Qed.
Lemma upd_ne {A} (f : nat -> A) i x j : j <> i -> upd f i x j = f j.
Proof. intros N. unfold upd. by rewrite decide_False. Qed.

(** Swapping an element with the last one and removing that. *)
Lemma swap_pop_last {A} (l1 : list A) x : swap_at (length l1) (length (l1 ++ [x]) - 1) (l1 ++ [x]) = Ok (l1 ++ [x]).
Proof.
  unfold swap_at. rewrite app_length. cbn [length]. replace (length l1 + 1 - 1) with (length l1) by lia. rewrite lookup_app_r, Nat.sub_diag by lia. cbn.
  f_equal. rewrite list_insert_insert, insert_app_r_alt, Nat.sub_diag by lia. done.
Qed.
Lemma swap_pop_mid {A} (l1 l2 : list A) x y :
  swap_at (length l1) (length (l1 ++ x :: l2 ++ [y]) - 1) (l1 ++ x :: l2 ++ [y]) = Ok (l1 ++ y :: l2 ++ [x]).
Proof.
  unfold swap_at. assert (E : length (l1 ++ x :: l2 ++ [y]) - 1 = length l1 + S (length l2)) by (rewrite app_length; cbn; rewrite app_length; cbn; lia).
  rewrite E. rewrite (list_lookup_middle l1 _ x) by done.
  assert (H : (l1 ++ x :: l2 ++ [y]) !! (length l1 + S (length l2)) = Some y).
  { rewrite app_comm_cons, app_assoc. apply list_lookup_middle. rewrite app_length. done. }
  rewrite H. f_equal. pose proof (insert_app_r l1 (x :: l2 ++ [y]) 0 y) as I1. rewrite Nat.add_0_r in I1. rewrite I1. cbn [insert list_insert].
  rewrite insert_app_r. f_equal. cbn. f_equal. pose proof (insert_app_r l2 [y] 0 x) as I2. rewrite Nat.add_0_r in I2. exact I2.
Qed.
Lemma pop_app {A} (l : list A) x : pop (l ++ [x]) = Ok (l, x).
Proof. unfold pop. by rewrite last_snoc, removelast_last. Qed.

Record Inv (s : est) (evs : list nat) : Prop := mk_Inv {
  v_evs : pending_events s = wake :: evs;
  v_len : length evs = length (pending_event_jobs s);
  v_nodup : NoDup (wake :: evs ++ map fst (events_to_enqueue s));
  v_wait : forall f j, (f, j) ∈ zip evs (pending_event_jobs s) ++ events_to_enqueue s <-> waits f j (log s);
  v_perm : registered (log s) ≡ₚ resumed (log s) ++ zip evs (pending_event_jobs s) ++ events_to_enqueue s;
  v_sig : forall f, f <> wake -> signalled s f = true <-> fired f (log s);
  v_wake : events_to_enqueue s <> [] \/ shutdown s = true -> signalled s wake = true;
  v_got : forall idx, pc s = Got idx -> exists f, pending_events s !! idx = Some f /\ signalled s f = true;
  v_hon : honest (log s)
}.
Lemma Inv_init : Inv est_init [].
Proof.
  constructor; cbn; try done.
  - apply NoDup_singleton.
  - intros f j. split; [by intros ?%elem_of_nil|done].
  - by intros [|].
Qed.
Lemma cons_split {A} (w : A) l idx x : (w :: l) !! idx = Some x -> idx <> 0 -> exists l1 l2, l = l1 ++ x :: l2 /\ idx = S (length l1).
Proof.
  intros H N. destruct idx as [|k]; [done|]. cbn in H. apply elem_of_list_split_length in H as (l1 & l2 & -> & ->). eauto.
Qed.
(** What the loop body does to the two lists. *)
Lemma handle_spec s evs idx : Inv s evs -> pc s = Got idx -> idx <> 0 ->
  exists f j e1 e2 j1 j2 e' j', evs = e1 ++ f :: e2 /\ pending_event_jobs s = j1 ++ j :: j2 /\ length e1 = length j1 /\ length e2 = length j2 /\
    signalled s f = true /\
    (e2 = [] /\ j2 = [] /\ e' = e1 /\ j' = j1 \/ exists y z e3 j3, e2 = e3 ++ [y] /\ j2 = j3 ++ [z] /\ e' = e1 ++ y :: e3 /\ j' = j1 ++ z :: j3) /\
    handle idx s = Ok (mk_est Waiting (wake :: e') j' (events_to_enqueue s) (upd (signalled s) f false) (shutdown s) (OResume f j f :: log s)).
Proof.
  intros I G N. destruct (v_got _ _ I idx G) as (f & Hf & Sf). pose proof (v_evs _ _ I) as Ev. pose proof (v_len _ _ I) as L. rewrite Ev in Hf.
  destruct (cons_split _ _ _ _ Hf N) as (e1 & e2 & -> & Hidx).
  assert (exists j, pending_event_jobs s !! (length e1) = Some j) as [j Hj].
  { apply lookup_lt_is_Some. rewrite <-L, app_length. cbn. lia. }
  pose proof Hj as Hj'. apply elem_of_list_split_length in Hj' as (j1 & j2 & Ej & L1). rewrite Ej in L. rewrite !app_length in L. cbn in L.
  assert (L2 : length e2 = length j2) by lia.
  exists f, j, e1, e2, j1, j2.
  unfold handle. rewrite decide_False by done. rewrite Ev, Hf. subst idx. cbn [Nat.sub]. rewrite Nat.sub_0_r, Hj.
  destruct e2 as [|y e3 _] using rev_ind; destruct j2 as [|z j3 _] using rev_ind; cbn in L2; rewrite ?app_length in L2; cbn in L2; try lia.
  - exists e1, j1. split_and!; try done; [by left; auto|]. cbn [mbind res_bind].
    destruct (decide _) as [D|D].
    + pose proof (swap_pop_last (wake :: e1) f) as S1. pose proof (swap_pop_last j1 j) as S2. cbn [app] in S1.
      cbn [length] in S1 |- *. rewrite S1, Ej. cbn [mbind res_bind]. rewrite L1, S2. cbn [mbind res_bind].
      change (wake :: e1 ++ [f]) with ((wake :: e1) ++ [f]). rewrite pop_app. cbn [mbind res_bind]. rewrite pop_app. done.
    + cbn [mbind res_bind]. change (wake :: e1 ++ [f]) with ((wake :: e1) ++ [f]). rewrite pop_app. cbn [mbind res_bind]. rewrite Ej, pop_app. done.
  - exists (e1 ++ y :: e3), (j1 ++ z :: j3). split_and!; try done; [rewrite !app_length; cbn; lia|right; by exists y, z, e3, j3|]. cbn [mbind res_bind].
    rewrite decide_True by (cbn; rewrite app_length; cbn; rewrite app_length; cbn; lia).
    pose proof (swap_pop_mid (wake :: e1) e3 f y) as S1. pose proof (swap_pop_mid j1 j3 j z) as S2. cbn [app] in S1.
    cbn [length] in S1 |- *. rewrite S1, Ej. cbn [mbind res_bind]. rewrite L1, S2. cbn [mbind res_bind].
    replace (wake :: e1 ++ y :: e3 ++ [f]) with ((wake :: e1 ++ y :: e3) ++ [f]) by (cbn; by rewrite <-app_assoc). rewrite pop_app. cbn [mbind res_bind].
    replace (j1 ++ z :: j3 ++ [j]) with ((j1 ++ z :: j3) ++ [j]) by (by rewrite <-app_assoc). rewrite pop_app. done.
Qed.
Lemma zip_remove {A B} e1 e2 (f : A) j1 j2 (j : B) e' j' : length e1 = length j1 -> length e2 = length j2 ->
  (e2 = [] /\ j2 = [] /\ e' = e1 /\ j' = j1 \/ exists y z e3 j3, e2 = e3 ++ [y] /\ j2 = j3 ++ [z] /\ e' = e1 ++ y :: e3 /\ j' = j1 ++ z :: j3) ->
  zip (e1 ++ f :: e2) (j1 ++ j :: j2) ≡ₚ (f, j) :: zip e' j' /\ e1 ++ f :: e2 ≡ₚ f :: e' /\ length e' = length j'.
Proof.
  intros L1 L2 [(-> & -> & -> & ->)|(y & z & e3 & j3 & -> & -> & -> & ->)].
  - rewrite zip_with_app by done. cbn. split_and!; [solve_Permutation|solve_Permutation|done].
  - rewrite !app_length in L2. cbn in L2. rewrite !zip_with_app by (done || lia). cbn. rewrite zip_with_app by lia. cbn.
    split_and!; [solve_Permutation|solve_Permutation|]. rewrite !app_length. cbn. lia.
Qed.
Lemma zip_fst (e j : list nat) f k : (f, k) ∈ zip e j -> f ∈ e.
Proof. intros H. by eapply elem_of_zip_l. Qed.
Lemma Inv_step s evs e : Inv s evs -> exists s' evs', step s e = Ok s' /\ Inv s' evs'.
Proof.
  intros I. pose proof I as [A1 A2 A3 A4 A5 A6 A7 A8 A9]. destruct e as [f j|f|idx| |]; cbn [step].
  - exists (enqueue_event f j s), evs. split; [done|]. unfold enqueue_event. destruct (decide _) as [|N]; [done|].
    apply Decidable.not_or in N as [N1 [N2 N3]%Decidable.not_or].
    constructor; cbn [pc pending_events pending_event_jobs events_to_enqueue signalled shutdown log]; try done.
    + rewrite map_app. cbn [map fst]. rewrite app_assoc, app_comm_cons. apply NoDup_app. split_and!; [done| |apply NoDup_singleton].
      intros x Hx ->%elem_of_list_singleton. apply elem_of_cons in Hx as [->|[Hx|Hx]%elem_of_app]; [done| |done]. apply N2. rewrite A1. by apply elem_of_list_further.
    + intros g k. cbn [waits]. rewrite <-A4, app_assoc, elem_of_app, elem_of_list_singleton. split; [intros [?|[= -> ->]]; auto|intros [[-> ->]|?]; auto].
    + change (registered (ORegister f j :: log s)) with ((f, j) :: registered (log s)). change (resumed (ORegister f j :: log s)) with (resumed (log s)).
      rewrite A5. solve_Permutation.
    + intros g Hg. rewrite upd_ne by done. cbn [fired]. by apply A6.
    + intros idx Hp. destruct (A8 idx Hp) as (g & G1 & G2). exists g. split; [done|]. unfold upd. by case_decide.
  - eexists _, evs. split; [done|]. case_decide as N; [done|].
    constructor; cbn [pc pending_events pending_event_jobs events_to_enqueue signalled shutdown log]; try done.
    + intros g Hg. cbn [fired]. unfold upd. case_decide; subst; [naive_solver|]. rewrite A6 by done. naive_solver.
    + intros H. unfold upd. rewrite decide_False by done. auto.
    + intros idx Hp. destruct (A8 idx Hp) as (g & G1 & G2). exists g. split; [done|]. unfold upd. by case_decide.
  - eexists _, evs. split; [done|]. destruct (pc s) eqn:Ep; try done. destruct (pending_events s !! idx) as [f|] eqn:Ef; [|done]. destruct (signalled s f) eqn:Es; [|done].
    constructor; cbn [pc pending_events pending_event_jobs events_to_enqueue signalled shutdown log]; try done. intros k [= <-]. eauto.
  - destruct (pc s) as [|idx|] eqn:Ep; [by exists s, evs| |by exists s, evs].
    destruct (decide (idx = 0)) as [->|N].
    + unfold handle. cbn [decide]. rewrite decide_True by done. destruct (shutdown s) eqn:Sh.
      * eexists _, evs. split; [done|]. constructor; cbn [pc pending_events pending_event_jobs events_to_enqueue signalled shutdown log]; try done.
      * eexists _, (evs ++ map fst (events_to_enqueue s)). split; [done|]. rewrite A1. cbn [lookup list_lookup default].
        assert (Z : zip (evs ++ map fst (events_to_enqueue s)) (pending_event_jobs s ++ map snd (events_to_enqueue s)) = zip evs (pending_event_jobs s) ++ events_to_enqueue s).
        { rewrite zip_with_app by done. f_equal. clear. induction (events_to_enqueue s) as [|[a b] l IH]; [done|]. cbn. by rewrite IH. }
        constructor; cbn [pc pending_events pending_event_jobs events_to_enqueue signalled shutdown log]; try done.
        -- rewrite !app_length, !map_length, A2. done.
        -- cbn [map]. by rewrite app_nil_r.
        -- intros g k. rewrite Z, app_nil_r. apply A4.
        -- rewrite Z, app_nil_r. done.
        -- intros g Hg. rewrite upd_ne by done. by apply A6.
        -- by intros [|].
    + destruct (handle_spec s evs idx I Ep N) as (f & j & e1 & e2 & j1 & j2 & e' & j' & Ee & Ej & L1 & L2 & Sf & Hc & ->).
      eexists _, e'. split; [done|]. destruct (zip_remove e1 e2 f j1 j2 j e' j' L1 L2 Hc) as (Z1 & Z2 & Z3).
      rewrite Ee, Ej in A4, A5. rewrite Ee in A3. setoid_rewrite Z1 in A5.
      rewrite Z2 in A3. apply NoDup_cons in A3 as [A3 A3']. cbn [app] in A3'. apply NoDup_cons in A3' as [A3' A3''].
      assert (Nw : f <> wake). { intros ->. apply A3. cbn. apply elem_of_list_here. }
      assert (Hin : forall g k, (g, k) ∈ zip e' j' ++ events_to_enqueue s -> g <> f).
      { intros g k Hg ->. apply A3'. apply elem_of_app in Hg as [Hg|Hg]; apply elem_of_app; [left; by eapply zip_fst|right]. apply elem_of_list_In, in_map_iff. exists (f, k). split; [done|]. by apply elem_of_list_In. }
      constructor; cbn [pc pending_events pending_event_jobs events_to_enqueue signalled shutdown log]; try done.
      * apply NoDup_cons. split; [|done]. intros H. apply A3. cbn. by apply elem_of_list_further.
      * intros g k. cbn [waits]. rewrite <-A4. rewrite Z1. cbn [app]. rewrite elem_of_cons. split.
        -- intros H. split; [intros ->; by eapply Hin|by right].
        -- intros [Ng [[= -> ->]|H]]; done.
      * change (registered (OResume f j f :: log s)) with (registered (log s)). change (resumed (OResume f j f :: log s)) with ((f, j) :: resumed (log s)).
        rewrite A5. solve_Permutation.
      * intros g Hg. cbn [fired]. unfold upd. case_decide; subst; [naive_solver|]. rewrite A6 by done. naive_solver.
      * intros H. rewrite upd_ne by done. auto.
      * cbn [honest]. split_and!; [done|done|by apply A6|]. apply A4. rewrite Z1. cbn. apply elem_of_list_here.
  - eexists _, evs. split; [done|]. constructor; cbn [pc pending_events pending_event_jobs events_to_enqueue signalled shutdown log]; try done.
    + intros g Hg. rewrite upd_ne by done. by apply A6.

    + intros idx Hp. destruct (A8 idx Hp) as (g & G1 & G2). exists g. split; [done|]. unfold upd. by case_decide.
Qed.
Lemma Inv_run l s evs : Inv s evs -> exists s' evs', run s l = Ok s' /\ Inv s' evs'.
Proof.
  revert s evs. induction l as [|e l IH]; intros s evs I; cbn [run]; [eauto|]. destruct (Inv_step s evs e I) as (s1 & evs1 & E & I1).
  cbn [mbind res_bind]. rewrite E. cbn [res_bind]. by eapply IH.
Qed.
Lemma reach l s : run est_init l = Ok s -> exists evs, Inv s evs.
Proof. intros R. destruct (Inv_run l est_init [] Inv_init) as (s' & evs & R' & I). rewrite R in R'. injection R' as <-. eauto. Qed.

(** Nothing the event thread does goes out of bounds, whatever is registered and whichever events fire. *)
Theorem event_runs l : exists s, run est_init l = Ok s.
Proof. destruct (Inv_run l est_init [] Inv_init) as (s' & evs & R' & I). eauto. Qed.
(** A job is resumed only when the event it waits for has fired, and that event is the one destroyed. *)
Theorem event_own l s : run est_init l = Ok s -> honest (log s).
Proof. intros [evs I]%reach. apply I. Qed.
(** Every wait begun has ended once, or not yet: none is lost, none ends twice. *)
Theorem event_conserved l s : run est_init l = Ok s -> exists still, registered (log s) ≡ₚ resumed (log s) ++ still /\ forall f j, (f, j) ∈ still <-> waits f j (log s).
Proof. intros [evs I]%reach. eexists. split; apply I. Qed.
(** When the event thread is blocked, no job is waiting for an event that has fired. *)
Theorem event_none_forgotten l s f j : run est_init l = Ok s -> blocked s -> waits f j (log s) -> ~ fired f (log s).
Proof.
  intros [evs I]%reach [Hp Hb] W F.
  assert (Hs : forall idx g, pending_events s !! idx = Some g -> signalled s g = false).
  { intros idx g Hg. destruct (signalled s g) eqn:E; [|done]. specialize (Hb idx). cbn [step] in Hb. rewrite Hp, Hg, E in Hb. specialize (Hb _ eq_refl). apply (f_equal pc) in Hb. cbn in Hb. congruence. }
  pose proof (v_evs _ _ I) as Ev.
  assert (Wk : signalled s wake = false) by (apply (Hs 0); by rewrite Ev).
  apply (v_wait _ _ I) in W. apply elem_of_app in W as [W|W].
  - apply zip_fst in W as W'. apply elem_of_list_lookup in W' as [i Hi].
    assert (f <> wake). { intros ->. pose proof (v_nodup _ _ I) as N. apply NoDup_cons in N as [N _]. apply N, elem_of_app. left. by eapply zip_fst. }
    apply (v_sig _ _ I) in F; [|done]. rewrite (Hs (S i) f) in F; [done|]. by rewrite Ev.
  - rewrite (v_wake _ _ I) in Wk; [done|]. left. intros E. rewrite E in W. by apply elem_of_nil in W.
Qed.
(** What the event thread has to do. *)
Definition work (s : est) : nat := length (pending_event_jobs s) + length (events_to_enqueue s) + (if signalled s wake then 1 else 0).
Lemma work_step s evs e s' : Inv s evs -> step s e = Ok s' -> (forall f j, e <> Register f j) -> e <> Stop -> pc s' <> Exited ->
  work s' + match pc s, e with Got _, Handle => 1 | _, _ => 0 end <= work s.
Proof.
  intros I E N1 N2 N3. destruct e as [f j|f|idx| |]; [by destruct (N1 f j)| | | |done]; cbn [step] in E.
  - injection E as <-. unfold work. case_decide; [destruct (pc s); lia|]. cbn [pending_event_jobs events_to_enqueue signalled]. rewrite upd_ne by done. destruct (pc s); lia.
  - injection E as <-. destruct (pc s); [|lia..]. destruct (pending_events s !! idx) as [g|]; [|lia]. destruct (signalled s g); unfold work; cbn; lia.
  - destruct (pc s) as [|idx|] eqn:Ep; [injection E as <-; lia| |injection E as <-; lia].
    destruct (decide (idx = 0)) as [->|N].
    + destruct (v_got _ _ I 0 Ep) as (f & Hf & Sf). pose proof (v_evs _ _ I) as Ev. rewrite Ev in Hf. injection Hf as <-.
      unfold handle in E. rewrite decide_True in E by done. destruct (shutdown s); injection E as <-; [done|]. unfold work. cbn [pending_event_jobs events_to_enqueue signalled].
      rewrite Ev, Sf. cbn [lookup list_lookup default length]. rewrite upd_eq, app_length, map_length. lia.
    + destruct (handle_spec s evs idx I Ep N) as (f & j & e1 & e2 & j1 & j2 & e' & j' & Ee & Ej & L1 & L2 & Sf & Hc & E'). rewrite E in E'. injection E' as ->.
      destruct (zip_remove e1 e2 f j1 j2 j e' j' L1 L2 Hc) as (Z1 & Z2 & Z3). pose proof (v_nodup _ _ I) as Nd.
      apply Permutation_length in Z2. unfold work. cbn [pending_event_jobs events_to_enqueue signalled]. pose proof (v_len _ _ I) as L. rewrite Ee, Z2 in L. cbn in L.
      rewrite upd_ne; [lia|]. intros <-. apply NoDup_cons in Nd as [Nd _]. apply Nd. rewrite Ee. apply elem_of_app. left. apply elem_of_app. right. apply elem_of_list_here.
Qed.
(** Without new registrations, the event thread goes round at most once per job that waits, and once for the wake event. *)
Theorem event_rounds l s l' s' : run est_init l = Ok s -> run s l' = Ok s' -> (forall f j, Register f j ∉ l') -> Stop ∉ l' -> pc s' <> Exited ->
  rounds s l' <= length (pending_event_jobs s) + length (events_to_enqueue s) + 1.
Proof.
  intros [evs I]%reach R N1 N2 N3. transitivity (work s); [|unfold work; destruct (signalled s wake); lia]. revert s evs I R.
  induction l' as [|e l' IH]; intros s evs I R; [cbn; lia|]. cbn [run rounds] in *. destruct (Inv_step s evs e I) as (s1 & evs1 & E & I1).
  cbn [mbind res_bind] in R. rewrite E in R |- *. cbn [res_bind] in R.
  assert (X : pc s1 <> Exited).
  { intros X. clear - X R N3. revert s1 X R. induction l' as [|e l' IH]; intros s1 X; cbn [run]; [by intros [= <-]|]. cbn [mbind res_bind].
    destruct (step s1 e) as [s2| | |] eqn:E; try done. cbn [res_bind]. apply IH. destruct e; cbn [step] in E; try (injection E as <-; cbn; try done).
    - unfold enqueue_event. by case_decide.
    - by case_decide.
    - by rewrite X.
    - rewrite X in E. by injection E as <-. }
  specialize (IH ltac:(intros f j H; eapply N1; by apply elem_of_list_further) ltac:(intros H; apply N2; by apply elem_of_list_further) s1 evs1 I1 R).
  pose proof (work_step s evs e s1 I E ltac:(intros f j ->; eapply N1; apply elem_of_list_here) ltac:(intros ->; apply N2; apply elem_of_list_here) X) as W. lia.
Qed.

(** Two jobs wait; a third registers while the first event fires; the last one is resumed in the place of the first. *)
Example event_example : match run est_init [Register 5 50; Register 7 70; Wait 0; Handle; Register 9 90; Fire 5; Wait 1; Handle; Fire 9; Wait 0; Handle; Wait 2; Handle; Fire 7] with
  | Ok s => resumed (log s) = [(9, 90); (5, 50)] /\ waits 7 70 (log s) /\ fired 7 (log s) /\ pending_events s = [wake; 7] | _ => False end.
Proof. vm_compute. repeat split; auto; discriminate. Qed.
Lemma blocked_if s : pc s = Waiting -> forallb (fun f => negb (signalled s f)) (pending_events s) = true -> blocked s.
Proof.
  intros Hp Hs. split; [done|]. intros idx s'. cbn [step]. rewrite Hp. destruct (pending_events s !! idx) as [f|] eqn:E; [|by intros [= <-]].
  rewrite forallb_forall in Hs. apply elem_of_list_lookup_2, elem_of_list_In, Hs in E. apply negb_true_iff in E. rewrite E. by intros [= <-].
Qed.
Example event_blocked_example : exists s, run est_init [Register 5 50; Wait 0; Handle] = Ok s /\ blocked s /\ waits 5 50 (log s).
Proof.
  destruct (event_runs [Register 5 50; Wait 0; Handle]) as [s R]. exists s. split; [done|].
  assert (H : match run est_init [Register 5 50; Wait 0; Handle] with Ok s => (pc s = Waiting /\ forallb (fun f => negb (signalled s f)) (pending_events s) = true) /\ waits 5 50 (log s) | _ => False end) by (vm_compute; auto).
  rewrite R in H. destruct H as [[H1 H2] H3]. split; [by apply blocked_if|done].
Qed.
(** ~Pool leaves the jobs that still wait alone: neither resumed nor destroyed (the comment at pool.h:90-91 says so). *)
Example event_shutdown : match run est_init [Register 5 50; Wait 0; Handle; Register 7 70; Stop; Wait 0; Handle] with
  | Ok s => pc s = Exited /\ pending_event_jobs s = [50] /\ events_to_enqueue s = [(7, 70)] | _ => False end.
Proof. vm_compute. done. Qed.
Print Assumptions event_runs.
Print Assumptions event_own.
Print Assumptions event_conserved.
Print Assumptions event_none_forgotten.
Print Assumptions event_rounds.
