(** C95: the profiler used by several threads. *)
From Verif Require Import Base Word ProfileModel ProfileSpec ProfileProps ProfThreadsModel ProfThreadsSpec.

Lemma upd_eq {A} (f : nat -> A) t x : upd f t x t = x.
Proof. unfold upd. by rewrite decide_True. Qed.
Lemma upd_ne {A} (f : nat -> A) t x u : u <> t -> upd f t x u = f u.
Proof. intros. unfold upd. by rewrite decide_False. Qed.

(** ** What a thread does to its own profile *)
Definition live (p : prof) : bool := during_frame p || match frames p with [] => false | _ => true end.
Definition same (p q : prof) : Prop :=
  during_frame p = during_frame q /\ frames p = frames q /\ capacity p = capacity q /\ (live p = true -> registered p = true) /\ (live q = true -> registered q = true).
Lemma same_timings p q : same p q -> timings p = timings q.
Proof. intros (D & F & _). unfold timings. by rewrite D, F. Qed.
Lemma same_ready p q : same p q -> same (fst (ready p)) q /\ snd (ready p) = during_frame p.
Proof.
  intros (D & F & C & R & R'). unfold ready. destruct (registered p) eqn:E; [done|]. cbn. destruct (live p) eqn:Lp; [specialize (R eq_refl); congruence|]. unfold live in Lp. apply orb_false_iff in Lp as [Dp Fp].
  split; [|done]. split_and!; try done. cbn. congruence.
Qed.
Lemma same_sym p q : same p q -> same q p.
Proof. intros (D & F & C & R & R'). by split_and!. Qed.
Lemma same_regs p q : registered p = registered q -> same p q -> p = q.
Proof. destruct p, q. cbn. intros E (D & F & C & _). cbn in *. congruence. Qed.
Lemma step_same p q o : same p q -> o <> Finalize ->
  match ProfileModel.step p o with
  | Ok (p', x) => exists q', ProfileModel.step q o = Ok (q', x) /\ same p' q'
  | Die => ProfileModel.step q o = Die
  | UB => ProfileModel.step q o = UB
  | Diverge => ProfileModel.step q o = Diverge
  end.
Proof.
  intros S No.
  assert (forall o, match o with End _ | Finalize => False | _ => True end -> forall r, ProfileModel.step r o = ProfileModel.step (fst (ready r)) o) as Rd.
  { intros o' Ho r. unfold ProfileModel.step. destruct r as [[] d f c]; [done|]. destruct o'; try done. }
  assert (forall r, registered (fst (ready r)) = true) as Rr by (intros [[] ???]; done).
  assert (fst (ready p) = fst (ready q)) as Er.
  { apply same_regs; [by rewrite !Rr|]. destruct (same_ready p q S) as [S1 _]. apply same_sym in S1. destruct (same_ready _ _ S1) as [S2 _]. by apply same_sym. }
  assert (forall r x r' y, (match x with End _ | Finalize => False | _ => True end) -> ProfileModel.step (fst (ready r)) x = Ok (r', y) -> registered r' = true) as Rs.
  { intros r x r' y Hx E. unfold ProfileModel.step in E. assert (ready (fst (ready r)) = (fst (ready r), during_frame (fst (ready r)))) as Err by (unfold ready at 1; by rewrite Rr). rewrite Err in E.
    destruct x; try done.
    - destruct (assert_ _) as [[]| | |]; try done. cbn [mbind res_bind] in E. destruct (frame_begin _ _) as [[]| | |]; try done. cbn [mbind res_bind] in E.
      match type of E with context [match last ?l with _ => _ end] => destruct (match last l with Some prev => _ | None => _ end) as [?| | |] end; try done. injection E as <- _. cbn. apply Rr.
    - destruct (during_frame _); [|injection E as <- _; apply Rr]. unfold on_back in E. destruct (last _); [|done]. destruct (frame_enter _ _ _); try done. injection E as <- _. cbn. apply Rr.
    - destruct (during_frame _); [|injection E as <- _; apply Rr]. unfold on_back in E. destruct (last _); [|done]. destruct (frame_exit _ _); try done. injection E as <- _. cbn. apply Rr. }
  assert (match o with End _ | Finalize => False | _ => True end \/ exists x, o = End x) as [Ho|[x ->]] by (destruct o; eauto).
  { rewrite (Rd o Ho p), (Rd o Ho q), <-Er. destruct (ProfileModel.step (fst (ready p)) o) as [[p' y]| | |] eqn:E; try done.
    exists p'. split; [done|]. apply Rs in E; [|done]. by split_and!. }
  destruct p as [pr pd pf pc], q as [qr qd qf qc]. destruct S as (D & F & C & R & R'). cbn in D, F, C, R, R'. subst qd qf qc.
  unfold ProfileModel.step. cbn [registered during_frame]. destruct pd; [|rewrite !andb_false_r; done]. rewrite R, R' by done. cbn [andb assert_ mbind res_bind].
  unfold on_back. cbn [registered during_frame frames capacity]. destruct (last pf) as [f|]; [|done]. destruct (frame_end x f); try done. cbn [mbind res_bind registered frames capacity]. eexists. split; [done|]. by split_and!.
Qed.
Lemma ops_app t l1 l2 : ops_of t (l1 ++ l2) = ops_of t l1 ++ ops_of t l2.
Proof. unfold ops_of. apply omap_app. Qed.
Lemma run_snoc os o p : ProfileModel.run ProfileModel.init os = Ok p ->
  ProfileModel.run ProfileModel.init (os ++ [o]) = ('(p, _) ← ProfileModel.step p o; Ok p).
Proof. intros E. rewrite run_app, E. cbn [mbind res_bind ProfileModel.run]. destruct (ProfileModel.step p o) as [[]| | |]; done. Qed.
(** What iterate_timings takes is the last frame that ended. *)
Lemma timings_keep os p o p' x : ProfileModel.run ProfileModel.init os = Ok p -> ProfileModel.step p o = Ok (p', x) -> ~ forgets o -> timings p' = timings p.
Proof.
  intros E S N. destruct o as [y|y|l y|y|]; cbn in N; try tauto.
  - by apply (profile_begin os p y p' x).
  - pose proof (i_during _ _ (reach_inv _ _ E)) as D. unfold ProfileModel.step in S. unfold ready in S. destruct (registered p) eqn:R.
    + destruct (during_frame p) eqn:Du; [|by injection S as <- _]. unfold on_back in S. destruct (last (frames p)) as [f|] eqn:L; [|done]. apply last_Some in L as [fs L]. destruct (frame_enter l y f); try done. injection S as <- _.
      unfold timings. cbn [during_frame frames]. rewrite Du, L. rewrite !app_length. cbn [length]. rewrite Nat.add_sub, take_app. destruct (1 <? length fs + 1) eqn:Lt; [|done]. apply Nat.ltb_lt in Lt. rewrite !lookup_app_l by lia. done.
    + cbn in S. injection S as <- _. destruct (scopes os); [destruct D; congruence|]. unfold timings. cbn. by rewrite D.
  - pose proof (i_during _ _ (reach_inv _ _ E)) as D. unfold ProfileModel.step in S. unfold ready in S. destruct (registered p) eqn:R.
    + destruct (during_frame p) eqn:Du; [|by injection S as <- _]. unfold on_back in S. destruct (last (frames p)) as [f|] eqn:L; [|done]. apply last_Some in L as [fs L]. destruct (frame_exit y f); try done. injection S as <- _.
      unfold timings. cbn [during_frame frames]. rewrite Du, L. rewrite !app_length. cbn [length]. rewrite Nat.add_sub, take_app. destruct (1 <? length fs + 1) eqn:Lt; [|done]. apply Nat.ltb_lt in Lt. rewrite !lookup_app_l by lia. done.
    + cbn in S. injection S as <- _. destruct (scopes os); [destruct D; congruence|]. unfold timings. cbn. by rewrite D.
Qed.
Lemma timings_last os : forall p, ProfileModel.run ProfileModel.init os = Ok p -> last_ended os (timings p).
Proof.
  induction os as [|o os IH] using rev_ind; intros p E.
  - injection E as <-. right. split; [|done]. exists [], []. split; [done|]. split; [by left|constructor].
  - rewrite run_app in E. destruct (ProfileModel.run ProfileModel.init os) as [q| | |] eqn:Eq; try done. cbn [mbind res_bind ProfileModel.run] in E.
    destruct (ProfileModel.step q o) as [[p' x]| | |] eqn:S; try done. cbn in E. injection E as ->.
    assert (forgets o \/ ~ forgets o) as [F|N] by (destruct o; cbn; tauto).
    + destruct o as [y|y|l y|y|]; try done.
      * left. pose proof S as S0. unfold ProfileModel.step in S. destruct (assert_ _) as [[]| | |]; try done. cbn [mbind res_bind] in S. unfold on_back in S.
        destruct (last (frames q)) as [f|] eqn:L; [|done]. destruct (frame_end y f) as [f'| | |] eqn:Ef; try done. cbn [mbind res_bind registered frames capacity] in S. injection S as <- _.
        eexists os, y, [], _, f'. split; [done|]. split; [constructor|]. split; [rewrite (run_snoc _ _ _ Eq), S0; done|]. cbn [frames]. rewrite last_snoc. split; [done|]. unfold timings. cbn [during_frame frames]. by rewrite last_snoc.
      * right. unfold ProfileModel.step in S. destruct (during_frame q); [done|]. injection S as <- _. split; [|done]. exists (os ++ [Finalize]), []. rewrite app_nil_r. split; [done|]. rewrite last_snoc. split; [by right|constructor].
    + rewrite (timings_keep _ _ _ _ _ Eq S N). destruct (IH q eq_refl) as [(os1 & y & os2 & r & f & -> & F & R)|[(os1 & os2 & -> & L & F) T]].
      * left. exists os1, y, (os2 ++ [o]), r, f. rewrite <-app_assoc. split; [done|]. split; [apply Forall_app; by split; [|constructor]|done].
      * right. split; [|done]. exists os1, (os2 ++ [o]). rewrite app_assoc. split; [done|]. split; [done|]. apply Forall_app; by split; [|constructor].
Qed.

(** ** The code of the threads *)
Definition enters (o : op) : Prop := match o with Enter _ _ | Exit _ => True | _ => False end.
(** The locks [held] suffice for the code, which is left without any.  With [b], locks are taken in order. *)
Fixpoint ok (b : bool) (t : nat) (held : list lock) (k : list instr) : Prop :=
  match k with
  | [] => held = []
  | i :: k =>
      match i with
      | Acquire l => (b = true -> held = [] \/ (held = [Threads] /\ exists u, l = Frames u)) /\ ok b t (l :: held) k
      | Release l => match held with [] => False | m :: h => m = l /\ ok b t h k end
      | Check => (b = true -> held = []) /\ ok b t held k
      | When_during o => (b = true -> held = []) /\ enters o /\ ok b t held k
      | Expect e => (exists x k', k = Acquire (Frames t) :: Act (if e then End x else Begin x) :: k') /\ ok b t held k
      | Act o => Frames t ∈ held /\ o <> Finalize /\ (exists k', k = Release (Frames t) :: k') /\ ok b t held k
      | Register | Unregister => Threads ∈ held /\ ok b t held k
      | Clear => ok b t held k
      | Each c => (b = true -> c = Plain /\ held = [Threads]) /\ Threads ∈ held /\ ok b t held k
      | Read u c => (b = true -> c = Plain) /\ Frames u ∈ held /\ ok b t held k
      | Visit u n c => (b = true -> c = Plain) /\ Frames u ∈ held /\ ok b t held k
      end
  end.
(** The locks held now stay held until the last visit, or the code never gets there. *)
Fixpoint vis (h : list lock) (k : list instr) : Prop :=
  match k with
  | [] => True
  | Release l :: k => vis (filter (fun m => m <> l) h) k
  | Visit u _ _ :: k => Frames u ∈ h /\ vis h k
  | Each _ :: k => forall u n c, Visit u n c ∉ k
  | Acquire l :: k => (l ∈ h /\ forall u n c, Visit u n c ∈ k -> Frames u ∈ h) \/ vis h k
  | _ :: k => vis h k
  end.
(** The thread is registered, or not, where the code needs it. *)
Fixpoint regs (r : bool) (k : list instr) : Prop :=
  match k with
  | [] => True
  | i :: k =>
      match i with
      | Register => r = false /\ regs true k
      | Unregister => regs false k
      | Check | Expect true => regs true k
      | Act _ | When_during _ => r = true /\ regs true k
      | Each _ | Read _ _ | Visit _ _ _ => regs r k /\ regs true k
      | _ => regs r k
      end
  end.
(** The thread is not in a frame where it unregisters. *)
Fixpoint quiet (d : bool) (k : list instr) : Prop :=
  match k with
  | [] => True
  | Clear :: k => quiet false k
  | Unregister :: k => d = false /\ quiet d k
  | (Acquire _ | Release _ | Register) :: k => quiet d k
  | _ :: k => quiet true k
  end.
Lemma quiet_mono k : forall d, quiet true k -> quiet d k.
Proof. induction k as [|i k IH]; intros d Q; [done|]. destruct i; cbn [quiet] in *; try done; try (by apply IH). by destruct Q. Qed.
Lemma vis_mono k : forall h h', (forall l, l ∈ h -> l ∈ h') -> vis h k -> vis h' k.
Proof.
  induction k as [|i k IH]; intros h h' S V; [done|]. destruct i; cbn [vis] in *; try by apply (IH h).
  - destruct V as [[V1 V2]|V]; [left|right; by apply (IH h)]. split; [by apply S|]. intros u n c H. apply S. by apply (V2 u n c).
  - apply (IH (filter (fun m => m <> l) h)); [|done]. intros m. rewrite !elem_of_list_filter. intros [? ?]. eauto.
  - done.
  - destruct V as [V1 V2]. split; [by apply S|by apply (IH h)].
Qed.
Lemma vis_none k : forall h, (forall u n c, Visit u n c ∉ k) -> vis h k.
Proof.
  induction k as [|i k IH]; intros h N; [done|]. assert (forall u n c, Visit u n c ∉ k) as N' by (intros u n c H; apply (N u n c); by constructor).
  destruct i; cbn [vis]; try by apply IH. - right. by apply IH. - done. - exfalso. eapply N. constructor.
Qed.
Lemma vis_elem k : forall h u n c, Visit u n c ∈ k -> vis h k -> Frames u ∈ h.
Proof.
  induction k as [|i k IH]; intros h u n c E V; [by apply elem_of_nil in E|]. apply elem_of_cons in E as [<-|E]; [by destruct V|].
  destruct i; cbn [vis] in V; try by apply (IH h u n c). - destruct V as [[_ V]|V]; [by eapply V|by apply (IH h u n c)]. - eapply IH in V; [|done]. by apply elem_of_list_filter in V as [_ V]. - exfalso. by eapply V. - destruct V as [_ V]. by apply (IH h u n c).
Qed.
Lemma filter_head (l : lock) h : NoDup (l :: h) -> filter (fun m => m <> l) (l :: h) = h.
Proof.
  intros N. apply NoDup_cons in N as [N _]. rewrite filter_cons_False by tauto.
  induction h as [|m h IH]; [done|]. rewrite filter_cons_True; [f_equal; apply IH; set_solver|set_solver].
Qed.

Record inv (b : bool) (s : st) (held : nat -> list lock) : Prop := {
  v_ok : forall t, ok b t (held t) (code s t);
  v_vis : forall t, vis (held t) (code s t);
  v_regs : forall t, regs (registered (profs s t)) (code s t);
  v_quiet : forall t, quiet (live (profs s t)) (code s t);
  v_nd : forall t, NoDup (held t);
  v_hold : forall l t, holder s l = Some t <-> l ∈ held t;
  v_reg : forall t, registered (profs s t) = true <-> t ∈ registry s;
  v_same : forall t, exists p, ProfileModel.run ProfileModel.init (ops_of t (log s)) = Ok p /\ same (profs s t) p;
  v_seen : forall t u n c, Visit u n c ∈ code s t -> n ∈ timings (profs s u);
  v_log : forall l1 t u n l2, log s = l1 ++ Saw t u n :: l2 -> exists ns, last_ended (ops_of u l1) ns /\ n ∈ ns
}.
(** A step of thread [t] *)
Lemma inv_step b s held s' t h' : inv b s held ->
  (forall u, u <> t -> code s' u = code s u /\ profs s' u = profs s u) ->
  ok b t h' (code s' t) -> vis h' (code s' t) -> regs (registered (profs s' t)) (code s' t) -> quiet (live (profs s' t)) (code s' t) -> NoDup h' ->
  (forall l u, holder s' l = Some u <-> l ∈ upd held t h' u) ->
  (forall u, registered (profs s' u) = true <-> u ∈ registry s') ->
  (forall u, exists p, ProfileModel.run ProfileModel.init (ops_of u (log s')) = Ok p /\ same (profs s' u) p) ->
  (forall u n c, Visit u n c ∈ code s' t -> n ∈ timings (profs s' u)) ->
  (timings (profs s' t) = timings (profs s t) \/ forall u n c, u <> t -> Visit t n c ∉ code s u) ->
  (log s' = log s \/ exists e, log s' = log s ++ [e] /\ forall v u n, e = Saw v u n -> exists ns, last_ended (ops_of u (log s)) ns /\ n ∈ ns) ->
  inv b s' (upd held t h').
Proof.
  intros I O H1 H2 H3 Hq H4 H5 H6 H7 H8 H9 H10. split.
  - intros u. destruct (decide (u = t)) as [->|N]; [by rewrite upd_eq|]. rewrite upd_ne by done. destruct (O u N) as [-> _]. apply I.
  - intros u. destruct (decide (u = t)) as [->|N]; [by rewrite upd_eq|]. rewrite upd_ne by done. destruct (O u N) as [-> _]. apply I.
  - intros u. destruct (decide (u = t)) as [->|N]; [done|]. destruct (O u N) as [-> ->]. apply I.
  - intros u. destruct (decide (u = t)) as [->|N]; [done|]. destruct (O u N) as [-> ->]. apply I.
  - intros u. destruct (decide (u = t)) as [->|N]; [by rewrite upd_eq|]. rewrite upd_ne by done. apply I.
  - done.
  - done.
  - done.
  - intros u v n c Hv. destruct (decide (u = t)) as [->|N]; [by apply (H8 v n c)|]. destruct (O u N) as [Ec _]. rewrite Ec in Hv.
    destruct (decide (v = t)) as [->|Nv].
    + destruct H9 as [->|H9]; [by apply (v_seen _ _ _ I u t n c)|]. by apply H9 in Hv.
    + destruct (O v Nv) as [_ ->]. by apply (v_seen _ _ _ I u v n c).
  - intros l1 v u n l2 El. destruct H10 as [H10|(e & H10 & He)]; rewrite H10 in El; [by apply (v_log _ _ _ I l1 v u n l2)|].
    destruct l2 as [|x l2 _] using rev_ind.
    + apply app_inj_tail in El as [<- ->]. by apply (He v).
    + rewrite app_comm_cons, app_assoc in El. apply app_inj_tail in El as [El _]. by apply (v_log _ _ _ I l1 v u n l2).
Qed.
Lemma updl_eq f l x : updl f l x l = x.
Proof. unfold updl. by rewrite decide_True. Qed.
Lemma updl_ne f l x m : m <> l -> updl f l x m = f m.
Proof. intros. unfold updl. by rewrite decide_False. Qed.
Lemma hold_same b s held t : inv b s held -> forall l u, holder s l = Some u <-> l ∈ upd held t (held t) u.
Proof. intros I l u. rewrite (v_hold _ _ _ I). destruct (decide (u = t)) as [->|N]; [by rewrite upd_eq|by rewrite upd_ne]. Qed.
Lemma ok_visits b t held u c ns k : (b = true -> c = Plain) -> Frames u ∈ held -> ok b t held k -> ok b t held (map (fun n => Visit u n c) ns ++ k).
Proof. intros. induction ns as [|n ns IH]; cbn [map app ok]; done. Qed.
Lemma vis_visits h u c ns k : Frames u ∈ h -> vis h k -> vis h (map (fun n => Visit u n c) ns ++ k).
Proof. intros. induction ns as [|n ns IH]; cbn [map app vis]; done. Qed.
Lemma regs_visits r u c ns k : regs r k -> regs true k -> regs r (map (fun n => Visit u n c) ns ++ k) /\ regs true (map (fun n => Visit u n c) ns ++ k).
Proof. intros. induction ns as [|n ns IH]; cbn [map app regs]; tauto. Qed.
Definition reads (c : callback) (us : list nat) : list instr := concat (map (fun u => [Acquire (Frames u); Read u c; Release (Frames u)]) us).
Lemma ok_reads b t held c us k : (b = true -> c = Plain /\ held = [Threads]) -> ok b t held k -> ok b t held (reads c us ++ k).
Proof.
  intros Hb Hk. induction us as [|u us IH]; [done|]. cbn [reads map concat app ok]. split; [intros B; right; split; [by apply Hb|eauto]|].
  split; [intros B; by apply Hb|]. split; [left|]. split; done.
Qed.
Lemma reads_none c us k : (forall u n d, Visit u n d ∉ k) -> forall u n d, Visit u n d ∉ reads c us ++ k.
Proof. intros N u n d. induction us as [|v us IH]; [apply N|]. cbn [reads map concat app]. rewrite !elem_of_cons. by intros [?|[?|[?|?]]]. Qed.
Lemma regs_reads r c us k : regs r k -> regs true k -> regs r (reads c us ++ k) /\ regs true (reads c us ++ k).
Proof. intros. induction us as [|u us IH]; [done|]. cbn [reads map concat app regs]. tauto. Qed.

Lemma vis_sec l k h : vis h k -> (l ∈ h /\ forall u n c, Visit u n c ∈ k -> Frames u ∈ h) \/ vis (filter (fun m => m <> l) h) k.
Proof.
  intros V. destruct (decide (l ∈ h)) as [H|N]; [left; split; [done|]; intros u n c Hv; by apply (vis_elem k h u n c)|right].
  apply (vis_mono k h); [|done]. intros m Hm. apply elem_of_list_filter. split; [congruence|done].
Qed.
Lemma visits_cons i k (P : nat -> Prop) : (forall u n c, i <> Visit u n c) -> (forall u n c, Visit u n c ∈ k -> P u) -> forall u n c, Visit u n c ∈ i :: k -> P u.
Proof. intros N H u n c [E|E]%elem_of_cons; [symmetry in E; by apply N in E|by apply (H u n c)]. Qed.
Lemma vis_open l m k h : (match m with Register | Act _ => True | _ => False end) -> vis h k -> vis h ([Acquire l; m; Release l] ++ k).
Proof.
  intros Hm V. cbn [app vis]. destruct (vis_sec l k h V) as [[H1 H2]|H]; [left; split; [done|]|right; by destruct m].
  apply visits_cons; [by destruct m|]. by apply visits_cons.
Qed.
Lemma vis_alloc t k h : vis h k -> vis h (alloc_code t ++ k).
Proof.
  intros V. cbn [alloc_code app vis]. destruct (vis_sec (Frames t) k h V) as [[H1 H2]|H].
  - destruct (decide (Allocs ∈ h)) as [Ha|Na]; [left; split; [done|]; by repeat (apply visits_cons; [done|])|right].
    left. split; [by apply elem_of_list_filter|]. apply visits_cons; [done|]. intros u n c Hv. apply elem_of_list_filter. split; [done|by eapply H2].
  - destruct (decide (Allocs ∈ h)) as [Ha|Na].
    + left. split; [done|]. repeat (apply visits_cons; [done|]). intros u n c Hv. by apply (vis_elem k h u n c).
    + right. right. apply (vis_mono k (filter (fun m => m <> Frames t) h)); [|done]. intros m [H1 H2]%elem_of_list_filter. apply elem_of_list_filter. split; [done|]. apply elem_of_list_filter. split; [congruence|done].
Qed.
(** Steps that change nothing but the code *)
Lemma inv_code b s held t i k k' : inv b s held -> code s t = i :: k -> ok b t (held t) k' -> vis (held t) k' -> regs (registered (profs s t)) k' -> quiet (live (profs s t)) k' ->
  (forall u n c, Visit u n c ∈ k' -> n ∈ timings (profs s u)) -> exists held', inv b (set_code t k' s) held'.
Proof.
  intros I Ek O V R Q S. exists (upd held t (held t)). apply (inv_step b s); try done; cbn [code profs holder registry log set_code set_prof set_holder set_registry see]; rewrite ?upd_eq; try done; auto.
  - intros u N. by rewrite upd_ne. - apply I. - by apply (hold_same b). - apply I. - apply I.
Qed.

Lemma quiet_reads c us k : quiet true k -> quiet true (reads c us ++ k).
Proof. intros Q. induction us as [|u us IH]; [done|]. apply IH. Qed.
Lemma quiet_visits u c ns k : quiet true k -> quiet true (map (fun n => Visit u n c) ns ++ k).
Proof. intros Q. induction ns as [|n ns IH]; [done|]. apply IH. Qed.
Lemma no_visit (l : list instr) : Forall (fun i => match i with Visit _ _ _ => False | _ => True end) l -> forall u n d, Visit u n d ∉ l.
Proof. intros F u n d H. rewrite Forall_forall in F. by apply F in H. Qed.
Lemma step_registered p o p' x : registered p = true -> o <> Finalize -> ProfileModel.step p o = Ok (p', x) -> registered p' = true.
Proof.
  intros R N E. unfold ProfileModel.step in E. unfold ready in E. rewrite R in E. destruct o as [y|y|l y|y|]; try done.
  - destruct (assert_ _) as [[]| | |]; try done. cbn [mbind res_bind] in E. destruct (frame_begin _ _) as [[]| | |]; try done. cbn [mbind res_bind] in E.
    match type of E with context [match last ?l with _ => _ end] => destruct (match last l with Some prev => _ | None => _ end) as [?| | |] end; try done. injection E as <- _. done.
  - destruct (assert_ _) as [[]| | |]; try done. cbn [mbind res_bind] in E. unfold on_back in E. destruct (last _); [|done]. destruct (frame_end _ _); try done. injection E as <- _. done.
  - destruct (during_frame _); [|by injection E as <- _]. unfold on_back in E. destruct (last _); [|done]. destruct (frame_enter _ _ _); try done. injection E as <- _. done.
  - destruct (during_frame _); [|by injection E as <- _]. unfold on_back in E. destruct (last _); [|done]. destruct (frame_exit _ _); try done. injection E as <- _. done.
Qed.
Lemma exec_inv b s held t i k s' : inv b s held -> code s t = i :: k -> exec t i k s = Ok s' -> exists held', inv b s' held'.
Proof.
  intros I Ek E. pose proof (v_ok _ _ _ I t) as O. pose proof (v_vis _ _ _ I t) as V. pose proof (v_regs _ _ _ I t) as R. pose proof (v_quiet _ _ _ I t) as Qt. rewrite Ek in O, V, R, Qt.
  pose proof (v_nd _ _ _ I t) as Nd. pose proof (v_reg _ _ _ I) as Rg. pose proof (v_same _ _ _ I) as Sm.
  assert (forall u n c, Visit u n c ∈ k -> n ∈ timings (profs s u)) as Sk. { intros u n c H. apply (v_seen _ _ _ I t u n c). rewrite Ek. by constructor. }
  destruct i as [l|l| | | |e|o|o| |c|u c|u n c]; cbn [exec] in E; cbn [ok vis regs quiet] in O, V, R, Qt.
  - destruct (holder s l) as [h|] eqn:Eh.
    + injection E as <-. by exists held.
    + injection E as <-. exists (upd held t (l :: held t)).
      assert (l ∉ held t) as Nl by (intros H; apply (v_hold _ _ _ I) in H; congruence).
      apply (inv_step b s); try done; cbn [code profs holder registry log set_code set_prof set_holder set_registry see]; rewrite ?upd_eq; try done; auto.
      * intros u N. by rewrite upd_ne.
      * apply O.
      * apply (vis_mono k (held t)); [intros; by constructor|]. by destruct V as [[? _]|V].
      * by constructor.
      * intros m u. destruct (decide (m = l)) as [->|Nm].
        -- rewrite updl_eq. destruct (decide (u = t)) as [->|N].
           ++ rewrite upd_eq. split; [by left|done].
           ++ rewrite upd_ne by done. split; [congruence|]. intros H. apply (v_hold _ _ _ I) in H. congruence.
        -- rewrite updl_ne, (v_hold _ _ _ I) by done. destruct (decide (u = t)) as [->|N]; [rewrite upd_eq, elem_of_cons; tauto|by rewrite upd_ne].
  - injection E as <-. destruct (held t) as [|m h] eqn:Hh; [done|]. destruct O as [-> O]. exists (upd held t h).
    assert (NoDup h) as Nh by (by apply NoDup_cons in Nd as [_ ?]).
    apply (inv_step b s); try done; cbn [code profs holder registry log set_code set_prof set_holder set_registry see]; rewrite ?upd_eq; try done; auto.
    + intros u N. by rewrite upd_ne.
    + by rewrite filter_head in V.
    + intros m u. destruct (decide (m = l)) as [->|Nm].
      * rewrite updl_eq. split; [done|]. intros H. exfalso. destruct (decide (u = t)) as [->|N].
        -- rewrite upd_eq in H. by apply NoDup_cons in Nd as [? _].
        -- rewrite upd_ne in H by done. apply (v_hold _ _ _ I) in H. assert (holder s l = Some t) as H' by (apply (v_hold _ _ _ I); rewrite Hh; by constructor). congruence.
      * rewrite updl_ne, (v_hold _ _ _ I) by done. destruct (decide (u = t)) as [->|N]; [rewrite upd_eq, Hh, elem_of_cons; tauto|by rewrite upd_ne].
  - injection E as <-. destruct O as [O1 O2]. apply (inv_code b s held t Check k); try done.
    + destruct (registered _); [done|]. cbn [ok app]. split; [intros B; left; by apply O1|]. split; [left|]. split; done.
    + destruct (registered _); [done|]. by apply (vis_open Threads Register).
    + destruct (registered _) eqn:Er; [done|]. done.
    + destruct (registered _); by apply quiet_mono.
    + intros u n c H. apply (Sk u n c). destruct (registered _); [done|]. cbn in H. rewrite !elem_of_cons in H. by destruct H as [?|[?|[?|?]]].
  - (* Register *) destruct R as [R1 R2]. destruct (assert_ _) as [[]| | |]; try done. cbn [mbind res_bind] in E.
    destruct (same_ready (profs s t) (profs s t)) as [S1 S2]. { destruct (Sm t) as (p & _ & D & F & C & Q & _). by split_and!. }
    assert (registered (fst (ready (profs s t))) = true) as Rt by (unfold ready; by rewrite R1).
    assert (forall q, same (profs s t) q -> same (fst (ready (profs s t))) q) as S3 by (intros; by apply same_ready).
    set (p1 := fst (ready (profs s t))) in *. clearbody p1. injection E as <-. exists (upd held t (held t)).
    apply (inv_step b s); try done; cbn [code profs holder registry log set_code set_prof set_holder set_registry see]; rewrite ?upd_eq; try done; auto.
    + intros u N. by rewrite !upd_ne.
    + apply O.
    + by rewrite Rt.
    + destruct S1 as (D1 & F1 & _). unfold live. rewrite D1, F1. exact Qt.
    + by apply (hold_same b).
    + intros u. rewrite elem_of_app, elem_of_list_singleton. destruct (decide (u = t)) as [->|N]; [rewrite upd_eq; tauto|]. rewrite upd_ne, Rg by done. tauto.
    + intros u. destruct (decide (u = t)) as [->|N]; [rewrite upd_eq|rewrite upd_ne by done; apply Sm]. destruct (Sm t) as (p & E & S). exists p. split; [done|]. by apply S3.
    + intros u n c H. apply Sk in H. destruct (decide (u = t)) as [->|N]; [rewrite upd_eq; by rewrite (same_timings _ _ S1)|by rewrite upd_ne].
    + left. by apply same_timings.
  - (* Unregister *) destruct Qt as [Qd Qt]. injection E as <-. exists (upd held t (held t)).
    assert (timings (set_registered false (profs s t)) = timings (profs s t)) as Te by done.
    apply (inv_step b s); try done; cbn [code profs holder registry log set_code set_prof set_holder set_registry see]; rewrite ?upd_eq; try done; auto.
    + intros u N. by rewrite !upd_ne.
    + apply O.
    + by apply (hold_same b).
    + intros u. rewrite elem_of_list_filter. destruct (decide (u = t)) as [->|N]; [rewrite upd_eq; cbn; split; [done|tauto]|]. rewrite upd_ne, Rg by done. tauto.
    + intros u. destruct (decide (u = t)) as [->|N]; [rewrite upd_eq|rewrite upd_ne by done; apply Sm]. destruct (Sm t) as (p & E & D & F & C & Q1 & Q2). exists p. split; [done|]. split_and!; try done. change (live (set_registered false (profs s t))) with (live (profs s t)). congruence.
    + intros u n c H. apply Sk in H. destruct (decide (u = t)) as [->|N]; [by rewrite upd_eq|by rewrite upd_ne].
  - (* Expect *) destruct (assert_ _) as [[]| | |] eqn:Ea; try done. cbn [mbind res_bind] in E. injection E as <-. destruct O as [_ O].
    apply (inv_code b s held t (Expect e) k); try done; [|by apply quiet_mono].
    unfold assert_ in Ea. destruct (Bool.eqb _ e && _) eqn:Eb; [|done]. apply andb_true_iff in Eb as [Eb1 Eb2]. destruct e; [|done]. cbn in Eb2. by rewrite Eb2.
  - (* When_during *) destruct O as (O1 & O2 & O3). destruct R as [R1 R2]. destruct (during_frame (profs s t)) eqn:Du.
    + injection E as <-. apply (inv_code b s held t (When_during o) k); try done.
      * cbn [ok app]. split; [intros B; left; by apply O1|]. split; [left|]. split; [by destruct o|]. split; [eauto|]. done.
      * by apply (vis_open (Frames t) (Act o)).
      * intros u n c H. apply (Sk u n c). cbn in H. rewrite !elem_of_cons in H. by destruct H as [?|[?|[?|?]]].
    + injection E as <-. exists (upd held t (held t)).
      apply (inv_step b s); try done; cbn [code profs holder registry log set_code set_prof set_holder set_registry see]; rewrite ?upd_eq; try done; auto.
      * intros u N. by rewrite upd_ne.
      * by rewrite R1.
      * by apply quiet_mono.
      * by apply (hold_same b).
      * intros u. destruct (Sm u) as (p & E & S). rewrite ops_app. destruct (decide (u = t)) as [->|N].
        -- unfold ops_of at 2. cbn [omap list_omap]. rewrite decide_True by done. rewrite (run_snoc _ _ _ E).
           assert (ProfileModel.step (profs s t) o = Ok (profs s t, Nothing)) as Eo. { unfold ProfileModel.step, ready. rewrite R1. by destruct o; try done; rewrite Du. }
           pose proof (step_same _ _ o S ltac:(by destruct o)) as H. rewrite Eo in H. destruct H as (q & -> & Sq). exists q. done.
        -- unfold ops_of at 2. cbn [omap list_omap]. rewrite decide_False by done. rewrite app_nil_r. eauto.
      * right. eexists. split; [done|]. done.
  - (* Act *) destruct O as (O1 & O2 & [k' Ek'] & O3). destruct R as [R1 R2]. destruct (ProfileModel.step (profs s t) o) as [[p x]| | |] eqn:Eo; try done. cbn [mbind res_bind] in E. injection E as <-.
    exists (upd held t (held t)). destruct (Sm t) as (q & Eq & Sq). pose proof (step_same _ _ o Sq O2) as H. rewrite Eo in H. destruct H as (q' & Eq' & Sq').
    assert (registered p = true) as Rp by (by apply (step_registered _ _ _ _ R1 O2 Eo)).
    apply (inv_step b s); try done; cbn [code profs holder registry log set_code set_prof set_holder set_registry see]; rewrite ?upd_eq; try done; auto.
    + intros u N. by rewrite !upd_ne.
    + by rewrite Rp.
    + by apply quiet_mono.
    + by apply (hold_same b).
    + intros u. destruct (decide (u = t)) as [->|N]; [rewrite upd_eq|by rewrite upd_ne]. rewrite <-Rg. tauto.
    + intros u. rewrite ops_app. unfold ops_of at 2. cbn [omap list_omap]. destruct (decide (u = t)) as [->|N].
      * rewrite decide_True by done. rewrite upd_eq, (run_snoc _ _ _ Eq), Eq'. exists q'. done.
      * rewrite decide_False, app_nil_r, upd_ne by done. apply Sm.
    + intros u n c H. destruct (decide (u = t)) as [->|N]; [|rewrite upd_ne by done; by apply (Sk u n c)]. exfalso. subst k. apply elem_of_cons in H as [H|H]; [done|]. cbn [vis] in V. apply (vis_elem _ _ _ _ _ H) in V. apply elem_of_list_filter in V. tauto.
    + right. intros u n c N H. pose proof (vis_elem _ _ _ _ _ H (v_vis _ _ _ I u)) as H'. apply (v_hold _ _ _ I) in H', O1. congruence.
    + right. eexists. split; [done|]. done.
  - (* Clear *) destruct (holder s (Frames t)) as [h|] eqn:Eh; [done|]. destruct (during_frame (profs s t)) eqn:Du; [done|]. injection E as <-. exists (upd held t (held t)).
    assert (forall u n c, Visit t n c ∉ code s u) as Nv. { intros u n c H. pose proof (vis_elem _ _ _ _ _ H (v_vis _ _ _ I u)) as H'. apply (v_hold _ _ _ I) in H'. congruence. }
    apply (inv_step b s); try done; cbn [code profs holder registry log set_code set_prof set_holder set_registry see]; rewrite ?upd_eq; try done; auto.
    + intros u N. by rewrite !upd_ne.
    + by apply (hold_same b).
    + intros u. destruct (decide (u = t)) as [->|N]; [rewrite upd_eq|by rewrite upd_ne]. apply Rg.
    + intros u. rewrite ops_app. unfold ops_of at 2. cbn [omap list_omap]. destruct (decide (u = t)) as [->|N].
      * rewrite decide_True by done. rewrite upd_eq. destruct (Sm t) as (q & Eq & D & F & C & Q). rewrite (run_snoc _ _ _ Eq). unfold ProfileModel.step. rewrite <-D, Du. eexists. split; [done|]. by split_and!.
      * rewrite decide_False, app_nil_r, upd_ne by done. apply Sm.
    + intros u n c H. destruct (decide (u = t)) as [->|N]; [|rewrite upd_ne by done; by apply (Sk u n c)]. exfalso. apply (Nv t n c). rewrite Ek. by constructor.
    + right. eexists. split; [done|]. done.
  - (* Each *) injection E as <-. destruct O as (O1 & O2 & O3). destruct R as [R1 R2]. apply (inv_code b s held t (Each c) k); try done.
    + by apply ok_reads.
    + by apply vis_none, reads_none.
    + by apply (regs_reads _ c).
    + by apply quiet_mono, (quiet_reads c).
    + intros u n d H. by apply reads_none in H.
  - (* Read *) injection E as <-. destruct O as (O1 & O2 & O3). destruct R as [R1 R2]. apply (inv_code b s held t (Read u c) k); try done.
    + by apply ok_visits.
    + by apply vis_visits.
    + by apply regs_visits.
    + by apply quiet_mono, quiet_visits.
    + intros v n d H. apply elem_of_app in H as [H|H]; [|by apply (Sk v n d)]. apply elem_of_list_In, in_map_iff in H as (m & Em & Hm). injection Em as <- <- _. by apply elem_of_list_In.
  - (* Visit *) injection E as <-. destruct O as (O1 & O2 & O3). destruct V as [V1 V2]. destruct R as [R1 R2]. exists (upd held t (held t)).
    apply (inv_step b s); try done; cbn [code profs holder registry log set_code set_prof set_holder set_registry see]; rewrite ?upd_eq; try done; auto.
    + intros v N. by rewrite upd_ne.
    + destruct b; [by rewrite O1|]. destruct c; cbn [callback_code app]; [done| |]. * cbn [alloc_code app ok]. done. * cbn [ok]. done.
    + destruct c; cbn [callback_code]; [done|by apply vis_alloc|done].
    + destruct c; cbn [callback_code app regs]; done.
    + apply quiet_mono. destruct c; done.
    + by apply (hold_same b).
    + intros v. rewrite ops_app. unfold ops_of at 2. cbn [omap list_omap]. rewrite app_nil_r. apply Sm.
    + intros v m d H. apply (Sk v m d). apply elem_of_app in H as [H|H]; [|done]. exfalso. revert H. apply no_visit. destruct c; repeat constructor.
    + right. eexists. split; [done|]. intros v w m Em. injection Em as <- <- <-. destruct (Sm u) as (p & Ep & Sp). exists (timings p). split; [by apply timings_last|]. rewrite <-(same_timings _ _ Sp). apply (v_seen _ _ _ I t u n c). rewrite Ek. by constructor.
Qed.

Lemma code_ok b t c : (b = true -> match c with Iterate c => c = Plain | _ => True end) -> ok b t [] (code_of t c) /\ vis [] (code_of t c) /\ (forall r, regs r (code_of t c)) /\ (forall d, quiet d (code_of t c)) /\ forall u n d, Visit u n d ∉ code_of t c.
Proof.
  intros Hb. assert (forall (l : list instr), Forall (fun i => match i with Visit _ _ _ => False | _ => True end) l -> forall u n d, Visit u n d ∉ l) as Nv.
  { intros l F u n d H. rewrite Forall_forall in F. by apply F in H. }
  assert (Forall (fun i => match i with Visit _ _ _ => False | _ => True end) (code_of t c)) as F by (destruct c as [[]| | |]; repeat constructor).
  split_and!; [| |intros r|intros d|by apply Nv].
  - destruct c as [[]| | |]; cbn; try split_and!; try done; try (left; done); try (by eexists _, _); try (by eexists); eauto.
  - apply vis_none. by apply Nv.
  - destruct c as [[]| | |]; cbn; done.
  - destruct c as [[]| | |]; cbn; done.
Qed.
Lemma step_inv b s held l s' : inv b s held -> (b = true -> plain l) -> step s l = Ok s' -> exists held', inv b s' held'.
Proof.
  intros I P E. destruct l as [t c|t]; cbn [step] in E.
  - destruct (code s t) as [|i k] eqn:Ek; [|injection E as <-; by exists held]. injection E as <-. pose proof (v_ok _ _ _ I t) as O. rewrite Ek in O. cbn in O.
    destruct (code_ok b t c) as (C1 & C2 & C3 & C4 & C5). { intros B. specialize (P B). by destruct c. }
    exists (upd held t []). apply (inv_step b s); try done; cbn [code profs holder registry log set_code]; rewrite ?upd_eq; try done; auto.
    + intros u N. by rewrite upd_ne.
    + constructor.
    + intros m u. rewrite (v_hold _ _ _ I). destruct (decide (u = t)) as [->|N]; [by rewrite upd_eq, O|by rewrite upd_ne].
    + apply I.
    + apply I.
    + intros u n d H. by apply C5 in H.
  - destruct (code s t) as [|i k] eqn:Ek; [injection E as <-; by exists held|]. by apply (exec_inv b s held t i k).
Qed.
Lemma init_inv b : inv b init (fun _ => []).
Proof.
  split; cbn; try done.
  - constructor. - intros l t. split; [done|]. by intros H%elem_of_nil. - intros t. split; [done|]. by intros H%elem_of_nil.
  - intros t. eexists. split; [done|]. by split_and!. - intros t u n c H. by apply elem_of_nil in H. - intros l1 t u n l2 E. by destruct l1.
Qed.
Lemma reach b ls : forall s held s', inv b s held -> (b = true -> Forall plain ls) -> run s ls = Ok s' -> exists held', inv b s' held'.
Proof.
  induction ls as [|l ls IH]; intros s held s' I P E; cbn [run] in E; [injection E as <-; by exists held|].
  destruct (step s l) as [s1| | |] eqn:E1; try done. cbn [mbind res_bind] in E.
  destruct (step_inv b s held l s1 I) as [h1 I1]; [intros B; specialize (P B); by inversion P|done|]. apply (IH s1 h1); try done. intros B. specialize (P B). by inversion P.
Qed.

(** ** The theorems *)
(** Whatever the others do, a thread's frames are what its own calls make of them: what C51 and C52 say of one thread holds of each. *)
Theorem prof_threads_own ls s : run init ls = Ok s -> forall t, exists p,
  ProfileModel.run ProfileModel.init (ops_of t (log s)) = Ok p /\ frames (profs s t) = frames p /\ during_frame (profs s t) = during_frame p.
Proof. intros E t. destruct (reach false ls init _ s (init_inv false) ltac:(done) E) as [held I]. destruct (v_same _ _ _ I t) as (p & Ep & D & F & _). by exists p. Qed.
(** Every node that iterate_timings shows belongs to the last frame the thread has ended by then, as it was at the end of that frame. *)
Theorem prof_threads_iterate ls s l1 t u n l2 : run init ls = Ok s -> log s = l1 ++ Saw t u n :: l2 ->
  exists ns, last_ended (ops_of u l1) ns /\ n ∈ ns.
Proof. intros E El. destruct (reach false ls init _ s (init_inv false) ltac:(done) E) as [held I]. by apply (v_log _ _ _ I l1 t u n l2). Qed.

Lemma go_run t m : forall s s1 s2 m2, run s (replicate m (Go t)) = Ok s1 -> run s1 (replicate m2 (Go t)) = Ok s2 -> run s (replicate (m + m2) (Go t)) = Ok s2.
Proof.
  induction m as [|m IH]; intros s s1 s2 m2 E1 E2; cbn [replicate Nat.add run] in *; [by injection E1 as ->|].
  destruct (step s (Go t)) as [s'| | |]; try done. cbn [mbind res_bind] in *. by apply (IH s' s1).
Qed.
Definition free (s : st) : Prop := forall l, l <> Threads -> holder s l = None.
Lemma go_visits t u ns : forall s k, code s t = map (fun n => Visit u n Plain) ns ++ k ->
  exists s', run s (replicate (length ns) (Go t)) = Ok s' /\ code s' t = k /\ log s' = log s ++ map (Saw t u) ns /\ holder s' = holder s /\ profs s' = profs s /\ registry s' = registry s.
Proof.
  induction ns as [|n ns IH]; intros s k Ek; cbn [map app length replicate run] in *; [exists s; rewrite app_nil_r; done|].
  unfold step at 1. rewrite Ek. cbn [exec callback_code app mbind res_bind].
  destruct (IH (set_code t (map (fun n => Visit u n Plain) ns ++ k) (see (Saw t u n) s)) k) as (s' & E & C & L & R); [cbn; by rewrite upd_eq|].
  exists s'. split; [done|]. split; [done|]. split; [rewrite L; cbn; by rewrite <-app_assoc|]. done.
Qed.
Lemma go_reads t us : forall s k, code s t = reads Plain us ++ k -> free s ->
  exists m s', run s (replicate m (Go t)) = Ok s' /\ code s' t = k /\ free s' /\
    log s' = log s ++ concat (map (fun u => map (Saw t u) (timings (profs s u))) us) /\ profs s' = profs s /\ registry s' = registry s /\ holder s' Threads = holder s Threads.
Proof.
  induction us as [|u us IH]; intros s k Ek F; [exists 0, s; cbn; rewrite app_nil_r; done|]. cbn [reads map concat app] in Ek.
  set (k1 := reads Plain us ++ k) in *. change (concat _ ++ k) with k1 in Ek.
  set (sa := set_code t (Read u Plain :: Release (Frames u) :: k1) (set_holder (Frames u) (Some t) s)).
  assert (step s (Go t) = Ok sa) as E1 by (unfold step; rewrite Ek; cbn [exec]; rewrite F by done; done).
  set (sb := set_code t (map (fun n => Visit u n Plain) (timings (profs s u)) ++ Release (Frames u) :: k1) sa).
  assert (step sa (Go t) = Ok sb) as E2. { unfold step. cbn [sa set_code code]. rewrite upd_eq. done. }
  destruct (go_visits t u (timings (profs s u)) sb (Release (Frames u) :: k1)) as (sc & E3 & C3 & L3 & H3 & P3 & R3); [cbn; by rewrite upd_eq|].
  set (sd := set_code t k1 (set_holder (Frames u) None sc)).
  assert (step sc (Go t) = Ok sd) as E4 by (unfold step; rewrite C3; done).
  destruct (IH sd k) as (m & s' & E5 & C5 & F5 & L5 & P5 & R5 & H5).
  - cbn. by rewrite upd_eq.
  - intros l Nl. cbn [sd set_code set_holder holder]. destruct (decide (l = Frames u)) as [->|N]; [by rewrite updl_eq|]. rewrite updl_ne, H3 by done. cbn. rewrite updl_ne by done. by apply F.
  - exists (1 + (1 + (length (timings (profs s u)) + (1 + m)))), s'. split.
    { apply (go_run t 1 s sa); [cbn [replicate run]; by rewrite E1|]. apply (go_run t 1 sa sb); [cbn [replicate run]; by rewrite E2|]. apply (go_run t _ sb sc); [done|]. apply (go_run t 1 sc sd); [cbn [replicate run]; by rewrite E4|done]. }
    split; [done|]. split; [done|]. rewrite L5, P5, R5, H5. cbn [sd set_code set_holder log profs registry holder map concat]. rewrite L3, P3, R3, H3. cbn [sb sa set_code set_holder log profs registry holder].
    split; [by rewrite app_assoc|]. split; [done|]. split; [done|]. rewrite updl_ne by done. by rewrite updl_ne.
Qed.
Lemma reach_nodup ls : forall s s', NoDup (registry s) -> run s ls = Ok s' -> NoDup (registry s').
Proof.
  induction ls as [|l ls IH]; intros s s' N E; cbn [run] in E; [by injection E as <-|]. destruct (step s l) as [s1| | |] eqn:E1; try done. cbn [mbind res_bind] in E. apply (IH s1); [|done]. clear -N E1.
  destruct l as [t c|t]; cbn [step] in E1; destruct (code s t) as [|i k]; try (injection E1 as <-; exact N).
  destruct i as [l|l| | | |e|o|o| |c|v c|v n c]; cbn [exec] in E1; try (injection E1 as <-; exact N).
  - destruct (holder s l); injection E1 as <-; exact N.
  - destruct (bool_decide (t ∈ registry s)) eqn:B; cbn in E1; [done|]. apply bool_decide_eq_false in B. injection E1 as <-. cbn. apply NoDup_app. split; [done|]. split; [|apply NoDup_singleton]. intros x Hx ->%elem_of_list_singleton. done.
  - injection E1 as <-. cbn. by apply NoDup_filter.
  - destruct (assert_ _) as [[]| | |]; try done. injection E1 as <-. exact N.
  - destruct (during_frame _); injection E1 as <-; exact N.
  - destruct (ProfileModel.step _ o) as [[p x]| | |]; try done. injection E1 as <-. exact N.
  - destruct (holder s _); [done|]. destruct (during_frame _); [done|]. injection E1 as <-. exact N.
Qed.
(** When nobody else is in the profiler, iterate_timings shows of every thread all nodes of the last frame it has ended, in order, and nothing else. *)
Theorem prof_threads_complete ls s t : run init ls = Ok s -> (forall u, code s u = []) ->
  exists us frames_of m s', NoDup us /\ (forall u, last_ended (ops_of u (log s)) (frames_of u)) /\ (forall u, frames_of u <> [] -> u ∈ us) /\
    run s (Call t (Iterate Plain) :: replicate m (Go t)) = Ok s' /\ code s' t = [] /\ log s' = log s ++ concat (map (fun u => map (Saw t u) (frames_of u)) us).
Proof.
  intros E Id. destruct (reach false ls init _ s (init_inv false) ltac:(done) E) as [held I].
  assert (forall l, holder s l = None) as Hn. { intros l. destruct (holder s l) as [u|] eqn:H; [|done]. apply (v_hold _ _ _ I) in H. pose proof (v_ok _ _ _ I u) as O. rewrite Id in O. cbn in O. rewrite O in H. by apply elem_of_nil in H. }
  set (s1 := set_code t [Each Plain; Release Threads] (set_holder Threads (Some t) (set_code t (code_of t (Iterate Plain)) s))).
  set (s2 := set_code t (reads Plain (registry s) ++ [Release Threads]) s1).
  destruct (go_reads t (registry s) s2 [Release Threads]) as (m & s3 & E3 & C3 & F3 & L3 & P3 & R3 & H3).
  { cbn. by rewrite upd_eq. }
  { intros l Nl. cbn. rewrite updl_ne by done. apply Hn. }
  exists (registry s), (fun u => timings (profs s u)), (1 + (1 + (m + 1))), (set_code t [] (set_holder Threads None s3)).
  split; [by apply (reach_nodup ls init s); [constructor|]|]. split; [intros u; destruct (v_same _ _ _ I u) as (p & Ep & Sp); rewrite (same_timings _ _ Sp); by apply timings_last|].
  split. { intros u Hu. apply (v_reg _ _ _ I). destruct (v_same _ _ _ I u) as (p & Ep & _ & _ & _ & R & _). apply R. unfold live. destruct (frames (profs s u)) eqn:Ef; [|apply orb_true_r].
    exfalso. apply Hu. unfold timings. rewrite Ef. by destruct (during_frame _). }
  cbn [run]. unfold step at 1. rewrite Id. cbn [mbind res_bind]. split.
  { apply (go_run t 1 _ s1). { cbn [replicate run]. unfold step. cbn [set_code code]. rewrite upd_eq. cbn [code_of exec set_code holder]. by rewrite Hn. }
    apply (go_run t 1 _ s2). { cbn [replicate run]. unfold step. cbn [s1 set_code code]. rewrite upd_eq. done. }
    apply (go_run t m _ s3); [done|]. cbn [replicate run]. unfold step. rewrite C3. done. }
  split; [cbn; by rewrite upd_eq|]. cbn [set_code set_holder log]. rewrite L3. done.
Qed.
(** A thread is stopped only by its own misuse: the call it is in would stop it too if it were alone. *)
Theorem prof_threads_die ls s t : run init ls = Ok s -> step s (Go t) = Die ->
  exists o, (Act o ∈ code s t \/ (Clear ∈ code s t /\ o = Finalize)) /\ ProfileModel.run ProfileModel.init (ops_of t (log s) ++ [o]) = Die.
Proof.
  intros E D. destruct (reach false ls init _ s (init_inv false) ltac:(done) E) as [held I]. destruct (v_same _ _ _ I t) as (p & Ep & Sp).
  pose proof (v_ok _ _ _ I t) as O. pose proof (v_regs _ _ _ I t) as R. unfold step in D. destruct (code s t) as [|i k] eqn:Ek; [done|].
  destruct i as [l|l| | | |e|o|o| |c|u c|u n c]; cbn [exec] in D; cbn [ok regs] in O, R; try done.
  - by destruct (holder s l).
  - destruct R as [R _]. rewrite bool_decide_false in D; [done|]. intros H. apply (v_reg _ _ _ I) in H. congruence.
  - destruct O as [(x & k' & ->) _]. exists (if e then End x else Begin x). split; [left; set_solver|]. rewrite (run_snoc _ _ _ Ep). destruct Sp as (Du & _ & _ & Lr & Lr').
    destruct (Bool.eqb _ e && _) eqn:Eb; [done|]. destruct e.
    + unfold ProfileModel.step. rewrite <-Du. destruct (during_frame (profs s t)) eqn:Dt; [|by rewrite andb_false_r]. cbn in Eb. unfold live in Lr. rewrite Dt in Lr. by rewrite Lr in Eb.
    + unfold ProfileModel.step, ready. rewrite andb_true_r in Eb. destruct (during_frame (profs s t)) eqn:Dt; [|done].
      rewrite Lr' by (unfold live; by rewrite <-Du). by rewrite <-Du.
  - by destruct (during_frame _).
  - destruct O as (_ & O2 & _). exists o. split; [left; set_solver|]. rewrite (run_snoc _ _ _ Ep). pose proof (step_same _ _ o Sp O2) as H. destruct (ProfileModel.step (profs s t) o) as [[]| | |]; try done. by rewrite H.
  - exists Finalize. split; [right; split; [set_solver|done]|]. rewrite (run_snoc _ _ _ Ep). unfold ProfileModel.step. destruct (holder s (Frames t)); [done|]. destruct Sp as [Du _]. rewrite <-Du. by destruct (during_frame (profs s t)).
Qed.
Lemma exec_clear t i k s s' u : code s t = i :: k -> exec t i k s = Ok s' -> Clear ∈ code s' u -> Clear ∈ code s u.
Proof.
  intros Ek E H. assert (forall k', (forall j, j ∈ k' -> j = Clear -> j ∈ k) -> Clear ∈ upd (code s) t k' u -> Clear ∈ code s u) as Q.
  { intros k' S Hc. destruct (decide (u = t)) as [->|N]; [rewrite upd_eq in Hc; rewrite Ek; right; by apply S|by rewrite upd_ne in Hc]. }
  destruct i as [l|l| | | |e|o|o| |c|v c|v n c]; cbn [exec] in E.
  - destruct (holder s l); injection E as <-; [done|]. by apply (Q k).
  - injection E as <-. by apply (Q k).
  - injection E as <-. eapply Q; [|exact H]. intros j Hj ->. destruct (registered _); [done|]. cbn in Hj. by repeat (apply elem_of_cons in Hj as [?|Hj]; [done|]).
  - destruct (assert_ _) as [[]| | |]; try done. injection E as <-. by apply (Q k).
  - injection E as <-. by apply (Q k).
  - destruct (assert_ _) as [[]| | |]; try done. injection E as <-. by apply (Q k).
  - destruct (during_frame _); injection E as <-; [|by apply (Q k)]. eapply Q; [|exact H]. intros j Hj ->. cbn in Hj. by repeat (apply elem_of_cons in Hj as [?|Hj]; [done|]).
  - destruct (ProfileModel.step _ o) as [[p x]| | |]; try done. injection E as <-. by apply (Q k).
  - destruct (holder s _); [done|]. destruct (during_frame _); [done|]. injection E as <-. by apply (Q k).
  - injection E as <-. eapply Q; [|exact H]. intros j Hj ->. apply elem_of_app in Hj as [Hj|Hj]; [|done]. exfalso. clear -Hj. induction (registry s) as [|w ws IH]; [by apply elem_of_nil in Hj|]. cbn in Hj. do 3 (apply elem_of_cons in Hj as [?|Hj]; [done|]). by apply IH.
  - injection E as <-. eapply Q; [|exact H]. intros j Hj ->. apply elem_of_app in Hj as [Hj|Hj]; [|done]. by apply elem_of_list_In, in_map_iff in Hj as (? & ? & _).
  - injection E as <-. eapply Q; [|exact H]. intros j Hj ->. apply elem_of_app in Hj as [Hj|Hj]; [|done]. exfalso. destruct c; cbn in Hj; [by apply elem_of_nil in Hj|..]; by repeat (apply elem_of_cons in Hj as [?|Hj]; [done|]); apply elem_of_nil in Hj.
Qed.
Lemma step_or_die os p o : ProfileModel.run ProfileModel.init os = Ok p -> ProfileModel.step p o = Die \/ exists p' x, ProfileModel.step p o = Ok (p', x).
Proof.
  intros E. destruct (profile_steps os p o E) as [P1 P2]. destruct o as [y|y|l y|y|].
  - destruct (scopes os); [left; apply P2; done|right; by apply P1].
  - destruct (scopes os) as [[|]|]; [right; by apply P1|left; apply P2; done..].
  - right. by apply P1.
  - right. by apply P1.
  - destruct (scopes os); [left; apply P2; done|right; by apply P1].
Qed.
(** If no thread ends, nothing is undefined and every call comes back, whatever the functions given to iterate_timings do. *)
Theorem prof_threads_safe_partial ls : Forall stays ls -> run init ls = Die \/ exists s, run init ls = Ok s.
Proof.
  assert (forall s held, inv false s held -> (forall t, Clear ∉ code s t) -> Forall stays ls -> run s ls = Die \/ exists s', run s ls = Ok s') as G.
  2:{ intros F. apply (G init (fun _ => [])); [apply init_inv| |done]. intros t H. by apply elem_of_nil in H. }
  induction ls as [|l ls IH]; intros s held I N F; [right; by exists s|]. apply Forall_cons in F as [Fl F]. cbn [run].
  assert (step s l = Die \/ exists s', step s l = Ok s' /\ forall t, Clear ∉ code s' t) as [->|(s' & E & N')]; [|by left|].
  - destruct l as [t c|t]; cbn [step].
    + right. destruct (code s t) eqn:Ek; [|by exists s]. eexists. split; [done|]. intros u. cbn. destruct (decide (u = t)) as [->|Nu]; [rewrite upd_eq|rewrite upd_ne by done; apply N].
      destruct c as [[]| | |]; cbn in Fl |- *; try done; intros Hc; by repeat (apply elem_of_cons in Hc as [?|Hc]; [done|]); apply elem_of_nil in Hc.
    + destruct (code s t) as [|i k] eqn:Ek; [right; by exists s|].
      assert (exec t i k s = Die \/ exists s', exec t i k s = Ok s') as [?|[s' E]].
      { destruct i as [m|m| | | |e|o|o| |c|v c|v n c]; cbn [exec]; try (right; by eexists).
        - right. destruct (holder s m); eauto.
        - destruct (negb _); [right; by eexists|by left].
        - destruct (_ && _); [right; by eexists|by left].
        - right. destruct (during_frame _); eauto.
        - destruct (v_same _ _ _ I t) as (p & Ep & Sp). pose proof (v_ok _ _ _ I t) as O. rewrite Ek in O. cbn [ok] in O. destruct O as (_ & O2 & _). pose proof (step_same _ _ o Sp O2) as H.
          destruct (step_or_die _ _ o Ep) as [D|(p' & x & D)]; destruct (ProfileModel.step (profs s t) o) as [[p1 x1]| | |]; try (right; by eexists); try (by left); congruence.
        - exfalso. apply (N t). rewrite Ek. by constructor. }
      * by left.
      * right. exists s'. split; [done|]. intros u H. apply (N u). by apply (exec_clear t i k s s').
  - rewrite E. cbn [mbind res_bind]. destruct (step_inv false s held l s' I ltac:(done) E) as [h' I']. by apply (IH s' h').
Qed.
(** While functions given to iterate_timings only look, there is no deadlock: if any thread is in a call, one of them can go on. *)
Theorem prof_threads_progress_partial ls s t : Forall plain ls -> run init ls = Ok s -> code s t <> [] ->
  exists u, code s u <> [] /\ forall l, ~ waits s u l.
Proof.
  intros P E N. destruct (reach true ls init _ s (init_inv true) ltac:(done) E) as [held I].
  assert (forall u l, l ∈ held u -> l <> Threads -> code s u <> [] /\ forall m, ~ waits s u m) as Q.
  { intros u l Hl Nl. pose proof (v_ok _ _ _ I u) as O. split; [intros C; rewrite C in O; cbn in O; rewrite O in Hl; by apply elem_of_nil in Hl|].
    intros m (k & C & _). rewrite C in O. cbn [ok] in O. destruct O as [O _]. destruct (O eq_refl) as [Eh|[Eh _]]; rewrite Eh in Hl; [by apply elem_of_nil in Hl|]. by apply elem_of_list_singleton in Hl. }
  assert (forall u l, waits s u l -> exists h, holder s l = Some h /\ l ∈ held h) as W.
  { intros u l (k & C & H). destruct (holder s l) as [h|] eqn:Eh; [|done]. exists h. split; [done|]. by apply (v_hold _ _ _ I). }
  assert ((exists l, waits s t l) \/ forall l, ~ waits s t l) as [[l Wl]|Wn]; [| |by exists t].
  { destruct (code s t) as [|[l| | | | | | | | | | | ] k] eqn:C; try (right; intros l' (k' & C' & _); congruence). destruct (holder s l) as [h|] eqn:Eh; [left; exists l, k; split; congruence|].
    right. intros l' (k' & C' & H). congruence. }
  destruct (W t l Wl) as (h & Hh & Hl). destruct (decide (l = Threads)) as [->|Nl]; [|exists h; by apply (Q h l)].
  assert ((exists m, waits s h m) \/ forall m, ~ waits s h m) as [[m Wm]|Wn].
  { destruct (code s h) as [|[m| | | | | | | | | | | ] k] eqn:C; try (right; intros l' (k' & C' & _); congruence). destruct (holder s m) as [x|] eqn:Ex; [left; exists m, k; split; congruence|].
    right. intros l' (k' & C' & H). congruence. }
  - destruct (W h m Wm) as (g & Hg & Hm). exists g. apply (Q g m Hm). intros ->. destruct Wm as (k & C & _). pose proof (v_ok _ _ _ I h) as O. rewrite C in O. cbn [ok] in O. destruct O as [O _]. destruct (O eq_refl) as [Eh|[_ [x Ex]]]; [rewrite Eh in Hl; by apply elem_of_nil in Hl|done].
  - exists h. split; [|done]. intros C. pose proof (v_ok _ _ _ I h) as O. rewrite C in O. cbn in O. rewrite O in Hl. by apply elem_of_nil in Hl.
Qed.
(** ** Two ways to go wrong *)
Lemma stuck_step s held t l k lb s' : inv false s held -> code s t = Acquire l :: k -> holder s l = Some t -> step s lb = Ok s' -> code s' t = Acquire l :: k /\ holder s' l = Some t.
Proof.
  intros I C H E. destruct lb as [u c|u]; cbn [step] in E.
  - destruct (decide (u = t)) as [->|N]; [rewrite C in E; by injection E as <-|]. destruct (code s u); injection E as <-; [|done]. cbn. by rewrite upd_ne.
  - destruct (decide (u = t)) as [->|N]; [rewrite C in E; cbn in E; rewrite H in E; by injection E as <-|]. destruct (code s u) as [|i k'] eqn:Ek; [by injection E as <-|].
    pose proof (v_ok _ _ _ I u) as O. rewrite Ek in O.
    destruct i as [m|m| | | |e|o|o| |c|v c|v n c]; cbn [exec] in E; try (injection E as <-; cbn; by rewrite upd_ne).
    + destruct (holder s m) eqn:Em; injection E as <-; [done|]. cbn. rewrite upd_ne by done. rewrite updl_ne; [done|congruence].
    + injection E as <-. cbn. rewrite upd_ne by done. rewrite updl_ne; [done|]. intros <-. cbn [ok] in O. destruct (held u) as [|m h] eqn:Eh; [done|]. destruct O as [-> _]. assert (holder s l = Some u) by (apply (v_hold _ _ _ I); rewrite Eh; left). congruence.
    + destruct (assert_ _) as [[]| | |]; try done. injection E as <-. cbn. by rewrite upd_ne.
    + destruct (assert_ _) as [[]| | |]; try done. injection E as <-. cbn. by rewrite upd_ne.
    + destruct (during_frame _); injection E as <-; cbn; by rewrite upd_ne.
    + destruct (ProfileModel.step _ o) as [[p x]| | |]; try done. injection E as <-. cbn. by rewrite upd_ne.
    + destruct (holder s (Frames u)); [done|]. destruct (during_frame _); [done|]. injection E as <-. cbn. by rewrite upd_ne.
Qed.
Lemma stuck ls s t l : run init ls = Ok s -> waits s t l -> holder s l = Some t -> forall more s', run s more = Ok s' -> waits s' t l.
Proof.
  intros E (k & C & _) H more. destruct (reach false ls init _ s (init_inv false) ltac:(done) E) as [held I]. clear E. revert s held I C H.
  induction more as [|lb more IH]; intros s held I C H s' E; cbn [run] in E.
  - injection E as <-. exists k. split; [done|]. by rewrite H.
  - destruct (step s lb) as [s1| | |] eqn:E1; try done. cbn [mbind res_bind] in E. destruct (stuck_step s held t l k lb s1 I C H E1) as [C1 H1]. destruct (step_inv false s held lb s1 I ltac:(done) E1) as [h1 I1]. by apply (IH s1 h1).
Qed.
(** A function given to iterate_timings that allocates, or that traces inside a frame, never comes back: its thread waits for
    ever, whatever the others do. *)
Theorem prof_callback_refuted c : c <> Plain ->
  exists ls s t l, Forall stays ls /\ run init ls = Ok s /\ waits s t l /\ forall more s', run s more = Ok s' -> waits s' t l.
Proof.
  intros N.
  set (ls := [Call 0 (Use (Begin 1))] ++ replicate 8 (Go 0) ++ [Call 0 (Use (End 2))] ++ replicate 4 (Go 0) ++ [Call 0 (Use (Begin 3))] ++ replicate 5 (Go 0) ++ [Call 0 (Iterate c)] ++ replicate 7 (Go 0)).
  assert (match run init ls with Ok s => match code s 0 with Acquire (Frames 0) :: _ => holder s (Frames 0) = Some 0 | _ => False end | _ => False end) as V by (destruct c; [exfalso; by apply N|vm_compute; reflexivity..]).
  assert (Forall stays ls) as F by (destruct c; repeat constructor). clearbody ls.
  destruct (run init ls) as [s| | |] eqn:E; try done. destruct (code s 0) as [|[[| |[|x]]| | | | | | | | | | | ] k] eqn:C; try done.
  assert (waits s 0 (Frames 0)) as W by (exists k; split; [done|congruence]).
  exists ls, s, 0, (Frames 0). split; [done|]. split; [done|]. split; [done|]. by apply (stuck ls).
Qed.
(** A thread that ends while another is looking at its timings clears them under it. *)
Theorem prof_quit_refuted : exists ls, Forall plain ls /\ run init ls = UB.
Proof.
  exists ([Call 0 (Use (Begin 1))] ++ replicate 8 (Go 0) ++ [Call 0 (Use (End 2))] ++ replicate 4 (Go 0) ++ [Call 1 (Iterate Plain)] ++ replicate 4 (Go 1) ++ [Call 0 Quit; Go 0]).
  split; [repeat constructor|vm_compute; done].
Qed.

(** ** A case that meets the hypotheses: two threads interleave, the second looks at both while the first waits *)
Definition demo : list label :=
  [Call 0 (Use (Begin 1)); Call 1 (Use (Begin 1)); Go 0; Go 1; Go 0; Go 1; Go 0; Go 0; Go 1; Go 0; Go 0; Go 1; Go 0; Go 0; Go 1; Go 1; Go 1; Go 1; Go 1;
   Call 0 (Use (Enter 7 2))] ++ replicate 5 (Go 0) ++ [Call 0 (Use (Exit 5))] ++ replicate 5 (Go 0) ++ [Call 0 (Use (End 9)); Call 1 (Use (End 4))] ++ replicate 4 (Go 0) ++ replicate 4 (Go 1).
Example demo_ends : match run init demo with Ok s => code s 0 = [] /\ code s 1 = [] /\ length (timings (profs s 0)) = 2 /\ length (timings (profs s 1)) = 1 /\ registry s = [0; 1] | _ => False end.
Proof. vm_compute. done. Qed.
Example demo_waits : match run init (demo ++ [Call 1 (Iterate Plain); Go 1; Go 1; Go 1; Call 0 (Use (Begin 10)); Go 0; Go 0]) with
  | Ok s => bool_decide (holder s (Frames 0) = Some 1) = true /\ match code s 0 with Acquire (Frames 0) :: _ => True | _ => False end | _ => False end.
Proof. vm_compute. done. Qed.
Example demo_saw : match run init (demo ++ [Call 1 (Iterate Plain)] ++ replicate 12 (Go 1)) with
  | Ok s => length (filter (fun e => match e with Saw 1 0 _ => true | _ => false end = true) (log s)) = 2 /\ length (filter (fun e => match e with Saw 1 1 _ => true | _ => false end = true) (log s)) = 1 /\ code s 1 = [] | _ => False end.
Proof. vm_compute. done. Qed.
Example demo_die : match run init (demo ++ [Call 1 (Use (End 20))]) with Ok s => step s (Go 1) = Die | _ => False end.
Proof. vm_compute. done. Qed.
Example demo_plain : Forall plain demo /\ Forall stays demo.
Proof. split; repeat constructor. Qed.

Print Assumptions prof_threads_own.
Print Assumptions prof_threads_iterate.
Print Assumptions prof_threads_complete.
Print Assumptions prof_threads_die.
Print Assumptions prof_threads_safe_partial.
Print Assumptions prof_threads_progress_partial.
Print Assumptions prof_callback_refuted.
Print Assumptions prof_quit_refuted.
