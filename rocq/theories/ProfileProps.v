(** C51, C52: the profiler's frames and times. *)
From Verif Require Import Base Word ProfileModel ProfileSpec ProfileProofs.
Open Scope Z_scope.

Record inv (p : prof) (s : option (list nat)) : Prop := {
  i_cap : (capacity p = 0%nat /\ frames p = []) \/ (capacity p = 8%nat /\ (length (frames p) <= 8)%nat);
  i_trees : forall f, f ∈ frames p -> exists ps, tree (nodes f) ps;
  i_during : match s with
             | None => during_frame p = false
             | Some ls => registered p = true /\ during_frame p = true /\ exists fs f ps, frames p = fs ++ [f] /\ prog f ps (ls ++ [root_loc])
             end
}.
Lemma on_back_app b d fs f c k : on_back (Prof b d (fs ++ [f]) c) k = (f ← k f; Ok (Prof b d (fs ++ [f]) c)).
Proof. unfold on_back. cbn [frames registered during_frame capacity]. rewrite last_snoc, app_length. cbn [length]. rewrite Nat.add_sub, take_app. done. Qed.
Lemma ready_during p s : inv p s -> snd (ready p) = match s with Some _ => true | None => false end /\ frames (fst (ready p)) = frames p /\ capacity (fst (ready p)) = capacity p /\ registered (fst (ready p)) = true.
Proof.
  intros I. pose proof (i_during _ _ I) as D. unfold ready. destruct s as [ls|].
  - destruct D as (R & D & _). by rewrite R.
  - destruct (registered p) eqn:R; done.
Qed.
Definition ages (s : option (list nat)) (o : op) : bool :=
  match o, s with
  | Begin _, None => true | Begin _, Some _ => false
  | End _, Some [] => true | End _, _ => false
  | Finalize, None => true | Finalize, Some _ => false
  | Enter _ _, _ | Exit _, _ => true
  end.
Lemma step_inv p s o : inv p s ->
  if ages s o then exists p' x, step p o = Ok (p', x) /\ inv p' (scope s o) else step p o = Die.
Proof.
  intros I. destruct (ready_during p s I) as (R1 & R2 & R3 & R4). pose proof (i_during _ _ I) as D. pose proof (i_cap _ _ I) as Hc. pose proof (i_trees _ _ I) as Ht. destruct o as [t|t|l t|t|]; cbn [ages scope].
  - unfold step. destruct (ready p) as [p1 during]. cbn [fst snd] in *. destruct s as [ls|]; subst during; cbn [ages scope negb assert_ mbind res_bind]; [done|].
    change (frame_begin t new_frame) with (Ok (Frame 0 [make root_loc 0 t], t)). cbn [mbind res_bind]. rewrite R2, R3.
    set (fs := if _ && _ then drop 1 (frames p) else frames p).
    assert (forall f, f ∈ fs -> f ∈ frames p) as Hsub. { unfold fs. destruct (_ && _); [|done]. intros f H. rewrite <-(take_drop 1 (frames p)). apply elem_of_app. by right. }
    assert (exists r, match last fs with None => Ok None | Some prev => match nodes prev with [] => Die | n :: _ => Ok (Some (wrap 64 (t - begin_ n))) end end = Ok r) as [r ->].
    { destruct (last fs) as [prev|] eqn:E; [|by eexists]. apply last_Some_elem_of, Hsub, Ht in E as [ps T]. destruct (w_root _ _ T) as (n & En & _). destruct (nodes prev); [done|by eexists]. }
    cbn [mbind res_bind]. eexists _, _. split; [done|]. split; cbn [capacity frames during_frame registered].
    + destruct Hc as [[C F]|[C F]].
      * rewrite C. unfold fs. rewrite F. cbn. right. split; [done|lia].
      * right. rewrite C. unfold fs. rewrite C. destruct (frames p) as [|f0 fr] eqn:Ef; [cbn; split; [done|lia]|]. rewrite bool_decide_false by done. cbn [negb andb].
        destruct (length (f0 :: fr) =? 8)%nat eqn:E8.
        -- apply Nat.eqb_eq in E8. change (drop 1 (f0 :: fr)) with fr. rewrite app_length. cbn [length] in E8 |- *. replace (length fr) with 7%nat by lia. done.
        -- rewrite E8. apply Nat.eqb_neq in E8. rewrite app_length. cbn [length] in *. split; [done|lia].
    + intros f H. apply elem_of_app in H as [H|H]; [by apply Ht, Hsub|]. apply elem_of_list_singleton in H as ->. eexists. apply prog_begin.
    + split; [done|]. split; [done|]. eexists fs, _, _. split; [done|]. apply prog_begin.
  - unfold step. destruct s as [ls|]; cbn [ages scope].
    + destruct D as (E1 & E2 & fs & f & ps & Ef & P). rewrite E1, E2. cbn [andb assert_ mbind res_bind]. destruct p as [b d fr c]. cbn in E1, E2, Ef. subst b d fr. rewrite on_back_app.
      destruct ls as [|l ls]; cbn [ages scope].
      * destruct (frame_end_ok t f ps root_loc P) as (n & ns & -> & _ & T & Ln & K). cbn [mbind res_bind registered frames capacity]. eexists _, _. split; [done|]. split; cbn [capacity frames during_frame registered].
        -- cbn [frames capacity] in Hc. rewrite app_length in Hc |- *. destruct Hc as [[_ C]|C]; [by destruct fs|by right].
        -- intros g H. apply elem_of_app in H as [H|H]; [apply Ht; cbn; apply elem_of_app; by left|]. apply elem_of_list_singleton in H as ->. exists ps. cbn [nodes].
           match type of T with tree ?n0 _ => set (ns0 := n0) in * end.
           assert (forall i n', ns !! i = Some n' -> exists n, ns0 !! i = Some n /\ n' = set_self (own ns0 n) n) as K'.
           { intros i n' E'. assert (i < length ns0)%nat as Li by (rewrite <-Ln; by eapply lookup_lt_Some). apply lookup_lt_is_Some in Li as [m Em]. exists m. split; [done|]. rewrite (K _ _ Em) in E'. by injection E' as <-. }
           split.
           ++ by rewrite Ln, (w_len _ _ T).
           ++ destruct (w_root _ _ T) as (x & X1 & X2 & X3). eexists. rewrite (K _ _ X1). done.
           ++ apply T.
           ++ intros i n' Hi E'. destruct (K' _ _ E') as (m & Em & ->). cbn. by apply (w_par _ _ T).
           ++ intros i n' q E' Eq. destruct (K' _ _ E') as (m & Em & ->). cbn. by apply (w_kids _ _ T i m q).
        -- done.
      * unfold frame_end. rewrite bool_decide_false; [done|]. intros C. apply (prog_root _ _ _ P) in C as [x C]. by destruct ls.
    + rewrite D. by rewrite andb_false_r.
  - unfold step. destruct (ready p) as [p1 during] eqn:Er. cbn [fst snd] in *. destruct s as [ls|]; subst during; cbn [ages scope].
    + destruct D as (E1 & E2 & fs & f & ps & Ef & P). destruct p1 as [b d fr c]. cbn in R2, R3, R4. subst b fr. rewrite Ef, on_back_app.
      destruct (prog_enter f ps _ l t P) as (f' & -> & Q). cbn [mbind res_bind]. eexists _, _. split; [done|].
      assert (exists ps', prog f' ps' ((l :: ls) ++ [root_loc])) as [ps' P'] by (destruct Q as [[_ Q]|[_ Q]]; by eexists).
      split; cbn [capacity frames during_frame registered].
      * subst c. rewrite Ef, app_length in Hc. rewrite app_length. destruct Hc as [[_ C]|C]; [by destruct fs|by right].
      * intros g H. apply elem_of_app in H as [H|H]; [apply Ht; rewrite Ef; apply elem_of_app; by left|]. apply elem_of_list_singleton in H as ->. exists ps'. apply P'.
      * unfold ready in Er. rewrite E1, E2 in Er. injection Er as Er. apply (f_equal during_frame) in Er. cbn in Er. split; [done|]. split; [congruence|]. eauto.
    + eexists _, _. split; [done|]. split; [by rewrite R2, R3|by rewrite R2|]. unfold ready in Er. destruct (registered p); [injection Er as <- _; done|]. by injection Er as <-.
  - unfold step. destruct (ready p) as [p1 during] eqn:Er. cbn [fst snd] in *. destruct s as [ls|]; subst during; cbn [ages scope].
    + destruct D as (E1 & E2 & fs & f & ps & Ef & P). destruct p1 as [b d fr c]. cbn in R2, R3, R4. subst b fr. rewrite Ef, on_back_app.
      destruct (prog_exit f ps _ t P) as (f' & n & -> & _ & _ & Q). cbn [mbind res_bind]. eexists _, _. split; [done|].
      assert (prog f' ps (tail ls ++ [root_loc])) as P' by (destruct ls as [|x [|y ls]]; exact Q).
      split; cbn [capacity frames during_frame registered].
      * subst c. rewrite Ef, app_length in Hc. rewrite app_length. destruct Hc as [[_ C]|C]; [by destruct fs|by right].
      * intros g H. apply elem_of_app in H as [H|H]; [apply Ht; rewrite Ef; apply elem_of_app; by left|]. apply elem_of_list_singleton in H as ->. exists ps. apply P'.
      * unfold ready in Er. rewrite E1, E2 in Er. injection Er as Er. apply (f_equal during_frame) in Er. cbn in Er. split; [done|]. split; [congruence|]. eauto.
    + eexists _, _. split; [done|]. split; [by rewrite R2, R3|by rewrite R2|]. unfold ready in Er. destruct (registered p); [injection Er as <- _; done|]. by injection Er as <-.
  - unfold step. destruct s as [ls|]; cbn [ages scope].
    + destruct D as (E1 & E2 & _). by rewrite E2.
    + rewrite D. eexists _, _. split; [done|]. split; cbn; [by left| |done]. intros f H. by apply elem_of_nil in H.
Qed.
Lemma run_app p os1 os2 : run p (os1 ++ os2) = (p ← run p os1; run p os2).
Proof. revert p. induction os1 as [|o os1 IH]; intros p; [done|]. cbn. destruct (step p o) as [[p' x]| | |]; cbn; [apply IH|done..]. Qed.
Lemma inv_run os : forall p s p', inv p s -> run p os = Ok p' -> inv p' (foldl scope s os).
Proof.
  induction os as [|o os IH]; intros p s p' I E; cbn in E |- *; [by injection E as <-|]. pose proof (step_inv p s o I) as S. destruct (ages s o).
  - destruct S as (p1 & x & S & I1). rewrite S in E. cbn in E. by apply (IH p1).
  - by rewrite S in E.
Qed.
Lemma inv_init : inv init None.
Proof. split; cbn; [by left| |done]. intros f H. by apply elem_of_nil in H. Qed.
Lemma reach_inv os p : run init os = Ok p -> inv p (scopes os).
Proof. apply inv_run, inv_init. Qed.

(** C51: in every history at most eight frames are kept. *)
Theorem profile_bounded os p : run init os = Ok p -> (length (frames p) <= 8)%nat.
Proof. intros E. destruct (i_cap _ _ (reach_inv _ _ E)) as [[_ ->]|[_ H]]; [cbn; lia|done]. Qed.

(** C51: what stops the program and what does not: a frame may begin only when none is in progress, may end only when one is
    and every scope entered in it has been left; entering and leaving scopes is always fine; the profiler may only be finalized
    outside a frame. *)
Theorem profile_steps os p o : run init os = Ok p ->
  let ok := match o with
            | Begin _ | Finalize => scopes os = None
            | End _ => scopes os = Some []
            | Enter _ _ | Exit _ => True
            end in
  (ok -> exists p' x, step p o = Ok (p', x)) /\ (~ ok -> step p o = Die).
Proof.
  intros E. pose proof (step_inv _ _ o (reach_inv _ _ E)) as S. cbn zeta.
  assert (forall P : Prop, (ages (scopes os) o = true <-> P) -> (P -> exists p' x, step p o = Ok (p', x)) /\ (~ P -> step p o = Die)) as X.
  { intros P HP. destruct (ages (scopes os) o); [|split; [intros H; apply HP in H; done|done]]. split; [|tauto]. intros _. destruct S as (p' & x & ? & _). eauto. }
  destruct o; apply X; cbn; destruct (scopes os) as [[|]|]; naive_solver.
Qed.

(** C51: at any time the node that is current is the one whose path is the scopes that are open; with none open it is the
    frame itself.  The nodes of a frame have different paths. *)
Theorem profile_current os p ls : run init os = Ok p -> scopes os = Some ls ->
  exists fs f, frames p = fs ++ [f] /\ node_path (nodes f) (current_node f) (root_loc :: rev ls) /\ (current_node f = 0%nat <-> ls = []).
Proof.
  intros E Es. pose proof (i_during _ _ (reach_inv _ _ E)) as D. rewrite Es in D. destruct D as (_ & _ & fs & f & ps & Ef & P). exists fs, f. split; [done|]. split.
  - destruct P as [T C]. apply (tree_path _ ps); [done|]. rewrite C. f_equal. by rewrite rev_app_distr.
  - rewrite (prog_root _ _ _ P). split; [|by intros ->; exists root_loc]. intros [l El]. destruct ls as [|x ls]; [done|]. by destruct ls.
Qed.
Theorem profile_paths os p f : run init os = Ok p -> f ∈ frames p ->
  (forall i, (i < length (nodes f))%nat <-> exists q, node_path (nodes f) i q) /\ forall i j q, node_path (nodes f) i q -> node_path (nodes f) j q -> i = j.
Proof.
  intros E H. destruct (i_trees _ _ (reach_inv _ _ E) f H) as [ps T]. split.
  - intros i. rewrite <-(w_len _ _ T). split.
    + intros L. apply lookup_lt_is_Some in L as [q Eq]. exists q. by apply (tree_path _ ps).
    + intros [q Hq]. apply (tree_path _ ps) in Hq; [|done]. by eapply lookup_lt_Some.
  - intros i j q H1 H2. apply (tree_path _ ps) in H1, H2; [|done..]. by eapply NoDup_lookup; [apply T|..].
Qed.
(** C51: a new frame replaces the oldest once there are eight, and the last complete frame stays readable during the next. *)
Theorem profile_begin os p t p' x : run init os = Ok p -> step p (Begin t) = Ok (p', x) ->
  frames p' = drop (length (frames p) - 7) (frames p) ++ [Frame 0 [make root_loc 0 t]] /\ timings p' = timings p /\
  x = Since (match last (frames p) with Some f => match nodes f with n :: _ => Some (wrap 64 (t - begin_ n)) | [] => None end | None => None end).
Proof.
  intros E Es. pose proof (reach_inv _ _ E) as I. pose proof (step_inv _ _ (Begin t) I) as S. destruct (scopes os) as [ls|] eqn:Sc; cbn [ages] in S; [congruence|].
  destruct (ready_during p None I) as (R1 & R2 & R3 & R4). pose proof (i_during _ _ I) as D. pose proof (i_trees _ _ I) as Ht. cbn in D. unfold step in Es. destruct (ready p) as [p1 during]. cbn [fst snd] in *. subst during.
  change (frame_begin t new_frame) with (Ok (Frame 0 [make root_loc 0 t], t)) in Es. cbn [negb assert_ mbind res_bind] in Es. rewrite R2, R3 in Es.
  set (fs := if _ && _ then drop 1 (frames p) else frames p) in Es.
  assert (fs = drop (length (frames p) - 7) (frames p) /\ last fs = last (frames p)) as [F1 F2].
  { unfold fs. destruct (i_cap _ _ I) as [[C F]|[C F]].
    - by rewrite F.
    - rewrite C. destruct (length (frames p) =? 8)%nat eqn:E8.
      + apply Nat.eqb_eq in E8. destruct (frames p) as [|f0 fr]; [done|]. rewrite bool_decide_false by done. rewrite E8. cbn [negb andb]. split; [done|]. destruct fr; [done|]. done.
      + apply Nat.eqb_neq in E8. rewrite andb_false_r. replace (length (frames p) - 7)%nat with 0%nat by lia. done. }
  assert (forall f, last (frames p) = Some f -> exists n ns, nodes f = n :: ns) as Hl.
  { intros f H. apply last_Some_elem_of, Ht in H as [ps T]. destruct (w_root _ _ T) as (n & En & _). destruct (nodes f) as [|m ms]; [done|]. eauto. }
  assert (forall X, timings (Prof (registered p1) true (fs ++ [Frame 0 [make root_loc 0 t]]) X) = timings p) as Tm.
  { intros X. unfold timings. cbn [during_frame frames]. rewrite D, app_length. cbn [length]. rewrite <-F2. destruct fs as [|f0 fr] eqn:Ef using rev_ind; [done|]. rewrite last_snoc, app_length. cbn [length].
    replace (1 <? length fr + 1 + 1)%nat with true by (symmetry; apply Nat.ltb_lt; lia). replace (length fr + 1 + 1 - 2)%nat with (length fr) by lia. rewrite <-app_assoc, lookup_app_r, Nat.sub_diag by lia. done. }
  rewrite F2 in Es. destruct (last (frames p)) as [f|] eqn:L.
  - destruct (Hl f eq_refl) as (n & ns & En). rewrite En in Es |- *. cbn [mbind res_bind] in Es. injection Es as <- <-. rewrite <-F1. split_and!; [done|apply Tm|done].
  - cbn [mbind res_bind] in Es. injection Es as <- <-. rewrite <-F1. split_and!; [done|apply Tm|done].
Qed.
(** Finding (C51): a thread that finalizes the profiler inside a frame stops. *)
Theorem profile_finalize_refuted : run init [Begin 1] = Ok (Prof true true [Frame 0 [make root_loc 0 1]] 8) /\ run init [Begin 1; Finalize] = Die.
Proof. done. Qed.

(** ** C52 *)
Lemma run_events h : forall c fs f, run (Prof true true (fs ++ [f]) c) (map op_of h) = (f ← frame_run f h; Ok (Prof true true (fs ++ [f]) c)).
Proof.
  induction h as [|[l t|t] h IH]; intros c fs f; [done| |].
  - cbn [map op_of run frame_run step ready registered during_frame]. rewrite on_back_app. destruct (frame_enter l t f); cbn [mbind res_bind]; [apply IH|done..].
  - cbn [map op_of run frame_run step ready registered during_frame]. rewrite on_back_app. destruct (frame_exit t f); cbn [mbind res_bind]; [apply IH|done..].
Qed.
Lemma visit_times h : forall st now, rising now h -> (forall x, x ∈ st -> 0 <= snd x <= now) -> 0 <= now -> forall v, v ∈ visits st h -> 0 <= left v - came v < 2 ^ 64.
Proof.
  induction h as [|[l t|t] h IH]; intros st now R H L v Hv; cbn [visits rising time] in *; [by apply elem_of_nil in Hv| |].
  - destruct R as [R1 R2]. apply (IH _ _ R2) in Hv; [done| |lia]. intros x Hx. apply elem_of_cons in Hx as [->|Hx]; [cbn; lia|]. specialize (H _ Hx). lia.
  - destruct R as [R1 R2]. pose proof (rising_lt _ _ R2). destruct st as [|[l a] st].
    + apply (IH _ _ R2) in Hv; [done| |lia]. intros x Hx. by apply elem_of_nil in Hx.
    + apply elem_of_cons in Hv as [->|Hv].
      * cbn. specialize (H (l, a) ltac:(left)). cbn in H. lia.
      * apply (IH _ _ R2) in Hv; [done| |lia]. intros x Hx. specialize (H x ltac:(by right)). lia.
Qed.
Lemma timed_begin t : 0 <= t -> timed (Frame 0 [make root_loc 0 t]) [[root_loc]] [(root_loc, t)] [] t.
Proof.
  intros L. split.
  - apply (prog_begin t).
  - intros [|i] n E; [by injection E as <-|by destruct i].
  - intros [|k] l a E; [|by destruct k]. injection E as <- <-. exists 0%nat. eexists. done.
  - intros v H. by apply elem_of_nil in H.
  - intros q H. apply elem_of_list_singleton in H as ->. right. exists 0%nat. cbn. split; [lia|done].
  - intros x H. apply elem_of_list_singleton in H as ->. cbn. lia.
Qed.

(** C52, for frames in which no scope is entered twice from the same scope: whatever was done before, a frame whose scopes are
    entered and left in order ends, and what the profiler then reports has one node for each scope visited; its calls are the
    number of times it was entered, its inclusive time the time between entry and exit, its self time that less the time of the
    scopes directly inside, which is never negative.
    Missing: scopes entered again, for which it is false (below). *)
Theorem profile_times_partial os p0 t0 h t1 :
  run init os = Ok p0 -> scopes os = None -> balanced h -> 0 <= t0 -> rising t0 (h ++ [Out t1]) ->
  let V := visits [] (whole t0 h t1) in NoDup (map path V) ->
  exists p, run p0 (Begin t0 :: map op_of h ++ [End t1]) = Ok p /\
    (forall q, (exists i, node_path (timings p) i q) <-> exists v, v ∈ V /\ path v = q) /\
    (forall i, (i < length (timings p))%nat -> exists q, node_path (timings p) i q) /\
    forall i n q, timings p !! i = Some n -> node_path (timings p) i q ->
      calls n = entries q V /\ heir_time n = inclusive q V /\ self_time n = inclusive q V - inside q V /\ 0 <= self_time n /\
      forall j, node_path (timings p) j q -> j = i.
Proof.
  intros E Sc B L R V N. pose proof (reach_inv _ _ E) as I. rewrite Sc in I. destruct (profile_steps os p0 (Begin t0) E) as [S _]. destruct (S Sc) as (p1 & x & S1). clear S.
  destruct (profile_begin _ _ _ _ _ E S1) as (F & _ & _). pose proof (step_inv _ _ (Begin t0) I) as S. cbn [ages scope] in S. destruct S as (p1' & x' & S1' & I1). rewrite S1 in S1'. injection S1' as <- <-.
  destruct (i_during _ _ I1) as (G1 & G2 & _). destruct p1 as [b d fr c]. cbn in G1, G2, F. subst b d fr. set (fs := drop _ (frames p0)) in *.
  assert (visits [(root_loc, t0)] h ++ [Visit [root_loc] t0 t1] = V) as EV.
  { unfold V, whole. cbn [visits]. rewrite (visits_app _ h [Out t1] [(root_loc, t0)]); [done|]. apply (open_below [] h [] [(root_loc, t0)]) in B. done. }
  destruct (rising_app t0 h [Out t1] R) as [R1 R2].
  destruct (timed_run h (Frame 0 [make root_loc 0 t0]) [[root_loc]] [] [] t0 (root_loc, t0)) as (f & ps & now & Ef & Tf); [by apply timed_begin|done|done|done| |].
  { cbn [app]. rewrite <-EV, map_app in N. by apply NoDup_app in N as (N & _). }
  cbn [app] in Tf.
  assert (t0 <= t1 < 2 ^ 64) as Lt1.
  { clear -R. revert t0 R. induction h as [|e h IH]; intros t0 R; cbn in R; [done|]. destruct R as [A B]. specialize (IH _ B). lia. }
  (* the invariant holds for the time of the frame's begin, which is all it says about the time now *)
  assert (timed f ps [(root_loc, t0)] (visits [(root_loc, t0)] h) t1) as Tf1.
  { destruct Tf as [X1 X2 X3 X4 X5 X6]. split; try done. intros y Hy. apply elem_of_list_singleton in Hy as ->. cbn. lia. }
  destruct (timed_end f ps t0 (visits [(root_loc, t0)] h) t1 t1 Tf1) as (ns & En & T & HA & K); [lia| | | |].
  { by rewrite EV. }
  { intros q Nq. rewrite EV. unfold V. pose proof (nested q Nq (whole t0 h t1) [] t0) as X. cbn [pot] in X. rewrite Z.add_0_r in X. apply X.
    - split; [cbn; lia|done].
    - unfold whole. cbn [open_after]. rewrite (open_app _ h [Out t1] [(root_loc, t0)]); [done|]. by apply (open_below [] h [] [(root_loc, t0)]). }
  { rewrite EV. apply (visit_times (whole t0 h t1) [] t0); [split; [cbn; lia|done]| |done]. intros y Hy. by apply elem_of_nil in Hy. }
  rewrite EV in HA, K. exists (Prof true false (fs ++ [Frame 0 ns]) c). split.
  - cbn [run]. rewrite S1. cbn [mbind res_bind]. rewrite run_app, run_events, Ef. cbn [mbind res_bind run step registered during_frame andb assert_]. rewrite on_back_app, En. done.
  - unfold timings. cbn [during_frame frames]. rewrite last_snoc. cbn [nodes]. split_and!.
    + intros q. rewrite <-HA. split.
      * intros [i Hi]. apply (tree_path _ ps) in Hi; [|done]. by eapply elem_of_list_lookup_2.
      * intros H. apply elem_of_list_lookup in H as [i Hi]. exists i. by apply (tree_path _ ps).
    + intros i Hi. rewrite <-(w_len _ _ T) in Hi. apply lookup_lt_is_Some in Hi as [q Hq]. exists q. by apply (tree_path _ ps).
    + intros i n q Hn Hq. apply (tree_path _ ps) in Hq; [|done]. destruct (K i n q Hn Hq) as (K1 & K2 & K3 & K4). split_and!; try done.
      intros j Hj. apply (tree_path _ ps) in Hj; [|done]. by eapply NoDup_lookup; [apply T|..].
Qed.
(** A frame with two scopes, one inside the other, and a third. *)
Example profile_times_case : let h := [In 1 10; In 2 20; Out 50; Out 70; In 2 80; Out 90] in
  run init [Begin 1; Enter 1 2; Exit 3; End 4; Enter 7 5] <> Die /\ scopes [Begin 1; Enter 1 2; Exit 3; End 4; Enter 7 5] = None /\ balanced h /\ rising 5 (h ++ [Out 100]) /\ NoDup (map path (visits [] (whole 5 h 100))) /\
  visits [] (whole 5 h 100) = [Visit [0; 1; 2]%nat 20 50; Visit [0; 1]%nat 10 70; Visit [0; 2]%nat 80 90; Visit [0]%nat 5 100] /\
  inclusive [0; 1]%nat (visits [] (whole 5 h 100)) = 60 /\ inside [0; 1]%nat (visits [] (whole 5 h 100)) = 30 /\ inside [0]%nat (visits [] (whole 5 h 100)) = 70.
Proof.
  cbn zeta. split_and!; [by vm_compute|done|done|cbn [rising app time]; lia|apply (bool_decide_unpack _); by vm_compute|done..].
Qed.

(** Finding (C52): a scope entered a second time changes the time of entry and the calls of the scope around it instead of its
    own.  Here scope 1 is entered twice, for 10 and for 5: it is reported as called once, for 10 + 35; the frame as called
    twice; the frame's self time is not what is left.  The time from one frame's begin to the next comes out as 70, not 100. *)
Theorem profile_times_refuted : let h := [In 1 10; Out 20; In 1 30; Out 35] in let V := visits [] (whole 0 h 50) in
  balanced h /\ entries [0; 1]%nat V = 2 /\ inclusive [0; 1]%nat V = 15 /\ entries [0]%nat V = 1 /\ inclusive [0]%nat V = 50 /\
  match run init (Begin 0 :: map op_of h ++ [End 50]) with
  | Ok p => map (fun n => (loc n, calls n, heir_time n, self_time n)) (timings p) = [(0%nat, 2, 20, wrap 64 (20 - 35)); (1%nat, 1, 35, 35)] /\
            match step p (Begin 100) with Ok (_, x) => x = Since (Some 70) | _ => False end
  | _ => False
  end.
Proof. by vm_compute. Qed.

Example profile_bounded_case : exists p, run init (concat (replicate 20 [Begin 1; Enter 1 2; Enter 2 3; Exit 4; Enter 2 5])) = Die /\
  run init (concat (replicate 20 [Begin 1; Enter 1 2; Enter 2 3; Exit 4; Exit 5; End 6])) = Ok p /\ length (frames p) = 8%nat.
Proof. eexists. split; [by vm_compute|]. split; [vm_compute; reflexivity|done]. Qed.
Example profile_current_case : exists p, run init [Begin 1; Enter 1 2; Enter 2 3; Exit 4; Enter 2 5] = Ok p /\ scopes [Begin 1; Enter 1 2; Enter 2 3; Exit 4; Enter 2 5] = Some [2; 1]%nat.
Proof. eexists. split; [vm_compute; reflexivity|done]. Qed.
Close Scope Z_scope.

Print Assumptions profile_bounded.
Print Assumptions profile_steps.
Print Assumptions profile_current.
Print Assumptions profile_paths.
Print Assumptions profile_begin.
Print Assumptions profile_finalize_refuted.
Print Assumptions profile_times_partial.
Print Assumptions profile_times_refuted.
