(** C85: events. *)
From stdpp Require Import gmap.
From Verif Require Import Base OsEventModel OsEventSpec.
Open Scope Z_scope.

Definition good (w : os) (k : Z) (s : st) (h : Z) (v : option bool) : Prop :=
  match v with
  | None => h = -1
  | Some b => 0 <= h /\ exists n, sys s !! h = Some n /\ b = (0 <? n) /\ 0 <= n <= k /\ (w <> Linux -> n <= 1)
  end.
Record inv (w : os) (k : Z) (m : switches) (s : st) : Prop := {
  i_obj : forall o, match objs s !! o, m !! o with Some h, Some v => good w k s h v | None, None => True | _, _ => False end;
  i_one : forall o1 o2 h, objs s !! o1 = Some h -> objs s !! o2 = Some h -> h <> -1 -> o1 = o2;
  i_held : forall h, is_Some (sys s !! h) -> h <> -1 /\ exists o, objs s !! o = Some h }.
Lemma inv_init w : inv w 0 ∅ init.
Proof.
  split; unfold init; cbn.
  - intros o. rewrite !lookup_empty. done.
  - intros o1 o2 h E. rewrite lookup_empty in E. done.
  - intros h [x E]. rewrite lookup_empty in E. done.
Qed.
Lemma good_le w k k' s h v : good w k s h v -> k <= k' -> good w k' s h v.
Proof. destruct v; [|done]. intros (H & n & E & B & L & L') K. split; [done|]. exists n. split_and!; try done; lia. Qed.
Lemma inv_le w k k' m s : inv w k m s -> k <= k' -> inv w k' m s.
Proof. intros [I1 I2 I3] K. split; [|done|done]. intros o. specialize (I1 o). destruct (objs s !! o), (m !! o); try done. eapply good_le; done. Qed.
Lemma inv_get w k m s o v : inv w k m s -> m !! o = Some v -> exists h, objs s !! o = Some h /\ good w k s h v.
Proof. intros I E. pose proof (i_obj _ _ _ _ I o) as G. rewrite E in G. destruct (objs s !! o); [eauto|done]. Qed.
Lemma inv_none w k m s o : inv w k m s -> m !! o = None -> objs s !! o = None.
Proof. intros I E. pose proof (i_obj _ _ _ _ I o) as G. rewrite E in G. by destruct (objs s !! o). Qed.
(** An object's event changes its level. *)
Lemma inv_level w k m s o h n b : inv w k m s -> objs s !! o = Some h -> m !! o = Some (Some b) ->
  0 <= n <= k -> (w <> Linux -> n <= 1) -> inv w k (<[o := Some (0 <? n)]> m) (with_sys <[h := n]> s).
Proof.
  intros I Eo Em L L'. destruct (inv_get _ _ _ _ _ _ I Em) as (h' & Eo' & G). assert (h' = h) by congruence. subst h'. destruct G as (H0 & n0 & En & _).
  destruct I as [I1 I2 I3]. split; cbn.
  - intros p. destruct (decide (p = o)) as [->|N].
    + rewrite Eo, lookup_insert. split; [done|]. exists n. cbn. rewrite lookup_insert. done.
    + rewrite lookup_insert_ne by done. specialize (I1 p). destruct (objs s !! p) as [h1|] eqn:Ep, (m !! p) as [v|]; try done.
      destruct v as [b1|]; [|done]. destruct I1 as (P0 & n1 & E1 & R). split; [done|]. exists n1. cbn. split; [|done]. rewrite lookup_insert_ne; [done|].
      intros <-. apply N. apply (I2 p o h); [done|done|lia].
  - done.
  - intros h1. destruct (decide (h1 = h)) as [->|N]; [intros _; apply I3; eauto|]. rewrite lookup_insert_ne by done. apply I3.
Qed.
Lemma max_bound l x : x ∈ l -> x <= foldr Z.max 0 l.
Proof. induction l as [|y l IH]; intros H; [by apply elem_of_nil in H|]. cbn. apply elem_of_cons in H as [->|H]; [lia|]. specialize (IH H). lia. Qed.
Lemma max_pos l : 0 <= foldr Z.max 0 l.
Proof. induction l; cbn; lia. Qed.
Lemma free_number_ok c s : 0 <= free_number c s /\ sys s !! free_number c s = None.
Proof.
  unfold free_number. destruct (decide _) as [[H E]|_]; [done|]. pose proof (max_pos ((map_to_list (sys s)).*1)). split; [lia|].
  destruct (sys s !! _) as [x|] eqn:E; [|done]. exfalso. apply elem_of_map_to_list in E. apply (elem_of_list_fmap_1 fst) in E. apply max_bound in E. cbn in E. lia.
Qed.
Lemma inv_new w k m s o c : inv w k m s -> 0 <= k -> m !! o = None -> let h := free_number c s in
  inv w k (<[o := Some false]> m) (with_objs <[o := h]> (with_sys <[h := 0]> s)).
Proof.
  intros I K Em h. destruct (free_number_ok c s) as [H0 Hf]. fold h in H0, Hf. pose proof (inv_none _ _ _ _ _ I Em) as Eo. destruct I as [I1 I2 I3].
  assert (Fr : forall p, objs s !! p = Some h -> False).
  { intros p Ep. specialize (I1 p). rewrite Ep in I1. destruct (m !! p) as [[b|]|]; [destruct I1 as (_ & n & En & _); congruence|cbn in I1; lia|done]. }
  split; cbn.
  - intros p. destruct (decide (p = o)) as [->|N].
    + rewrite !lookup_insert. split; [done|]. exists 0. cbn. rewrite lookup_insert. split_and!; try done; lia.
    + rewrite !lookup_insert_ne by done. specialize (I1 p). destruct (objs s !! p) as [h1|] eqn:Ep, (m !! p) as [v|]; try done.
      destruct v as [b1|]; [|done]. destruct I1 as (P0 & n1 & E1 & R). split; [done|]. exists n1. cbn. split; [|done]. rewrite lookup_insert_ne; [done|]. intros <-. congruence.
  - intros o1 o2 h1. destruct (decide (o1 = o)) as [->|N1], (decide (o2 = o)) as [->|N2]; rewrite ?lookup_insert, ?lookup_insert_ne by done; intros E1 E2 Nh; [done|..].
    + injection E1 as <-. destruct (Fr _ E2).
    + injection E2 as <-. destruct (Fr _ E1).
    + apply (I2 o1 o2 h1); done.
  - intros h1. destruct (decide (h1 = h)) as [->|N]; [intros _; split; [lia|]; exists o; apply lookup_insert|]. rewrite lookup_insert_ne by done.
    intros F. destruct (I3 h1 F) as [? [p Ep]]. split; [done|]. exists p. rewrite lookup_insert_ne; [done|]. intros <-. congruence.
Qed.
Lemma inv_destruct w k m s o : inv w k m s -> is_Some (m !! o) -> exists s', destruct_event o s = Ok s' /\ inv w k (<[o := None]> m) s'.
Proof.
  intros I [v Em]. destruct (inv_get _ _ _ _ _ _ I Em) as (h & Eo & G). unfold destruct_event, obj. rewrite Eo. cbn [mbind res_bind].
  destruct I as [I1 I2 I3]. destruct (decide (h = -1)) as [->|Nh]; cbn [mbind res_bind].
  - eexists. split; [done|]. split; cbn.
    + intros p. destruct (decide (p = o)) as [->|N]; [rewrite !lookup_insert; done|]. rewrite !lookup_insert_ne by done. apply I1.
    + intros o1 o2 h1. destruct (decide (o1 = o)) as [->|N1], (decide (o2 = o)) as [->|N2]; rewrite ?lookup_insert, ?lookup_insert_ne by done; intros E1 E2 Nh; [done|congruence|congruence|]. apply (I2 o1 o2 h1); done.
    + intros h1 F. destruct (I3 h1 F) as [? [p Ep]]. split; [done|]. exists p. rewrite lookup_insert_ne; [done|]. intros <-. congruence.
  - destruct v as [b|]; [|done]. destruct G as (H0 & n & En & _). unfold sys_close. rewrite En. cbn [mbind res_bind]. eexists. split; [done|]. split; cbn.
    + intros p. destruct (decide (p = o)) as [->|N]; [rewrite !lookup_insert; done|]. rewrite !lookup_insert_ne by done. specialize (I1 p).
      destruct (objs s !! p) as [h1|] eqn:Ep, (m !! p) as [v|]; try done. destruct v as [b1|]; [|done]. destruct I1 as (P0 & n1 & E1 & R). split; [done|]. exists n1. cbn. split; [|done].
      rewrite lookup_delete_ne; [done|]. intros <-. apply N. apply (I2 p o h); done.
    + intros o1 o2 h1. destruct (decide (o1 = o)) as [->|N1], (decide (o2 = o)) as [->|N2]; rewrite ?lookup_insert, ?lookup_insert_ne by done; intros E1 E2 Nh1; [done|congruence|congruence|]. apply (I2 o1 o2 h1); done.
    + intros h1 [x F]. apply lookup_delete_Some in F as [Nf F]. destruct (I3 h1 ltac:(eauto)) as [? [p Ep]]. split; [done|]. exists p. rewrite lookup_insert_ne; [done|]. intros <-. congruence.
Qed.
Lemma inv_delete w k m s o : inv w k m s -> m !! o = Some None -> inv w k (delete o m) (with_objs (delete o) s).
Proof.
  intros I Em. destruct (inv_get _ _ _ _ _ _ I Em) as (h & Eo & ->). destruct I as [I1 I2 I3]. split; cbn.
  - intros p. destruct (decide (p = o)) as [->|N]; [rewrite !lookup_delete; done|]. rewrite !lookup_delete_ne by done. apply I1.
  - intros o1 o2 h1 E1 E2. apply lookup_delete_Some in E1 as [_ E1], E2 as [_ E2]. apply (I2 o1 o2 h1); done.
  - intros h1 F. destruct (I3 h1 F) as [? [p Ep]]. split; [done|]. exists p. rewrite lookup_delete_ne; [done|]. intros <-. congruence.
Qed.
Lemma inv_take w k m s o src v : inv w k m s -> m !! src = Some v -> o <> src -> m !! o = None \/ m !! o = Some None ->
  exists s', take_handle o src s = Ok s' /\ inv w k (<[src := None]> (<[o := v]> m)) s'.
Proof.
  intros I Es N Eo. destruct (inv_get _ _ _ _ _ _ I Es) as (h & Hs & G). unfold take_handle, obj. rewrite Hs. cbn [mbind res_bind]. eexists. split; [done|].
  assert (Ho : forall h1, objs s !! o = Some h1 -> h1 = -1).
  { intros h1 E1. destruct Eo as [Eo|Eo]; [rewrite (inv_none _ _ _ _ _ I Eo) in E1; done|]. destruct (inv_get _ _ _ _ _ _ I Eo) as (h2 & E2 & ->). congruence. }
  destruct I as [I1 I2 I3]. split; cbn.
  - intros p. destruct (decide (p = src)) as [->|N1]; [rewrite !lookup_insert; done|]. rewrite !(lookup_insert_ne _ src p) by done.
    destruct (decide (p = o)) as [->|N2]; [rewrite !lookup_insert; done|]. rewrite !lookup_insert_ne by done. apply I1.
  - intros o1 o2 h1. destruct (decide (o1 = src)) as [->|N1]; [rewrite lookup_insert; congruence|]. rewrite (lookup_insert_ne _ src o1) by done.
    destruct (decide (o2 = src)) as [->|N2]; [rewrite lookup_insert; congruence|]. rewrite (lookup_insert_ne _ src o2) by done.
    destruct (decide (o1 = o)) as [->|M1], (decide (o2 = o)) as [->|M2]; rewrite ?lookup_insert, ?lookup_insert_ne by done; intros E1 E2 Nh; [done|..].
    + injection E1 as <-. exfalso. apply N2. symmetry. apply (I2 src o2 h); done.
    + injection E2 as <-. exfalso. apply N1. symmetry. apply (I2 src o1 h); done.
    + apply (I2 o1 o2 h1); done.
  - intros h1 F. destruct (I3 h1 F) as [Nh [p Ep]]. split; [done|]. destruct (decide (p = src)) as [->|N1].
    + assert (h1 = h) by congruence. subst h1. exists o. rewrite lookup_insert_ne by done. apply lookup_insert.
    + exists p. rewrite lookup_insert_ne by done. rewrite lookup_insert_ne; [done|]. intros <-. apply Ho in Ep. done.
Qed.

(** ** wait_any *)
Definition stands (m : switches) (s : st) (o : nat) (h : Z) : Prop := objs s !! o = Some h /\ 0 <= h /\ is_open s h = true /\ m !! o = Some (Some (is_ready s h)).
Lemma has_stands w k m s o : inv w k m s -> has_event m o -> exists h, stands m s o h.
Proof.
  intros I [b Em]. destruct (inv_get _ _ _ _ _ _ I Em) as (h & Eo & H0 & n & En & -> & _). exists h. unfold stands, is_open, is_ready, level. rewrite En. done.
Qed.
Lemma handles_ok w k m s l : inv w k m s -> (forall o, o ∈ l -> has_event m o) -> exists hs, handles l s = Ok hs /\ Forall2 (stands m s) l hs.
Proof.
  intros I. induction l as [|o l IH]; intros H; cbn [handles]; [eexists; done|].
  destruct (has_stands _ _ _ _ o I) as [h Hh]; [apply H, elem_of_list_here|]. destruct IH as (hs & E & F); [intros p Hp; apply H, elem_of_list_further, Hp|].
  unfold obj. rewrite (proj1 Hh). cbn [mbind res_bind]. rewrite E. cbn [mbind res_bind]. eexists. split; [done|]. by constructor.
Qed.
Lemma stands_nodup w k m s l hs : inv w k m s -> Forall2 (stands m s) l hs -> NoDup l -> NoDup hs.
Proof.
  intros I F. induction F as [|o h l hs S F IH]; intros Nd; [constructor|]. apply NoDup_cons in Nd as [Ni Nd]. apply NoDup_cons. split; [|by apply IH].
  intros Hh. apply elem_of_list_lookup in Hh as [i Hi]. destruct (Forall2_lookup_r _ _ _ _ _ F Hi) as (o' & Ho' & S'). apply Ni.
  destruct S as (S1 & S2 & _), S' as (S1' & _). rewrite (i_one _ _ _ _ I o o' h S1 S1' ltac:(lia)). by apply elem_of_list_lookup_2 in Ho'.
Qed.
Lemma stands_open m s l hs : Forall2 (stands m s) l hs -> forallb (is_open s) hs = true.
Proof. induction 1 as [|o h l hs S F IH]; [done|]. cbn. rewrite IH. destruct S as (_ & _ & -> & _). done. Qed.
Lemma index_of_ok h hs i0 : h ∈ hs -> exists i, index_of h hs i0 = Ok (Woke (i0 + i)) /\ hs !! i = Some h.
Proof.
  revert i0. induction hs as [|x hs IH]; intros i0 H; [by apply elem_of_nil in H|]. cbn [index_of]. destruct (decide (x = h)) as [->|N].
  - exists O. rewrite Nat.add_0_r. done.
  - apply elem_of_cons in H as [->|H]; [done|]. destruct (IH (S i0) H) as (i & E & L). exists (S i). rewrite E. split; [do 2 f_equal; lia|done].
Qed.
Lemma woke_ok m s l hs h : Forall2 (stands m s) l hs -> h ∈ hs -> is_ready s h = true ->
  exists i, index_of h hs 0 = Ok (Woke i) /\ exists o, l !! i = Some o /\ m !! o = Some (Some true).
Proof.
  intros F H R. destruct (index_of_ok h hs 0 H) as (i & E & L). exists i. split; [done|].
  destruct (Forall2_lookup_r _ _ _ _ _ F L) as (o & Ho & _ & _ & _ & Em). exists o. rewrite R in Em. done.
Qed.
Lemma waits_ok m s l hs : Forall2 (stands m s) l hs -> List.filter (is_ready s) hs = [] -> forall o, o ∈ l -> m !! o = Some (Some false).
Proof.
  intros F E o Ho. apply elem_of_list_lookup in Ho as [i Hi]. destruct (Forall2_lookup_l _ _ _ _ _ F Hi) as (h & Hh & _ & _ & _ & Em).
  destruct (is_ready s h) eqn:R; [|done]. exfalso. assert (In h (List.filter (is_ready s) hs)) as Hin; [|by rewrite E in Hin].
  apply filter_In. split; [|done]. apply elem_of_list_In. by apply elem_of_list_lookup_2 in Hh.
Qed.
Lemma ready_in s hs r rs h : List.filter (is_ready s) hs = r :: rs -> In h (r :: rs) -> h ∈ hs /\ is_ready s h = true.
Proof. intros E H. rewrite <- E in H. apply filter_In in H as [H R]. apply elem_of_list_In in H. done. Qed.
Lemma nth_in {A} n (r : A) rs : In (nth n (r :: rs) r) (r :: rs).
Proof. destruct (decide (n < length (r :: rs))%nat); [by apply nth_In|]. rewrite nth_overflow by lia. by left. Qed.
Lemma wait_ok w k m s l pick : inv w k m s -> valid m (WaitAny l pick) -> supported w m (WaitAny l pick) ->
  exists hs e, handles l s = Ok hs /\ wait_any w hs pick s = Ok e /\ allowed m (WaitAny l pick) e.
Proof.
  intros I (Ne & Nd & Ha) Su. destruct (handles_ok _ _ _ _ _ I Ha) as (hs & E & F). exists hs.
  pose proof (stands_nodup _ _ _ _ _ _ I F Nd) as Ndh. pose proof (stands_open _ _ _ _ F) as Op. pose proof (Forall2_length _ _ _ F) as Len.
  destruct w; cbn [wait_any supported] in *.
  - rewrite Op, (bool_decide_true _ Ndh). cbn [andb]. destruct (List.filter (is_ready s) hs) as [|r rs] eqn:Ef.
    + exists Waits. split_and!; [done|done|]. cbn. by apply (waits_ok m s l hs).
    + destruct (ready_in _ _ _ _ _ Ef (nth_in pick r rs)) as [Hin R]. destruct (woke_ok _ _ _ _ _ F Hin R) as (i & Ei & o & Ho). exists (Woke i). split_and!; [done|done|]. cbn. eauto.
  - destruct hs as [|h [|]]; cbn in Len; try lia. cbn [last]. cbn in Op. apply andb_prop in Op as [-> _]. destruct (is_ready s h) eqn:R.
    + destruct (woke_ok _ _ _ _ h F ltac:(apply elem_of_list_here) R) as (i & Ei & o & Ho). exists (Woke i). split_and!; [done|done|]. cbn. eauto.
    + exists Waits. split_and!; [done|done|]. cbn [allowed]. apply (waits_ok m s l [h]); [done|]. cbn. by rewrite R.
  - assert (hs <> []) as Nh by (intros ->; destruct l; [done|cbn in Len; lia]). rewrite (bool_decide_false _ Nh), Op, (bool_decide_true _ Ndh).
    rewrite bool_decide_true by (unfold MAX_WAIT; lia). cbn [andb negb]. destruct (List.filter (is_ready s) hs) as [|r rs] eqn:Ef.
    + exists Waits. split_and!; [done|done|]. cbn. by apply (waits_ok m s l hs).
    + destruct (ready_in _ _ _ _ r Ef ltac:(by left)) as [Hin R]. destruct (woke_ok _ _ _ _ _ F Hin R) as (i & Ei & o & Ho). exists (Woke i). split_and!; [done|done|]. cbn. eauto.
Qed.
Lemma step_ok w k m s x : inv w k m s -> 0 <= k -> k + 1 <= EVENTFD_MAX -> valid m x -> supported w m x ->
  match step w s x with
  | Ok (s', e) => inv w (k + 1) (after m x) s' /\ allowed m x e
  | Die => exists o, x = New o None
  | _ => False
  end.
Proof.
  intros I K0 K V Su. pose proof (inv_le _ _ (k + 1) _ _ I ltac:(lia)) as I'. destruct x as [o got|o|o src|o src|o|o|o|l pick]; cbn [step after valid] in *.
  - rewrite (inv_none _ _ _ _ _ I V). destruct got as [c|]; [|eauto]. split; [|done]. apply inv_new; [done|lia|done].
  - destruct (inv_destruct _ _ _ _ _ I' V) as (s1 & -> & I1). cbn [mbind res_bind]. split; [|done].
    pose proof (inv_delete _ _ _ _ o I1 ltac:(apply lookup_insert)) as I2. by rewrite delete_insert_delete in I2.
  - destruct V as [Vo [v Vs]]. rewrite (inv_none _ _ _ _ _ I Vo). assert (o <> src) by congruence.
    destruct (inv_take _ _ _ _ o src v I') as (s1 & -> & I1); [done|done|by left|]. cbn [mbind res_bind]. rewrite Vs. done.
  - destruct V as [Vo [v Vs]]. cbn [supported] in Su. destruct (inv_destruct _ _ _ _ _ I' Vo) as (s1 & -> & I1). cbn [mbind res_bind].
    destruct (inv_take _ _ _ _ o src v I1) as (s2 & -> & I2); [by rewrite lookup_insert_ne|done|right; apply lookup_insert|]. cbn [mbind res_bind]. rewrite Vs. split; [|done].
    by rewrite insert_insert in I2.
  - destruct V as [b Em]. destruct (inv_get _ _ _ _ _ _ I Em) as (h & Eo & H0 & n & En & -> & Ln & Lw). unfold obj. rewrite Eo. cbn [mbind res_bind]. unfold signal_event. rewrite En.
    destruct w; cbn [supported] in Su.
    + rewrite decide_True by lia. cbn [mbind res_bind]. split; [|done]. pose proof (inv_level _ _ _ _ o h (n + 1) _ I' Eo Em ltac:(lia) ltac:(done)) as I1.
      replace (0 <? n + 1) with true in I1 by (symmetry; apply Z.ltb_lt; lia). done.
    + rewrite Su in Em. injection Em as B. symmetry in B. apply Z.ltb_ge in B. assert (n = 0) as -> by lia. rewrite decide_True by lia. cbn [mbind res_bind]. split; [|done].
      exact (inv_level _ _ _ _ o h 1 _ I' Eo Su ltac:(lia) ltac:(lia)).
    + cbn [mbind res_bind]. split; [|done]. exact (inv_level _ _ _ _ o h 1 _ I' Eo Em ltac:(lia) ltac:(lia)).
  - destruct V as [b Em]. destruct (inv_get _ _ _ _ _ _ I Em) as (h & Eo & H0 & n & En & -> & Ln & Lw). unfold obj. rewrite Eo. cbn [mbind res_bind]. unfold reset_event. rewrite En.
    destruct w; cbn [supported] in Su.
    + rewrite Su in Em. injection Em as B. symmetry in B. apply Z.ltb_lt in B. rewrite decide_False by lia. cbn [mbind res_bind]. split; [|done]. exact (inv_level _ _ _ _ o h 0 _ I' Eo Su ltac:(lia) ltac:(lia)).
    + rewrite Su in Em. injection Em as B. symmetry in B. apply Z.ltb_lt in B. rewrite decide_False by lia. cbn [mbind res_bind]. split; [|done].
      assert (n = 1) as -> by (specialize (Lw ltac:(done)); lia). exact (inv_level _ _ _ _ o h 0 _ I' Eo Su ltac:(lia) ltac:(lia)).
    + cbn [mbind res_bind]. split; [|done]. exact (inv_level _ _ _ _ o h 0 _ I' Eo Em ltac:(lia) ltac:(lia)).
  - destruct (has_stands _ _ _ _ _ I V) as (h & Eo & H0 & Op & Em). unfold obj. rewrite Eo. cbn [mbind res_bind]. unfold try_wait.
    destruct w; cbn [supported] in Su; cbn [mbind res_bind]; try (split; [done|cbn; congruence]). rewrite Op. cbn. split; [done|]. exact Em.
  - destruct (wait_ok _ _ _ _ _ _ I V Su) as (hs & e & -> & W & A). cbn [mbind res_bind]. rewrite W. cbn [mbind res_bind]. split; [done|exact A].
Qed.
Lemma run_ok w l : forall k m s, inv w k m s -> 0 <= k -> k + Z.of_nat (length l) <= EVENTFD_MAX -> proper w m l ->
  match run w s l with
  | Ok (s', es) => inv w (k + Z.of_nat (length l)) (final m l) s' /\ agrees m l es
  | Die => exists o, New o None ∈ l
  | _ => False
  end.
Proof.
  induction l as [|x l IH]; intros k m s I K0 K P; cbn [run]; [rewrite Z.add_0_r; done|]. destruct P as (V & Su & P). cbn [length] in K.
  pose proof (step_ok _ _ _ _ _ I K0 ltac:(lia) V Su) as S. destruct (step w s x) as [[s1 e]| | |]; cbn [mbind res_bind]; try done; [|destruct S as [o ->]; exists o; apply elem_of_list_here].
  destruct S as [I1 A]. specialize (IH (k + 1) _ _ I1 ltac:(lia) ltac:(lia) P). destruct (run w s1 l) as [[s2 es]| | |]; cbn [mbind res_bind]; try done; [|destruct IH as [o Ho]; exists o; by apply elem_of_list_further].
  destruct IH as [I2 A2]. split; [|done]. cbn [length final foldl]. replace (k + Z.of_nat (S (length l))) with (k + 1 + Z.of_nat (length l)) by lia. done.
Qed.

(** C85.  Within what a platform supports, an Event is a switch: wait_any returns the index of one that
    is on, and waits only while all are off; nothing is undefined, and the program stops only if the
    system refuses a new event.  When all Event objects are gone, so are all events, and while they
    live each has its own. *)
Theorem event_partial w l : proper w ∅ l -> Z.of_nat (length l) <= 2 ^ 64 - 2 ->
  match run w init l with
  | Ok (s, es) => agrees ∅ l es /\ (final ∅ l = ∅ -> sys s = ∅) /\
      (forall o1 o2 h, objs s !! o1 = Some h -> objs s !! o2 = Some h -> h <> -1 -> o1 = o2) /\
      (forall h, is_Some (sys s !! h) <-> h <> -1 /\ exists o, objs s !! o = Some h)
  | Die => exists o, New o None ∈ l
  | _ => False
  end.
Proof.
  intros P L. pose proof (run_ok w l 0 ∅ init (inv_init w) ltac:(lia) ltac:(unfold EVENTFD_MAX; lia) P) as R.
  destruct (run w init l) as [[s es]| | |]; try done. destruct R as [I A]. split; [done|]. split; [|split].
  - intros F. rewrite F in I. apply map_eq. intros h. rewrite lookup_empty. destruct (sys s !! h) as [x|] eqn:E; [|done]. exfalso.
    destruct (i_held _ _ _ _ I h ltac:(eauto)) as [_ [o Eo]]. pose proof (i_obj _ _ _ _ I o) as G. rewrite Eo, lookup_empty in G. done.
  - apply (i_one _ _ _ _ I).
  - intros h. split; [apply (i_held _ _ _ _ I)|]. intros [Nh [o Eo]]. pose proof (i_obj _ _ _ _ I o) as G. rewrite Eo in G.
    destruct (final ∅ l !! o) as [[b|]|]; [destruct G as (_ & n & -> & _); eauto|done|done].
Qed.
(** A case: two events, one moved over the other's place, both waited for. *)
Definition demo : list op :=
  [New 1 (Some 7); New 2 (Some 7); Signal 2; WaitAny [1; 2]%nat 0; Reset 2; WaitAny [1; 2]%nat 3; Signal 1; MoveAssign 2 1; WaitAny [2]%nat 0; Destroy 1; Destroy 2].
Example event_demo : proper Linux ∅ demo /\ proper W32 ∅ demo /\ final ∅ demo = ∅ /\
  match run Linux init demo with Ok (_, es) => es = [Done; Done; Done; Woke 1; Done; Waits; Done; Done; Woke 0; Done; Done] | _ => False end.
Proof.
  split_and!; [| |by apply (bool_decide_unpack _); vm_compute|by vm_compute].
  all: unfold demo; cbn [proper]; repeat split; cbn [valid supported];
    try (by vm_compute); try (by apply (bool_decide_unpack _); vm_compute); try (by eexists; vm_compute);
    try (intros o Ho; repeat (apply elem_of_cons in Ho as [->|Ho]; [by eexists; vm_compute|]); by apply elem_of_nil in Ho); cbn; lia.
Qed.
(** kqueue: wait_any over two events looks at the last only, so it waits though the first is signalled. *)
Theorem event_bsd_wait_any_refuted :
  run Bsd init [New 1 (Some 3); New 2 (Some 4); Signal 1; WaitAny [1; 2]%nat 0] = Ok (St (<[2%nat := 4]> (<[1%nat := 3]> ∅)) (<[3 := 1]> (<[4 := 0]> (<[3 := 0]> ∅))), [Done; Done; Done; Waits]) /\
  ~ allowed (<[1%nat := Some true]> (<[2%nat := Some false]> ∅)) (WaitAny [1; 2]%nat 0) Waits.
Proof.
  split; [by vm_compute|]. cbn [allowed]. intros H. specialize (H 1%nat ltac:(apply elem_of_list_here)). rewrite lookup_insert in H. done.
Qed.
(** kqueue: after two signals one reset leaves the event on. *)
Theorem event_bsd_signal_twice_refuted :
  match run Bsd init [New 1 (Some 3); Signal 1; Signal 1; Reset 1; WaitAny [1]%nat 0] with Ok (_, es) => es = [Done; Done; Done; Done; Woke 0] | _ => False end.
Proof. by vm_compute. Qed.
(** Resetting an event that is off stops the program on Linux and hangs it with kqueue. *)
Theorem event_reset_refuted :
  run Linux init [New 1 (Some 3); Reset 1] = Die /\ run Bsd init [New 1 (Some 3); Reset 1] = Diverge /\
  (exists s, run W32 init [New 1 (Some 3); Reset 1] = Ok (s, [Done; Done])).
Proof. split_and!; [by vm_compute|by vm_compute|]. eexists. by vm_compute. Qed.
(** try_wait on POSIX says no of an event that is on; so it answers for every event. *)
Theorem event_try_wait_refuted w h s : w <> W32 -> try_wait w h s = Ok false.
Proof. by destruct w. Qed.
(** Windows: waiting for more than 64 events stops the program, whatever they are. *)
Theorem event_w32_many_refuted hs pick s : (64 < length hs)%nat -> wait_any W32 hs pick s = Die.
Proof. intros H. cbn [wait_any]. rewrite (bool_decide_false (length hs <= MAX_WAIT)%nat) by (unfold MAX_WAIT; lia). rewrite andb_false_r. done. Qed.
(** e = move(e) closes the event. *)
Theorem event_self_move_refuted w :
  match run w init [New 1 (Some 3); Signal 1; MoveAssign 1 1] with Ok (s, _) => objs s !! 1%nat = Some (-1) /\ sys s !! 3 = None | _ => False end.
Proof. destruct w; by vm_compute. Qed.
Print Assumptions event_partial.
Print Assumptions event_bsd_wait_any_refuted.
Print Assumptions event_bsd_signal_twice_refuted.
Print Assumptions event_reset_refuted.
Print Assumptions event_try_wait_refuted.
Print Assumptions event_w32_many_refuted.
Print Assumptions event_self_move_refuted.
