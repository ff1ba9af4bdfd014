From Verif Require Import TypesModel TypesProps LifeProofs VariantModel VariantSpec.

Section proofs.
  Context (Ts : list ty) (kd : ty -> kind) (WF : alternatives Ts) (KD : forall t, t ∈ Ts -> kind_ok (kd t)).

  Lemma apply_ok i t : Ts !! i = Some t -> apply Ts i = Ok t.
  Proof using WF.
    intros E. pose proof (lookup_lt_Some _ _ _ E) as L. unfold apply. destruct (Nat.leb_spec (length Ts) 8) as [L8|L8].
    - unfold apply_chain.
      assert (chosen Ts i = Ok t) as C by (unfold chosen; by rewrite choose_spec, E).
      assert (i < 8) as Li by lia. clear L8 E.
      do 8 (destruct i as [|i]; [cbn [Nat.eqb]; rewrite ?andb_false_r, ?andb_true_r; try rewrite (proj2 (Nat.ltb_lt _ _) L); exact C|]). lia.
    - unfold apply_n, index_sequence. rewrite list_lookup_fmap, lookup_seq_lt by done. cbn. unfold chosen. by rewrite choose_spec, E.
  Qed.

  Definition good (x : variant) : Prop := exists t o i, x = Variant (Some (t, o)) i /\ index_of t Ts = Some i.
  Definition free (d : option (ty * obj)) : Prop := match d with Some (t, _) => k_md (kd t) = false | None => True end.

  Lemma index_lt t i : index_of t Ts = Some i -> t ∈ Ts /\ Ts !! i = Some t /\ i < 255.
  Proof using WF.
    intros [E _]%index_of_spec. split_and!; [by eapply elem_of_list_lookup_2|done|]. apply lookup_lt_Some in E. destruct WF as [[_ ?] _]. lia.
  Qed.
  Lemma match_ok t o i : index_of t Ts = Some i -> match_ Ts (Variant (Some (t, o)) i) = Ok (t, o).
  Proof using WF.
    intros (_ & E & _)%index_lt. unfold match_. cbn [index_ data]. rewrite (apply_ok _ _ E). cbn. rewrite bool_decide_eq_true_2 by done. done.
  Qed.
  Lemma any_md_spec t : t ∈ Ts -> any_md Ts kd = false -> k_md (kd t) = false.
  Proof using Type.
    unfold any_md. intros I E. destruct (k_md (kd t)) eqn:M; [|done]. rewrite <- E. symmetry. apply existsb_exists. exists t.
    split; [by apply elem_of_list_In|done].
  Qed.
  Lemma all_tm_spec t : t ∈ Ts -> all_tm Ts kd = true -> k_tm (kd t) = true.
  Proof using Type. unfold all_tm. rewrite forallb_forall. intros I H. apply H. by apply elem_of_list_In. Qed.
  Lemma all_tc_spec t : t ∈ Ts -> all_tc Ts kd = true -> k_tc (kd t) = true.
  Proof using Type. unfold all_tc. rewrite forallb_forall. intros I H. apply H. by apply elem_of_list_In. Qed.

  Lemma destruct_ok x l hs : good x -> Acc l (held kd x ++ hs) ->
    exists d l', destruct_ Ts kd x l = Ok (Variant d INVALID, l') /\ free d /\ Acc l' hs /\ dead l' = dead l ++ held kd x /\ next l' = next l.
  Proof using WF KD.
    intros (t & o & i & -> & I) A. unfold destruct_. pose proof (index_lt _ _ I) as (Ti & E & L). cbn [index_].
    rewrite (proj2 (Nat.eqb_neq i INVALID)) by (unfold INVALID; lia). rewrite (match_ok _ _ _ I). cbn [mbind res_bind].
    unfold held in A |- *. cbn [data] in A |- *.
    destruct (any_md Ts kd) eqn:AM.
    - destruct (k_md (kd t)) eqn:M; cbn [mbind res_bind]; do 2 eexists; (split; [done|]); cbn [free]; split_and!; try done.
      + apply Acc_kill. unfold own. by rewrite M.
      + unfold kill. cbn. by rewrite M.
      + by rewrite app_nil_r.
    - pose proof (any_md_spec t Ti AM) as M. rewrite M in A |- *. cbn [mbind res_bind]. do 2 eexists. split; [done|]. cbn [free]. split_and!; try done.
      by rewrite app_nil_r.
  Qed.
  Lemma construct_ok x t o l hs : free (data x) -> t ∈ Ts -> Acc l hs ->
    exists n o' l' i, construct Ts kd x t o l = Ok (Variant (Some (t, n)) i, o', l') /\ index_of t Ts = Some i /\ o_val n = o_val o /\
      o_id o' = o_id o /\ o_val o' = (if k_tm (kd t) then o_val o else None) /\ Acc l' (own (kd t) n ++ hs).
  Proof using WF.
    intros F Ti A. unfold construct. destruct (steal_ok (kd t) o l hs A) as (n & o' & l' & E & V & I & W & A'). rewrite E.
    replace (put kd (data x) t n) with (Ok (Some (t, n))).
    2: { unfold put. destruct (data x) as [[t' ob]|]; [|done]. cbn in F. by rewrite F. }
    cbn [mbind res_bind]. destruct (index_of t Ts) as [i|] eqn:Ix.
    - pose proof (index_lt _ _ Ix) as (_ & _ & L). rewrite Nat.mod_small by lia. exists n, o', l', i. done.
    - exfalso. assert (one_is t Ts = true) as [j ?]%index_of_defined by (by apply one_is_spec). congruence.
  Qed.
  Lemma of_value_ok t v l hs : t ∈ Ts -> Acc l hs ->
    exists n l' i, of_value Ts kd t v l = Ok (Variant (Some (t, n)) i, l') /\ index_of t Ts = Some i /\ o_val n = v /\ Acc l' (own (kd t) n ++ hs).
  Proof using WF.
    intros Ti A. unfold of_value. destruct (make (kd t) v l) as [tmp l1] eqn:M. apply (Acc_make _ _ _ _ _ _ M) in A as A1.
    apply make_val in M. destruct (construct_ok empty t tmp l1 _ I Ti A1) as (n & o' & l' & i & E & Ix & V & Id & _ & A2). rewrite E.
    cbn [mbind res_bind]. do 3 eexists. split; [done|]. split_and!; [done|congruence|]. apply Acc_kill. rewrite (own_id _ _ _ Id).
    eapply Acc_perm; [|exact A2]. solve_Permutation.
  Qed.
  Lemma held_own t o i : held kd (Variant (Some (t, o)) i) = own (kd t) o.
  Proof using Type. done. Qed.
  Lemma move_into_ok x src l hs : good src -> free (data x) -> Acc l (held kd src ++ hs) ->
    exists x' src' l' c, move_into Ts kd x src l = Ok (x', src', l') /\ good x' /\ good src' /\ contents src = Some c /\
      contents x' = Some c /\ contents src' = Some (left_behind kd c) /\ Acc l' (held kd x' ++ held kd src' ++ hs).
  Proof using WF KD.
    intros (t & o & i & -> & I) F A. unfold move_into. pose proof (index_lt _ _ I) as (Ti & E & L). destruct (all_tm Ts kd) eqn:TM.
    - pose proof (all_tm_spec _ Ti TM) as T. destruct (KD _ Ti) as [KM _]. specialize (KM T). unfold memcpy. cbn [data]. rewrite T.
      destruct (make (kd t) (o_val o) l) as [n l'] eqn:M. cbn [mbind res_bind]. do 4 eexists. split; [done|]. apply (Acc_make _ _ _ _ _ _ M) in A as A1.
      apply make_val in M. cbn [index_ contents option_map data fst snd]. split_and!; [by do 3 eexists|by do 3 eexists|done|by rewrite M| |].
      + unfold left_behind. cbn. by rewrite T.
      + by rewrite !held_own in *.
    - rewrite (match_ok _ _ _ I). cbn [mbind res_bind]. rewrite held_own in A.
      destruct (construct_ok x t o l _ F Ti A) as (n & o' & l' & j & E1 & Ix & V & Id & W & A2). rewrite E1. cbn [mbind res_bind].
      do 4 eexists. split; [done|]. cbn [contents option_map data fst snd index_]. split_and!; [by do 3 eexists|by do 3 eexists|done|by rewrite V| |].
      + unfold left_behind. cbn [fst]. rewrite W. by destruct (k_tm (kd t)).
      + rewrite !held_own. by rewrite (own_id _ _ _ Id).
  Qed.

  Record Inv (s : st) : Prop := {
    v_good : Forall good (vars s);
    v_acc : Acc (lf s) (concat (map (held kd) (vars s)));
  }.
  Lemma held_upd os i p : forall q, os !! i = Some q ->
    exists rest, concat (map (held kd) os) ≡ₚ held kd q ++ rest /\ concat (map (held kd) (<[i := p]> os)) ≡ₚ held kd p ++ rest.
  Proof using Type.
    induction os as [|a os IH] in i |- *; intros q E; [done|]. destruct i as [|i]; cbn [insert list_insert map concat].
    - injection E as ->. eauto.
    - destruct (IH i q E) as (r & P & Q). exists (held kd a ++ r). cbn. rewrite P, Q. split; solve_Permutation.
  Qed.
  Lemma held_app os p : concat (map (held kd) (os ++ [p])) ≡ₚ held kd p ++ concat (map (held kd) os).
  Proof using Type. rewrite map_app, concat_app. cbn. rewrite app_nil_r. apply Permutation_app_comm. Qed.

  (** The contents of every variable are [cs]. *)
  Definition shows (s : st) (cs : list content) : Prop := map contents (vars s) = map Some cs.
  Lemma shows_at s cs i c : shows s cs -> cs !! i = Some c -> exists x, vars s !! i = Some x /\ contents x = Some c.
  Proof using Type.
    intros H E. assert (map contents (vars s) !! i = Some (Some c)) as M by (rewrite H; by rewrite list_lookup_fmap, E).
    rewrite list_lookup_fmap in M. destruct (vars s !! i) as [x|]; [|done]. injection M as M. eauto.
  Qed.
  Lemma good_contents x c : good x -> contents x = Some c -> exists o i, x = Variant (Some (c.1, o)) i /\ index_of c.1 Ts = Some i /\ o_val o = c.2.
  Proof using Type. intros (t & o & i & -> & I) [= <-]. cbn. eauto. Qed.

  Lemma map_ins {X Y} (f : X -> Y) i p l : map f (<[i := p]> l) = <[i := f p]> (map f l).
  Proof using Type. apply list_fmap_insert. Qed.
  Definition agrees (s : st) (cs : list content) (o : op) : Prop :=
    match spec Ts kd cs o with
    | Ok (cs', x) => exists s', step Ts kd s o = Ok (s', x) /\ shows s' cs' /\ Inv s'
    | UB => True
    | Die | Diverge => False
    end.
  Lemma step_agrees s cs o : Inv s -> shows s cs -> agrees s cs o.
  Proof using WF KD.
    intros [G A] Sh. unfold agrees.
    assert (forall i x, vars s !! i = Some x -> good x) as GL by (intros ? ? ?; by eapply Forall_lookup_1 in G).
    assert (length cs = length (vars s)) as LEN.
    { rewrite <- (map_length Some cs), <- (map_length contents (vars s)). f_equal. symmetry. exact Sh. }
    assert (forall p l (x : out) c, good p -> contents p = Some c -> Acc l (held kd p ++ concat (map (held kd) (vars s))) ->
       exists s', Ok (push s p l, x) = Ok (s', x) /\ shows s' (cs ++ [c]) /\ Inv s') as PUSH.
    { intros p l x c Gp C Ap. eexists. split; [done|]. split; [by unfold shows, push in *; cbn; rewrite !map_app, Sh; cbn; rewrite C|].
      constructor; cbn; [by apply Forall_app; split; [|constructor]|]. eapply Acc_perm; [|exact Ap]. by rewrite held_app. }
    assert (forall i p q l (x : out) c, vars s !! i = Some q -> good p -> contents p = Some c ->
       (forall r, concat (map (held kd) (vars s)) ≡ₚ held kd q ++ r -> Acc l (held kd p ++ r)) ->
       exists s', Ok (upd s i p l, x) = Ok (s', x) /\ shows s' (<[i := c]> cs) /\ Inv s') as UPD.
    { intros i p q l x c Ei Gp C Ap. eexists. split; [done|]. split.
      - unfold shows, upd in *. cbn. rewrite map_ins, map_ins, C. by rewrite <- Sh.
      - constructor; cbn; [by apply Forall_insert|]. destruct (held_upd (vars s) i p q Ei) as (r & P & Q).
        eapply Acc_perm; [symmetry; exact Q|]. by apply Ap. }
    destruct o as [t v|i|i|i j|i t v|i|i v|i|i|]; cbn [spec step]; unfold var.
    - destruct (decide (t ∈ Ts)) as [Ti|]; [|done]. destruct (of_value_ok t (Some v) (lf s) _ Ti A) as (n & l & i & E & Ix & V & A').
      rewrite E. cbn [mbind res_bind]. apply PUSH; [by do 3 eexists|cbn; by rewrite V|done].
    - destruct (cs !! i) as [c|] eqn:Ei; [|done]. destruct (shows_at _ _ _ _ Sh Ei) as (x & Ex & C). rewrite Ex. cbn [mbind res_bind].
      destruct (held_upd _ i x _ Ex) as (r & P & _).
      destruct (move_into_ok empty x (lf s) r (GL _ _ Ex) I) as (x' & src' & l' & c' & E & Gx & Gs & C1 & C2 & C3 & A'); [by eapply Acc_perm|].
      rewrite E. cbn [mbind res_bind]. assert (c' = c) as -> by congruence. eexists. split; [done|]. unfold push, upd. cbn [vars lf]. split.
      + unfold shows in *. cbn [vars]. rewrite !map_app. cbn [map]. rewrite map_ins, map_ins, C2, C3. by rewrite <- Sh.
      + constructor; cbn [vars lf]; [apply Forall_app; split; [by apply Forall_insert|by constructor]|].
        eapply Acc_perm; [|exact A']. rewrite held_app. apply Permutation_app_head.
        destruct (held_upd _ i src' _ Ex) as (r' & P' & ->). apply Permutation_app_head. rewrite P in P'. by apply Permutation_app_inv_l in P'.
    - destruct (cs !! i) as [c|] eqn:Ei; [|done]. destruct (shows_at _ _ _ _ Sh Ei) as (x & Ex & C). rewrite Ex. cbn [mbind res_bind].
      destruct (good_contents _ _ (GL _ _ Ex) C) as (o & n & -> & Ix & V). pose proof (index_lt _ _ Ix) as (Ti & _). destruct (all_tc Ts kd) eqn:TC.
      + pose proof (all_tc_spec _ Ti TC) as T. unfold memcpy. cbn [data]. rewrite T. destruct (make (kd c.1) (o_val o) (lf s)) as [m l] eqn:M. apply (Acc_make _ _ _ _ _ _ M) in A as A1. apply make_val in M.
        cbn [mbind res_bind index_]. apply PUSH; [by do 3 eexists|cbn; by rewrite M, V; destruct c|done].
      + rewrite (match_ok _ _ _ Ix). cbn [mbind res_bind]. destruct (of_value_ok c.1 (o_val o) (lf s) _ Ti A) as (m & l & k & E & Ix' & W & A').
        rewrite E. cbn [mbind res_bind]. apply PUSH; [by do 3 eexists|cbn; by rewrite W, V; destruct c|done].
    - destruct (cs !! i) as [ci|] eqn:Ei; [|done]. destruct (cs !! j) as [c|] eqn:Ej; [|done]. destruct (decide (i = j)) as [|NE]; [done|].
      destruct (shows_at _ _ _ _ Sh Ei) as (x & Ex & Ci). destruct (shows_at _ _ _ _ Sh Ej) as (src & Es & C). rewrite Ex. cbn [mbind res_bind].
      assert (<[j:=src]> (vars s) !! i = Some x) as Ex' by (by rewrite list_lookup_insert_ne).
      destruct (held_upd (vars s) i empty x Ex) as (r & P & Q).
      assert (<[i:=empty]> (vars s) !! j = Some src) as Es' by (by rewrite list_lookup_insert_ne).
      destruct (held_upd _ j empty src Es') as (r2 & P2 & Q2). rewrite Q in P2. cbn [held data empty app] in P2, Q2.
      destruct (destruct_ok x (lf s) r (GL _ _ Ex)) as (d & l1 & E1 & F & A1 & _); [by eapply Acc_perm|]. rewrite E1. cbn [mbind res_bind].
      unfold upd. cbn [vars lf]. rewrite list_lookup_insert_ne by done. rewrite Es. cbn [mbind res_bind].
      destruct (move_into_ok (Variant d INVALID) src l1 r2 (GL _ _ Es) F) as (x' & src' & l' & c' & E & Gx & Gs & C1 & C2 & C3 & A').
      { eapply Acc_perm; [exact P2|done]. }
      rewrite E. cbn [mbind res_bind]. assert (c' = c) as -> by congruence. eexists. split; [done|]. cbn [vars lf].
      rewrite (list_insert_commute _ i j), list_insert_insert, (list_insert_commute _ j i) by done. split.
      + unfold shows in *. cbn [vars]. rewrite !map_ins, C2, C3. by rewrite <- Sh.
      + constructor; cbn [vars lf]; [by repeat apply Forall_insert|]. eapply Acc_perm; [|exact A'].
        assert (<[j:=src']> (vars s) !! i = Some x) as Ex2 by (by rewrite list_lookup_insert_ne).
        destruct (held_upd _ i x' _ Ex2) as (r3 & P3 & ->). apply Permutation_app_head.
        destruct (held_upd _ j src' _ Es) as (r4 & P4 & Q4). rewrite Q4 in P3.
        rewrite P2 in P. rewrite P in P4. apply (Permutation_app_inv_l (held kd x)). rewrite <- P3.
        apply (Permutation_app_inv_l (held kd src)).
        transitivity (held kd src' ++ (held kd x ++ held kd src ++ r2)); [solve_Permutation|]. rewrite P4. solve_Permutation.
    - destruct (cs !! i) as [c|] eqn:Ei; [|done]. destruct (decide (t ∈ Ts)) as [Ti|]; [|done].
      destruct (shows_at _ _ _ _ Sh Ei) as (x & Ex & C). rewrite Ex. cbn [mbind res_bind].
      destruct (of_value_ok t (Some v) (lf s) _ Ti A) as (n & l & k & E & Ix & V & A'). rewrite E. cbn [mbind res_bind].
      destruct (held_upd _ i x _ Ex) as (r & P & _).
      destruct (destruct_ok x l (own (kd t) n ++ r) (GL _ _ Ex)) as (d & l1 & E1 & F & A1 & _).
      { eapply Acc_perm; [|exact A']. rewrite P. solve_Permutation. }
      rewrite E1. cbn [mbind res_bind].
      destruct (move_into_ok (Variant d INVALID) (Variant (Some (t, n)) k) l1 r) as (x' & src' & l' & c' & E2 & Gx & Gs & C1 & C2 & C3 & A2); [by do 3 eexists|done|done|].
      rewrite E2. cbn [mbind res_bind]. destruct (destruct_ok src' l' (held kd x' ++ r) Gs) as (d' & l2 & E3 & _ & A3 & _).
      { eapply Acc_perm; [|exact A2]. solve_Permutation. }
      rewrite E3. cbn [mbind res_bind]. eapply UPD; [done|done| |].
      + rewrite C2, <- C1. cbn. by rewrite V.
      + intros r' P'. rewrite P in P'. apply Permutation_app_inv_l in P'. eapply Acc_perm; [|exact A3]. by rewrite P'.
    - destruct (cs !! i) as [c|] eqn:Ei; [|done]. destruct (shows_at _ _ _ _ Sh Ei) as (x & Ex & C). rewrite Ex. cbn [mbind res_bind].
      destruct (good_contents _ _ (GL _ _ Ex) C) as (o & n & -> & Ix & V). rewrite (match_ok _ _ _ Ix). cbn [mbind res_bind]. rewrite V.
      eexists. split; [done|]. by split.
    - destruct (cs !! i) as [c|] eqn:Ei; [|done]. destruct (shows_at _ _ _ _ Sh Ei) as (x & Ex & C). rewrite Ex. cbn [mbind res_bind].
      destruct (good_contents _ _ (GL _ _ Ex) C) as (o & n & -> & Ix & V). rewrite (match_ok _ _ _ Ix). cbn [mbind res_bind index_].
      eapply UPD; [done|by do 3 eexists|done|]. intros r P. rewrite held_own in *. eapply Acc_perm; [exact P|done].
    - destruct (cs !! i) as [c|] eqn:Ei; [|done]. destruct (shows_at _ _ _ _ Sh Ei) as (x & Ex & C). rewrite Ex. cbn [mbind res_bind].
      destruct (good_contents _ _ (GL _ _ Ex) C) as (o & n & -> & Ix & V). rewrite (match_ok _ _ _ Ix). cbn [mbind res_bind index_].
      destruct (steal_ok (kd c.1) o (lf s) _ A) as (m & o' & l' & E & W & Id & W' & A'). rewrite E. rewrite W, V.
      eapply UPD; [done|by do 3 eexists| |].
      + cbn. rewrite W', V. unfold left_behind. by destruct (k_tm (kd c.1)), c.
      + intros r P. rewrite !held_own in *. rewrite (own_id _ _ _ Id). apply Acc_kill. eapply Acc_perm; [|exact A']. by rewrite P.
    - destruct (cs !! i) as [c|] eqn:Ei; [|done]. destruct (shows_at _ _ _ _ Sh Ei) as (x & Ex & C). rewrite Ex. cbn [mbind res_bind].
      destruct (good_contents _ _ (GL _ _ Ex) C) as (o & n & -> & Ix & V). pose proof (index_lt _ _ Ix) as (Ti & El & L).
      cbn [index_]. rewrite (proj2 (Nat.eqb_neq n INVALID)) by (unfold INVALID; lia). cbn [negb assert_ mbind res_bind].
      assert (list_find (eq c.1) Ts = Some (n, c.1)) as ->.
      { apply list_find_Some. split_and!; [done|done|]. apply index_of_spec in Ix as [_ B]. intros j y Ej Lj <-. by apply (B j). }
      eexists. split; [done|]. by split.
    - destruct (last (vars s)) as [x|] eqn:La.
      + apply last_Some in La as [os La]. destruct cs as [|c0 cs0] eqn:Ecs; [done|]. rewrite <- Ecs in *. clear Ecs.
        rewrite La in *. apply Forall_app in G as [G [Gx _]%Forall_cons].
        destruct (destruct_ok x (lf s) (concat (map (held kd) os)) Gx) as (d & l & E & _ & A' & _); [eapply Acc_perm; [apply held_app|done]|].
        rewrite E. cbn [mbind res_bind]. eexists. split; [done|]. cbn [vars lf]. rewrite LEN, app_length. cbn [length].
        replace (length os + 1 - 1) with (length os) by lia. rewrite take_app. split; [|by constructor].
        unfold shows in *. cbn [vars]. rewrite La, map_app in Sh. change (map Some (take (length os) cs)) with (Some <$> take (length os) cs). rewrite fmap_take. change (Some <$> cs) with (map Some cs). rewrite <- Sh.
        by rewrite <- (map_length contents os), take_app.
      + apply last_None in La. rewrite La in LEN. by destruct cs.
  Qed.

  Lemma Inv_init : Inv st0.
  Proof using Type. constructor; cbn; [constructor|apply Acc_life0]. Qed.
  Lemma run_agrees s cs os : Inv s -> shows s cs ->
    match spec_run Ts kd cs os with
    | Ok (cs', xs) => exists s', run Ts kd s os = Ok (s', xs) /\ shows s' cs' /\ Inv s'
    | UB => True
    | Die | Diverge => False
    end.
  Proof using WF KD.
    induction os as [|o os IH] in s, cs |- *; intros I Sh; [by exists s|]. cbn [spec_run run].
    pose proof (step_agrees s cs o I Sh) as A. unfold agrees in A. destruct (spec Ts kd cs o) as [[cs1 x]| | |]; cbn [mbind res_bind]; try done.
    destruct A as (s' & E & C & I'). rewrite E. cbn [mbind res_bind]. specialize (IH s' cs1 I' C).
    destruct (spec_run Ts kd cs1 os) as [[cs' xs]| | |]; cbn [mbind res_bind]; try done.
    destruct IH as (s2 & E2 & C2 & I2). rewrite E2. cbn. eauto.
  Qed.
End proofs.
