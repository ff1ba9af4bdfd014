(** The counter of an Arc is exact in every interleaving. *)
From Verif Require Import Word ArcModel ArcSpec.

Lemma cnt_app p l1 l2 : cnt p (l1 ++ l2) = cnt p l1 + cnt p l2.
Proof. unfold cnt. by rewrite filter_app, app_length. Qed.
Lemma cnt_cons p h l : cnt p (h :: l) = (if decide (h = Some p) then 1 else 0) + cnt p l.
Proof. unfold cnt. rewrite filter_cons. by case_decide. Qed.
Lemma cnt_one p h : cnt p [h] = if decide (h = Some p) then 1 else 0.
Proof. rewrite cnt_cons. change (cnt p []) with 0. lia. Qed.
Lemma cnt_insert p l i h h' : l !! i = Some h -> cnt p (<[i := h']> l) + cnt p [h] = cnt p l + cnt p [h'].
Proof.
  intros E. rewrite <- (take_drop_middle _ _ _ E) at 2. rewrite insert_take_drop by (by eapply lookup_lt_Some).
  rewrite !cnt_app, !(cnt_cons _ _ (drop _ _)), !cnt_one. lia.
Qed.
Lemma cnt_in p l i : l !! i = Some (Some p) -> 1 <= cnt p l.
Proof.
  intros E. rewrite <- (take_drop_middle _ _ _ E), cnt_app, cnt_cons, decide_True by done. lia.
Qed.

Definition tsum (f : thread -> nat) (l : list thread) : nat := list_sum (map f l).
Lemma tsum_app f l1 l2 : tsum f (l1 ++ l2) = tsum f l1 + tsum f l2.
Proof. unfold tsum. by rewrite map_app, list_sum_app. Qed.
Lemma tsum_cons f th l : tsum f (th :: l) = f th + tsum f l.
Proof. done. Qed.
Lemma tsum_insert f l t th th' : l !! t = Some th -> tsum f (<[t := th']> l) + f th = tsum f l + f th'.
Proof.
  intros E. rewrite <- (take_drop_middle _ _ _ E) at 2. rewrite insert_take_drop by (by eapply lookup_lt_Some).
  rewrite !tsum_app, !tsum_cons. lia.
Qed.
Lemma tsum_le f l t th : l !! t = Some th -> f th <= tsum f l.
Proof. intros E. rewrite <- (take_drop_middle _ _ _ E), tsum_app, tsum_cons. lia. Qed.
Lemma tsum_two f l t th t' th' : l !! t = Some th -> l !! t' = Some th' -> t <> t' -> f th + f th' <= tsum f l.
Proof.
  revert t t'. induction l as [|x l IH]; intros [|t] [|t'] E E' N; try done; rewrite tsum_cons; cbn in E, E'.
  - injection E as ->. pose proof (tsum_le f _ _ _ E'). lia.
  - injection E' as ->. pose proof (tsum_le f _ _ _ E). lia.
  - assert (t <> t') as N' by lia. pose proof (IH _ _ E E' N'). lia.
Qed.
Lemma tsum_pos f l : 0 < tsum f l -> exists t th, l !! t = Some th /\ 0 < f th.
Proof.
  induction l as [|x l IH]; [cbn; lia|]. rewrite tsum_cons. intros H. destruct (decide (0 < f x)); [by exists 0, x|].
  destruct IH as (t & th & E & F); [lia|]. by exists (S t), th.
Qed.
Lemma tsum_zero f l : (forall th, th ∈ l -> f th = 0) -> tsum f l = 0.
Proof.
  induction l as [|x l IH]; intros H; [done|]. rewrite tsum_cons, (H x), IH; [done| |apply elem_of_list_here].
  intros th Hth. apply H. by apply elem_of_list_further.
Qed.

Definition is_some (h : option (option nat)) (p : nat) : nat := if decide (h = Some (Some p)) then 1 else 0.
Definition nd (p : nat) (th : thread) : nat := match at_ th with Destroying i _ => is_some (vars th !! i) p | _ => 0 end.
Definition nf (p : nat) (th : thread) : nat := match at_ th with Freeing i _ => is_some (vars th !! i) p | _ => 0 end.
Definition nh (p : nat) (th : thread) : nat := cnt p (held th).

Definition count_ok (B : Z) (o : aobj) (H D F : nat) : Prop :=
  a_refs o = Z.of_nat H /\ (a_refs o <= B)%Z /\
  match a_life o with
  | Live => F = 0 /\ D = (if decide (H = 0) then 1 else 0)
  | Destroyed => H = 0 /\ D = 0 /\ F = 1
  | Freed => H = 0 /\ D = 0 /\ F = 0
  end.
Definition cont_ok (l : list (option nat)) (k : option nat) : Prop := match k with None => True | Some j => is_Some (l !! j) end.
Definition thread_ok (th : thread) : Prop :=
  match at_ th with
  | Idle => True
  | Duping i | Using i | Asking i => is_Some (vars th !! i)
  | Dropping i k | Nulling i k => is_Some (vars th !! i) /\ cont_ok (vars th) k
  | Destroying i k | Freeing i k => (exists p, vars th !! i = Some (Some p)) /\ cont_ok (vars th) k
  | Taking i j => vars th !! i = Some None /\ is_Some (vars th !! j)
  end.
Record Inv (B : Z) (st : ast) : Prop := mk_Inv {
  v_obj : forall p,
    let H := tsum (nh p) (threads st) + cnt p (mail st) in
    let D := tsum (nd p) (threads st) in
    let F := tsum (nf p) (threads st) in
    match objs st !! p with Some o => count_ok B o H D F | None => H = 0 /\ D = 0 /\ F = 0 end;
  v_pc : forall t th, threads st !! t = Some th -> thread_ok th;
  v_gone : NoDup (gone st) /\ forall p, p ∈ gone st <-> exists o, objs st !! p = Some o /\ a_life o <> Live;
  v_freed : NoDup (freed st) /\ forall p, p ∈ freed st <-> exists o, objs st !! p = Some o /\ a_life o = Freed
}.
Lemma Inv_weak B B' st : (B <= B')%Z -> Inv B st -> Inv B' st.
Proof.
  intros L [V1 V2 V3 V4]. constructor; try done. intros p. specialize (V1 p). cbn zeta in *. destruct (objs st !! p); [|done].
  unfold count_ok in *. destruct V1 as (? & ? & ?). split_and!; [done|lia|done].
Qed.
Lemma Inv_init : Inv 0 ast_init.
Proof.
  constructor; unfold ast_init; cbn [threads objs gone freed mail].
  - intros p. rewrite lookup_nil. done.
  - intros [|t] th; cbn; [|done]. by intros [= <-].
  - split; [apply NoDup_nil_2|]. intros p. rewrite lookup_nil. split; [by intros ?%elem_of_nil|by intros (? & ? & _)].
  - split; [apply NoDup_nil_2|]. intros p. rewrite lookup_nil. split; [by intros ?%elem_of_nil|by intros (? & ? & _)].
Qed.

(** Changing one thread, possibly the mail, and no object. *)
Lemma Inv_thread B st t th th' m : Inv B st -> threads st !! t = Some th -> thread_ok th' ->
  (forall p, nh p th' + cnt p m = nh p th + cnt p (mail st) /\ nd p th' = nd p th /\ nf p th' = nf p th) ->
  Inv B (mk_ast (<[t := th']> (threads st)) (objs st) m (gone st) (freed st)).
Proof.
  intros [V1 V2 V3 V4] E Ok' Hp. constructor; cbn [threads objs gone freed mail]; try done.
  - intros p. specialize (V1 p). destruct (Hp p) as (H1 & H2 & H3). cbn zeta in *.
    pose proof (tsum_insert (nh p) _ _ _ th' E). pose proof (tsum_insert (nd p) _ _ _ th' E). pose proof (tsum_insert (nf p) _ _ _ th' E).
    replace (tsum (nh p) (<[t:=th']> (threads st)) + cnt p m) with (tsum (nh p) (threads st) + cnt p (mail st)) by lia.
    replace (tsum (nd p) (<[t:=th']> (threads st))) with (tsum (nd p) (threads st)) by lia.
    replace (tsum (nf p) (<[t:=th']> (threads st))) with (tsum (nf p) (threads st)) by lia. done.
  - intros t' th1. destruct (decide (t' = t)) as [->|N].
    + rewrite list_lookup_insert by (by eapply lookup_lt_Some). by intros [= <-].
    + rewrite list_lookup_insert_ne by done. apply V2.
Qed.
(** Changing one thread and one object. *)
Lemma Inv_obj B st t th th' p o o' g f : Inv B st -> threads st !! t = Some th -> thread_ok th' -> objs st !! p = Some o ->
  (forall q, q <> p -> nh q th' = nh q th /\ nd q th' = nd q th /\ nf q th' = nf q th) ->
  (forall H D F, count_ok B o (nh p th + H) (nd p th + D) (nf p th + F) -> count_ok (B + 1) o' (nh p th' + H) (nd p th' + D) (nf p th' + F)) ->
  (0 <= B)%Z ->
  (NoDup g /\ forall q, q ∈ g <-> exists o1, <[p := o']> (objs st) !! q = Some o1 /\ a_life o1 <> Live) ->
  (NoDup f /\ forall q, q ∈ f <-> exists o1, <[p := o']> (objs st) !! q = Some o1 /\ a_life o1 = Freed) ->
  Inv (B + 1) (mk_ast (<[t := th']> (threads st)) (<[p := o']> (objs st)) (mail st) g f).
Proof.
  intros I E Ok' Eo Hq Hp HB Hg Hf. pose proof I as [V1 V2 V3 V4]. constructor; cbn [threads objs gone freed mail]; try done.
  - intros q. pose proof (V1 q) as Vq. cbn zeta in *.
    pose proof (tsum_insert (nh q) _ _ _ th' E). pose proof (tsum_insert (nd q) _ _ _ th' E). pose proof (tsum_insert (nf q) _ _ _ th' E).
    pose proof (tsum_le (nh q) _ _ _ E). pose proof (tsum_le (nd q) _ _ _ E). pose proof (tsum_le (nf q) _ _ _ E).
    destruct (decide (q = p)) as [->|N].
    + rewrite list_lookup_insert by (by eapply lookup_lt_Some). rewrite Eo in Vq.
      specialize (Hp (tsum (nh p) (threads st) - nh p th + cnt p (mail st)) (tsum (nd p) (threads st) - nd p th) (tsum (nf p) (threads st) - nf p th)).
      replace (tsum (nh p) (<[t:=th']> (threads st)) + cnt p (mail st)) with (nh p th' + (tsum (nh p) (threads st) - nh p th + cnt p (mail st))) by lia.
      replace (tsum (nd p) (<[t:=th']> (threads st))) with (nd p th' + (tsum (nd p) (threads st) - nd p th)) by lia.
      replace (tsum (nf p) (<[t:=th']> (threads st))) with (nf p th' + (tsum (nf p) (threads st) - nf p th)) by lia.
      apply Hp.
      replace (nh p th + (tsum (nh p) (threads st) - nh p th + cnt p (mail st))) with (tsum (nh p) (threads st) + cnt p (mail st)) by lia.
      replace (nd p th + (tsum (nd p) (threads st) - nd p th)) with (tsum (nd p) (threads st)) by lia.
      replace (nf p th + (tsum (nf p) (threads st) - nf p th)) with (tsum (nf p) (threads st)) by lia. done.
    + rewrite list_lookup_insert_ne by done. destruct (Hq q N) as (Q1 & Q2 & Q3).
      replace (tsum (nh q) (<[t:=th']> (threads st))) with (tsum (nh q) (threads st)) by lia.
      replace (tsum (nd q) (<[t:=th']> (threads st))) with (tsum (nd q) (threads st)) by lia.
      replace (tsum (nf q) (<[t:=th']> (threads st))) with (tsum (nf q) (threads st)) by lia.
      destruct (objs st !! q); [|done]. unfold count_ok in *. destruct Vq as (? & ? & ?). split_and!; [done|lia|done].
  - intros t' th1. destruct (decide (t' = t)) as [->|N].
    + rewrite list_lookup_insert by (by eapply lookup_lt_Some). by intros [= <-].
    + rewrite list_lookup_insert_ne by done. apply V2.
Qed.
Lemma gone_same (P : life -> Prop) (l : list aobj) p o o' q : l !! p = Some o -> (P (a_life o') <-> P (a_life o)) ->
  (exists o1, <[p := o']> l !! q = Some o1 /\ P (a_life o1)) <-> (exists o1, l !! q = Some o1 /\ P (a_life o1)).
Proof.
  intros E Hl. destruct (decide (q = p)) as [->|N]; [|by rewrite list_lookup_insert_ne].
  rewrite list_lookup_insert, E by (by eapply lookup_lt_Some). split; intros (o1 & [= <-] & H1); eexists; (split; [done|]); tauto.
Qed.
(** A handle that a thread holds refers to a live object. *)
Lemma held_live B st t th p : Inv B st -> threads st !! t = Some th -> 1 <= nh p th -> exists o, objs st !! p = Some o /\ a_life o = Live /\ live_obj st p = Ok o.
Proof.
  intros I E H. pose proof (v_obj _ _ I p) as V. cbn zeta in V. pose proof (tsum_le (nh p) _ _ _ E). unfold live_obj.
  destruct (objs st !! p) as [o|] eqn:Eo; [|lia]. exists o. destruct V as (V1 & V2 & V3).
  destruct (a_life o) eqn:El; try (exfalso; lia). by rewrite ?El.
Qed.
Lemma nh_in th i p : vars th !! i = Some (Some p) -> held th = vars th -> 1 <= nh p th.
Proof. intros E H. unfold nh. rewrite H. by eapply cnt_in. Qed.
Lemma cnt_none p : cnt p [None] = 0.
Proof. done. Qed.
Lemma incr_small r : (0 <= r < 2 ^ 63 - 1)%Z -> incr r = (r + 1)%Z.
Proof. intros H. unfold incr. apply to_signed_small; [lia|]. unfold is_i. change (64 - 1)%Z with 63%Z. lia. Qed.
Lemma decr_small r : (0 <= r < 2 ^ 63)%Z -> decr r = (r - 1)%Z.
Proof. intros H. unfold decr. apply to_signed_small; [lia|]. unfold is_i. change (64 - 1)%Z with 63%Z. lia. Qed.
Lemma cont_insert l i h k : cont_ok l k -> cont_ok (<[i := h]> l) k.
Proof. destruct k as [j|]; [|done]. cbn. intros H. apply lookup_lt_is_Some in H. apply lookup_lt_is_Some. by rewrite insert_length. Qed.

Lemma micro_ok B st t th : (0 <= B)%Z -> (B + 1 < 2 ^ 63)%Z -> Inv B st -> threads st !! t = Some th ->
  match micro st t th with Ok (st', _) => Inv (B + 1) st' | Die => exists i, at_ th = Using i /\ vars th !! i = Some None | _ => False end.
Proof.
  intros H0 HB I E. pose proof (v_pc _ _ I t th E) as Pc. unfold thread_ok in Pc.
  assert (Inv (B + 1) st) as I1 by (eapply Inv_weak; [|exact I]; lia).
  unfold micro. destruct th as [l q]. cbn [at_ vars] in *.
  destruct q as [|i|i|i|i k|i k|i k|i k|i j].
  - done.
  - destruct Pc as [h Eh]. rewrite Eh. cbn [mbind res_bind]. destruct h as [p|].
    + destruct (held_live B st t _ p I E) as (o & Eo & El & Lo); [by eapply nh_in|]. rewrite Lo. cbn [mbind res_bind].
      eapply (Inv_obj B st t _ (mk_thread (l ++ [Some p]) Idle) p o); try done.
      * intros r Nr. unfold nh, nd, nf. cbn [held at_ vars]. rewrite cnt_app, cnt_one, decide_False by congruence. split_and!; try done.
      * intros H D F (C1 & C2 & C3). unfold count_ok. cbn [a_refs a_life]. rewrite El in C3.
        revert C1 C3. unfold nh, nd, nf. cbn [held at_ vars]. rewrite cnt_app, cnt_one, (decide_True (P := Some p = Some p)) by done. pose proof (cnt_in _ _ _ Eh).
        intros C1 [C3 C4]. rewrite decide_False in C4 by lia. rewrite decide_False by lia. rewrite incr_small by lia. split_and!; lia.
      * split; [apply I|]. intros r. rewrite (proj2 (v_gone _ _ I)). symmetry. apply (gone_same (fun l => l <> Live)) with o; [done|]. cbn. by rewrite El.
      * split; [apply I|]. intros r. rewrite (proj2 (v_freed _ _ I)). symmetry. apply (gone_same (fun l => l = Freed)) with o; [done|]. cbn. by rewrite El.
    + eapply (Inv_thread (B + 1) st t); try done. intros p. unfold nh, nd, nf. cbn [held at_ vars]. rewrite cnt_app, cnt_none. split_and!; try done. lia.
  - destruct Pc as [h Eh]. rewrite Eh. cbn [mbind res_bind]. destruct h as [p|]; [|by eexists].
    destruct (held_live B st t _ p I E) as (o & Eo & El & Lo); [by eapply nh_in|]. rewrite Lo. cbn [mbind res_bind].
    eapply (Inv_thread (B + 1) st t); try done.
  - destruct Pc as [h Eh]. rewrite Eh. cbn [mbind res_bind]. destruct h as [p|]; [|by eapply (Inv_thread (B + 1) st t)].
    destruct (held_live B st t _ p I E) as (o & Eo & El & Lo); [by eapply nh_in|]. rewrite Lo. cbn [mbind res_bind].
    eapply (Inv_thread (B + 1) st t); try done.
  - destruct Pc as [[h Eh] Ck]. rewrite Eh. cbn [mbind res_bind]. destruct h as [p|].
    + destruct (held_live B st t _ p I E) as (o & Eo & El & Lo); [by eapply nh_in|]. rewrite Lo. cbn [mbind res_bind].
      pose proof (cnt_in _ _ _ Eh) as Cp. pose proof (cnt_insert p _ _ _ None Eh) as Ci. rewrite cnt_none, cnt_one, decide_True in Ci by done.
      assert (a_refs o = Z.of_nat (tsum (nh p) (threads st) + cnt p (mail st))) as Ro.
      { pose proof (v_obj _ _ I p) as V. cbn zeta in V. rewrite Eo in V. apply V. }
      assert (a_refs o <= B)%Z as Rb. { pose proof (v_obj _ _ I p) as V. cbn zeta in V. rewrite Eo in V. apply V. }
      rewrite decr_small by lia.
      eapply (Inv_obj B st t _ (mk_thread l (if (a_refs o - 1 =? 0)%Z then Destroying i k else Nulling i k)) p o); try done.
      * unfold thread_ok. cbn [at_ vars]. destruct (_ =? _)%Z; (split; [by eexists|done]).
      * intros r Nr. pose proof (cnt_insert r _ _ _ None Eh) as Ci'. rewrite cnt_none, cnt_one, decide_False in Ci' by congruence.
        unfold nh, nd, nf. destruct (_ =? _)%Z; cbn [held at_ vars]; unfold is_some; split_and!; try done; try lia.
        rewrite Eh, decide_False by congruence. done.
      * intros H D F (C1 & C2 & C3). unfold count_ok. cbn [a_refs a_life]. rewrite El in C3. revert C1 C3. unfold nh, nd, nf.
        destruct (Z.eqb_spec (a_refs o - 1) 0) as [Z|Z]; cbn [held at_ vars]; intros C1 [C3 C4]; rewrite decide_False in C4 by lia.
        -- unfold is_some. rewrite (decide_True (P := l !! i = _)) by done. rewrite decide_True by lia. split_and!; lia.
        -- rewrite decide_False by lia. split_and!; lia.
      * split; [apply I|]. intros r. rewrite (proj2 (v_gone _ _ I)). symmetry. apply (gone_same (fun l => l <> Live)) with o; [done|]. cbn. by rewrite El.
      * split; [apply I|]. intros r. rewrite (proj2 (v_freed _ _ I)). symmetry. apply (gone_same (fun l => l = Freed)) with o; [done|]. cbn. by rewrite El.
    + eapply (Inv_thread (B + 1) st t); try done; [|intros p; by destruct k].
      destruct k as [j|]; unfold thread_ok; cbn [at_ after vars]; done.
  - destruct Pc as [[p Eh] Ck]. rewrite Eh. cbn [mbind res_bind].
    pose proof (v_obj _ _ I p) as V. cbn zeta in V. pose proof (tsum_le (nd p) _ _ _ E) as Ld. unfold nd in Ld at 1. cbn [at_ vars] in Ld. unfold is_some in Ld. rewrite decide_True in Ld by done.
    destruct (objs st !! p) as [o|] eqn:Eo; [|lia]. pose proof V as (V1 & V2 & V3). destruct (a_life o) eqn:El; try (exfalso; lia).
    unfold live_obj. rewrite Eo, El. cbn [mbind res_bind].
    destruct V3 as [V3 V4]. case_decide as Hz; [|lia].
    eapply (Inv_obj B st t _ (mk_thread l (Freeing i k)) p o); try done.
    + unfold thread_ok. cbn. by split; [eexists|].
    + intros r Nr. unfold nh, nd, nf. cbn [held at_ vars]. unfold is_some. rewrite Eh, decide_False by congruence. done.
    + intros H D F (C1 & C2 & C3). unfold count_ok. cbn [a_refs a_life]. rewrite El in C3. revert C1 C3. unfold nh, nd, nf. cbn [held at_ vars].
      unfold is_some. rewrite (decide_True (P := l !! i = _)) by done. intros C1 [C3 C4]. case_decide; [|lia]. split_and!; lia.
    + split.
      * apply NoDup_cons. split; [|apply I]. intros (o1 & E1 & N1)%(proj2 (v_gone _ _ I)). congruence.
      * intros r. change (r ∈ p :: gone st <-> exists o1, <[p := mk_aobj (a_refs o) Destroyed]> (objs st) !! r = Some o1 /\ a_life o1 <> Live).
        rewrite elem_of_cons, (proj2 (v_gone _ _ I)). destruct (decide (r = p)) as [->|N].
        -- rewrite list_lookup_insert by (by eapply lookup_lt_Some). split; [|by left]. intros _. by eexists.
        -- rewrite list_lookup_insert_ne by done. naive_solver.
    + split; [apply I|]. intros r. rewrite (proj2 (v_freed _ _ I)). symmetry. apply (gone_same (fun l => l = Freed)) with o; [done|]. cbn. by rewrite El.
  - destruct Pc as [[p Eh] Ck]. rewrite Eh. cbn [mbind res_bind].
    pose proof (v_obj _ _ I p) as V. cbn zeta in V. pose proof (tsum_le (nf p) _ _ _ E) as Lf. unfold nf in Lf at 1. cbn [at_ vars] in Lf. unfold is_some in Lf. rewrite decide_True in Lf by done.
    destruct (objs st !! p) as [o|] eqn:Eo; [|lia]. pose proof V as (V1 & V2 & V3). destruct o as [r0 lf]. cbn [a_life a_refs] in *. destruct lf; try (exfalso; lia).
    eapply (Inv_obj B st t _ (mk_thread l (Nulling i k)) p (mk_aobj r0 Destroyed)); try done.
    + intros r Nr. unfold nh, nd, nf. cbn [held at_ vars]. unfold is_some. rewrite Eh, decide_False by congruence. done.
    + intros H D F (C1 & C2 & C3). unfold count_ok. cbn [a_refs a_life] in *. revert C1 C3. unfold nh, nd, nf. cbn [held at_ vars].
      unfold is_some. rewrite (decide_True (P := l !! i = _)) by done. intros C1 (C3 & C4 & C5). split_and!; lia.
    + split; [apply I|]. intros r. rewrite (proj2 (v_gone _ _ I)). symmetry. apply (gone_same (fun l => l <> Live)) with (mk_aobj r0 Destroyed); [done|]. cbn. done.
    + split.
      * apply NoDup_cons. split; [|apply I]. intros (o1 & E1 & N1)%(proj2 (v_freed _ _ I)). rewrite Eo in E1. injection E1 as <-. done.
      * intros r. change (r ∈ p :: freed st <-> exists o1, <[p := mk_aobj r0 Freed]> (objs st) !! r = Some o1 /\ a_life o1 = Freed).
        rewrite elem_of_cons, (proj2 (v_freed _ _ I)). destruct (decide (r = p)) as [->|N].
        -- rewrite list_lookup_insert by (by eapply lookup_lt_Some). split; [|by left]. intros _. by eexists.
        -- rewrite list_lookup_insert_ne by done. naive_solver.
  - destruct Pc as [[h Eh] Ck]. eapply (Inv_thread (B + 1) st t); try done; [|intros p; by destruct k].
    unfold thread_ok. cbn [at_ vars]. destruct k as [j|]; [|done]. cbn [after]. split; [apply list_lookup_insert; by eapply lookup_lt_Some|].
    by apply (cont_insert l i None (Some j)).
  - destruct Pc as [Ei [h Ej]]. rewrite Ej. cbn [mbind res_bind]. eapply (Inv_thread (B + 1) st t); try done.
    intros p. unfold nh, nd, nf. cbn [held at_ vars]. split_and!; try done.
    pose proof (cnt_insert p _ _ _ h Ei) as C1. rewrite cnt_none in C1. destruct (decide (i = j)) as [<-|N].
    + rewrite Ei in Ej. injection Ej as <-. rewrite list_insert_insert. rewrite cnt_none in C1. lia.
    + assert (<[i:=h]> l !! j = Some h) as Ej' by (by rewrite list_lookup_insert_ne).
      pose proof (cnt_insert p _ _ _ None Ej') as C2. rewrite cnt_none in C2. lia.
Qed.
Lemma begin_ok B st t th c : (0 <= B)%Z -> Inv B st -> threads st !! t = Some th -> at_ th = Idle -> Inv (B + 1) (begin st t th c).
Proof.
  intros H0 I E Id. assert (Inv (B + 1) st) as I1 by (eapply Inv_weak; [|exact I]; lia).
  destruct th as [l q]. cbn [at_] in Id. subst q. destruct c as [| |i|i|i|i|i j|i|k|]; cbn [begin vars].
  - eapply (Inv_thread (B + 1) st t); try done. intros p. unfold nh, nd, nf. cbn [held at_ vars]. rewrite cnt_app, cnt_none. split_and!; try done. lia.
  - pose proof (lookup_lt_Some _ _ _ E) as Lt. unfold with_thread. cbn [threads objs mail gone freed]. rewrite app_length. cbn [length]. rewrite Nat.add_1_r. cbn [Nat.pred].
    assert (objs st !! length (objs st) = None) as No by (apply lookup_ge_None; lia).
    assert (forall q, q <> length (objs st) -> (objs st ++ [mk_aobj 1 Live]) !! q = objs st !! q) as Ne.
    { intros q N. destruct (decide (q < length (objs st))); [by apply lookup_app_l|]. rewrite (lookup_ge_None_2 (objs st)) by lia. apply lookup_ge_None. rewrite app_length. cbn. lia. }
    assert ((objs st ++ [mk_aobj 1 Live]) !! length (objs st) = Some (mk_aobj 1 Live)) as Eq by (rewrite lookup_app_r, Nat.sub_diag by lia; done).
    destruct I as [V1 V2 V3 V4]. constructor; cbn [threads objs mail gone freed].
    + intros q. specialize (V1 q). cbn zeta in *. set (th' := mk_thread (l ++ [Some (length (objs st))]) Idle).
      pose proof (tsum_insert (nh q) _ _ _ th' E) as A1. pose proof (tsum_insert (nd q) _ _ _ th' E) as A2. pose proof (tsum_insert (nf q) _ _ _ th' E) as A3.
      unfold nh in A1 at 2 4. unfold nd in A2 at 2 4. unfold nf in A3 at 2 4. unfold th' in A1 at 2. unfold th' in A2 at 2. unfold th' in A3 at 2. cbn [held at_ vars] in *.
      rewrite cnt_app, cnt_one in A1. destruct (decide (q = length (objs st))) as [->|N].
      * rewrite Eq. rewrite No in V1. rewrite decide_True in A1 by done. unfold count_ok. cbn [a_refs a_life]. rewrite decide_False by lia. split_and!; lia.
      * rewrite (Ne q N). rewrite decide_False in A1 by congruence.
        replace (tsum (nh q) (<[t:=th']> (threads st))) with (tsum (nh q) (threads st)) by lia.
        replace (tsum (nd q) (<[t:=th']> (threads st))) with (tsum (nd q) (threads st)) by lia.
        replace (tsum (nf q) (<[t:=th']> (threads st))) with (tsum (nf q) (threads st)) by lia.
        destruct (objs st !! q); [|done]. destruct V1 as (? & ? & ?). split_and!; [done|lia|done].
    + intros t' th1. destruct (decide (t' = t)) as [->|N].
      * rewrite list_lookup_insert by done. by intros [= <-].
      * rewrite list_lookup_insert_ne by done. apply V2.
    + split; [apply V3|]. intros q. rewrite (proj2 V3). destruct (decide (q = length (objs st))) as [->|N]; [|by rewrite Ne].
      rewrite Eq, No. split; [by intros (? & ? & _)|]. by intros (o1 & [= <-] & ?).
    + split; [apply V4|]. intros q. rewrite (proj2 V4). destruct (decide (q = length (objs st))) as [->|N]; [|by rewrite Ne].
      rewrite Eq, No. split; [by intros (? & ? & _)|]. by intros (o1 & [= <-] & ?).
  - case_bool_decide as Hi; [|done]. by eapply (Inv_thread (B + 1) st t).
  - case_bool_decide as Hi; [|done]. by eapply (Inv_thread (B + 1) st t).
  - case_bool_decide as Hi; [|done]. by eapply (Inv_thread (B + 1) st t).
  - case_bool_decide as Hi; [|done]. by eapply (Inv_thread (B + 1) st t).
  - case_bool_decide as Hi; [|done]. by eapply (Inv_thread (B + 1) st t).
  - destruct (l !! i) as [h|] eqn:Eh; [|done]. eapply (Inv_thread (B + 1) st t); try done.
    intros p. unfold nh, nd, nf. cbn [held at_ vars with_thread mail]. pose proof (cnt_insert p _ _ _ None Eh) as C. rewrite cnt_none in C.
    rewrite cnt_app. split_and!; try done. lia.
  - destruct (mail st !! k) as [h|] eqn:Eh; [|done]. eapply (Inv_thread (B + 1) st t); try done.
    intros p. unfold nh, nd, nf. cbn [held at_ vars with_thread mail]. pose proof (cnt_insert p _ _ _ None Eh) as C. rewrite cnt_none in C.
    rewrite cnt_app. split_and!; try done. lia.
  - destruct I1 as [V1 V2 V3 V4]. constructor; cbn [threads objs mail gone freed]; try done.
    + intros p. specialize (V1 p). cbn zeta in *. rewrite !tsum_app, !tsum_cons. unfold nh at 2, nd at 2, nf at 2. cbn [held at_ vars].
      change (cnt p []) with 0. rewrite !Nat.add_0_r. done.
    + intros t' th'. rewrite lookup_app. destruct (threads st !! t') eqn:E1; [intros [= <-]; by eapply V2|].
      intros E2. destruct (t' - length (threads st)) as [|n]; [|done]. injection E2 as <-. done.
Qed.
Lemma step_ok B st e : (0 <= B)%Z -> (B + 1 < 2 ^ 63)%Z -> Inv B st ->
  match step st e with
  | Ok (st', _) => Inv (B + 1) st'
  | Die => exists t th i, e = Step t /\ threads st !! t = Some th /\ at_ th = Using i /\ vars th !! i = Some None
  | _ => False
  end.
Proof.
  intros H0 HB I. assert (Inv (B + 1) st) as I1 by (eapply Inv_weak; [|exact I]; lia). destruct e as [t c|t]; cbn [step].
  - destruct (threads st !! t) as [th|] eqn:E; [|done]. destruct (at_ th) eqn:A; try done. by apply begin_ok.
  - destruct (threads st !! t) as [th|] eqn:E; [|done]. pose proof (micro_ok B st t th H0 HB I E) as M.
    destruct (micro st t th) as [[st' x]| | |]; try done. destruct M as (i & A & V). by exists t, th, i.
Qed.
Lemma run_ok es : forall B st, (0 <= B)%Z -> (B + Z.of_nat (length es) < 2 ^ 63)%Z -> Inv B st ->
  match run st es with Ok st' => Inv (B + Z.of_nat (length es)) st' | Die => True | _ => False end.
Proof.
  induction es as [|e es IH]; intros B st H0 HB I; cbn [run].
  - eapply Inv_weak; [|exact I]. lia.
  - cbn [length] in HB. pose proof (step_ok B st e H0 ltac:(lia) I) as S. destruct (step st e) as [[st1 x]| | |]; cbn [mbind res_bind]; try done.
    specialize (IH (B + 1)%Z st1 ltac:(lia) ltac:(lia) S). destruct (run st1 es); try done. eapply Inv_weak; [|exact IH]. cbn [length]. lia.
Qed.
