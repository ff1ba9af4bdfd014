(** What each statement does to the handles and values. *)
From stdpp Require Import gmap.
From Verif Require Import Word RcModel RcSpec RcProofs RcSteps RcLive.

Lemma cascade_shape b fuel : forall st w st', cascade b fuel st w = Ok st' -> roots st' = roots st /\ next_id st' = next_id st /\
  forall p o', heap st' !! p = Some o' -> exists o, heap st !! p = Some o /\ shape o o'.
Proof.
  induction fuel as [|fuel IH]; intros st [|[p|] w] st'; cbn [cascade]; try done;
    try (intros [= <-]; split_and!; try done; intros q o Hq; exists o; by repeat split); [|apply IH].
  destruct (heap st !! p) as [o|] eqn:Ep; [|done]. destruct (if b then _ else _) eqn:T; intros E.
  - destruct (IH _ _ _ E) as (R & Nx & S). cbn [roots heap next_id] in *. split_and!; try done.
    intros q o' (o1 & [_ Hq]%lookup_delete_Some & Sh)%S. eauto.
  - destruct (IH _ _ _ E) as (R & Nx & S). cbn [roots heap next_id with_heap] in *. split_and!; try done.
    intros q o' (o1 & Hq & Sh)%S. destruct (decide (p = q)) as [->|N].
    + rewrite lookup_insert in Hq. injection Hq as <-. exists o. split; [done|]. destruct b; done.
    + rewrite lookup_insert_ne in Hq by done. eauto.
Qed.
(** [st'] comes from [st] by destroying objects and setting the handle at [a] to [h]. *)
Definition sets (st st' : hs) (a : addr) (h : option nat) : Prop :=
  length (roots st') = length (roots st) /\ next_id st' = next_id st /\
  (forall b h', read st' b = Ok h' -> b = a /\ h' = h \/ b <> a /\ read st b = Ok h') /\
  (forall p o', heap st' !! p = Some o' -> exists o, heap st !! p = Some o /\ o_val o' = o_val o).
Lemma read_shape st st' b h : roots st' = roots st -> (forall p o', heap st' !! p = Some o' -> exists o, heap st !! p = Some o /\ shape o o') ->
  read st' b = Ok h -> read st b = Ok h.
Proof.
  intros R H. destruct b as [i|q k]; cbn [read]; [by rewrite R|]. destruct (heap st' !! q) as [o'|] eqn:E; [|done].
  destruct (H q o' E) as (o & -> & [-> _]). done.
Qed.
Lemma write_sets st a h st' : write st a h = Ok st' -> sets st st' a h.
Proof.
  intros W. split_and!.
  - unfold write in W. destruct (read st a); try done. cbn [mbind res_bind] in W. destruct a; injection W as <-; cbn; [by rewrite insert_length|done].
  - unfold write in W. destruct (read st a); try done. cbn [mbind res_bind] in W. by destruct a; injection W as <-.
  - intros b h' R. destruct (decide (b = a)) as [->|N]; [rewrite (read_write _ _ _ _ W) in R; injection R as ->; by left|].
    right. split; [done|]. by rewrite (read_other _ _ _ _ b W) in R.
  - unfold write in W. destruct (read st a); try done. cbn [mbind res_bind] in W. destruct a as [i|q k]; injection W as <-; cbn [heap with_heap]; [eauto|].
    intros p o'. destruct (decide (p = q)) as [->|N]; [|rewrite lookup_alter_ne by done; eauto].
    rewrite lookup_alter. destruct (heap st !! q) as [o|]; [|done]. cbn. intros [= <-]. by exists o.
Qed.
Lemma sets_trans st st1 st2 a h h' : sets st st1 a h -> sets st1 st2 a h' -> sets st st2 a h'.
Proof.
  intros (L1 & N1 & R1 & V1) (L2 & N2 & R2 & V2). split_and!; [congruence|congruence| |].
  - intros b x [[-> ->]|[N Rb]]%R2; [by left|]. destruct (R1 b x Rb) as [[-> _]|[_ ?]]; [done|]. by right.
  - intros p o (o1 & (o0 & ? & E0)%V1 & E1)%V2. exists o0. split; [done|congruence].
Qed.
Lemma drop_sets b st a st' : drop b st a = Ok st' -> sets st st' a None.
Proof.
  unfold drop. destruct (read st a) as [h| | |]; try done. cbn [mbind res_bind].
  destruct (cascade b (S (field_count (heap st))) st [h]) as [st1| | |] eqn:C; try done. cbn [mbind res_bind].
  intros (L & N & R & V)%write_sets. destruct (cascade_shape _ _ _ _ _ C) as (Rt & Nx & S). split_and!; [congruence|congruence| |].
  - intros x y [?|[Nx' Rx]]%R; [by left|]. right. split; [done|]. by eapply read_shape.
  - intros p o (o1 & (o0 & ? & [_ E0])%S & E1)%V. exists o0. split; [done|congruence].
Qed.
Lemma assign_sets b st a h st' : assign b st a h = Ok st' -> sets st st' a h.
Proof.
  unfold assign. destruct (drop b st a) as [st1| | |] eqn:D; try done. cbn [mbind res_bind]. intros W.
  eapply sets_trans; [by eapply drop_sets|by eapply write_sets].
Qed.
Lemma alloc_new st v n st' p : alloc st v n = (st', p) -> p = next_id st /\ roots st' = roots st /\
  (forall b h, read st' b = Ok h -> heap st !! next_id st = None -> read st b = Ok h \/ read st b = UB /\ h = None) /\
  (forall q o', heap st' !! q = Some o' -> q = p /\ o_val o' = v \/ heap st !! q = Some o').
Proof.
  intros [= <- <-]. split_and!; try done.
  - intros [i|q k] h; cbn [read roots heap]; [by left|]. intros E N. destruct (decide (q = next_id st)) as [->|D].
    + rewrite lookup_insert in E. rewrite N. cbn [o_fields] in E. right. split; [done|].
      destruct (replicate n None !! k) as [x|] eqn:F; [|done]. apply lookup_replicate in F as [-> _]. by injection E as <-.
    + rewrite lookup_insert_ne in E by done. by left.
  - intros q o'. cbn [heap]. destruct (decide (q = next_id st)) as [->|D].
    + rewrite lookup_insert. intros [= <-]. by left.
    + rewrite lookup_insert_ne by done. by right.
Qed.
Lemma locate_back st st' pl a :
  (forall b p, read st' b = Ok (Some p) -> read st b = Ok (Some p)) -> locate st' pl = Ok a -> locate st pl = Ok a.
Proof.
  intros H. revert a. induction pl as [i|pl IH k]; intros a; cbn [locate]; [done|].
  destruct (locate st' pl) as [b| | |] eqn:E; try done. cbn [mbind res_bind]. destruct (read st' b) as [[p|]| | |] eqn:Er; try done.
  cbn [mbind res_bind]. intros [= <-]. rewrite (IH b eq_refl). cbn [mbind res_bind]. by rewrite (H _ _ Er).
Qed.
Lemma incr_read st p f b : read (with_heap (alter (with_refs f) p) st) b = read st b.
Proof.
  destruct b as [i|q k]; cbn [read roots heap with_heap]; [done|]. destruct (decide (q = p)) as [->|N]; [|by rewrite lookup_alter_ne].
  rewrite lookup_alter. by destruct (heap st !! p).
Qed.
Lemma incr_val st p f q o' : heap (with_heap (alter (with_refs f) p) st) !! q = Some o' -> exists o, heap st !! q = Some o /\ o_val o' = o_val o.
Proof.
  cbn [heap with_heap]. destruct (decide (q = p)) as [->|N]; [|rewrite lookup_alter_ne by done; eauto].
  rewrite lookup_alter. destruct (heap st !! p) as [o|]; [|done]. cbn. intros [= <-]. by exists o.
Qed.
Lemma after_nil st b h : read st b = Ok h -> h = handle_after st [] b.
Proof. unfold handle_after. cbn. by intros ->. Qed.
Lemma after_one st a h b h' : b = a /\ h' = h \/ b <> a /\ (read st b = Ok h' \/ read st b = UB /\ h' = None) -> h' = handle_after st [(a, h)] b.
Proof.
  unfold handle_after. cbn. intros [[-> ->]|[N [E|[E ->]]]]; [by rewrite decide_True|rewrite decide_False by congruence; by rewrite E..].
Qed.
Ltac bo := match goal with |- mbind _ ?r = Ok _ -> _ =>
   let E := fresh "E" in destruct r eqn:E; cbn [mbind res_bind]; try discriminate end.
Lemma step_effect B st o st' x : Inv B st [] -> step true st o = Ok (st', x) -> effective st o st'.
Proof.
  intros I. pose proof (next_free _ _ _ I) as NF.
  assert (forall st2 a p v n, alloc st v n = (st2, p) -> forall dst, locate st2 dst = Ok a -> locate st dst = Ok a) as LB.
  { intros st2 a p v n A dst. apply locate_back. intros b q Rb. destruct (alloc_new _ _ _ _ _ A) as (_ & _ & R & _).
    destruct (R b _ Rb NF) as [?|[_ ?]]; done. }
  destruct o as [| |dst v n|dst src|dst src|dst src|src|dst|dst v n|dst src|src|src|src|dst v]; cbn [step]; unfold effective; cbn [vars_after effect].
  - intros [= <- <-]. cbn [roots heap]. split_and!; [rewrite app_length; cbn; lia| |].
    + eexists. split; [done|]. intros b h R. apply after_one. destruct b as [i|q k]; cbn [read roots heap] in *; [|right; split; [done|by left]].
      destruct (decide (i = length (roots st))) as [->|N].
      * left. rewrite lookup_app_r, Nat.sub_diag in R by lia. cbn in R. by injection R as <-.
      * right. split; [congruence|]. left. destruct ((roots st ++ [None]) !! i) as [y|] eqn:Ey; [|done].
        pose proof (lookup_lt_Some _ _ _ Ey) as Ly. rewrite app_length in Ly. cbn in Ly. rewrite lookup_app_l in Ey by lia. by rewrite Ey.
    + intros p ob Hp. unfold value_after. by rewrite Hp.
  - destruct (length (roots st)) as [|i] eqn:Ln; [done|]. bo. intros [= <- <-]. cbn [roots heap].
    destruct (drop_sets _ _ _ _ E) as (L & _ & R & V). split_and!.
    + rewrite take_length. cbn. lia.
    + eexists. split; [done|]. intros b h Rb. apply after_nil. destruct b as [j|q k]; cbn [read roots heap] in *.
      * destruct (take i (roots a) !! j) as [y|] eqn:Ey; [|done]. apply lookup_take_Some in Ey as [Ey Lj].
        specialize (R (ARoot j) y). cbn [read] in R. rewrite Ey in R. destruct (R eq_refl) as [[[= ->] _]|[_ ?]]; [lia|congruence].
      * destruct (R (AField q k) h Rb) as [[? _]|[_ ?]]; done.
    + intros p ob (o0 & Ho & ->)%V. unfold value_after. by rewrite Ho.
  - destruct (alloc st v n) as [st1 p] eqn:A. destruct (alloc_new _ _ _ _ _ A) as (-> & Rt & R1 & V1). bo. bo. intros [= <- <-].
    destruct (assign_sets _ _ _ _ _ E0) as (L & _ & R & V). split_and!; [congruence| |].
    + exists [(a, Some (next_id st))]. split; [eexists; split; [by eapply LB|done]|].
      intros b h Rb. apply after_one. destruct (R b h Rb) as [?|[N Rb1]]; [by left|]. right. split; [done|]. by apply R1.
    + intros q ob (o1 & Hq & ->)%V. unfold value_after. destruct (V1 q o1 Hq) as [[-> ->]|Hq']; [by rewrite NF|by rewrite Hq'].
  - bo. bo. rename a into s, a0 into h. destruct h as [p|].
    + unfold load. destruct (heap st !! p) as [op|] eqn:Hp; [|done]. cbn [mbind res_bind]. bo. bo. intros [= <- <-].
      destruct (assign_sets _ _ _ _ _ E2) as (L & _ & R & V). split_and!; [done| |].
      * exists [(a, Some p)]. split; [exists a, s, (Some p); split_and!; try done; eapply locate_back; [|exact E1]; intros b q; by rewrite incr_read|].
        intros b h Rb. apply after_one. destruct (R b h Rb) as [?|[N Rb1]]; [by left|]. right. split; [done|]. left. by rewrite incr_read in Rb1.
      * intros q ob (o1 & (o2 & Hq & ->)%incr_val & ->)%V. unfold value_after. by rewrite Hq.
    + cbn [mbind res_bind]. bo. bo. intros [= <- <-]. destruct (assign_sets _ _ _ _ _ E2) as (L & _ & R & V). split_and!; [done| |].
      * exists [(a, None)]. split; [exists a, s, None; done|].
        intros b h Rb. apply after_one. destruct (R b h Rb) as [?|[N Rb1]]; [by left|]. right. split; [done|]. by left.
      * intros q ob (o1 & Hq & ->)%V. unfold value_after. by rewrite Hq.
  - unfold deref. destruct (locate st src) as [s| | |] eqn:E; try done. cbn [mbind res_bind]. destruct (read st s) as [[p|]| | |] eqn:Es; try done.
    cbn [mbind res_bind]. unfold load. destruct (heap st !! p) as [op|] eqn:Hp; [|done]. cbn [mbind res_bind]. bo. bo. intros [= <- <-].
    destruct (assign_sets _ _ _ _ _ E1) as (L & _ & R & V). split_and!; [done| |].
    + exists [(a, Some p)]. split; [exists a, s, (Some p); split_and!; try done; eapply locate_back; [|exact E0]; intros b q; by rewrite incr_read|].
      intros b h Rb. apply after_one. destruct (R b h Rb) as [?|[N Rb1]]; [by left|]. right. split; [done|]. left. by rewrite incr_read in Rb1.
    + intros q ob (o1 & (o2 & Hq & ->)%incr_val & ->)%V. unfold value_after. by rewrite Hq.
  - bo. bo. bo. rename a0 into s, a1 into st1. bo. rename a0 into h. bo. rename a0 into st2. bo. intros [= <- <-].
    destruct (drop_sets _ _ _ _ E1) as (L1 & _ & R1 & V1). destruct (write_sets _ _ _ _ E3) as (L2 & _ & R2 & V2).
    destruct (write_sets _ _ _ _ E4) as (L3 & _ & R3 & V3).
    assert (exists h', read st s = Ok h' /\ (s <> a -> h = h')) as (h' & Rs & Hs).
    { destruct (R1 s h E2) as [[-> ->]|[N Rs]]; [|eauto]. unfold drop in E1. destruct (read st a) as [ha| | |]; try done. exists ha. split; [done|]. by intros []. }
    split_and!; [congruence| |].
    + exists [(a, h'); (s, None)]. split; [exists a, s, h'; done|].
      intros b y Rb. unfold handle_after. cbn [List.fold_left fst snd]. destruct (R3 b y Rb) as [[-> ->]|[N3 Rb2]]; [by rewrite decide_True|].
      rewrite (decide_False (P := s = b)) by congruence. destruct (R2 b y Rb2) as [[-> ->]|[N2 Rb1]].
      * rewrite decide_True by done. apply Hs. congruence.
      * rewrite decide_False by congruence. destruct (R1 b y Rb1) as [[? _]|[_ ->]]; done.
    + intros q ob (o3 & (o2 & (o1 & Hq & ->)%V1 & ->)%V2 & ->)%V3. unfold value_after. by rewrite Hq.
  - bo. bo. bo. intros [= <- <-]. rename a into s, a0 into h, a1 into st1. destruct (write_sets _ _ _ _ E1) as (L & _ & R & V). cbn [roots heap]. split_and!.
    + rewrite app_length. cbn. lia.
    + exists [(s, None); (ARoot (length (roots st)), h)]. split; [exists s, h; done|].
      intros b y Rb. unfold handle_after. cbn [List.fold_left fst snd]. destruct b as [i|q k]; cbn [read roots heap] in Rb.
      * destruct (decide (i = length (roots st))) as [->|N].
        -- rewrite decide_True by done. rewrite <- L in Rb. rewrite lookup_app_r, Nat.sub_diag in Rb by lia. cbn in Rb. by injection Rb as <-.
        -- rewrite (decide_False (P := ARoot _ = _)) by congruence. destruct ((roots st1 ++ [h]) !! i) as [z|] eqn:Ez; [|done]. injection Rb as <-.
           pose proof (lookup_lt_Some _ _ _ Ez) as Lz. rewrite app_length in Lz. cbn in Lz. rewrite lookup_app_l in Ez by lia.
           specialize (R (ARoot i) z). cbn [read] in R. rewrite Ez in R. destruct (R eq_refl) as [[-> ->]|[N1 R1]]; [by rewrite decide_True|].
           rewrite decide_False by congruence. cbn [read]. by rewrite R1.
      * rewrite (decide_False (P := ARoot _ = _)) by congruence. destruct (R (AField q k) y Rb) as [[-> ->]|[N1 R1]]; [by rewrite decide_True|].
        rewrite decide_False by congruence. by rewrite R1.
    + intros q ob (o1 & Hq & ->)%V. unfold value_after. by rewrite Hq.
  - bo. bo. intros [= <- <-]. destruct (drop_sets _ _ _ _ E0) as (L & _ & R & V). split_and!; [done| |].
    + exists [(a, None)]. split; [by eexists|]. intros b h Rb. apply after_one. destruct (R b h Rb) as [?|[N Rb1]]; [by left|]. right. split; [done|by left].
    + intros q ob (o1 & Hq & ->)%V. unfold value_after. by rewrite Hq.
  - bo. bo. rename a0 into st1. destruct (alloc st1 v n) as [st2 p] eqn:A. destruct (alloc_new _ _ _ _ _ A) as (-> & Rt & R1 & V1). bo. intros [= <- <-].
    destruct (drop_sets _ _ _ _ E0) as (L0 & N0 & R0 & V0). destruct (write_sets _ _ _ _ E1) as (L & _ & R & V).
    assert (heap st1 !! next_id st1 = None) as NF1.
    { destruct (heap st1 !! next_id st1) as [oz|] eqn:Ez; [|done]. apply V0 in Ez as (o0 & H0 & _). rewrite N0 in H0. congruence. }
    split_and!; [congruence| |].
    + exists [(a, Some (next_id st))]. split; [by eexists|]. rewrite <- N0. intros b h Rb. apply after_one.
      destruct (R b h Rb) as [?|[N Rb1]]; [by left|]. right. split; [done|]. destruct (R1 b h Rb1 NF1) as [Rb0|[U ->]].
      * destruct (R0 b h Rb0) as [[? _]|[_ ?]]; [done|by left].
      * destruct (read_cases st b) as [->|[h0 Eh]]; [by right|]. left. rewrite Eh. f_equal.
        (* a field of the new object did not exist before *)
        assert (exists q k, b = AField q k /\ q = next_id st1) as (q & k & -> & ->).
        { destruct b as [i|q k]; cbn [read] in *.
          - rewrite Rt in Rb1. by rewrite Rb1 in U.
          - destruct (decide (q = next_id st1)) as [->|D]; [by exists (next_id st1), k|]. exfalso.
            injection A as <-. cbn [heap] in Rb1. rewrite lookup_insert_ne in Rb1 by done. by rewrite U in Rb1. }
        cbn [read] in Eh. rewrite N0, NF in Eh. done.
    + intros q ob (o1 & Hq & ->)%V. unfold value_after. destruct (V1 q o1 Hq) as [[-> ->]|Hq'].
      * rewrite N0, NF. done.
      * apply V0 in Hq' as (o0 & Ho & ->). by rewrite Ho.
  - bo. bo. rename a into s, a0 into h. destruct h as [p|].
    + unfold load. destruct (heap st !! p) as [op|] eqn:Hp; [|done]. cbn [mbind res_bind].
      destruct (alloc st (o_val op) (length (o_fields op))) as [st1 q] eqn:A. destruct (alloc_new _ _ _ _ _ A) as (-> & Rt & R1 & V1). cbn [mbind res_bind].
      bo. bo. intros [= <- <-]. destruct (assign_sets _ _ _ _ _ E2) as (L & _ & R & V). split_and!; [congruence| |].
      * exists [(a, Some (next_id st))]. split; [exists a, s, (Some p); split_and!; try done; by eapply LB|].
        intros b h Rb. apply after_one. destruct (R b h Rb) as [?|[N Rb1]]; [by left|]. right. split; [done|]. by apply R1.
      * intros q ob (o1 & Hq & ->)%V. unfold value_after. destruct (V1 q o1 Hq) as [[-> ->]|Hq']; [|by rewrite Hq'].
        rewrite NF. split; [done|]. exists p, op. split_and!; try done. unfold deref. rewrite E. cbn [mbind res_bind]. by rewrite E0.
    + cbn [mbind res_bind]. bo. bo. intros [= <- <-]. destruct (assign_sets _ _ _ _ _ E2) as (L & _ & R & V). split_and!; [done| |].
      * exists [(a, None)]. split; [exists a, s, None; done|].
        intros b h Rb. apply after_one. destruct (R b h Rb) as [?|[N Rb1]]; [by left|]. right. split; [done|]. by left.
      * intros q ob (o1 & Hq & ->)%V. unfold value_after. by rewrite Hq.
  - bo. bo. intros H. assert (st' = st) as ->; [|split_and!; [done| |]].
    + destruct a0 as [p|]; [|by injection H]. unfold load in H. destruct (heap st !! p); [|done]. cbn [mbind res_bind] in H. by injection H.
    + eexists. split; [done|]. apply after_nil.
    + intros q ob Hq. unfold value_after. by rewrite Hq.
  - bo. bo. intros [= <- <-]. split_and!; [done| |].
    + eexists. split; [done|]. apply after_nil.
    + intros q ob Hq. unfold value_after. by rewrite Hq.
  - bo. bo. intros [= <- <-]. split_and!; [done| |].
    + eexists. split; [done|]. apply after_nil.
    + intros q ob Hq. unfold value_after. by rewrite Hq.
  - bo. bo. intros [= <- <-]. split_and!; [done| |].
    + eexists. split; [done|]. intros b h Rb. apply after_nil. destruct b as [i|q k]; cbn [read heap roots with_heap] in *; [done|].
      destruct (decide (q = a)) as [->|N]; [|by rewrite lookup_alter_ne in Rb]. rewrite lookup_alter in Rb. by destruct (heap st !! a).
    + intros q ob. cbn [heap with_heap]. unfold value_after. destruct (decide (q = a)) as [->|N].
      * rewrite lookup_alter. destruct (heap st !! a) as [oa|]; [|done]. cbn. intros [= <-]. by left.
      * rewrite lookup_alter_ne by done. intros ->. right. split; [|done]. intros D. rewrite D in E. by injection E.
Qed.
Lemma step_answer B st o st' x : Inv B st [] -> step true st o = Ok (st', x) -> answer st o x.
Proof.
  intros I. destruct o as [| |dst v n|dst src|dst src|dst src|src|dst|dst v n|dst src|src|src|src|dst v]; cbn [step answer].
  - by intros [= <- <-].
  - destruct (length (roots st)); [done|]. bo. by intros [= <- <-].
  - destruct (alloc st v n). bo. bo. by intros [= <- <-].
  - bo. bo. bo. bo. bo. by intros [= <- <-].
  - bo. bo. bo. bo. by intros [= <- <-].
  - repeat bo. by intros [= <- <-].
  - repeat bo. by intros [= <- <-].
  - repeat bo. by intros [= <- <-].
  - bo. bo. destruct (alloc a0 v n). bo. by intros [= <- <-].
  - bo. bo. bo. destruct a1 as [st1 h]. repeat bo. by intros [= <- <-].
  - bo. bo. destruct a0 as [p|].
    + unfold load. destruct (heap st !! p) as [o|] eqn:Ho; [|done]. cbn [mbind res_bind]. intros [= <- <-]. exists a, (Some p). split_and!; try done. f_equal.
      pose proof (v_refs _ _ _ I p) as R. unfold refs_of in R. rewrite Ho, cnt_nil in R. unfold handles_to. unfold hc in R. lia.
    + intros [= <- <-]. exists a, None. done.
  - bo. bo. intros [= <- <-]. exists a, a0. split_and!; try done. f_equal. by destruct a0.
  - bo. unfold load. destruct (heap st !! a) as [o|] eqn:Ho; [|done]. cbn [mbind res_bind]. intros [= <- <-]. exists a, o. done.
  - bo. bo. by intros [= <- <-].
Qed.

(** ** When a statement stops the program *)
Lemma locate_die st pl : locate st pl <> UB -> locate st pl = Die <-> Exists (null st) (owners pl).
Proof.
  induction pl as [i|pl IH k]; intros N; cbn [locate owners].
  - split; [done|]. by intros ?%Exists_nil.
  - rewrite Exists_cons. cbn [locate] in N. destruct (locate_cases st pl) as [E|[E|[a E]]].
    + by rewrite E in N.
    + rewrite E. cbn [mbind res_bind]. split; [|done]. intros _. right. by apply IH; rewrite E.
    + rewrite E in N |- *. cbn [mbind res_bind] in N |- *. destruct (read_cases st a) as [Er|[[p|] Er]]; rewrite Er in N |- *; cbn [mbind res_bind] in N |- *; [done| |].
      * split; [done|]. intros [(b & Eb & Rb)|X]; [rewrite E in Eb; injection Eb as <-; congruence|]. apply IH in X; congruence.
      * split; [|done]. intros _. left. by exists a.
Qed.
Lemma locate_ub st pl : target st pl <> UB -> locate st pl <> UB.
Proof. unfold target. intros H E. apply H. by rewrite E. Qed.
Lemma assign_die B st dst h (x : out) : (B < 2 ^ 64)%Z -> Inv B st [h] -> target st dst <> UB ->
  (a ← locate st dst; st ← assign true st a h; Ok (st, x)) = Die <-> locate st dst = Die.
Proof.
  intros HB I T. destruct (target_ok _ _ T) as [E|(a & h0 & E & Er)]; rewrite E; cbn [mbind res_bind]; [done|].
  destruct (assign_ok B st dst a h0 h HB I E Er) as (st' & -> & _). done.
Qed.
Lemma locate_die_ext st st' pl : roots st' = roots st ->
  (forall p o, heap st !! p = Some o -> exists o', heap st' !! p = Some o' /\ o_fields o' = o_fields o) ->
  target st pl <> UB -> locate st' pl = Die <-> locate st pl = Die.
Proof.
  intros R H T. destruct (target_ext st st' pl R H) as [H1 H2]. destruct (target_ok _ _ T) as [E|(a & h & E & Er)].
  - rewrite E. split; [done|]. intros _. assert (target st' pl = Die) as D by (apply H2; unfold target; by rewrite E).
    unfold target in D. destruct (locate_cases st' pl) as [E'|[E'|[a E']]]; [by rewrite E' in D|done|]. rewrite E' in D. cbn [mbind res_bind] in D.
    destruct (read_cases st' a) as [X|[h X]]; rewrite X in D; done.
  - destruct (H1 a E h Er) as [-> _]. by rewrite E.
Qed.
Lemma step_die B st o : (0 <= B)%Z -> (B + 1 < 2 ^ 64)%Z -> Inv B st [] -> legal st o ->
  step true st o = Die <-> Exists (null st) (derefs o).
Proof.
  intros H0 HB I Lg. pose proof (step_live B st o H0 HB I Lg) as NU. destruct Lg as (N & Ne & Sv).
  assert (Inv (B + 1) st []) as I1 by (eapply Inv_weak; [|exact I]; lia).
  assert (forall pl, pl ∈ places o -> target st pl <> UB) as T.
  { intros pl Hpl. eapply named_target; [exact I|]. rewrite Forall_forall in N. by apply N. }
  assert (forall pl, pl ∈ places o -> Exists (null st) (owners pl) <-> locate st pl = Die) as LD.
  { intros pl Hpl. symmetry. apply locate_die, locate_ub. by apply T. }
  clear N. unfold derefs. rewrite Exists_app.
  destruct o as [| |dst v n|dst src|dst src|dst src|src|dst|dst v n|dst src|src|src|src|dst v]; cbn [step places flat_map] in *; rewrite ?app_nil_r, ?Exists_app, ?Exists_nil.
  - split; [done|naive_solver].
  - destruct (length (roots st)) as [|i] eqn:Ln; [split; [done|naive_solver]|].
    destruct (end_ok (B + 1) st i HB I1 Ln) as (st' & -> & I'). cbn [mbind res_bind]. split; [done|naive_solver].
  - rewrite LD by set_solver. destruct (alloc st v n) as [st1 p] eqn:A. destruct (alloc_ok B st v n st1 p H0 I A) as (I2 & _).
    destruct (alloc_heap _ _ _ _ _ (next_free _ _ _ I) A) as [Rt X]. assert (target st dst <> UB) as Td by (apply T; set_solver).
    rewrite (assign_die (B + 1)), (locate_die_ext st); try done; [naive_solver|]. by apply (target_live st).
  - rewrite !LD by set_solver. assert (target st dst <> UB) as Td by (apply T; set_solver).
    destruct (target_ok st src) as [E|(s & h & E & Er)]; [apply T; set_solver|rewrite E; cbn [mbind res_bind]; naive_solver|].
    rewrite E. cbn [mbind res_bind]. rewrite Er. cbn [mbind res_bind]. destruct h as [p|].
    + destruct (read_alive B st [] src s p I E Er) as [o Ho]. unfold load. rewrite Ho. cbn [mbind res_bind].
      rewrite (assign_die (B + 1)), (locate_die_ext st); try done; [naive_solver|apply heap_incr_ext|by eapply incr_ok|].
      apply (target_live st); try done. apply heap_incr_ext.
    + cbn [mbind res_bind]. rewrite (assign_die (B + 1)); try done; [naive_solver|]. eapply Inv_perm; [|exact I1]. done.
  - rewrite !LD by set_solver. assert (target st dst <> UB) as Td by (apply T; set_solver). unfold deref, null.
    destruct (target_ok st src) as [E|(s & h & E & Er)]; [apply T; set_solver|rewrite E; cbn [mbind res_bind]; naive_solver|].
    rewrite E. cbn [mbind res_bind]. rewrite Er. cbn [mbind res_bind]. rewrite Exists_cons, Exists_nil. destruct h as [p|].
    + cbn [mbind res_bind]. destruct (read_alive B st [] src s p I E Er) as [o Ho]. unfold load. rewrite Ho. cbn [mbind res_bind].
      rewrite (assign_die (B + 1)), (locate_die_ext st); try done; [|apply heap_incr_ext|by eapply incr_ok|].
      * split; [naive_solver|]. intros [[?|?]|[(b & Eb & Rb)|?]]; try done. congruence.
      * apply (target_live st); try done. apply heap_incr_ext.
    + cbn [mbind res_bind]. split; [|done]. intros _. right. left. by exists s.
  - rewrite !LD by set_solver.
    destruct (target_ok st dst) as [E|(a & h0 & E & Er)]; [apply T; set_solver|rewrite E; cbn [mbind res_bind]; naive_solver|]. rewrite E in *. cbn [mbind res_bind] in *.
    destruct (target_ok st src) as [E2|(s & h & E2 & Es)]; [apply T; set_solver|rewrite E2; cbn [mbind res_bind]; naive_solver|]. rewrite E2 in *. cbn [mbind res_bind] in *.
    split; [|naive_solver]. intros D. exfalso.
    destruct (drop_place_ok (B + 1) st dst a h0 HB I1 E Er) as (st0 & st1 & W & Dr & I2 & Rt & R1 & _). rewrite Dr in *. cbn [mbind res_bind] in *.
    destruct (read_cases st1 s) as [X|[h1 X]]; rewrite X in *; cbn [mbind res_bind] in *; [done|].
    destruct (write_ok st1 a None h1 R1) as (st2 & W2 & _). rewrite W2 in *. cbn [mbind res_bind] in *.
    pose proof (move_read _ _ _ _ _ R1 X W2) as R2. destruct (write_ok st2 s h1 None R2) as (st3 & W3 & _). by rewrite W3 in D.
  - rewrite !LD by set_solver. destruct (target_ok st src) as [E|(s & h & E & Er)]; [apply T; set_solver|rewrite E; cbn [mbind res_bind]; naive_solver|].
    rewrite E. cbn [mbind res_bind]. rewrite Er. cbn [mbind res_bind]. destruct (write_ok st s h None Er) as (st' & -> & _). cbn [mbind res_bind]. naive_solver.
  - rewrite !LD by set_solver.
    destruct (target_ok st dst) as [E|(a & h0 & E & Er)]; [apply T; set_solver|rewrite E; cbn [mbind res_bind]; naive_solver|]. rewrite E. cbn [mbind res_bind].
    destruct (drop_place_ok (B + 1) st dst a h0 HB I1 E Er) as (st0 & st1 & W & D & _). rewrite D. cbn [mbind res_bind]. naive_solver.
  - rewrite !LD by set_solver.
    destruct (target_ok st dst) as [E|(a & h0 & E & Er)]; [apply T; set_solver|rewrite E; cbn [mbind res_bind]; naive_solver|]. rewrite E. cbn [mbind res_bind].
    destruct (drop_place_ok (B + 1) st dst a h0 HB I1 E Er) as (st0 & st1 & W & D & I2 & Rt & R1 & _). rewrite D. cbn [mbind res_bind].
    destruct (alloc st1 v n) as [st2 p] eqn:A.
    pose proof (alloc_read _ _ _ _ _ _ _ (next_free _ _ _ I2) A R1) as R2.
    destruct (write_ok st2 a None (Some p) R2) as (st3 & W3 & _). rewrite W3. cbn [mbind res_bind]. naive_solver.
  - rewrite !LD by set_solver. assert (target st dst <> UB) as Td by (apply T; set_solver).
    destruct (target_ok st src) as [E|(s & h & E & Er)]; [apply T; set_solver|rewrite E; cbn [mbind res_bind]; naive_solver|].
    rewrite E. cbn [mbind res_bind]. rewrite Er. cbn [mbind res_bind]. destruct h as [p|].
    + destruct (read_alive B st [] src s p I E Er) as [o Ho]. unfold load. rewrite Ho. cbn [mbind res_bind].
      destruct (alloc st (o_val o) (length (o_fields o))) as [st1 q] eqn:A.
      destruct (alloc_ok B st _ _ st1 q H0 I A) as (I2 & _). cbn [mbind res_bind].
      destruct (alloc_heap _ _ _ _ _ (next_free _ _ _ I) A) as [Rt X].
      rewrite (assign_die (B + 1)), (locate_die_ext st); try done; [naive_solver|]. by apply (target_live st).
    + cbn [mbind res_bind]. rewrite (assign_die (B + 1)); try done; [naive_solver|]. eapply Inv_perm; [|exact I1]. done.
  - rewrite !LD by set_solver. destruct (target_ok st src) as [E|(s & h & E & Er)]; [apply T; set_solver|rewrite E; cbn [mbind res_bind]; naive_solver|].
    rewrite E. cbn [mbind res_bind]. rewrite Er. cbn [mbind res_bind]. destruct h as [p|]; [|naive_solver].
    destruct (read_alive B st [] src s p I E Er) as [o Ho]. unfold load. rewrite Ho. cbn [mbind res_bind]. naive_solver.
  - rewrite !LD by set_solver. destruct (target_ok st src) as [E|(s & h & E & Er)]; [apply T; set_solver|rewrite E; cbn [mbind res_bind]; naive_solver|].
    rewrite E. cbn [mbind res_bind]. rewrite Er. cbn [mbind res_bind]. naive_solver.
  - rewrite !LD by set_solver. unfold deref, null. rewrite Exists_cons, Exists_nil.
    destruct (target_ok st src) as [E|(s & h & E & Er)]; [apply T; set_solver|rewrite E; cbn [mbind res_bind]; naive_solver|].
    rewrite E. cbn [mbind res_bind]. rewrite Er. cbn [mbind res_bind]. destruct h as [p|]; [|split; [|done]; intros _; right; left; by exists s].
    destruct (read_alive B st [] src s p I E Er) as [o Ho]. unfold load. cbn [mbind res_bind]. rewrite Ho. cbn [mbind res_bind].
    split; [done|]. intros [?|[(b & Eb & Rb)|?]]; try done. congruence.
  - rewrite !LD by set_solver. unfold deref, null. rewrite Exists_cons, Exists_nil.
    destruct (target_ok st dst) as [E|(s & h & E & Er)]; [apply T; set_solver|rewrite E; cbn [mbind res_bind]; naive_solver|].
    rewrite E. cbn [mbind res_bind]. rewrite Er. cbn [mbind res_bind]. destruct h as [p|]; [|split; [|done]; intros _; right; left; by exists s].
    destruct (read_alive B st [] dst s p I E Er) as [o Ho]. unfold load. cbn [mbind res_bind]. rewrite Ho. cbn [mbind res_bind].
    split; [done|]. intros [?|[(b & Eb & Rb)|?]]; try done. congruence.
Qed.

(** ** Reachability *)
Lemma cnt_pos p l : 0 < cnt p l -> exists k, l !! k = Some (Some p).
Proof.
  induction l as [|h l IH]; [cbn; lia|]. rewrite cnt_cons. case_decide as D; [intros _; exists 0; by rewrite D|]. intros [k Hk]%IH. by exists (S k).
Qed.
Lemma hsum_pos (f : obj -> nat) h : 0 < hsum f h -> exists p o, h !! p = Some o /\ 0 < f o.
Proof.
  unfold hsum. intros H. assert (exists x, x ∈ map_to_list h /\ 0 < f x.2) as [[p o] [Hx Hf]].
  { revert H. unfold list_sum. generalize (map_to_list h). induction l as [|x l IH]; cbn; [lia|]. intros H.
    destruct (decide (0 < f x.2)); [exists x; split; [apply elem_of_list_here|done]|]. destruct IH as (y & Hy & Fy); [lia|]. exists y. split; [by apply elem_of_list_further|done]. }
  exists p, o. split; [by apply elem_of_map_to_list|done].
Qed.
Lemma max_rank (rank : nat -> nat) (h : gmap nat obj) : exists M, forall p, is_Some (h !! p) -> rank p <= M.
Proof.
  induction h as [|p o h N IH] using map_ind; [exists 0; intros p []; by rewrite lookup_empty in *|].
  destruct IH as [M HM]. exists (Nat.max M (rank p)). intros q Hq. destruct (decide (q = p)) as [->|D]; [lia|].
  rewrite lookup_insert_ne in Hq by done. specialize (HM q Hq). lia.
Qed.
Lemma alive_reach B st : Inv B st [] -> acyclic (heap st) -> forall p, alive st p -> reachable (roots st) (heap st) p.
Proof.
  intros I [rank Hr]. destruct (max_rank rank (heap st)) as [M HM].
  assert (forall d p, M - rank p < d -> alive st p -> reachable (roots st) (heap st) p) as G.
  { induction d as [|d IH]; intros p L A; [lia|]. destruct A as [o Ho]. pose proof (v_refs _ _ _ I p) as R. unfold refs_of in R. rewrite Ho, cnt_nil in R.
    pose proof (v_pos _ _ _ I p o Ho). destruct (decide (0 < cnt p (roots st))) as [C|C].
    - apply cnt_pos in C as [k Hk]. by eapply reachable_root.
    - assert (0 < hc p (heap st)) as C2 by lia. rewrite hc_sum in C2. apply hsum_pos in C2 as (q & oq & Hq & Cq). apply cnt_pos in Cq as [k Hk].
      eapply reachable_field; [|exact Hq|exact Hk]. pose proof (Hr q oq k p Hq Hk). assert (is_Some (heap st !! q)) as Aq by eauto.
      pose proof (HM q Aq). pose proof (HM p ltac:(eauto)). apply IH; [lia|done]. }
  intros p. apply (G (S (M - rank p))). lia.
Qed.
Lemma reach_alive B st p : Inv B st [] -> reachable (roots st) (heap st) p -> alive st p.
Proof.
  intros I R. destruct (Inv_alive B st [] p I) as [o Ho]; [pose proof (reach_count _ _ _ R); lia|]. by exists o.
Qed.
Lemma Inv_exact B st : Inv B st [] -> (forall p, alive st p <-> 0 < handles_to st p) /\
  (forall p, p ∈ gone st <-> p < next_id st /\ ~ alive st p) /\ NoDup (gone st).
Proof.
  intros I. split_and!; [| |apply I].
  - intros p. pose proof (v_refs _ _ _ I p) as R. unfold refs_of in R. rewrite cnt_nil in R. unfold handles_to. fold (hc p (heap st)). split.
    + intros [o Ho]. rewrite Ho in R. pose proof (v_pos _ _ _ I p o Ho). lia.
    + intros H. destruct (Inv_alive B st [] p I) as [o Ho]; [lia|]. by exists o.
  - intros p. rewrite (v_gone _ _ _ I). unfold alive. by rewrite eq_None_not_Some.
Qed.
Lemma box_inv os : forall st, Forall box_op os -> ones st -> Inv 1 st [] ->
  match run true st os with Ok (st', _) => Inv 1 st' [] | Diverge => False | _ => True end.
Proof.
  induction os as [|o os IH]; intros st Hb H I; cbn [run]; [done|].
  apply Forall_cons in Hb as [H1 H2]. pose proof (step_sound 1 st o ltac:(lia) ltac:(lia) I) as S. destruct (step_box st o H1 H) as [_ D].
  destruct (step true st o) as [[st1 x]| | |] eqn:E; cbn [mbind res_bind sound] in *; try done.
  specialize (D _ _ eq_refl). assert (Inv 1 st1 []) as I1.
  { destruct S as [A1 A2 A3 A4 A5]. constructor; try done. intros p o' Hp. rewrite (D p o' Hp). lia. }
  specialize (IH st1 H2 D I1). destruct (run true st1 os) as [[st2 xs]| | |]; cbn [mbind res_bind] in *; try done.
Qed.
Lemma box_init os st xs : Forall box_op os -> run false hs_init os = Ok (st, xs) -> ones st /\ Inv 1 st [].
Proof.
  intros Hb R. destruct (run_box os hs_init Hb ones_init) as [E D]. rewrite E in R. split; [by eapply D|].
  pose proof (box_inv os hs_init Hb ones_init (Inv_weak 0 1 _ _ ltac:(lia) Inv_init)) as H. by rewrite R in H.
Qed.
