(** Every statement keeps the counters exact. *)
From stdpp Require Import gmap.
From Verif Require Import Word RcModel RcSpec RcProofs.

Lemma place_reach st q0 k0 : forall pl a p, locate st pl = Ok a -> read st a = Ok (Some p) ->
  reachable (roots st) (alter (with_field k0 None) q0 (heap st)) p \/
  reachable (roots st) (alter (with_field k0 None) q0 (heap st)) q0.
Proof.
  induction pl as [i|pl IH k]; intros a p; cbn [locate].
  - intros [= <-]. cbn [read]. destruct (roots st !! i) as [h|] eqn:E; [|done]. intros [= ->]. left. by eapply reachable_root.
  - destruct (locate st pl) as [b| | |] eqn:Eb; try done. cbn [mbind res_bind]. destruct (read st b) as [[r|]| | |] eqn:Er; try done.
    cbn [mbind res_bind]. intros [= <-]. cbn [read]. destruct (heap st !! r) as [o|] eqn:Eo; [|done].
    destruct (o_fields o !! k) as [h|] eqn:Ek; [|done]. intros [= ->].
    destruct (IH b r eq_refl Er) as [R|R]; [|by right]. destruct (decide (r = q0)) as [->|N]; [by right|].
    left. eapply reachable_field; [exact R| |exact Ek]. by rewrite lookup_alter_ne.
Qed.
Lemma place_anchor st pl a : locate st pl = Ok a -> forall st0, write st a None = Ok st0 -> anchored (roots st0) (heap st0) a.
Proof.
  intros L st0 W. destruct a as [i|q k]; [done|]. unfold write in W. destruct (read st (AField q k)); try done. injection W as <-. cbn.
  destruct pl as [i|pl j]; [done|]. cbn [locate] in L. destruct (locate st pl) as [b| | |] eqn:Eb; try done. cbn [mbind res_bind] in L.
  destruct (read st b) as [[r|]| | |] eqn:Er; try done. injection L as -> ->.
  destruct (place_reach st q k pl b q Eb Er); done.
Qed.
Lemma place_read st pl a p : locate st pl = Ok a -> read st a = Ok (Some p) -> reachable (roots st) (heap st) p.
Proof.
  revert a p. induction pl as [i|pl IH k]; intros a p; cbn [locate].
  - intros [= <-]. cbn [read]. destruct (roots st !! i) as [h|] eqn:E; [|done]. intros [= ->]. by eapply reachable_root.
  - destruct (locate st pl) as [b| | |] eqn:Eb; try done. cbn [mbind res_bind]. destruct (read st b) as [[r|]| | |] eqn:Er; try done.
    cbn [mbind res_bind]. intros [= <-]. cbn [read]. destruct (heap st !! r) as [o|] eqn:Eo; [|done].
    destruct (o_fields o !! k) as [h|] eqn:Ek; [|done]. intros [= ->]. eapply reachable_field; [by eapply IH|done|done].
Qed.

Lemma anchored_app rs h a x : anchored rs h a -> anchored (rs ++ x) h a.
Proof. destruct a; [done|]. apply reachable_roots. Qed.
Lemma assign_ok B st dst a h0 h : (B < 2 ^ 64)%Z -> Inv B st [h] -> locate st dst = Ok a -> read st a = Ok h0 ->
  exists st', assign true st a h = Ok st' /\ Inv B st' [] /\ read st' a = Ok h.
Proof.
  intros HB I L E. destruct (write_ok st a h0 None E) as (st0 & W & _).
  pose proof (place_anchor st dst a L st0 W) as An.
  destruct (drop_ok B st [h] a h0 st0 HB I E W (anchored_app _ _ _ _ An)) as (st1 & D & I1 & _ & _ & R1 & _).
  unfold assign. rewrite D. cbn [mbind res_bind]. destruct (write_ok st1 a None h R1) as (st2 & W2 & _).
  exists st2. split; [done|]. split; [|by eapply read_write]. eapply Inv_write; [exact I1|exact R1|exact W2|]. intros p. rewrite cnt_none, !cnt_nil. lia.
Qed.
Lemma drop_place_ok B st dst a h0 : (B < 2 ^ 64)%Z -> Inv B st [] -> locate st dst = Ok a -> read st a = Ok h0 ->
  exists st0 st', write st a None = Ok st0 /\ drop true st a = Ok st' /\ Inv B st' [] /\ roots st' = roots st0 /\ read st' a = Ok None /\
    next_id st' = next_id st /\
    (forall p o, reachable (roots st0) (heap st0) p -> heap st0 !! p = Some o -> exists o', heap st' !! p = Some o' /\ shape o o').
Proof.
  intros HB I L E. destruct (write_ok st a h0 None E) as (st0 & W & _).
  pose proof (place_anchor st dst a L st0 W) as An.
  destruct (drop_ok B st [] a h0 st0 HB I E W (anchored_app _ _ _ _ An)) as (st1 & D & I1 & Rt & Nx & R1 & K & _).
  rewrite app_nil_r in K. exists st0, st1. done.
Qed.
Lemma Inv_weak B B' st x : (B <= B')%Z -> Inv B st x -> Inv B' st x.
Proof. intros H [? P ? ? ?]. constructor; try done. intros p o Hp. specialize (P p o Hp). lia. Qed.
Lemma alloc_ok B st v n st' p : (0 <= B)%Z -> Inv B st [] -> alloc st v n = (st', p) -> Inv (B + 1) st' [Some p] /\ p = next_id st /\
  heap st !! p = None /\ roots st' = roots st /\ heap st' = <[p := mk_obj 1 v (replicate n None)]> (heap st).
Proof.
  intros HB I [= <- <-]. assert (heap st !! next_id st = None) as N.
  { destruct (heap st !! next_id st) as [o|] eqn:E; [|done]. pose proof (v_ids _ _ _ I _ _ E). lia. }
  split_and!; try done. constructor; cbn [roots heap gone next_id].
  - intros q. pose proof (v_refs _ _ _ I q) as R. unfold refs_of in *.
    pose proof (hsum_new (fun o => cnt q (o_fields o)) (heap st) (next_id st) (mk_obj 1 v (replicate n None)) N) as S. rewrite <- !hc_sum in S.
    cbn [o_fields] in S. rewrite cnt_nones in S. rewrite cnt_nil in R. rewrite cnt_cons, cnt_nil. destruct (decide (q = next_id st)) as [->|D].
    + rewrite lookup_insert. rewrite N in R. cbn [o_refs]. rewrite decide_True by done. lia.
    + rewrite lookup_insert_ne by done. rewrite decide_False by congruence. lia.
  - intros q o. destruct (decide (q = next_id st)) as [->|D].
    + rewrite lookup_insert. intros [= <-]. cbn [o_refs]. lia.
    + rewrite lookup_insert_ne by done. intros Hq. pose proof (v_pos _ _ _ I _ _ Hq). lia.
  - intros q. rewrite (v_gone _ _ _ I). destruct (decide (q = next_id st)) as [->|D].
    + rewrite lookup_insert. split; [lia|]. intros [_ ?]; done.
    + rewrite lookup_insert_ne by done. split; intros [? ?]; split; try done; lia.
  - apply I.
  - intros q o. destruct (decide (q = next_id st)) as [->|D]; [lia|]. rewrite lookup_insert_ne by done. intros Hq%(v_ids _ _ _ I). lia.
Qed.

Lemma incr_ok B st p o : (0 <= B)%Z -> (B + 1 < 2 ^ 64)%Z -> Inv B st [] -> heap st !! p = Some o ->
  Inv (B + 1) (with_heap (alter (with_refs (fun r => wrap 64 (r + 1))) p) st) [Some p].
Proof.
  intros H0 HB I Ho. pose proof (v_pos _ _ _ I _ _ Ho) as P.
  assert (alter (with_refs (fun r => wrap 64 (r + 1))) p (heap st) = <[p := mk_obj (o_refs o + 1) (o_val o) (o_fields o)]> (heap st)) as A.
  { apply map_eq. intros q. destruct (decide (q = p)) as [->|N].
    - rewrite lookup_alter, lookup_insert, Ho. cbn. unfold with_refs. by rewrite wrap_small by (unfold is_u; lia).
    - by rewrite lookup_alter_ne, lookup_insert_ne. }
  unfold with_heap. rewrite A. set (o1 := mk_obj _ _ _). constructor; cbn [roots heap gone next_id].
  - intros q. pose proof (v_refs _ _ _ I q) as R. unfold refs_of in *.
    pose proof (hsum_insert (fun o => cnt q (o_fields o)) (heap st) p o o1 Ho) as S. rewrite <- !hc_sum in S. cbn [o1 o_fields] in S.
    rewrite cnt_nil in R. rewrite cnt_cons, cnt_nil. destruct (decide (q = p)) as [->|D].
    + rewrite lookup_insert. rewrite Ho in R. cbn [o1 o_refs]. rewrite decide_True by done. lia.
    + rewrite lookup_insert_ne by done. rewrite decide_False by congruence. lia.
  - intros q oq. destruct (decide (q = p)) as [->|D].
    + rewrite lookup_insert. intros [= <-]. cbn [o1 o_refs]. lia.
    + rewrite lookup_insert_ne by done. intros Hq. pose proof (v_pos _ _ _ I _ _ Hq). lia.
  - intros q. rewrite (v_gone _ _ _ I). destruct (decide (q = p)) as [->|D].
    + rewrite lookup_insert, Ho. split; intros [_ ?]; done.
    + by rewrite lookup_insert_ne.
  - apply I.
  - intros q oq. destruct (decide (q = p)) as [->|D]; [intros _; by eapply v_ids|]. rewrite lookup_insert_ne by done. apply I.
Qed.
Lemma set_ok B st p v : Inv B st [] -> Inv B (with_heap (alter (with_val v) p) st) [].
Proof.
  intros I. destruct (heap st !! p) as [o|] eqn:Ho.
  2:{ assert (alter (with_val v) p (heap st) = heap st) as A.
      { apply map_eq. intros q. destruct (decide (q = p)) as [->|N]; [by rewrite lookup_alter, Ho|by rewrite lookup_alter_ne]. }
      unfold with_heap. rewrite A. by destruct st. }
  assert (alter (with_val v) p (heap st) = <[p := with_val v o]> (heap st)) as A.
  { apply map_eq. intros q. destruct (decide (q = p)) as [->|N].
    - by rewrite lookup_alter, lookup_insert, Ho.
    - by rewrite lookup_alter_ne, lookup_insert_ne. }
  unfold with_heap. rewrite A. constructor; cbn [roots heap gone next_id].
  - intros q. pose proof (v_refs _ _ _ I q) as R. unfold refs_of in *.
    pose proof (hsum_insert (fun o => cnt q (o_fields o)) (heap st) p o (with_val v o) Ho) as S. rewrite <- !hc_sum in S. cbn [with_val o_fields] in S.
    destruct (decide (q = p)) as [->|D].
    + rewrite lookup_insert. rewrite Ho in R. cbn [with_val o_refs]. lia.
    + rewrite lookup_insert_ne by done. lia.
  - intros q oq. destruct (decide (q = p)) as [->|D].
    + rewrite lookup_insert. intros [= <-]. by apply (v_pos _ _ _ I p o).
    + rewrite lookup_insert_ne by done. apply I.
  - intros q. rewrite (v_gone _ _ _ I). destruct (decide (q = p)) as [->|D].
    + rewrite lookup_insert, Ho. split; intros [_ ?]; done.
    + by rewrite lookup_insert_ne.
  - apply I.
  - intros q oq. destruct (decide (q = p)) as [->|D]; [intros _; by eapply v_ids|]. rewrite lookup_insert_ne by done. apply I.
Qed.

Lemma read_None st a : read st a = UB \/ exists h, read st a = Ok h.
Proof. unfold read. repeat case_match; eauto. Qed.
(** A handle that can be read refers to a live object. *)
Lemma read_alive B st x pl a p : Inv B st x -> locate st pl = Ok a -> read st a = Ok (Some p) -> exists o, heap st !! p = Some o.
Proof.
  intros I L R. eapply Inv_alive; [exact I|]. pose proof (reach_count _ _ _ (place_read _ _ _ _ L R)). lia.
Qed.

Definition target (st : hs) (pl : place) : res (option nat) := a ← locate st pl; read st a.
Lemma read_cases st a : read st a = UB \/ exists h, read st a = Ok h.
Proof. unfold read. repeat case_match; eauto. Qed.
Lemma locate_cases st pl : locate st pl = UB \/ locate st pl = Die \/ exists a, locate st pl = Ok a.
Proof.
  induction pl as [i|pl IH k]; cbn [locate]; [eauto|]. destruct IH as [->|[->|[a ->]]]; cbn [mbind res_bind]; [by left|by right; left|].
  destruct (read_cases st a) as [->|[[p|] ->]]; cbn [mbind res_bind]; eauto.
Qed.
Lemma target_ext st st' pl : roots st' = roots st ->
  (forall p o, heap st !! p = Some o -> exists o', heap st' !! p = Some o' /\ o_fields o' = o_fields o) ->
  (forall a, locate st pl = Ok a -> forall h, read st a = Ok h -> locate st' pl = Ok a /\ read st' a = Ok h) /\
  (target st pl = Die -> target st' pl = Die).
Proof.
  intros R H. assert (forall a h, read st a = Ok h -> read st' a = Ok h) as Rd.
  { intros [i|q k] h; cbn [read]; [by rewrite R|]. destruct (heap st !! q) as [o|] eqn:Eo; [|done]. destruct (H q o Eo) as (o' & -> & ->). done. }
  assert (forall a, locate st pl = Ok a -> locate st' pl = Ok a) as L.
  { induction pl as [i|pl IH k]; intros a; cbn [locate]; [done|].
    destruct (locate st pl) as [b| | |]; try done. rewrite (IH b eq_refl). cbn [mbind res_bind].
    destruct (read st b) as [h| | |] eqn:Eb; try done. by rewrite (Rd _ _ Eb). }
  split.
  - intros a E h Eh. split; [by apply L|by apply Rd].
  - unfold target. intros D. destruct (locate_cases st pl) as [E|[E|[a E]]].
    + rewrite E in D. done.
    + assert (locate st' pl = Die) as ->; [|done]. clear D L. revert E. induction pl as [i|pl IH k]; cbn [locate]; [done|].
      destruct (locate_cases st pl) as [E|[E|[a E]]]; rewrite E; cbn [mbind res_bind]; try done; [by rewrite (IH E)|].
      destruct (read_cases st a) as [Er|[[p|] Er]]; rewrite Er; cbn [mbind res_bind]; try done. intros _.
      assert (locate st' pl = Ok a) as ->; [|cbn [mbind res_bind]; by rewrite (Rd _ _ Er)].
      clear -E Rd. revert a E. induction pl as [i|pl IH k]; intros a; cbn [locate]; [done|].
      destruct (locate st pl) as [b| | |]; try done. rewrite (IH b eq_refl). cbn [mbind res_bind].
      destruct (read st b) as [h| | |] eqn:Eb; try done. by rewrite (Rd _ _ Eb).
    + rewrite E in D. cbn [mbind res_bind] in D. destruct (read_cases st a) as [Er|[h Er]]; rewrite Er in D; done.
Qed.

(** No statement leaves the invariant or hangs. *)
Definition sound (B : Z) (r : res (hs * out)) : Prop :=
  match r with Ok (st', _) => Inv B st' [] | Diverge => False | _ => True end.
Lemma read_ub_drop st a : read st a = UB -> drop true st a = UB.
Proof. unfold drop. by intros ->. Qed.
Lemma assign_sound B st dst h (x : out) : (B < 2 ^ 64)%Z -> Inv B st [h] ->
  sound B (a ← locate st dst; st ← assign true st a h; Ok (st, x)).
Proof.
  intros HB I. destruct (locate_cases st dst) as [E|[E|[a E]]]; rewrite E; cbn [mbind res_bind]; try done.
  destruct (read_cases st a) as [Er|[h0 Er]].
  - unfold assign. rewrite read_ub_drop by done. done.
  - destruct (assign_ok B st dst a h0 h HB I E Er) as (st' & -> & I' & _). done.
Qed.
Lemma assign_live B st dst h (x : out) : (B < 2 ^ 64)%Z -> Inv B st [h] -> (target st dst <> UB) ->
  (a ← locate st dst; st ← assign true st a h; Ok (st, x)) <> UB.
Proof.
  intros HB I T. unfold target in T. destruct (locate_cases st dst) as [E|[E|[a E]]]; rewrite E in *; cbn [mbind res_bind] in *; try done.
  destruct (read_cases st a) as [Er|[h0 Er]]; [done|].
  destruct (assign_ok B st dst a h0 h HB I E Er) as (st' & -> & I' & _). done.
Qed.
Lemma heap_incr_ext st p f : forall q o, heap st !! q = Some o ->
  exists o', heap (with_heap (alter (with_refs f) p) st) !! q = Some o' /\ o_fields o' = o_fields o.
Proof.
  intros q o Ho. cbn [with_heap heap]. destruct (decide (q = p)) as [->|N].
  - rewrite lookup_alter, Ho. cbn. eauto.
  - rewrite lookup_alter_ne by done. eauto.
Qed.
Lemma target_live st st' pl : roots st' = roots st ->
  (forall p o, heap st !! p = Some o -> exists o', heap st' !! p = Some o' /\ o_fields o' = o_fields o) ->
  target st pl <> UB -> target st' pl <> UB.
Proof.
  intros R H T. destruct (target_ext st st' pl R H) as [H1 H2]. unfold target in *.
  destruct (locate_cases st pl) as [E|[E|[a E]]]; rewrite E in *; cbn [mbind res_bind] in *; try done.
  - by rewrite H2.
  - destruct (read_cases st a) as [Er|[h Er]]; [done|]. destruct (H1 a eq_refl h Er) as [-> R2]. cbn [mbind res_bind]. by rewrite R2.
Qed.
Lemma named_target B st x pl : Inv B st x -> named st pl -> target st pl <> UB.
Proof.
  intros I. induction pl as [i|pl IH k]; intros N; unfold target in *; cbn [locate].
  - cbn [mbind res_bind read]. cbn in N. apply lookup_lt_is_Some_2 in N as [h ->]. done.
  - destruct N as [N F]. unfold deref in F. specialize (IH N).
    destruct (locate_cases st pl) as [E|[E|[a E]]]; rewrite E in *; cbn [mbind res_bind] in *; try done.
    destruct (read_cases st a) as [Er|[[p|] Er]]; rewrite Er in *; cbn [mbind res_bind read] in *; try done.
    destruct (read_alive B st x pl a p I E Er) as [o Eo]. rewrite Eo.
    specialize (F p o eq_refl Eo). apply lookup_lt_is_Some_2 in F as [h ->]. done.
Qed.
Lemma alloc_heap st v n st' p : heap st !! next_id st = None -> alloc st v n = (st', p) -> roots st' = roots st /\
  forall q o, heap st !! q = Some o -> exists o', heap st' !! q = Some o' /\ o_fields o' = o_fields o.
Proof.
  intros N [= <- <-]. split; [done|]. intros q o Ho. cbn [heap]. exists o. split; [|done].
  rewrite lookup_insert_ne; [done|]. intros <-. congruence.
Qed.
Lemma next_free B st x : Inv B st x -> heap st !! next_id st = None.
Proof. intros I. destruct (heap st !! next_id st) as [o|] eqn:E; [|done]. pose proof (v_ids _ _ _ I _ _ E). lia. Qed.

Lemma roots_None B st h : Inv B st [h] -> Inv B (mk_hs (roots st ++ [h]) (heap st) (next_id st) (gone st)) [].
Proof.
  intros I. constructor; cbn [roots heap gone next_id]; try apply I. intros p. rewrite (v_refs _ _ _ I p), cnt_app, cnt_nil. lia.
Qed.
Lemma end_ok B st i : (B < 2 ^ 64)%Z -> Inv B st [] -> length (roots st) = S i ->
  exists st', drop true st (ARoot i) = Ok st' /\ Inv B (mk_hs (take i (roots st')) (heap st') (next_id st') (gone st')) [].
Proof.
  intros HB I Ln. destruct (lookup_lt_is_Some_2 (roots st) i) as [h Eh]; [lia|].
  assert (read st (ARoot i) = Ok h) as Er by (cbn; by rewrite Eh).
  destruct (drop_place_ok B st (Root i) (ARoot i) h HB I eq_refl Er) as (st0 & st1 & W & D & I1 & Rt & R1 & _).
  exists st1. split; [done|]. assert (length (roots st1) = S i) as L1.
  { rewrite Rt. unfold write in W. rewrite Er in W. injection W as <-. cbn. by rewrite insert_length. }
  cbn [read] in R1. destruct (roots st1 !! i) as [h1|] eqn:E1; [|done]. injection R1 as ->.
  assert (roots st1 = take i (roots st1) ++ [None]) as S.
  { rewrite <- (take_S_r _ _ _ E1), take_ge by lia. done. }
  constructor; cbn [roots heap gone next_id]; try apply I1. intros p. pose proof (v_refs _ _ _ I1 p) as R. rewrite S in R.
  rewrite cnt_app, cnt_none, !cnt_nil in R. rewrite cnt_nil. lia.
Qed.

Lemma read_other st a h st' s : write st a h = Ok st' -> s <> a -> read st' s = read st s.
Proof.
  unfold write. destruct (read st a); try done. cbn [mbind res_bind]. intros W N.
  destruct a as [i|q k]; injection W as <-; destruct s as [j|r m]; cbn [read roots heap with_heap]; try done.
  - rewrite list_lookup_insert_ne; [done|]. congruence.
  - destruct (decide (r = q)) as [->|Nq]; [|by rewrite lookup_alter_ne]. rewrite lookup_alter.
    destruct (heap st !! q) as [o|]; [|done]. cbn. rewrite list_lookup_insert_ne; [done|]. congruence.
Qed.
Lemma addr_cases (a b : addr) : a = b \/ a <> b.
Proof.
  destruct a as [i|p k], b as [j|q m]; try (right; discriminate).
  - destruct (decide (i = j)) as [->|]; [by left|right; congruence].
  - destruct (decide (p = q)) as [->|]; [|right; congruence]. destruct (decide (k = m)) as [->|]; [by left|right; congruence].
Qed.
Lemma move_read st a s h st2 : read st a = Ok None -> read st s = Ok h -> write st a h = Ok st2 -> read st2 s = Ok h.
Proof.
  intros Ra Rs W. destruct (addr_cases s a) as [->|N]; [by eapply read_write|]. by rewrite (read_other _ _ _ _ _ W N).
Qed.
Lemma move_ok B st st2 st3 a s h : Inv B st [] -> read st a = Ok None -> read st s = Ok h ->
  write st a h = Ok st2 -> write st2 s None = Ok st3 -> Inv B st3 [].
Proof.
  intros I Ra Rs W1 W2. pose proof (move_read _ _ _ _ _ Ra Rs W1) as Rs2.
  destruct (write_ok st a None h Ra) as (st2' & W1' & A1 & A2 & A3 & A4 & A5 & A6). rewrite W1 in W1'. injection W1' as <-.
  destruct (write_ok st2 s h None Rs2) as (st3' & W2' & B1 & B2 & B3 & B4 & B5 & B6). rewrite W2 in W2'. injection W2' as <-.
  constructor.
  - intros p. rewrite B2, A2, (v_refs _ _ _ I p). specialize (A1 p). specialize (B1 p). rewrite cnt_none, cnt_nil in *. lia.
  - intros p o (o1 & (o2 & Ho & E2)%A3 & E1)%B3. rewrite E1, E2. by eapply v_pos.
  - intros p. rewrite B6, A6, B5, A5, B4, A4. apply I.
  - rewrite B6, A6. apply I.
  - intros p o (o1 & (o2 & Ho & E2)%A3 & E1)%B3. rewrite B5, A5. by eapply v_ids.
Qed.
Lemma alloc_read st v n st' p a h : heap st !! next_id st = None -> alloc st v n = (st', p) -> read st a = Ok h -> read st' a = Ok h.
Proof.
  intros N [= <- <-]. destruct a as [i|q k]; cbn [read roots heap]; [done|].
  destruct (heap st !! q) as [o|] eqn:E; [|done]. rewrite lookup_insert_ne, E by congruence. done.
Qed.
Lemma step_sound B st o : (0 <= B)%Z -> (B + 1 < 2 ^ 64)%Z -> Inv B st [] -> sound (B + 1) (step true st o).
Proof.
  intros H0 HB I. assert (Inv (B + 1) st []) as I1 by (eapply Inv_weak; [|exact I]; lia).
  destruct o as [| |dst v n|dst src|dst src|dst src|src|dst|dst v n|dst src|src|src|src|dst v]; cbn [step].
  - cbn [sound]. apply roots_None. eapply Inv_perm; [|exact I1]. done.
  - destruct (length (roots st)) as [|i] eqn:Ln; [done|]. destruct (end_ok (B + 1) st i HB I1 Ln) as (st' & -> & I'). done.
  - destruct (alloc st v n) as [st1 p] eqn:A. destruct (alloc_ok B st v n st1 p H0 I A) as (I2 & _). by apply assign_sound.
  - destruct (locate_cases st src) as [E|[E|[s E]]]; rewrite E; cbn [mbind res_bind]; try done.
    destruct (read_cases st s) as [Er|[[p|] Er]]; rewrite Er; cbn [mbind res_bind]; try done.
    + destruct (read_alive B st [] src s p I E Er) as [o Ho]. unfold load. rewrite Ho. cbn [mbind res_bind].
      apply assign_sound; [done|]. by eapply incr_ok.
    + apply assign_sound; [done|]. eapply Inv_perm; [|exact I1]. done.
  - unfold deref. destruct (locate_cases st src) as [E|[E|[s E]]]; rewrite E; cbn [mbind res_bind]; try done.
    destruct (read_cases st s) as [Er|[[p|] Er]]; rewrite Er; cbn [mbind res_bind]; try done.
    destruct (read_alive B st [] src s p I E Er) as [o Ho]. unfold load. rewrite Ho. cbn [mbind res_bind].
    apply assign_sound; [done|]. by eapply incr_ok.
  - destruct (locate_cases st dst) as [E|[E|[a E]]]; rewrite E; cbn [mbind res_bind]; try done.
    destruct (locate_cases st src) as [E2|[E2|[s E2]]]; rewrite E2; cbn [mbind res_bind]; try done.
    destruct (read_cases st a) as [Er|[h0 Er]]; [by rewrite read_ub_drop|].
    destruct (drop_place_ok (B + 1) st dst a h0 HB I1 E Er) as (st0 & st1 & W & D & I2 & Rt & R1 & _).
    rewrite D. cbn [mbind res_bind]. destruct (read_cases st1 s) as [Es|[h Es]]; rewrite Es; cbn [mbind res_bind]; try done.
    destruct (write_ok st1 a None h R1) as (st2 & W2 & _). rewrite W2. cbn [mbind res_bind].
    destruct (write st2 s None) as [st3| | |] eqn:W3; cbn [mbind res_bind sound]; try done.
    + by eapply (move_ok (B + 1) st1 st2 st3).
    + unfold write in W3. destruct (read_cases st2 s) as [Rs|[h2 Rs]]; rewrite Rs in W3; [done|]. by destruct s.
  - destruct (locate_cases st src) as [E|[E|[s E]]]; rewrite E; cbn [mbind res_bind]; try done.
    destruct (read_cases st s) as [Er|[h Er]]; rewrite Er; cbn [mbind res_bind]; try done.
    destruct (write_ok st s h None Er) as (st' & W & _). rewrite W. cbn [mbind res_bind sound]. apply roots_None.
    eapply Inv_write; [exact I1|exact Er|exact W|]. intros p. rewrite cnt_none, !cnt_nil. lia.
  - destruct (locate_cases st dst) as [E|[E|[a E]]]; rewrite E; cbn [mbind res_bind]; try done.
    destruct (read_cases st a) as [Er|[h0 Er]]; [by rewrite read_ub_drop|].
    destruct (drop_place_ok (B + 1) st dst a h0 HB I1 E Er) as (st0 & st1 & W & D & I2 & Rt & R1 & _). by rewrite D.
  - destruct (locate_cases st dst) as [E|[E|[a E]]]; rewrite E; cbn [mbind res_bind]; try done.
    destruct (read_cases st a) as [Er|[h0 Er]]; [by rewrite read_ub_drop|].
    assert (B < 2 ^ 64)%Z as HB' by lia.
    destruct (drop_place_ok B st dst a h0 HB' I E Er) as (st0 & st1 & W & D & I2 & Rt & R1 & _). rewrite D. cbn [mbind res_bind].
    destruct (alloc st1 v n) as [st2 p] eqn:A. destruct (alloc_ok B st1 v n st2 p H0 I2 A) as (I3 & _).
    pose proof (alloc_read _ _ _ _ _ _ _ (next_free _ _ _ I2) A R1) as R2.
    destruct (write_ok st2 a None (Some p) R2) as (st3 & W3 & _). rewrite W3. cbn [mbind res_bind sound].
    eapply Inv_write; [exact I3|exact R2|exact W3|]. intros q. rewrite cnt_none, !cnt_nil. lia.
  - destruct (locate_cases st src) as [E|[E|[s E]]]; rewrite E; cbn [mbind res_bind]; try done.
    destruct (read_cases st s) as [Er|[[p|] Er]]; rewrite Er; cbn [mbind res_bind]; try done.
    + destruct (read_alive B st [] src s p I E Er) as [o Ho]. unfold load. rewrite Ho. cbn [mbind res_bind].
      destruct (alloc st (o_val o) (length (o_fields o))) as [st1 q] eqn:A.
      destruct (alloc_ok B st _ _ st1 q H0 I A) as (I2 & _). cbn [mbind res_bind]. by apply assign_sound.
    + apply assign_sound; [done|]. eapply Inv_perm; [|exact I1]. done.
  - destruct (locate_cases st src) as [E|[E|[s E]]]; rewrite E; cbn [mbind res_bind]; try done.
    destruct (read_cases st s) as [Er|[[p|] Er]]; rewrite Er; cbn [mbind res_bind]; try done.
    unfold load. by destruct (heap st !! p).
  - destruct (locate_cases st src) as [E|[E|[s E]]]; rewrite E; cbn [mbind res_bind]; try done.
    destruct (read_cases st s) as [Er|[h Er]]; rewrite Er; cbn [mbind res_bind]; done.
  - unfold deref. destruct (locate_cases st src) as [E|[E|[s E]]]; rewrite E; cbn [mbind res_bind]; try done.
    destruct (read_cases st s) as [Er|[[p|] Er]]; rewrite Er; cbn [mbind res_bind]; try done.
    unfold load. by destruct (heap st !! p).
  - unfold deref. destruct (locate_cases st dst) as [E|[E|[s E]]]; rewrite E; cbn [mbind res_bind]; try done.
    destruct (read_cases st s) as [Er|[[p|] Er]]; rewrite Er; cbn [mbind res_bind]; try done.
    unfold load. destruct (heap st !! p); cbn [mbind res_bind sound]; [|done]. by apply set_ok.
Qed.
