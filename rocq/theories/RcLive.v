(** Legal statements are never undefined, and Box behaves like Rc without copies. *)
From stdpp Require Import gmap.
From Verif Require Import Word RcModel RcSpec RcProofs RcSteps.

Lemma target_ok st pl : target st pl <> UB -> locate st pl = Die \/ exists a h, locate st pl = Ok a /\ read st a = Ok h.
Proof.
  unfold target. destruct (locate_cases st pl) as [E|[E|[a E]]]; rewrite E; cbn [mbind res_bind]; [done|by left|].
  intros T. right. destruct (read_cases st a) as [Er|[h Er]]; [done|]. eauto.
Qed.
Lemma step_live B st o : (0 <= B)%Z -> (B + 1 < 2 ^ 64)%Z -> Inv B st [] -> legal st o -> step true st o <> UB.
Proof.
  intros H0 HB I (N & Ne & Sv). assert (Inv (B + 1) st []) as I1 by (eapply Inv_weak; [|exact I]; lia).
  assert (forall pl, pl ∈ places o -> target st pl <> UB) as T.
  { intros pl Hpl. eapply named_target; [exact I|]. rewrite Forall_forall in N. by apply N. }
  clear N. destruct o as [| |dst v n|dst src|dst src|dst src|src|dst|dst v n|dst src|src|src|src|dst v]; cbn [step places] in *.
  - done.
  - destruct (length (roots st)) as [|i] eqn:Ln; [destruct (roots st); [by specialize (Ne eq_refl)|done]|].
    destruct (end_ok (B + 1) st i HB I1 Ln) as (st' & -> & I'). done.
  - destruct (alloc st v n) as [st1 p] eqn:A. destruct (alloc_ok B st v n st1 p H0 I A) as (I2 & _).
    destruct (alloc_heap _ _ _ _ _ (next_free _ _ _ I) A) as [Rt X].
    eapply assign_live; [exact HB|exact I2|]. apply (target_live st); try done. apply T. set_solver.
  - destruct (target_ok st src) as [E|(s & h & E & Er)]; [apply T; set_solver|by rewrite E|].
    rewrite E. cbn [mbind res_bind]. rewrite Er. cbn [mbind res_bind]. destruct h as [p|].
    + destruct (read_alive B st [] src s p I E Er) as [o Ho]. unfold load. rewrite Ho. cbn [mbind res_bind].
      eapply assign_live; [exact HB|by eapply incr_ok|]. apply (target_live st); [done|apply heap_incr_ext|apply T; set_solver].
    + cbn [mbind res_bind]. eapply assign_live; [exact HB|eapply Inv_perm; [|exact I1]; done|]. apply T. set_solver.
  - unfold deref. destruct (target_ok st src) as [E|(s & h & E & Er)]; [apply T; set_solver|by rewrite E|].
    rewrite E. cbn [mbind res_bind]. rewrite Er. cbn [mbind res_bind]. destruct h as [p|]; [|done]. cbn [mbind res_bind].
    destruct (read_alive B st [] src s p I E Er) as [o Ho]. unfold load. rewrite Ho. cbn [mbind res_bind].
    eapply assign_live; [exact HB|by eapply incr_ok|]. apply (target_live st); [done|apply heap_incr_ext|apply T; set_solver].
  - destruct (target_ok st dst) as [E|(a & h0 & E & Er)]; [apply T; set_solver|by rewrite E|]. rewrite E. cbn [mbind res_bind].
    destruct (target_ok st src) as [E2|(s & h & E2 & Es)]; [apply T; set_solver|by rewrite E2|]. rewrite E2. cbn [mbind res_bind].
    destruct (drop_place_ok (B + 1) st dst a h0 HB I1 E Er) as (st0 & st1 & W & D & I2 & Rt & R1 & _ & K).
    rewrite D. cbn [mbind res_bind].
    assert (exists h1, read st1 s = Ok h1) as [h1 Es1].
    { destruct s as [i|q k].
      - cbn [read] in *. rewrite Rt. destruct (roots st !! i) as [h'|] eqn:Ei; [|done].
        assert (i < length (roots st0)) as L.
        { apply lookup_lt_Some in Ei. unfold write in W. rewrite Er in W. cbn [mbind res_bind] in W.
          destruct a; injection W as <-; cbn; [by rewrite insert_length|done]. }
        apply lookup_lt_is_Some_2 in L as [h2 ->]. eauto.
      - pose proof (Sv dst src eq_refl a st0 q k E W E2) as R. cbn [read] in *.
        destruct (heap st !! q) as [oq|] eqn:Eq; [|done]. destruct (o_fields oq !! k) as [hk|] eqn:Ek; [|done].
        assert (exists o0, heap st0 !! q = Some o0 /\ length (o_fields o0) = length (o_fields oq)) as (o0 & Eq0 & L0).
        { unfold write in W. rewrite Er in W. cbn [mbind res_bind] in W. destruct a as [i|r m]; injection W as <-; cbn [heap with_heap]; [eauto|].
          destruct (decide (q = r)) as [->|Nr]; [|rewrite lookup_alter_ne; eauto]. rewrite lookup_alter, Eq. cbn.
          eexists. split; [reflexivity|]. cbn. by rewrite insert_length. }
        destruct (K q o0 R Eq0) as (o1 & -> & [F _]). apply lookup_lt_Some in Ek. rewrite <- L0, <- F in Ek.
        apply lookup_lt_is_Some_2 in Ek as [h2 ->]. eauto. }
    rewrite Es1. cbn [mbind res_bind]. destruct (write_ok st1 a None h1 R1) as (st2 & W2 & _). rewrite W2. cbn [mbind res_bind].
    pose proof (move_read _ _ _ _ _ R1 Es1 W2) as R2. destruct (write_ok st2 s h1 None R2) as (st3 & W3 & _). by rewrite W3.
  - destruct (target_ok st src) as [E|(s & h & E & Er)]; [apply T; set_solver|by rewrite E|].
    rewrite E. cbn [mbind res_bind]. rewrite Er. cbn [mbind res_bind]. destruct (write_ok st s h None Er) as (st' & -> & _). done.
  - destruct (target_ok st dst) as [E|(a & h0 & E & Er)]; [apply T; set_solver|by rewrite E|]. rewrite E. cbn [mbind res_bind].
    destruct (drop_place_ok (B + 1) st dst a h0 HB I1 E Er) as (st0 & st1 & W & D & _). by rewrite D.
  - destruct (target_ok st dst) as [E|(a & h0 & E & Er)]; [apply T; set_solver|by rewrite E|]. rewrite E. cbn [mbind res_bind].
    destruct (drop_place_ok (B + 1) st dst a h0 HB I1 E Er) as (st0 & st1 & W & D & I2 & Rt & R1 & _). rewrite D. cbn [mbind res_bind].
    destruct (alloc st1 v n) as [st2 p] eqn:A.
    pose proof (alloc_read _ _ _ _ _ _ _ (next_free _ _ _ I2) A R1) as R2.
    destruct (write_ok st2 a None (Some p) R2) as (st3 & W3 & _). by rewrite W3.
  - destruct (target_ok st src) as [E|(s & h & E & Er)]; [apply T; set_solver|by rewrite E|].
    rewrite E. cbn [mbind res_bind]. rewrite Er. cbn [mbind res_bind]. destruct h as [p|].
    + destruct (read_alive B st [] src s p I E Er) as [o Ho]. unfold load. rewrite Ho. cbn [mbind res_bind].
      destruct (alloc st (o_val o) (length (o_fields o))) as [st1 q] eqn:A.
      destruct (alloc_ok B st _ _ st1 q H0 I A) as (I2 & _). cbn [mbind res_bind].
      destruct (alloc_heap _ _ _ _ _ (next_free _ _ _ I) A) as [Rt X].
      eapply assign_live; [exact HB|exact I2|]. apply (target_live st); try done. apply T. set_solver.
    + cbn [mbind res_bind]. eapply assign_live; [exact HB|eapply Inv_perm; [|exact I1]; done|]. apply T. set_solver.
  - destruct (target_ok st src) as [E|(s & h & E & Er)]; [apply T; set_solver|by rewrite E|].
    rewrite E. cbn [mbind res_bind]. rewrite Er. cbn [mbind res_bind]. destruct h as [p|]; [|done].
    destruct (read_alive B st [] src s p I E Er) as [o Ho]. unfold load. by rewrite Ho.
  - destruct (target_ok st src) as [E|(s & h & E & Er)]; [apply T; set_solver|by rewrite E|].
    rewrite E. cbn [mbind res_bind]. by rewrite Er.
  - unfold deref. destruct (target_ok st src) as [E|(s & h & E & Er)]; [apply T; set_solver|by rewrite E|].
    rewrite E. cbn [mbind res_bind]. rewrite Er. cbn [mbind res_bind]. destruct h as [p|]; [|done].
    destruct (read_alive B st [] src s p I E Er) as [o Ho]. unfold load. cbn [mbind res_bind]. by rewrite Ho.
  - unfold deref. destruct (target_ok st dst) as [E|(s & h & E & Er)]; [apply T; set_solver|by rewrite E|].
    rewrite E. cbn [mbind res_bind]. rewrite Er. cbn [mbind res_bind]. destruct h as [p|]; [|done].
    destruct (read_alive B st [] dst s p I E Er) as [o Ho]. unfold load. cbn [mbind res_bind]. by rewrite Ho.
Qed.

(** ** Histories *)
Lemma run_inv os : forall B st, (0 <= B)%Z -> (B + Z.of_nat (length os) < 2 ^ 64)%Z -> Inv B st [] ->
  match run true st os with Ok (st', _) => Inv (B + Z.of_nat (length os)) st' [] | Diverge => False | _ => True end.
Proof.
  induction os as [|o os IH]; intros B st H0 HB I; cbn [run].
  - replace (B + Z.of_nat (length (@nil op)))%Z with B by (cbn; lia). done.
  - cbn [length] in HB. pose proof (step_sound B st o H0 ltac:(lia) I) as S. destruct (step true st o) as [[st1 x]| | |]; cbn [mbind res_bind sound] in *; try done.
    specialize (IH (B + 1)%Z st1 ltac:(lia) ltac:(lia) S). destruct (run true st1 os) as [[st2 xs]| | |]; cbn [mbind res_bind] in *; try done.
    eapply Inv_weak; [|exact IH]. cbn [length]. lia.
Qed.
Lemma run_init os st xs : (Z.of_nat (length os) < 2 ^ 64)%Z -> run true hs_init os = Ok (st, xs) -> Inv (Z.of_nat (length os)) st [].
Proof. intros L R. pose proof (run_inv os 0 hs_init ltac:(lia) L Inv_init) as H. by rewrite R in H. Qed.

(** ** Box *)
Definition ones (st : hs) : Prop := forall p o, heap st !! p = Some o -> o_refs o = 1%Z.
Lemma cascade_box fuel : forall st w, ones st -> cascade false fuel st w = cascade true fuel st w /\
  forall st', cascade true fuel st w = Ok st' -> ones st'.
Proof.
  induction fuel as [|fuel IH]; intros st [|[p|] w] H; cbn [cascade]; try done; try (split; [done|intros st' [= <-]; done]); [|by apply IH].
  destruct (heap st !! p) as [o|] eqn:E; [|done]. pose proof (H p o E) as R. cbn [with_refs o_refs o_fields]. rewrite R.
  change (wrap 64 (1 - 1) =? 0)%Z with true. cbn match. apply IH. intros q oq. cbn [heap]. intros [_ Hq]%lookup_delete_Some. by eapply H.
Qed.
Lemma write_ones st a h st' : write st a h = Ok st' -> ones st -> ones st'.
Proof.
  unfold write. destruct (read st a); try done. cbn [mbind res_bind]. destruct a as [i|q k]; intros [= <-] H; [done|].
  intros p o. cbn [heap with_heap]. destruct (decide (p = q)) as [->|N]; [|rewrite lookup_alter_ne by done; apply H].
  rewrite lookup_alter. destruct (heap st !! q) as [o1|] eqn:E; [|done]. cbn. intros [= <-]. by apply (H q o1).
Qed.
Lemma drop_box st a : ones st -> drop false st a = drop true st a /\ forall st', drop true st a = Ok st' -> ones st'.
Proof.
  intros H. unfold drop. destruct (read st a) as [h| | |]; try done. cbn [mbind res_bind].
  destruct (cascade_box (S (field_count (heap st))) st [h] H) as [-> C]. split; [done|]. intros st'.
  destruct (cascade true (S (field_count (heap st))) st [h]) as [st1| | |]; try done. cbn [mbind res_bind]. intros W. eapply write_ones; [exact W|]. by apply C.
Qed.
Lemma alloc_ones st v n st' p : alloc st v n = (st', p) -> ones st -> ones st'.
Proof.
  intros [= <- <-] H q o. cbn [heap]. destruct (decide (q = next_id st)) as [->|N]; [rewrite lookup_insert; by intros [= <-]|].
  rewrite lookup_insert_ne by done. apply H.
Qed.
Lemma assign_box st a h : ones st -> assign false st a h = assign true st a h /\ forall st', assign true st a h = Ok st' -> ones st'.
Proof.
  intros H. unfold assign. destruct (drop_box st a H) as [-> D]. split; [done|]. intros st'.
  destruct (drop true st a) as [st1| | |]; try done. cbn [mbind res_bind]. intros W. eapply write_ones; [exact W|]. by apply D.
Qed.
Ltac bd := match goal with |- context [mbind _ ?r] =>
  lazymatch r with context [mbind] => fail | _ => let E := fresh "E" in destruct r eqn:E; cbn [mbind res_bind]; try (split; [done|intros ? ?; discriminate]) end end.
Lemma step_box st o : box_op o -> ones st -> step false st o = step true st o /\ forall st' x, step true st o = Ok (st', x) -> ones st'.
Proof.
  intros Hb H. destruct o as [| |dst v n|dst src|dst src|dst src|src|dst|dst v n|dst src|src|src|src|dst v]; try done; cbn [step].
  - split; [done|]. intros st' x [= <- <-]. done.
  - destruct (length (roots st)) as [|i]; [done|]. destruct (drop_box st (ARoot i) H) as [-> D]. split; [done|]. intros st' x.
    destruct (drop true st (ARoot i)) as [st1| | |]; try done. cbn [mbind res_bind]. intros [= <- <-]. intros p o. cbn [heap]. by apply D.
  - destruct (alloc st v n) as [st1 p] eqn:A. pose proof (alloc_ones _ _ _ _ _ A H) as H1. bd.
    destruct (assign_box st1 a (Some p) H1) as [-> D]. split; [done|]. intros st' x.
    destruct (assign true st1 a (Some p)) as [st2| | |]; try done. cbn [mbind res_bind]. intros [= <- <-]. by apply D.
  - bd. bd. destruct (drop_box st a H) as [-> D]. split; [done|]. intros st' x.
    destruct (drop true st a) as [st1| | |]; try done. cbn [mbind res_bind]. specialize (D st1 eq_refl).
    destruct (read st1 a0) as [h| | |]; try done. cbn [mbind res_bind].
    destruct (write st1 a h) as [st2| | |] eqn:W; try done. cbn [mbind res_bind].
    destruct (write st2 a0 None) as [st3| | |] eqn:W2; try done. cbn [mbind res_bind]. intros [= <- <-].
    eapply write_ones; [exact W2|]. by eapply write_ones.
  - split; [done|]. intros st' x. destruct (locate st src) as [a| | |]; try done. cbn [mbind res_bind].
    destruct (read st a) as [h| | |]; try done. cbn [mbind res_bind].
    destruct (write st a None) as [st2| | |] eqn:W; try done. cbn [mbind res_bind]. intros [= <- <-]. intros p o. cbn [heap]. by eapply write_ones.
  - bd. destruct (drop_box st a H) as [-> D]. split; [done|]. intros st' x.
    destruct (drop true st a) as [st1| | |]; try done. cbn [mbind res_bind]. intros [= <- <-]. by apply D.
  - bd. destruct (drop_box st a H) as [-> D]. split; [done|]. intros st' x.
    destruct (drop true st a) as [st1| | |]; try done. cbn [mbind res_bind]. destruct (alloc st1 v n) as [st2 p] eqn:A.
    destruct (write st2 a (Some p)) as [st3| | |] eqn:W; try done. cbn [mbind res_bind]. intros [= <- <-].
    eapply write_ones; [exact W|]. eapply alloc_ones; [exact A|]. by apply D.
  - bd. bd. destruct a0 as [p|].
    + unfold load. destruct (heap st !! p) as [o|]; [|done]. cbn [mbind res_bind].
      destruct (alloc st (o_val o) (length (o_fields o))) as [st1 q] eqn:A. pose proof (alloc_ones _ _ _ _ _ A H) as H1. cbn [mbind res_bind]. bd.
      destruct (assign_box st1 a0 (Some q) H1) as [-> D]. split; [done|]. intros st' x.
      destruct (assign true st1 a0 (Some q)) as [st2| | |]; try done. cbn [mbind res_bind]. intros [= <- <-]. by apply D.
    + cbn [mbind res_bind]. bd.
      destruct (assign_box st a0 None H) as [-> D]. split; [done|]. intros st' x.
      destruct (assign true st a0 None) as [st2| | |]; try done. cbn [mbind res_bind]. intros [= <- <-]. by apply D.
  - split; [done|]. intros st' x. destruct (locate st src) as [a| | |]; try done. cbn [mbind res_bind].
    destruct (read st a) as [h| | |]; try done. cbn [mbind res_bind]. by intros [= <- <-].
  - split; [done|]. intros st' x. destruct (deref st src) as [p| | |]; try done. cbn [mbind res_bind].
    destruct (load st p) as [h| | |]; try done. cbn [mbind res_bind]. by intros [= <- <-].
  - split; [done|]. intros st' x. destruct (deref st dst) as [p| | |]; try done. cbn [mbind res_bind].
    destruct (load st p) as [h| | |]; try done. cbn [mbind res_bind]. intros [= <- <-] q o. cbn [heap with_heap].
    destruct (decide (q = p)) as [->|N]; [|rewrite lookup_alter_ne by done; apply H]. rewrite lookup_alter.
    destruct (heap st !! p) as [o1|] eqn:E; [|done]. cbn. intros [= <-]. by apply (H p o1).
Qed.
Lemma run_box os : forall st, Forall box_op os -> ones st -> run false st os = run true st os /\ forall st' xs, run true st os = Ok (st', xs) -> ones st'.
Proof.
  induction os as [|o os IH]; intros st Hb H; cbn [run].
  - split; [done|]. intros st' xs [= <- <-]. done.
  - apply Forall_cons in Hb as [H1 H2]. destruct (step_box st o H1 H) as [-> D]. destruct (step true st o) as [[st1 x]| | |] eqn:E; try done.
    cbn [mbind res_bind]. destruct (IH st1 H2 (D _ _ eq_refl)) as [-> D2]. split; [done|]. intros st' xs.
    destruct (run true st1 os) as [[st2 ys]| | |]; try done. cbn [mbind res_bind]. intros [= <- <-]. by eapply D2.
Qed.
Lemma ones_init : ones hs_init.
Proof. intros p o. unfold hs_init. cbn [heap]. by rewrite lookup_empty. Qed.
