(** C47 on Windows and macOS. *)
From Verif Require Import Base Word FlagModel FlagSpec FlagProps FlagOsModel.
Local Open Scope nat_scope.

Definition is_signal (o : obs) : bool := match o with OSignal _ => true | _ => false end.
(** The number of signals in a history. *)
Definition signals (l : list obs) : nat := length (List.filter is_signal l).
Lemma signals_pos l : signalled l <-> 0 < signals l.
Proof.
  unfold signals. induction l as [|o l IH]; cbn; [split; [intros [t H]; by apply elem_of_nil in H|lia]|].
  destruct o; cbn; try (rewrite sig_cons by done; done). split; [lia|]. intros _. eexists. apply elem_of_list_here.
Qed.

(** ** Windows *)
Record WInv (s : wst) : Prop := {
  w_val : wval s = to_signed 16 (Z.of_nat (signals (wlog s)));
  w_sleep : forall t, wpcs s t = WAsleep -> wval s <> 0%Z -> exists w, wpcs s w = WWaking;
  w_hon : (Z.of_nat (signals (wlog s)) < 65536)%Z -> honest (wlog s) }.
Lemma to_signed_add x : to_signed 16 (to_signed 16 x + 1) = to_signed 16 (x + 1).
Proof.
  unfold to_signed. destruct (wrap 16 x <? 2 ^ (16 - 1))%Z.
  - by rewrite wrap_add_l.
  - replace (wrap 16 (wrap 16 x - 2 ^ 16 + 1)) with (wrap 16 (x + 1)); [done|]. unfold wrap. replace (x mod 2 ^ 16 - 2 ^ 16 + 1)%Z with (x mod 2 ^ 16 + 1 + (-1) * 2 ^ 16)%Z by lia.
    rewrite Z.mod_add by lia. by rewrite Zplus_mod_idemp_l.
Qed.
Lemma to_signed_zero (n : nat) : (Z.of_nat n < 65536)%Z -> to_signed 16 (Z.of_nat n) = 0%Z <-> n = 0.
Proof.
  intros L. unfold to_signed. rewrite wrap_small by (unfold is_u; split; [lia|]; change (2 ^ 16)%Z with 65536%Z; lia).
  destruct (Z.ltb_spec (Z.of_nat n) (2 ^ (16 - 1))%Z); change (2 ^ 16)%Z with 65536%Z; lia.
Qed.
Lemma val_signalled s : WInv s -> (Z.of_nat (signals (wlog s)) < 65536)%Z -> (wval s <> 0%Z <-> signalled (wlog s)).
Proof. intros I L. rewrite (w_val _ I), signals_pos. rewrite to_signed_zero by done. lia. Qed.
Lemma wset_inv s t q : WInv s -> wpcs s t <> WWaking -> (q = WAsleep -> wval s = 0%Z) -> WInv (wset t q s).
Proof.
  intros [I1 I2 I3] Nw Ha. split; cbn; try done. intros u. destruct (decide (u = t)) as [->|N].
  - rewrite upd_eq. intros E Nv. by rewrite Ha in Nv.
  - rewrite upd_ne by done. intros E Nv. destruct (I2 u E Nv) as [w Ew]. exists w. rewrite upd_ne; [done|]. congruence.
Qed.
Lemma wsay_inv s o : WInv s -> is_signal o = false -> ((Z.of_nat (signals (wlog s)) < 65536)%Z -> honest (o :: wlog s)) -> WInv (wsay o s).
Proof. intros [I1 I2 I3] No H. split; cbn [wsay wpcs wval wlog]; unfold signals in *; cbn [List.filter]; rewrite ?No; done. Qed.
Lemma wmicro_inv s t : WInv s -> WInv (wmicro s t).
Proof.
  intros I. unfold wmicro. destruct (wpcs s t) eqn:Et; try done.
  - destruct I as [I1 I2 I3]. split; cbn [wsay wset wpcs wval wlog].
    + change (signals (OSignal t :: wlog s)) with (S (signals (wlog s))). rewrite Nat2Z.inj_succ. unfold Z.succ. rewrite I1. apply to_signed_add.
    + intros u Eu _. exists t. by rewrite upd_eq.
    + unfold signals. cbn. intros L. split; [|done]. apply I3. unfold signals. lia.
  - destruct I as [I1 I2 I3]. split; cbn; try done. intros u. destruct (decide (u = t)) as [->|N]; [by rewrite upd_eq|]. rewrite upd_ne by done. destruct (wpcs s u); done.
  - destruct (Z.eqb_spec (wval s) 0) as [E|E].
    + apply wset_inv; [done|congruence|done].
    + apply wsay_inv; [apply wset_inv; [done|congruence|done]|done|]. cbn. intros L. split; [by apply (w_hon _ I)|]. by apply (val_signalled s I).
  - destruct (Z.eqb_spec (wval s) 0); (apply wset_inv; [done|congruence|done]).
  - apply wsay_inv; [apply wset_inv; [done|congruence|done]|done|]. cbn. intros L. split; [by apply (w_hon _ I)|]. rewrite <- (val_signalled s I) by done. destruct (Z.eqb_spec (wval s) 0); cbn; split; done.
Qed.
Lemma wrun_inv es : forall s, WInv s -> WInv (wrun s es).
Proof.
  induction es as [|e es IH]; intros s I; [done|]. cbn. apply IH. destruct e as [t c|t|t]; cbn.
  - destruct (wpcs s t) eqn:E; try done. apply wset_inv; [done|congruence|by destruct c].
  - by apply wmicro_inv.
  - destruct (wpcs s t) eqn:E; try done. apply wset_inv; [done|congruence|done].
Qed.
Lemma winit_inv : WInv winit.
Proof. by split. Qed.
(** C47 on Windows, while there are fewer than 2^16 signals: block() returns only after a signal, ready() tells
    whether there was one, and no sleeper is forgotten. *)
Theorem flag_w32_partial es : let s := wrun winit es in (Z.of_nat (signals (wlog s)) < 65536)%Z ->
  honest (wlog s) /\
  (forall t, signalled (wlog s) -> wpcs s t = WAsleep -> exists w, wpcs s w = WWaking /\ wpcs (wstep s (Step w)) t = WLoading) /\
  (forall t, signalled (wlog s) -> wpcs s t = WLoading -> OUnblock t ∈ wlog (wrun s [Step t])) /\
  (forall t, signalled (wlog s) -> wpcs s t = WCalling -> OUnblock t ∈ wlog (wrun s [Step t; Step t])).
Proof.
  intros s L. pose proof (wrun_inv es winit winit_inv) as I. fold s in I. split; [by apply (w_hon _ I)|]. split; [|split]; intros t Sg Et.
  - destruct (w_sleep _ I t Et) as [w Ew]; [by apply (val_signalled s I)|]. exists w. split; [done|]. cbn. unfold wmicro. rewrite Ew. cbn. rewrite upd_ne by congruence. by rewrite Et.
  - cbn. unfold wmicro. rewrite Et. apply (val_signalled s I L) in Sg. apply Z.eqb_neq in Sg. rewrite Sg. apply elem_of_list_here.
  - cbn. apply (val_signalled s I L) in Sg. apply Z.eqb_neq in Sg. unfold wmicro at 2. rewrite Et, Sg. unfold wmicro. cbn [wset wpcs wval]. rewrite upd_eq, Sg. apply elem_of_list_here.
Qed.
Example flag_w32_ex : let s := wrun winit [Begin 0 Block; Step 0; Step 0; Begin 1 Block; Step 1; Begin 2 Signal; Step 2] in
  wpcs s 0 = WAsleep /\ wpcs s 1 = WCalling /\ wpcs s 2 = WWaking /\ wlog s = [OSignal 2].
Proof. by vm_compute. Qed.
(** Each signal adds 1 to 16 bits: after 65536 signals the flag is not set, and who then blocks sleeps for good
    unless somebody signals once more. *)
Definition one_signal : list event := [Begin 0 Signal; Step 0; Step 0].
Fixpoint many (n : nat) : list event := match n with O => [] | S n => many n ++ one_signal end.
Lemma wrun_app s l1 l2 : wrun s (l1 ++ l2) = wrun (wrun s l1) l2.
Proof. apply fold_left_app. Qed.
Lemma many_ok n : let s := wrun winit (many n) in signals (wlog s) = n /\ forall t, wpcs s t = WIdle.
Proof.
  induction n as [|n IH]; [done|]. cbn [many]. rewrite wrun_app. cbv zeta in *. destruct IH as [E P]. set (s := wrun winit (many n)) in *. clearbody s.
  unfold one_signal. cbn [wrun fold_left wstep]. rewrite P.
  assert (wmicro (wset 0 WAdding s) 0 = wsay (OSignal 0) (wset 0 WWaking (WSt (upd (wpcs s) 0 WAdding) (to_signed 16 (wval s + 1)) (wlog s)))) as -> by (unfold wmicro; cbn [wset wpcs]; by rewrite upd_eq).
  match goal with |- context [wmicro ?a 0] => set (s1 := a) end. assert (wpcs s1 0 = WWaking) as E1 by (subst s1; cbn; by rewrite upd_eq).
  unfold wmicro. rewrite E1. subst s1. cbn [wsay wset wpcs wlog wval].
  split; [unfold signals in *; cbn; by rewrite E|]. intros t. destruct (decide (t = 0)) as [->|N]; [by rewrite upd_eq|]. rewrite upd_ne by exact N. rewrite upd_ne by exact N. rewrite upd_ne by exact N. by rewrite P.
Qed.
Theorem flag_w32_wrap_refuted : exists es, let s := wrun winit es in
  signalled (wlog s) /\ (forall t, wpcs s t = WIdle) /\
  (exists l, wlog (wrun s [Begin 1 Ready; Step 1]) = OReady 1 false :: l) /\
  wpcs (wrun s [Begin 1 Block; Step 1; Step 1]) 1 = WAsleep /\ (forall w, wpcs (wrun s [Begin 1 Block; Step 1; Step 1]) w <> WWaking).
Proof.
  assert (exists n, Z.of_nat n = 65536%Z) as [n En] by (exists (Z.to_nat 65536); by rewrite Z2Nat.id).
  exists (many n). destruct (many_ok n) as [E P]. pose proof (wrun_inv (many n) winit winit_inv) as I.
  cbv zeta. set (s := wrun winit (many n)) in *. clearbody s.
  assert (wval s = 0%Z) as V by (rewrite (w_val _ I), E, En; by vm_compute).
  split; [apply signals_pos; rewrite E; lia|]. split; [done|]. split; [|split].
  - cbn [wrun fold_left wstep]. rewrite P. unfold wmicro. cbn [wset wpcs wval wlog wsay]. rewrite upd_eq, V. eexists. done.
  - cbn [wrun fold_left wstep]. rewrite P. unfold wmicro at 2. cbn [wset wpcs wval]. rewrite upd_eq, V. cbn [Z.eqb]. unfold wmicro. cbn [wset wpcs wval]. rewrite upd_eq, V. cbn. by rewrite upd_eq.
  - intros w. cbn [wrun fold_left wstep]. rewrite P. unfold wmicro at 2. cbn [wset wpcs wval]. rewrite upd_eq, V. cbn [Z.eqb]. unfold wmicro. cbn [wset wpcs wval]. rewrite upd_eq, V. cbn.
    destruct (decide (w = 1)) as [->|N]; [by rewrite upd_eq|]. rewrite !upd_ne by done. by rewrite P.
Qed.

Theorem flag_w32_destroy_refuted : exists es, let s := wrun winit es in wlog s = [OUnblock 0; OSignal 1] /\ wpcs s 1 = WWaking.
Proof. exists [Begin 1 Signal; Step 1; Begin 0 Block; Step 0]. by vm_compute. Qed.

(** ** macOS *)
Definition holds (q : mpc) : bool := match q with MChecking | MLeaving | MSetting | MBroadcast | MSignalled | MReading | MRead => true | _ => false end.
Record MInv (s : mst) : Prop := {
  m_val : mval s = true <-> signalled (mlog s);
  m_hold : forall t, holds (mpcs s t) = true <-> mholder s = Some t;
  m_sleep : forall t, mpcs s t = MSleeping -> mval s = true -> exists w, mpcs s w = MBroadcast;
  m_leave : forall t, mpcs s t = MLeaving -> signalled (mlog s);
  m_hon : honest (mlog s) }.
Lemma minit_inv : MInv minit.
Proof. split; cbn; try done. split; [done|]. intros [t H]. by apply elem_of_nil in H. Qed.
(** A thread that has or gets the mutex goes on. *)
Lemma acquire_inv s t q : MInv s -> holds (mpcs s t) = false -> mpcs s t <> MSleeping -> holds q = true -> q <> MBroadcast -> q <> MLeaving -> MInv (acquire t q s).
Proof.
  intros I Ht Hs Hq Nb Nl. unfold acquire. destruct (mholder s) eqn:Eh; [done|]. destruct I as [I1 I2 I3 I4 I5]. split; cbn; try done.
  - intros u. destruct (decide (u = t)) as [->|N]; [rewrite upd_eq; by rewrite Hq|]. rewrite upd_ne by done. rewrite I2, Eh. split; congruence.
  - intros u. destruct (decide (u = t)) as [->|N]; [rewrite upd_eq; intros ->; done|]. rewrite upd_ne by done. intros E V. destruct (I3 u E V) as [w Ew]. exists w. rewrite upd_ne; [done|]. intros ->. rewrite Ew in Ht. done.
  - intros u. destruct (decide (u = t)) as [->|N]; [by rewrite upd_eq|]. rewrite upd_ne by done. apply I4.
Qed.
Lemma mmicro_inv s t : MInv s -> MInv (mmicro s t).
Proof.
  intros I. unfold mmicro. destruct (mpcs s t) eqn:Et; try done; try (apply acquire_inv; rewrite ?Et; done).
  all: assert (Hh : mholder s = Some t) by (apply (m_hold _ I); by rewrite Et).
  all: assert (Ho : forall u, u <> t -> holds (mpcs s u) = false) by (intros u Nu; destruct (holds (mpcs s u)) eqn:E; [|done]; apply (m_hold _ I) in E; congruence).
  all: pose proof I as [I1 I2 I3 I4 I5].
  - destruct (mval s) eqn:Ev.
    + split; cbn; try done.
      * by rewrite Ev.
      * intros u. destruct (decide (u = t)) as [->|N]; [rewrite upd_eq; done|]. rewrite upd_ne by done. rewrite Ho, Hh by done. split; congruence.
      * intros u. destruct (decide (u = t)) as [->|N]; [by rewrite upd_eq|]. rewrite upd_ne by done. intros E V. destruct (I3 u E eq_refl) as [w Ew]. exists w. rewrite upd_ne; congruence.
      * intros u. destruct (decide (u = t)) as [->|N]; [intros _; by apply I1|]. rewrite upd_ne by done. apply I4.
    + split; cbn; try done.
      * by rewrite Ev.
      * intros u. destruct (decide (u = t)) as [->|N]; [rewrite upd_eq; done|]. rewrite upd_ne by done. rewrite Ho by done. done.
      * congruence.
      * intros u. destruct (decide (u = t)) as [->|N]; [by rewrite upd_eq|]. rewrite upd_ne by done. apply I4.
  - split; cbn.
    + rewrite sig_cons by done. done.
    + intros u. destruct (decide (u = t)) as [->|N]; [rewrite upd_eq; done|]. rewrite upd_ne by done. rewrite Ho by done. done.
    + intros u. destruct (decide (u = t)) as [->|N]; [by rewrite upd_eq|]. rewrite upd_ne by done. intros E V. destruct (I3 u E V) as [w Ew]. exists w. rewrite upd_ne; congruence.
    + intros u. destruct (decide (u = t)) as [->|N]; [by rewrite upd_eq|]. rewrite upd_ne by done. rewrite sig_cons by done. apply I4.
    + split; [done|]. by apply (I4 t).
  - split; cbn.
    + split; [intros _; eexists; apply elem_of_list_here|done].
    + intros u. destruct (decide (u = t)) as [->|N]; [rewrite upd_eq; done|]. rewrite upd_ne by done. rewrite Ho, Hh by done. split; congruence.
    + intros u E _. exists t. by rewrite upd_eq.
    + intros u _. eexists. apply elem_of_list_here.
    + done.
  - split; cbn; try done.
    + intros u. destruct (decide (u = t)) as [->|N]; [rewrite upd_eq; done|]. rewrite upd_ne by done. rewrite Hh. pose proof (Ho u N) as H. destruct (mpcs s u); cbn in *; try done; split; congruence.
    + intros u. destruct (decide (u = t)) as [->|N]; [by rewrite upd_eq|]. rewrite upd_ne by done. by destruct (mpcs s u).
    + intros u. destruct (decide (u = t)) as [->|N]; [by rewrite upd_eq|]. rewrite upd_ne by done. destruct (mpcs s u) eqn:E; try done. intros _. by apply (I4 u).
  - split; cbn; try done.
    + intros u. destruct (decide (u = t)) as [->|N]; [rewrite upd_eq; done|]. rewrite upd_ne by done. rewrite Ho by done. done.
    + intros u. destruct (decide (u = t)) as [->|N]; [by rewrite upd_eq|]. rewrite upd_ne by done. intros E V. destruct (I3 u E V) as [w Ew]. exists w. rewrite upd_ne; congruence.
    + intros u. destruct (decide (u = t)) as [->|N]; [by rewrite upd_eq|]. rewrite upd_ne by done. apply I4.
  - split; cbn.
    + rewrite sig_cons by done. done.
    + intros u. destruct (decide (u = t)) as [->|N]; [rewrite upd_eq; done|]. rewrite upd_ne by done. rewrite Ho, Hh by done. split; congruence.
    + intros u. destruct (decide (u = t)) as [->|N]; [by rewrite upd_eq|]. rewrite upd_ne by done. intros E V. destruct (I3 u E V) as [w Ew]. exists w. rewrite upd_ne; congruence.
    + intros u. destruct (decide (u = t)) as [->|N]; [by rewrite upd_eq|]. rewrite upd_ne by done. rewrite sig_cons by done. apply I4.
    + done.
  - split; cbn; try done.
    + intros u. destruct (decide (u = t)) as [->|N]; [rewrite upd_eq; done|]. rewrite upd_ne by done. rewrite Ho by done. done.
    + intros u. destruct (decide (u = t)) as [->|N]; [by rewrite upd_eq|]. rewrite upd_ne by done. intros E V. destruct (I3 u E V) as [w Ew]. exists w. rewrite upd_ne; congruence.
    + intros u. destruct (decide (u = t)) as [->|N]; [by rewrite upd_eq|]. rewrite upd_ne by done. apply I4.
Qed.
Lemma mset_inv s t q : MInv s -> mpcs s t = MIdle \/ mpcs s t = MSleeping -> holds q = false -> q <> MSleeping -> MInv (mset t q s).
Proof.
  intros [I1 I2 I3 I4 I5] Et Hq Ns. split; cbn; try done.
  - intros u. destruct (decide (u = t)) as [->|N]; [|by rewrite upd_ne]. rewrite upd_eq, Hq. rewrite <- I2. destruct Et as [-> | ->]; done.
  - intros u. destruct (decide (u = t)) as [->|N]; [by rewrite upd_eq|]. rewrite upd_ne by done. intros E V. destruct (I3 u E V) as [w Ew]. exists w. rewrite upd_ne; [done|]. intros ->. destruct Et; congruence.
  - intros u. destruct (decide (u = t)) as [->|N]; [rewrite upd_eq; intros ->; done|]. rewrite upd_ne by done. apply I4.
Qed.
Lemma mrun_inv es : forall s, MInv s -> MInv (mrun s es).
Proof.
  induction es as [|e es IH]; intros s I; [done|]. cbn. apply IH. destruct e as [t c|t|t]; cbn.
  - destruct (mpcs s t) eqn:E; try done. apply mset_inv; [done|by left|by destruct c|by destruct c].
  - by apply mmicro_inv.
  - destruct (mpcs s t) eqn:E; try done. apply mset_inv; [done|by right|done|done].
Qed.
(** C47 on macOS: as on Linux, whatever the interleaving; the mutex is held by one thread at a time. *)
Theorem flag_macos es : let s := mrun minit es in
  honest (mlog s) /\
  (forall t u, holds (mpcs s t) = true -> holds (mpcs s u) = true -> t = u) /\
  (forall t, signalled (mlog s) -> mpcs s t = MSleeping -> exists w, mpcs s w = MBroadcast /\ mpcs (mstep s (Step w)) t = MWantBlock) /\
  (forall t, signalled (mlog s) -> mpcs s t = MWantBlock -> mholder s = None -> OUnblock t ∈ mlog (mrun s [Step t; Step t; Step t])).
Proof.
  intros s. pose proof (mrun_inv es minit minit_inv) as I. fold s in I. split; [apply (m_hon _ I)|]. split; [|split].
  - intros t u Ht Hu. apply (m_hold _ I) in Ht, Hu. congruence.
  - intros t Sg Et. destruct (m_sleep _ I t Et) as [w Ew]; [by apply (m_val _ I)|]. exists w. split; [done|]. cbn. unfold mmicro. rewrite Ew. cbn. rewrite upd_ne by congruence. by rewrite Et.
  - intros t Sg Et Hn. apply (m_val _ I) in Sg. cbn. unfold mmicro at 3. rewrite Et. unfold acquire. rewrite Hn. unfold mmicro at 2. cbn [mset mhold mpcs mval]. rewrite upd_eq, Sg. unfold mmicro. cbn [mset mhold mpcs mval]. rewrite upd_eq.
    apply elem_of_list_here.
Qed.
(** The mutex is always free or about to be freed: its holder has at most three steps to go. *)
Theorem flag_macos_mutex es t : let s := mrun minit es in mholder s = Some t -> exists k, k <= 3 /\ mholder (mrun s (replicate k (Step t))) = None.
Proof.
  intros s H. pose proof (mrun_inv es minit minit_inv) as I. fold s in I. pose proof (proj2 (m_hold _ I t) H) as Hh. clearbody s. destruct (mpcs s t) eqn:Et; try done.
  - destruct (mval s) eqn:Ev; [exists 2|exists 1]; (split; [lia|]); cbn; unfold mmicro.
    + rewrite Et, Ev. cbn [mset mpcs]. by rewrite upd_eq.
    + by rewrite Et, Ev.
  - exists 1. split; [lia|]. cbn. unfold mmicro. by rewrite Et.
  - exists 3. split; [lia|]. cbn. unfold mmicro at 3. rewrite Et. unfold mmicro at 2. cbn [msay mset mpcs]. rewrite upd_eq. unfold mmicro. cbn [mpcs]. by rewrite upd_eq.
  - exists 2. split; [lia|]. cbn. unfold mmicro at 2. rewrite Et. unfold mmicro. cbn [mpcs]. by rewrite upd_eq.
  - exists 1. split; [lia|]. cbn. unfold mmicro. by rewrite Et.
  - exists 2. split; [lia|]. cbn. unfold mmicro at 2. rewrite Et. unfold mmicro. cbn [msay mset mpcs]. by rewrite upd_eq.
  - exists 1. split; [lia|]. cbn. unfold mmicro. by rewrite Et.
Qed.
(** When block() returns on macOS, every signal that has set the flag is done with it. *)
Theorem flag_macos_destroy es t : let s := mrun minit es in mpcs s t = MLeaving ->
  let s' := mstep s (Step t) in OUnblock t ∈ mlog s' /\ forall u, mpcs s' u <> MBroadcast /\ mpcs s' u <> MSignalled.
Proof.
  intros s E. pose proof (mrun_inv es minit minit_inv) as I. fold s in I. cbn. unfold mmicro. rewrite E. split; [apply elem_of_list_here|]. intros u. cbn.
  assert (mholder s = Some t) as Hh by (apply (m_hold _ I); by rewrite E). destruct (decide (u = t)) as [->|N]; [by rewrite upd_eq|]. rewrite upd_ne by done.
  destruct (holds (mpcs s u)) eqn:Hu; [apply (m_hold _ I) in Hu; congruence|]. split; intros Eu; rewrite Eu in Hu; done.
Qed.
Example flag_macos_destroy_ex : mpcs (mrun minit [Begin 1 Signal; Step 1; Begin 0 Block; Step 1; Step 1; Step 1; Step 0; Step 0]) 0 = MLeaving.
Proof. by vm_compute. Qed.
Example flag_macos_ex : let s := mrun minit [Begin 0 Block; Step 0; Step 0; Begin 1 Signal; Step 1; Step 1] in
  mpcs s 0 = MSleeping /\ mpcs s 1 = MBroadcast /\ mholder s = Some 1 /\ mlog s = [OSignal 1].
Proof. by vm_compute. Qed.
Print Assumptions flag_w32_partial.
Print Assumptions flag_w32_wrap_refuted.
Print Assumptions flag_macos.
Print Assumptions flag_macos_mutex.
Print Assumptions flag_w32_destroy_refuted.
Print Assumptions flag_macos_destroy.
