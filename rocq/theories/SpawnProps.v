(** C87: a spawned call and its Future. *)
From Verif Require Import Base Word SpawnModel SpawnSpec.
Local Open Scope nat_scope.

Definition gsum (f : agent -> nat) (l : list agent) : nat := list_sum (map f l).
Lemma gsum_app f l1 l2 : gsum f (l1 ++ l2) = gsum f l1 + gsum f l2.
Proof. unfold gsum. by rewrite map_app, list_sum_app. Qed.
Lemma gsum_cons f g l : gsum f (g :: l) = f g + gsum f l.
Proof. done. Qed.
Lemma gsum_insert f l t g g' : l !! t = Some g -> gsum f (<[t := g']> l) + f g = gsum f l + f g'.
Proof.
  intros E. rewrite <- (take_drop_middle _ _ _ E) at 2. rewrite insert_take_drop by (by eapply lookup_lt_Some).
  rewrite !gsum_app, !gsum_cons. lia.
Qed.
Lemma gsum_le f l t g : l !! t = Some g -> f g <= gsum f l.
Proof. intros E. rewrite <- (take_drop_middle _ _ _ E), gsum_app, gsum_cons. lia. Qed.
Lemma gsum_zero f l : (forall g, f g = 0) -> gsum f l = 0.
Proof. intros H. induction l as [|x l IH]; [done|]. by rewrite gsum_cons, H, IH. Qed.
Lemma gsum_fmap f h l : (forall g, f (h g) = f g) -> gsum f (h <$> l) = gsum f l.
Proof. intros H. induction l as [|x l IH]; [done|]. rewrite fmap_cons, !gsum_cons. by rewrite H, IH. Qed.
Lemma handles_eq s : handles s = gsum hands (agents s) + worker_hand (worker s).
Proof. unfold handles. induction (agents s) as [|g l IH]; [done|]. cbn [foldr]. rewrite IH, gsum_cons. lia. Qed.
Definition dst (g : agent) : nat := match at_ g with Destroying => 1 | _ => 0 end.
Definition fre (g : agent) : nat := match at_ g with Freeing => 1 | _ => 0 end.
Definition wdst (w : wpc) : nat := match w with WDestroying => 1 | _ => 0 end.
Definition wfre (w : wpc) : nat := match w with WFreeing => 1 | _ => 0 end.
Definition past (w : wpc) : bool := match w with WCalling | WStoring _ | WExchanging => false | _ => true end.
Definition busy (q : pc) : bool := match q with Idle | Destroying | Freeing => false | _ => true end.

Definition acct (L : list agent) (w : wpc) (r : Z) (a : life) : Prop :=
  let H := gsum hands L + worker_hand w in let D := gsum dst L + wdst w in let F := gsum fre L + wfre w in
  r = Z.of_nat H /\
  match a with
  | Live => F = 0 /\ (H = 0 /\ D = 1 \/ 0 < H /\ D = 0)
  | Destroyed => H = 0 /\ D = 0 /\ F = 1
  | Freed => H = 0 /\ D = 0 /\ F = 0
  end.
Definition okg (fl : bool) (w : wpc) (g : agent) : Prop :=
  (busy (at_ g) = true -> 1 <= hands g) /\ (at_ g = Reading -> fl = true) /\ (at_ g = Asleep -> fl = true -> w = WWaking).
Definition nogot (l : list obs) : Prop := forall u x, OGot u x ∉ l.
Definition data (v : nat) (w : wpc) (fl : bool) (x : option nat) (l : list obs) : Prop :=
  fl = past w /\
  match w with
  | WCalling => OCalled ∉ l /\ nogot l
  | WStoring y => y = v /\ OCalled ∈ l /\ nogot l
  | WExchanging => x = Some v /\ OCalled ∈ l /\ nogot l
  | _ => OCalled ∈ l /\ (x = Some v /\ nogot l \/ x = None /\ exists u, OGot u (Some v) ∈ l)
  end.
Definition lives (a : life) (l : list obs) : Prop :=
  match a with
  | Live => ODestroyed ∉ l /\ OFreed ∉ l
  | Destroyed => ODestroyed ∈ l /\ OFreed ∉ l
  | Freed => ODestroyed ∈ l /\ OFreed ∈ l
  end.
Record Inv (v : nat) (N : Z) (s : st) : Prop := {
  i_acct : acct (agents s) (worker s) (refs s) (alive s);
  i_max : (refs s <= N)%Z;
  i_agents : Forall (okg (flag s) (worker s)) (agents s);
  i_data : data v (worker s) (flag s) (value s) (log s);
  i_lives : lives (alive s) (log s);
  i_hon : honest v (log s) }.
Lemma init_inv v n : Inv v 2 (init n).
Proof.
  split; cbn.
  - unfold acct. rewrite !gsum_cons. assert (forall f : agent -> nat, f (Agent 0 Idle) = 0 -> gsum f (replicate n (Agent 0 Idle)) = 0) as Z0.
    { intros f Hf. induction n as [|n IH]; [done|]. cbn [replicate]. by rewrite gsum_cons, Hf, IH. }
    rewrite !Z0 by done. cbn. lia.
  - lia.
  - apply Forall_cons. split; [split_and!; done|]. apply Forall_replicate. split_and!; done.
  - split; [done|]. split; [by intros ?%elem_of_nil|]. intros u x ?%elem_of_nil. done.
  - split; by intros ?%elem_of_nil.
  - done.
Qed.
Lemma signed_small x : (0 <= x < 2 ^ 63)%Z -> to_signed 64 x = x.
Proof.
  intros L. unfold to_signed. rewrite wrap_small by (unfold is_u; change (2 ^ 64)%Z with (2 * 2 ^ 63)%Z; lia). change (64 - 1)%Z with 63%Z.
  destruct (Z.ltb_spec x (2 ^ 63)%Z); lia.
Qed.
(** A log entry that changes nothing of the books. *)
Lemma data_cons v w fl x l o : data v w fl x l -> o <> OCalled -> (forall u y, o <> OGot u y) -> data v w fl x (o :: l).
Proof.
  intros [D1 D2] Nc Ng. split; [done|].
  assert (nogot l -> nogot (o :: l)) as G by (intros G u y [E|E]%elem_of_cons; [by apply (Ng u y)|by apply (G u y)]).
  assert (OCalled ∈ l -> OCalled ∈ o :: l) as C by (by apply elem_of_list_further).
  destruct w; try (destruct D2 as [Hc [[-> Hg]|[-> [u Hu]]]]; (split; [by apply C|]); [left; split; [done|by apply G]|right; split; [done|exists u; by apply elem_of_list_further]]).
  - destruct D2 as [Hc Hg]. split; [|by apply G]. by intros [E|E]%elem_of_cons.
  - destruct D2 as (-> & Hc & Hg). split_and!; [done|by apply C|by apply G].
  - destruct D2 as (-> & Hc & Hg). split_and!; [done|by apply C|by apply G].
Qed.
Lemma lives_cons a l o : lives a l -> o <> ODestroyed -> o <> OFreed -> lives a (o :: l).
Proof.
  intros H N1 N2. assert (forall p : obs, o <> p -> p ∈ o :: l <-> p ∈ l) as E.
  { intros p Np. rewrite elem_of_cons. split; [intros [->|]; [done|done]|by right]. }
  pose proof (E ODestroyed N1). pose proof (E OFreed N2). destruct a; cbn in *; tauto.
Qed.
Lemma nil_got v w fl x l : data v w fl x l -> fl = false -> nogot l.
Proof. intros [D1 D2] ->. destruct w; try done; tauto. Qed.
Lemma past_called v w fl x l : data v w fl x l -> fl = true -> OCalled ∈ l /\ (x = Some v /\ nogot l \/ x = None /\ exists u, OGot u (Some v) ∈ l).
Proof. intros [D1 D2] ->. destruct w; try done. Qed.
Lemma hand_past v w fl x l : data v w fl x l -> worker_hand w = 0 -> OCalled ∈ l.
Proof. intros [D1 D2] H. destruct w; try done; tauto. Qed.
Ltac sums t g g' := pose proof (gsum_insert hands _ t g g' ltac:(eassumption)); pose proof (gsum_insert dst _ t g g' ltac:(eassumption)); pose proof (gsum_insert fre _ t g g' ltac:(eassumption)).
Lemma agents_insert v N s t g' : Inv v N s -> okg (flag s) (worker s) g' -> Forall (okg (flag s) (worker s)) (<[t := g']> (agents s)).
Proof. intros I H. apply Forall_insert; [apply I|done]. Qed.
(** A thread that holds a handle or destroys the promise finds it in the right state. *)
Lemma acct_live L w r a t g : acct L w r a -> L !! t = Some g -> 1 <= hands g -> a = Live.
Proof. intros A E H. pose proof (gsum_le hands _ _ _ E). unfold acct in A. destruct a; [done|lia|lia]. Qed.
Lemma micro_inv v N s t g : (N < 2 ^ 63)%Z -> Inv v N s -> agents s !! t = Some g -> match micro s t g with Ok s' => Inv v N s' | _ => False end.
Proof.
  intros LN I E. pose proof (i_acct _ _ _ I) as A. assert (okg (flag s) (worker s) g) as (Hb & Hr & Hs) by (eapply Forall_lookup_1; [apply I|done]).
  assert (0 <= refs s < 2 ^ 63)%Z as Rr by (pose proof (i_max _ _ _ I); unfold acct in A; lia).
  unfold micro. destruct (at_ g) eqn:Eg; cbn in Hb; try done; unfold touch; try (rewrite (acct_live _ _ _ _ _ _ A E) by (by apply Hb)).
  - sums t g (Agent (hands g) (if flag s then Reading else Calling)). split; try apply I; cbn.
    + unfold acct in *. unfold dst, fre in *. cbn in *. rewrite Eg in *. destruct (flag s); cbn in *; destruct (alive s); lia.
    + apply (agents_insert v N); [done|]. split_and!; cbn; destruct (flag s); try done; intros; by apply Hb.
  - sums t g (Agent (hands g) (if flag s then Loading else Asleep)). split; try apply I; cbn.
    + unfold acct in *. unfold dst, fre in *. cbn in *. rewrite Eg in *. destruct (flag s); cbn in *; destruct (alive s); lia.
    + apply (agents_insert v N); [done|]. split_and!; cbn; destruct (flag s); try done; intros; by apply Hb.
  - sums t g (Agent (hands g) Idle). destruct (past_called _ _ _ _ _ (i_data _ _ _ I) (Hr eq_refl)) as [Hc Hv]. split; cbn.
    + unfold acct in *. unfold dst, fre in *. cbn in *. rewrite Eg in *. destruct (alive s); lia.
    + apply I.
    + apply (agents_insert v N); [done|]. split_and!; done.
    + destruct (i_data _ _ _ I) as [D1 D2]. split; [done|]. rewrite Hr in D1 by done. destruct (worker s); try done; (split; [by apply elem_of_list_further|]; right; split; [done|]; destruct Hv as [[-> _]|[-> [u Hu]]]; [exists t; apply elem_of_list_here|exists u; by apply elem_of_list_further]).
    + apply lives_cons; [apply I|done|done].
    + split; [apply I|]. split; [done|]. split; [pose proof (i_lives _ _ _ I) as V; rewrite (acct_live _ _ _ _ _ _ A E) in V by (by apply Hb); apply V|]. destruct Hv as [[-> Hg]|[-> Hu]]; [by left|by right].
  - sums t g (Agent (hands g) Idle). split; cbn.
    + unfold acct in *. unfold dst, fre in *. cbn in *. rewrite Eg in *. destruct (alive s); lia.
    + apply I.
    + apply (agents_insert v N); [done|]. split_and!; done.
    + apply data_cons; [apply I|done|done].
    + apply lives_cons; [apply I|done|done].
    + split; [apply I|]. split; [pose proof (i_lives _ _ _ I) as V; rewrite (acct_live _ _ _ _ _ _ A E) in V by (by apply Hb); apply V|].
      split; [intros F; by apply (past_called _ _ _ _ _ (i_data _ _ _ I))|intros F; by apply (nil_got _ _ _ _ _ (i_data _ _ _ I))].
  - pose proof (gsum_le hands _ _ _ E) as Gl. specialize (Hb eq_refl). assert (refs s = Z.of_nat (gsum hands (agents s) + worker_hand (worker s))) as Er by apply A.
    assert (decr (refs s) = refs s - 1)%Z as -> by (unfold decr; apply signed_small; lia).
    sums t g (Agent (hands g - 1) (if (refs s - 1 =? 0)%Z then Destroying else Idle)). pose proof (acct_live _ _ _ _ _ _ A E Hb) as Al. split; cbn; try apply I.
    + unfold acct in *. rewrite Al in *. unfold dst, fre in *. cbn in *. rewrite Eg in *. destruct (Z.eqb_spec (refs s - 1) 0); cbn in *; lia.
    + pose proof (i_max _ _ _ I). lia.
    + apply (agents_insert v N); [done|]. split_and!; cbn; by destruct (refs s - 1 =? 0)%Z.
  - pose proof (gsum_le dst _ _ _ E) as Gl. unfold dst in Gl at 1. rewrite Eg in Gl. unfold acct in A. pose proof A as A'. destruct (alive s) eqn:Al; [|lia|lia].
    sums t g (Agent (hands g) Freeing). assert (worker_hand (worker s) = 0) as W0 by lia. split; cbn; try apply I.
    + unfold acct. unfold dst, fre in *. cbn in *. rewrite Eg in *. cbn in *. lia.
    + apply (agents_insert v N); [done|]. split_and!; done.
    + apply data_cons; [apply I|done|done].
    + pose proof (i_lives _ _ _ I) as V. rewrite Al in V. destruct V as [V1 V2]. split; [apply elem_of_list_here|]. by intros [?|?]%elem_of_cons.
    + split; [apply I|]. split; [by apply (hand_past _ _ _ _ _ (i_data _ _ _ I))|]. pose proof (i_lives _ _ _ I) as V. rewrite Al in V. apply V.
  - pose proof (gsum_le fre _ _ _ E) as Gl. unfold fre in Gl at 1. rewrite Eg in Gl. unfold acct in A. pose proof A as A'. destruct (alive s) eqn:Al; [lia| |lia].
    sums t g (Agent (hands g) Idle). split; cbn; try apply I.
    + unfold acct. unfold dst, fre in *. cbn in *. rewrite Eg in *. cbn in *. lia.
    + apply (agents_insert v N); [done|]. split_and!; done.
    + apply data_cons; [apply I|done|done].
    + pose proof (i_lives _ _ _ I) as V. rewrite Al in V. destruct V as [V1 V2]. split; [by apply elem_of_list_further|apply elem_of_list_here].
    + split; [apply I|]. pose proof (i_lives _ _ _ I) as V. rewrite Al in V. done.
Qed.
Lemma okg_worker fl w w' g : okg fl w g -> (fl = true -> w = WWaking -> w' = WWaking) -> okg fl w' g.
Proof. intros (H1 & H2 & H3) H. split_and!; try done. intros E F. apply H; [done|]. by apply H3. Qed.
Lemma acct_wlive L w r a : acct L w r a -> worker_hand w = 1 -> a = Live.
Proof. intros A E. unfold acct in A. destruct a; [done|lia|lia]. Qed.
Lemma work_inv v N s : (N < 2 ^ 63)%Z -> Inv v N s -> match work v s with Ok s' => Inv v N s' | _ => False end.
Proof.
  intros LN I. pose proof (i_acct _ _ _ I) as A. pose proof (i_data _ _ _ I) as [D1 D2]. pose proof (i_lives _ _ _ I) as V. pose proof (i_agents _ _ _ I) as G.
  assert (0 <= refs s < 2 ^ 63)%Z as Rr by (pose proof (i_max _ _ _ I); unfold acct in A; lia).
  assert (forall w', (flag s = true -> worker s = WWaking -> w' = WWaking) -> Forall (okg (flag s) w') (agents s)) as Gw.
  { intros w' Hw. eapply Forall_impl; [apply G|]. intros g Hg. by eapply okg_worker. }
  unfold work. destruct (worker s) eqn:Ew; cbn in D1; unfold touch; try (rewrite (acct_wlive _ _ _ _ A) by done).
  - split; cbn; try apply I; try done; [by apply Gw| |by apply lives_cons|split; [apply I|tauto]]. destruct D2 as [_ D2]. split; [done|]. split; [done|]. split; [apply elem_of_list_here|]. intros u x [?|?]%elem_of_cons; [done|]. by apply (D2 u x).
  - split; cbn; try apply I; try done; [by apply Gw|]. destruct D2 as (-> & D2). split; done.
  - split; cbn; try apply I; try done.
    + eapply Forall_impl; [apply G|]. intros g (H1 & H2 & H3). split_and!; done.
    + split; [done|]. destruct D2 as (-> & D2 & D3). split; [done|]. by left.
  - split; cbn; try apply I; try done.
    + unfold acct in *. rewrite !gsum_fmap by (intros [h []]; done). done.
    + apply Forall_fmap. eapply Forall_impl; [apply G|]. intros [h q] (H1 & H2 & H3). cbn in *. split_and!; cbn; destruct q; try done; intros; by apply H1.
  - assert (refs s = Z.of_nat (gsum hands (agents s) + 1)) as Er by apply A. assert (decr (refs s) = refs s - 1)%Z as -> by (unfold decr; apply signed_small; lia).
    pose proof (acct_wlive _ _ _ _ A eq_refl) as Al. split; cbn; try apply I.
    + unfold acct in *. rewrite Al in *. cbn in *. destruct (Z.eqb_spec (refs s - 1) 0); cbn in *; lia.
    + pose proof (i_max _ _ _ I). lia.
    + apply Gw. done.
    + split; [by destruct (refs s - 1 =? 0)%Z|]. destruct (refs s - 1 =? 0)%Z; done.
  - unfold acct in A. cbn in A. pose proof A as A'. destruct (alive s) eqn:Al; [|lia|lia]. split; cbn; try apply I.
    + unfold acct. cbn in *. lia.
    + by apply Gw.
    + apply data_cons; [|done|done]. split; done.
    + split; [apply elem_of_list_here|]. intros [?|?]%elem_of_cons; [done|]. by apply V.
    + split; [apply I|]. split; [apply D2|apply V].
  - unfold acct in A. cbn in A. pose proof A as A'. destruct (alive s) eqn:Al; [lia| |lia]. split; cbn; try apply I.
    + unfold acct. cbn in *. lia.
    + by apply Gw.
    + apply data_cons; [|done|done]. split; done.
    + split; [by apply elem_of_list_further, V|apply elem_of_list_here].
    + split; [apply I|apply V].
  - done.
Qed.
Lemma Inv_mono v N M s : (N <= M)%Z -> Inv v N s -> Inv v M s.
Proof. intros H []. split; try done. lia. Qed.
Lemma step_inv v N s e : (0 <= N)%Z -> (N + 1 < 2 ^ 63)%Z -> Inv v N s -> match step v s e with Ok s' => Inv v (N + 1) s' | _ => False end.
Proof.
  intros N0 LN I. destruct e as [t c|t| |t]; cbn [step].
  - destruct (agents s !! t) as [g|] eqn:E; [|apply (Inv_mono _ N); [lia|done]]. destruct (at_ g) eqn:Eg; try (apply (Inv_mono _ N); [lia|done]).
    destruct (hands g) as [|h] eqn:Eh; [apply (Inv_mono _ N); [lia|done]|]. pose proof (i_acct _ _ _ I) as A.
    assert (alive s = Live) as Al by (eapply acct_live; [done|done|lia]).
    pose proof (gsum_le hands _ _ _ E) as Gl.
    destruct c; cbn [begin].
    + unfold touch. rewrite Al. sums t g (Agent (1 + hands g) Idle). assert (incr (refs s) = refs s + 1)%Z as -> by (unfold incr; apply signed_small; pose proof (i_max _ _ _ I); unfold acct in A; lia).
      split; cbn; try apply I.
      * unfold acct in *. rewrite Al in *. unfold dst, fre in *. rewrite Eg in *. cbn in *. lia.
      * pose proof (i_max _ _ _ I). lia.
      * apply (agents_insert v N); [done|]. split_and!; done.
    + apply (Inv_mono _ N); [lia|]. destruct (agents s !! u) as [g'|] eqn:E'; [|done]. destruct (decide (u = t)) as [|Nu]; [done|].
      sums t g (Agent (hands g - 1) Idle). assert (<[t:=Agent (hands g - 1) Idle]> (agents s) !! u = Some g') as E2 by (by rewrite list_lookup_insert_ne). pose proof (gsum_insert hands _ u g' (Agent (1 + hands g') (at_ g')) E2). pose proof (gsum_insert dst _ u g' (Agent (1 + hands g') (at_ g')) E2). pose proof (gsum_insert fre _ u g' (Agent (1 + hands g') (at_ g')) E2).
      split; cbn; try apply I.
      * unfold acct in *. rewrite Al in *. unfold dst, fre in *. rewrite Eg in *. cbn in *. lia.
      * apply Forall_insert; [apply (agents_insert v N); [done|]; split_and!; done|]. assert (okg (flag s) (worker s) g') as (Hb & Hr & Hs) by (eapply Forall_lookup_1; [apply I|done]). split_and!; cbn; try done. lia.
    + apply (Inv_mono _ N); [lia|]. sums t g (Agent (hands g) Loading). split; cbn; try apply I.
      * unfold acct in *. rewrite Al in *. unfold dst, fre in *. rewrite Eg in *. cbn in *. lia.
      * apply (agents_insert v N); [done|]. split_and!; cbn; try done. lia.
    + apply (Inv_mono _ N); [lia|]. sums t g (Agent (hands g) Asking). split; cbn; try apply I.
      * unfold acct in *. rewrite Al in *. unfold dst, fre in *. rewrite Eg in *. cbn in *. lia.
      * apply (agents_insert v N); [done|]. split_and!; cbn; try done. lia.
    + apply (Inv_mono _ N); [lia|]. sums t g (Agent (hands g) Dropping). split; cbn; try apply I.
      * unfold acct in *. rewrite Al in *. unfold dst, fre in *. rewrite Eg in *. cbn in *. lia.
      * apply (agents_insert v N); [done|]. split_and!; cbn; try done. lia.
  - destruct (agents s !! t) as [g|] eqn:E; [|apply (Inv_mono _ N); [lia|done]]. pose proof (micro_inv v N s t g ltac:(lia) I E) as H. destruct (micro s t g); try done. apply (Inv_mono _ N); [lia|done].
  - pose proof (work_inv v N s ltac:(lia) I) as H. destruct (work v s); try done. apply (Inv_mono _ N); [lia|done].
  - apply (Inv_mono _ N); [lia|]. destruct (agents s !! t) as [g|] eqn:E; [|done]. destruct (at_ g) eqn:Eg; try done. sums t g (Agent (hands g) Loading).
    assert (okg (flag s) (worker s) g) as (Hb & Hr & Hs) by (eapply Forall_lookup_1; [apply I|done]). pose proof (i_acct _ _ _ I) as A. split; cbn; try apply I.
    + unfold acct in *. unfold dst, fre in *. rewrite Eg in *. cbn in *. destruct (alive s); lia.
    + apply (agents_insert v N); [done|]. split_and!; cbn; try done. intros _. apply Hb. by rewrite Eg.
Qed.
Lemma run_inv v es : forall N s, (0 <= N)%Z -> (N + Z.of_nat (length es) < 2 ^ 63)%Z -> Inv v N s -> match run v s es with Ok s' => Inv v (N + Z.of_nat (length es)) s' | _ => False end.
Proof.
  induction es as [|e es IH]; intros N s N0 L I; cbn [run length] in *; [by rewrite Z.add_0_r|]. pose proof (step_inv v N s e N0 ltac:(lia) I) as H.
  destruct (step v s e) as [s'| | |]; try done. cbn [mbind res_bind]. pose proof (IH (N + 1)%Z s' ltac:(lia) ltac:(lia) H) as K. destruct (run v s' es); try done. eapply Inv_mono; [|done]. lia.
Qed.
Definition short (es : list event) : Prop := (2 + Z.of_nat (length es) < 2 ^ 63)%Z.
Lemma reach v n es s : short es -> run v (init n) es = Ok s -> Inv v (2 + Z.of_nat (length es)) s.
Proof. intros L R. pose proof (run_inv v es 2 (init n) ltac:(lia) L (init_inv v n)) as H. by rewrite R in H. Qed.

(** No schedule makes a thread touch the promise after it was destroyed; whatever is observed is right: f is
    called once, who blocks first gets its value after it returned, and the promise goes once. *)
Theorem spawn_safe v n es : short es -> exists s, run v (init n) es = Ok s /\ honest v (log s).
Proof. intros L. pose proof (run_inv v es 2 (init n) ltac:(lia) L (init_inv v n)) as H. destruct (run v (init n) es) as [s| | |]; try done. exists s. split; [done|]. apply H. Qed.
(** The promise lives exactly as long as there are handles, and is freed once all are gone. *)
Theorem spawn_lifetime v n es s : short es -> run v (init n) es = Ok s ->
  refs s = Z.of_nat (handles s) /\ (0 < handles s -> ODestroyed ∉ log s) /\ (at_rest s -> handles s = 0 -> OFreed ∈ log s).
Proof.
  intros L R. pose proof (reach _ _ _ _ L R) as I. rewrite handles_eq. pose proof (i_acct _ _ _ I) as A. pose proof (i_lives _ _ _ I) as V. unfold acct in A. split; [apply A|]. split.
  - intros H. destruct (alive s); [apply V|lia|lia].
  - intros [W F] H. destruct (alive s); [|exfalso|apply V].
    + exfalso. assert (gsum dst (agents s) = 0) as Z0; [|rewrite W in A; cbn in A; lia]. clear -F. induction F as [|g l E F IH]; [done|]. rewrite gsum_cons, IH. unfold dst. by rewrite E.
    + assert (gsum fre (agents s) = 0) as Z0; [|rewrite W in A; cbn in A; lia]. clear -F. induction F as [|g l E F IH]; [done|]. rewrite gsum_cons, IH. unfold fre. by rewrite E.
Qed.
(** The spawned thread needs nobody: it ends after at most seven steps of its own. *)
Theorem spawn_ends v n es s : short (es ++ replicate 7 Work) -> run v (init n) es = Ok s -> exists k s', k <= 7 /\ run v s (replicate k Work) = Ok s' /\ worker s' = WDone.
Proof.
  intros L R. assert (short es) as L' by (unfold short in *; rewrite app_length in L; lia). pose proof (reach _ _ _ _ L' R) as I. clear R.
  assert (2 + Z.of_nat (length es) + 7 < 2 ^ 63)%Z as LN by (unfold short in L; rewrite app_length in L; cbn in L; lia). clear L L'. set (N := (2 + Z.of_nat (length es))%Z) in *. clearbody N.
  set (rank := fun w => match w with WCalling => 7 | WStoring _ => 6 | WExchanging => 5 | WWaking => 4 | WDropping => 3 | WDestroying => 2 | WFreeing => 1 | WDone => 0 end).
  assert (forall k s, Inv v N s -> rank (worker s) <= k -> exists j s', j <= k /\ run v s (replicate j Work) = Ok s' /\ worker s' = WDone) as H.
  { clear s I. induction k as [|k IH]; intros s I K.
    - exists 0, s. split; [lia|]. split; [done|]. destruct (worker s); cbn in K; done || lia.
    - destruct (decide (worker s = WDone)) as [E|E]; [exists 0, s; split; [lia|done]|]. pose proof (work_inv v N s ltac:(lia) I) as H. destruct (work v s) as [s1| | |] eqn:Ew; try done.
      destruct (IH s1 H) as (j & s' & Hj & Rj & W). 
      + unfold work, touch in Ew. destruct (worker s) eqn:Es; cbn in K; try done; destruct (alive s); try done; injection Ew as <-; cbn; try lia. all: destruct (decr (refs s) =? 0)%Z; cbn; lia.
      + exists (S j), s'. split; [lia|]. split; [|done]. cbn [replicate run step]. rewrite Ew. done. }
  destruct (H 7 s I) as (j & s' & Hj & Rj & W); [destruct (worker s); cbn; lia|]. by exists j, s'.
Qed.
(** Nobody sleeps for good: once the spawned thread is past its wake-up no one sleeps, and a blocked thread
    returns in at most three steps of its own. *)
Theorem spawn_block_returns v n es s t g : short (es ++ replicate 3 (Step t)) -> run v (init n) es = Ok s -> worker s = WDone \/ worker s = WDropping -> agents s !! t = Some g -> at_ g = Loading \/ at_ g = Calling \/ at_ g = Asleep ->
  at_ g <> Asleep /\ exists k s' r, k <= 3 /\ run v s (replicate k (Step t)) = Ok s' /\ log s' = OGot t r :: log s.
Proof.
  intros L R W E Hg. assert (short es) as L' by (unfold short in *; rewrite app_length in L; lia). pose proof (reach _ _ _ _ L' R) as I.
  assert (flag s = true) as F by (destruct (i_data _ _ _ I) as [-> _]; destruct W as [-> | ->]; done). assert (okg (flag s) (worker s) g) as (Hb & Hr & Hs) by (eapply Forall_lookup_1; [apply I|done]).
  assert (at_ g <> Asleep) as Na by (intros Ea; specialize (Hs Ea F); destruct W; congruence). split; [done|].
  assert (alive s = Live) as Al by (eapply acct_live; [apply I|done|]; apply Hb; destruct Hg as [-> |[-> | ->]]; done).
  assert (t < length (agents s)) as Lt by (by eapply lookup_lt_Some).
  assert (forall s g q es', alive s = Live -> agents s !! t = Some g -> at_ g = Loading -> flag s = true -> q = Agent (hands g) Reading -> run v s (Step t :: es') = run v (set_agent t q s) es') as S1.
  { intros s0 g0 q es' H1 H2 H3 H4 ->. cbn [run step]. rewrite H2. unfold micro, touch. by rewrite H3, H1, H4. }
  assert (forall s g q es', alive s = Live -> agents s !! t = Some g -> at_ g = Calling -> flag s = true -> q = Agent (hands g) Loading -> run v s (Step t :: es') = run v (set_agent t q s) es') as S2.
  { intros s0 g0 q es' H1 H2 H3 H4 ->. cbn [run step]. rewrite H2. unfold micro, touch. by rewrite H3, H1, H4. }
  assert (forall s g, alive s = Live -> agents s !! t = Some g -> at_ g = Reading -> exists s', run v s [Step t] = Ok s' /\ log s' = OGot t (value s) :: log s) as S3.
  { intros s0 g0 H1 H2 H3. cbn [run step]. rewrite H2. unfold micro, touch. rewrite H3, H1. eexists. split; [done|]. done. }
  destruct Hg as [Eg|[Eg|Eg]]; [| |done].
  - destruct (S3 (set_agent t (Agent (hands g) Reading) s) (Agent (hands g) Reading)) as (s' & R' & Lg); [done|by apply list_lookup_insert|done|].
    exists 2, s', (value s). split; [lia|]. cbn [replicate]. by rewrite (S1 s g _ _ Al E Eg F eq_refl).
  - set (s1 := set_agent t (Agent (hands g) Loading) s). destruct (S3 (set_agent t (Agent (hands g) Reading) s1) (Agent (hands g) Reading)) as (s' & R' & Lg); [done|apply list_lookup_insert; cbn; by rewrite insert_length|done|].
    exists 3, s', (value s). split; [lia|]. cbn [replicate]. rewrite (S2 s g _ _ Al E Eg F eq_refl). rewrite (S1 s1 (Agent (hands g) Loading) (Agent (hands g) Reading)); try done. by apply list_lookup_insert.
Qed.
(** Who blocks second finds the value moved out. *)
Theorem future_block_twice_refuted : exists v es s, run v (init 0) es = Ok s /\ OGot 0 (Some v) ∈ log s /\ OGot 0 None ∈ log s.
Proof.
  exists 5, [Work; Work; Work; Begin 0 Block; Step 0; Step 0; Begin 0 Block; Step 0; Step 0]. eexists. split; [vm_compute; reflexivity|]. cbn.
  split; repeat (apply elem_of_list_here || apply elem_of_list_further).
Qed.
(** A thread sleeps; another drops its handle after the wake-up was sent but before the spawned thread is done. *)
Definition demo : list event :=
  [Begin 0 Dup; Begin 0 (Give 1); Begin 1 Block; Step 1; Step 1; Begin 0 Ready; Step 0; Work; Work; Work; Begin 0 Drop; Step 0; Work; Step 1; Step 1; Begin 1 Drop; Step 1; Work; Work; Work].
Example spawn_demo : match run 42 (init 1) demo with Ok s => log s = [OFreed; ODestroyed; OGot 1 (Some 42); OCalled; OReady 0 false] /\ at_rest s /\ handles s = 0 | _ => False end.
Proof. vm_compute. split; [done|]. split; [|done]. split; [done|]. repeat constructor. Qed.
Example spawn_premises : match run 42 (init 1) (firstn 13 demo) with Ok s => worker s = WDropping /\ agents s !! 1 = Some (Agent 1 Loading) /\ handles s = 2 | _ => False end.
Proof. by vm_compute. Qed.
Print Assumptions spawn_safe.
Print Assumptions spawn_lifetime.
Print Assumptions spawn_ends.
Print Assumptions spawn_block_returns.
Print Assumptions future_block_twice_refuted.
