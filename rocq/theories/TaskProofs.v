(** A frame is destroyed once, after everyone is done with it. *)
From Verif Require Import Base TaskModel TaskSpec.

Definition frame_ok (s : tst) (c : nat) (f : frame) : Prop :=
  match pcs s c with
  | Absent => False
  | Self_Destroy => f_alive f = true /\ f_state f = TDone /\ ~ owned s c
  | Resume b => f_alive f = true /\ f_state f = TDone /\ waiting s b c
  | Ended => (f_alive f = true /\ f_state f = TDone /\ owned s c) \/
             (f_alive f = true /\ f_state f = TAbandoned /\ exists a, destroying s a c) \/
             f_alive f = false
  | _ => f_alive f = true /\
         match f_state f with TDone => False | TStart => owned s c | TCont b => waiting s b c | TAbandoned => True end
  end.
Definition pc_ok (s : tst) (a : nat) : Prop :=
  match pcs s a with
  | Absent | Idle | Blocking _ | Asking _ | Dropping _ _ => True
  | Stealing v w => vars s v = Some None
  | Suspended | Ready _ | Storing _ | Signalling | Notifying | Final | Self_Destroy | Resume _ | Ended => is_Some (frames s a)
  | Register v => is_Some (frames s a) /\ exists c, vars s v = Some (Some c)
  | Taking v => exists c, vars s v = Some (Some c)
  | Waiting v => is_Some (frames s a) /\ exists c f, vars s v = Some (Some c) /\ frames s c = Some f /\
      (f_state f = TCont a /\ unfinished s c \/ pcs s c = Resume a)
  | Destroying c v k => vars s v = Some None /\ exists f, frames s c = Some f /\ f_alive f = true /\ f_state f = TAbandoned /\ pcs s c = Ended
  end.
Record Inv (s : tst) : Prop := mk_Inv {
  i_new : forall a, agents s <= a <-> pcs s a = Absent;
  i_nof : forall a, agents s <= a -> frames s a = None;
  i_var : forall v, nvars s <= v -> vars s v = None;
  i_inj : forall v w c, vars s v = Some (Some c) -> vars s w = Some (Some c) -> v = w;
  i_ref : forall v c, vars s v = Some (Some c) -> exists f, frames s c = Some f /\ f_alive f = true /\ f_state f <> TAbandoned;
  i_one : forall a b v, mentions v (pcs s a) = true -> mentions v (pcs s b) = true -> a = b;
  i_dom : forall a v, mentions v (pcs s a) = true -> is_Some (vars s v);
  i_des : forall a b c, destroying s a c -> destroying s b c -> a = b;
  i_pc : forall a, pc_ok s a;
  i_fr : forall c f, frames s c = Some f -> frame_ok s c f
}.
Lemma upd_eq {A} (f : nat -> A) i x : upd f i x i = x.
Proof. unfold upd. by rewrite decide_True. Qed.
Lemma upd_ne {A} (f : nat -> A) i x j : j <> i -> upd f i x j = f j.
Proof. intros N. unfold upd. by rewrite decide_False. Qed.
Ltac uu := repeat match goal with
  | |- context [upd ?f ?i ?x ?i] => rewrite (upd_eq f i x)
  | H : context [upd ?f ?i ?x ?i] |- _ => rewrite (upd_eq f i x) in H
  | N : ?j <> ?i |- context [upd ?f ?i ?x ?j] => rewrite (upd_ne f i x j N)
  | N : ?j <> ?i, H : context [upd ?f ?i ?x ?j] |- _ => rewrite (upd_ne f i x j N) in H
  end.
Ltac dec x y := destruct (decide (x = y)) as [?|?]; [subst x|].

Lemma Inv_init : Inv tst_init.
Proof.
  constructor; unfold tst_init; cbn [pcs frames vars agents nvars]; try done.
  - intros a. dec a 0; uu; [split; [lia|done]|]. split; [done|lia].
  - intros a b v. dec a 0; uu; [done|]. done.
  - intros a v. dec a 0; uu; done.
  - intros a b c (v & k & E). cbn in E. dec a 0; uu; done.
  - intros a. unfold pc_ok. cbn. dec a 0; uu; done.
Qed.

(** An agent in the middle of an operation exists. *)
Lemma in_range s a q : Inv s -> pcs s a = q -> q <> Absent -> a < agents s.
Proof. intros I E N. destruct (decide (agents s <= a)) as [L|]; [|lia]. apply (i_new _ I) in L. congruence. Qed.
Lemma coro_range s c f : Inv s -> frames s c = Some f -> c < agents s.
Proof. intros I E. destruct (decide (agents s <= c)) as [L|]; [|lia]. apply (i_nof _ I) in L. congruence. Qed.
Lemma free_spec s v : Inv s -> free s v = true -> is_Some (vars s v) /\ forall a, mentions v (pcs s a) = false.
Proof.
  intros I F. unfold free in F. apply andb_true_iff in F as [F1 F2]. apply bool_decide_eq_true_1 in F1. split; [done|].
  intros a. destruct (decide (agents s <= a)) as [L|L]; [apply (i_new _ I) in L; by rewrite L|].
  rewrite forallb_forall in F2. specialize (F2 a). apply negb_true_iff. apply F2. apply in_seq. lia.
Qed.
Lemma handle_get s v c : Inv s -> vars s v = Some (Some c) -> exists f, frames s c = Some f /\ get s c = Ok f /\ f_alive f = true /\ f_state f <> TAbandoned.
Proof. intros I E. destruct (i_ref _ I v c E) as (f & Ef & Al & St). exists f. unfold get. by rewrite Ef, Al. Qed.

(** Nothing a frame depends on has changed. *)
Lemma frame_ok_mono s s' c f : frame_ok s c f -> pcs s' c = pcs s c ->
  (owned s c <-> owned s' c) -> (forall b, waiting s b c -> waiting s' b c) -> ((exists a, destroying s a c) -> exists a, destroying s' a c) ->
  frame_ok s' c f.
Proof.
  unfold frame_ok. intros F -> O W D.
  destruct (pcs s c); try (destruct F as [F1 F2]; split; [done|]; destruct (f_state f); [by apply O|done|done|by apply W]).
  - done.
  - split_and!; [apply F|apply F|]. intros N. apply O in N. by apply F.
  - split_and!; [apply F|apply F|]. apply W, F.
  - destruct F as [(? & ? & ?)|[(? & ? & ?)|?]]; [left; split_and!; try done; by apply O|right; left; split_and!; try done; by apply D|by right; right].
Qed.
Definition plain (q : pc) : Prop :=
  match q with Absent | Waiting _ | Destroying _ _ _ | Self_Destroy | Resume _ | Ended => False | _ => True end.
Lemma frame_plain s c f : plain (pcs s c) -> frame_ok s c f <-> f_alive f = true /\
   match f_state f with TDone => False | TStart => owned s c | TCont b => waiting s b c | TAbandoned => True end.
Proof. unfold frame_ok. destruct (pcs s c); cbn; try done. Qed.
Lemma unfinished_plain s c : plain (pcs s c) -> unfinished s c.
Proof. unfold unfinished. by destruct (pcs s c). Qed.

(** Agent [a] goes from one plain point to another and may move handles between
    variables that no one else is using. *)
Lemma Inv_move s s' a : Inv s -> plain (pcs s a) -> plain (pcs s' a) ->
  (forall b, b <> a -> pcs s' b = pcs s b) -> frames s' = frames s -> agents s' = agents s ->
  (forall c, owned s c <-> owned s' c) ->
  (forall v w c, vars s' v = Some (Some c) -> vars s' w = Some (Some c) -> v = w) ->
  (forall v, nvars s' <= v -> vars s' v = None) ->
  (forall v, is_Some (vars s v) -> is_Some (vars s' v)) ->
  (forall b v, b <> a -> mentions v (pcs s b) = true -> vars s' v = vars s v) ->
  (forall v, mentions v (pcs s' a) = true -> mentions v (pcs s a) = true \/ free s v = true) ->
  pc_ok s' a -> Inv s'.
Proof.
  intros I Pa Pq Hpc Hfr Hag Ho Hinj Hnv Hdom Hsame Hm Hk.
  assert (a < agents s) as La by (eapply in_range; [done|done|by intros E; rewrite E in Pa]).
  assert (forall b c, waiting s b c -> waiting s' b c) as W.
  { intros b c (v & E1 & E2). assert (b <> a) as N by (intros ->; by rewrite E1 in Pa). exists v. rewrite (Hpc b N). split; [done|].
    rewrite (Hsame b v N); [done|]. rewrite E1. cbn. by apply bool_decide_eq_true_2. }
  assert (forall b c, destroying s b c <-> destroying s' b c) as D.
  { intros b c. split; intros (v & k & E); exists v, k; (dec b a; [|by rewrite Hpc in E |- * || by rewrite Hpc in E || by rewrite Hpc]); [by rewrite E in Pa|by rewrite E in Pq]. }
  constructor.
  - intros b. rewrite Hag. dec b a; [|rewrite Hpc by done; apply (i_new _ I)]. split; [lia|]. intros E. by rewrite E in Pq.
  - rewrite Hag, Hfr. apply I.
  - done.
  - done.
  - intros v c E. rewrite Hfr. assert (owned s c) as [w Ew] by (apply Ho; by exists v). by apply (i_ref _ I w).
  - intros b b' v.
    assert (forall x, mentions v (pcs s' a) = true -> mentions v (pcs s x) = true -> x = a) as K.
    { intros x M1 M2. destruct (Hm v M1) as [M|F]; [by apply (i_one _ I x a v)|]. destruct (free_spec _ _ I F) as [_ F2]. by rewrite F2 in M2. }
    dec b a; dec b' a; try done.
    + rewrite (Hpc b') by done. intros M1 M2. symmetry. by apply K.
    + rewrite (Hpc b) by done. intros M1 M2. by apply K.
    + rewrite (Hpc b), (Hpc b') by done. apply (i_one _ I).
  - intros b v M. apply Hdom. dec b a; [|rewrite Hpc in M by done; by apply (i_dom _ I b)].
    destruct (Hm v M) as [M'|F]; [by apply (i_dom _ I a)|by apply (free_spec _ _ I)].
  - intros b b' c H1 H2. apply D in H1, H2. by eapply (i_des _ I).
  - intros b. dec b a; [done|]. pose proof (i_pc _ I b) as P. unfold pc_ok in *. rewrite (Hpc b), Hfr by done.
    assert (forall v, mentions v (pcs s b) = true -> vars s' v = vars s v) as Sm by (intros v; by apply Hsame).
    destruct (pcs s b) eqn:Eb; cbn in Sm; try done.
    + rewrite Sm by (by apply bool_decide_eq_true_2). done.
    + destruct P as [P (c & f & E1 & E2 & P3)]. split; [done|]. exists c, f. rewrite Sm by (by apply bool_decide_eq_true_2). split_and!; try done. unfold unfinished in *.
      dec c a; [|by rewrite Hpc]. left. destruct P3 as [P3|P3]; [|by rewrite P3 in Pa]. split; [apply P3|]. by destruct (pcs s' a).
    + rewrite Sm by (by apply bool_decide_eq_true_2). done.
    + destruct P as (P & f & E1 & E2 & E3 & E4). split; [rewrite Sm; [done|]; by rewrite bool_decide_eq_true_2|]. exists f. split_and!; try done. dec c a; [|by rewrite Hpc]. by rewrite E4 in Pa.
    + rewrite Sm; [done|]. by rewrite bool_decide_eq_true_2.
  - intros c f E. rewrite Hfr in E. pose proof (i_fr _ I c f E) as F. dec c a.
    + rewrite frame_plain in F by done. apply frame_plain; [done|]. destruct F as [F1 F2]. split; [done|].
      destruct (f_state f); try done; [by apply Ho|by apply W].
    + eapply frame_ok_mono; [done|by apply Hpc|apply Ho|by intros; apply W|]. intros [b Hb]. exists b. by apply D.
Qed.
Lemma Inv_pc s a q : Inv s -> plain (pcs s a) -> plain q ->
  (forall v, mentions v q = true -> mentions v (pcs s a) = true \/ free s v = true) ->
  pc_ok (set_pc a q s) a -> Inv (set_pc a q s).
Proof.
  intros I Pa Pq Hm Hk. apply (Inv_move s _ a); try done; cbn [set_pc pcs vars nvars]; uu; try done.
  - intros b N. by uu.
  - apply I.
  - apply I.
Qed.
(** The value or the flag of a frame changes. *)
Lemma Inv_frame s c f f' : Inv s -> frames s c = Some f -> f_state f' = f_state f -> f_alive f' = f_alive f -> Inv (set_frame c f' s).
Proof.
  intros I E S A. pose proof (coro_range _ _ _ I E) as Lc. constructor; try apply I.
  - intros a L. cbn in L |- *. dec a c; uu; [lia|]. by apply I.
  - intros v d Ev. cbn in *. destruct (i_ref _ I v d Ev) as (f1 & E1 & A1 & S1). dec d c; uu; [|by exists f1]. exists f'. split; [done|].
    rewrite E in E1. injection E1 as <-. by rewrite S, A.
  - intros a. pose proof (i_pc _ I a) as P. unfold pc_ok in *. cbn.
    assert (forall x, is_Some (frames s x) -> is_Some (upd (frames s) c (Some f') x)) as K by (intros x Hx; dec x c; uu; done || by eexists).
    destruct (pcs s a); try done; try (by apply K); try (split; [apply K, P|apply P]).
    + destruct P as [P (d & g & E1 & E2 & P3)]. split; [by apply K|]. exists d. dec d c; uu; [|by exists g]. exists f'. split_and!; try done.
      rewrite E in E2. injection E2 as <-. by rewrite S.
    + destruct P as (P & g & E1 & E2 & E3 & E4). split; [done|]. dec c0 c; uu; [|by exists g]. exists f'. rewrite E in E1. injection E1 as <-. by rewrite S, A.
  - intros d g. cbn. dec d c; uu; [|].
    + intros [= <-]. pose proof (i_fr _ I c f E) as F. unfold frame_ok in *. cbn. by rewrite S, A.
    + intros Eg. by apply (i_fr _ I).
Qed.
Lemma Inv_say s o : Inv s -> Inv (say o s).
Proof. intros []. by constructor. Qed.

Lemma ment (v : nat) : bool_decide (v = v) = true.
Proof. by apply bool_decide_eq_true_2. Qed.
(** The awaiter registers itself. *)
Lemma Inv_register s a v c f : Inv s -> pcs s a = Register v -> vars s v = Some (Some c) -> frames s c = Some f -> f_state f = TStart ->
  Inv (set_pc a (Waiting v) (set_frame c (with_state f (TCont a)) s)).
Proof.
  intros I Ea Ev Ef St. pose proof (coro_range _ _ _ I Ef) as Lc.
  pose proof (in_range _ _ _ I Ea ltac:(done)) as La. pose proof (i_fr _ I c f Ef) as Fc. pose proof (i_pc _ I a) as Pa. unfold pc_ok in Pa. rewrite Ea in Pa.
  assert (unfinished s c /\ f_alive f = true) as [Uc Al].
  { unfold frame_ok in Fc. unfold unfinished. rewrite St in Fc. destruct (pcs s c); try done; try (by split; [|apply Fc]); try (by destruct Fc as (_ & ? & _)).
    exfalso. destruct (i_ref _ I v c Ev) as (g & Eg & Ag & _). rewrite Ef in Eg. injection Eg as <-. destruct Fc as [(_ & ? & _)|[(_ & ? & _)|?]]; try done. congruence. }
  set (s' := set_pc a (Waiting v) (set_frame c (with_state f (TCont a)) s)).
  assert (forall b d, waiting s b d -> waiting s' b d) as W.
  { intros b d (w & E1 & E2). exists w. cbn. dec b a; uu; [congruence|done]. }
  assert (forall b d, destroying s b d <-> destroying s' b d) as D.
  { intros b d. split; intros (w & k & E); exists w, k; cbn in *; (dec b a; uu; [congruence|done]). }
  assert (forall x, is_Some (frames s x) -> is_Some (upd (frames s) c (Some (with_state f (TCont a))) x)) as K by (intros x Hx; dec x c; uu; done || by eexists).
  assert (forall b w, mentions w (pcs s' b) = mentions w (pcs s b)) as M.
  { intros b w. cbn. dec b a; uu; [by rewrite Ea|done]. }
  constructor.
  - intros b. cbn. dec b a; uu; [split; [lia|done]|apply (i_new _ I)].
  - intros b L. cbn in L |- *. dec b c; uu; [lia|]. by apply I.
  - apply I.
  - apply I.
  - intros w d E. cbn in E |- *. destruct (i_ref _ I w d E) as (g & Eg & Ag & Sg). dec d c; uu; [|by exists g]. by eexists.
  - intros b b' w. rewrite !M. apply (i_one _ I).
  - intros b w. rewrite M. apply (i_dom _ I).
  - intros b b' d H1 H2. apply D in H1, H2. by eapply (i_des _ I).
  - intros b. pose proof (i_pc _ I b) as P. unfold pc_ok in P |- *. cbn. dec b a; uu.
    + rewrite Ea in P. split; [apply K, P|]. exists c. uu. eexists. split_and!; try done. left. split; [done|].
      unfold unfinished in *. cbn. dec c a; uu; done.
    + destruct (pcs s b) eqn:Eb; try done; try (by apply K); try (split; [apply K, P|apply P]).
      * split; [apply K, P|]. destruct P as [P (d & g & E1 & E2 & P3)]. exists d. dec d c; uu.
        -- assert (w : v = v0) by (by apply (i_inj _ I v v0 c)). subst v0. exfalso. apply n. apply (i_one _ I b a v); [rewrite Eb; apply ment|rewrite Ea; apply ment].
        -- exists g. split_and!; try done. unfold unfinished in *. cbn. dec d a; uu; [|done]. rewrite Ea in P3. left. by destruct P3 as [P3|P3].
      * destruct P as (P & g & E1 & E2 & E3 & E4). split; [done|]. dec c0 c; uu.
        -- exfalso. rewrite Ef in E1. injection E1 as <-. congruence.
        -- exists g. split_and!; try done. dec c0 a; uu; [congruence|done].
  - intros d g. cbn. dec d c; uu.
    + intros [= <-]. unfold frame_ok. cbn. assert (waiting s' a c) as Wa by (exists v; cbn; by uu).
      dec c a; uu; [done|]. unfold frame_ok in Fc. unfold unfinished in Uc. destruct (pcs s c); try done.
    + intros Eg. pose proof (i_fr _ I d g Eg) as F. destruct (decide (d = a)) as [->|N].
      * unfold frame_ok in F |- *. cbn. uu. rewrite Ea in F. destruct F as [F1 F2]. split; [done|]. destruct (f_state g); try done. by apply W.
      * eapply frame_ok_mono; [done|cbn; by uu|done|by intros; apply W|]. intros [b Hb]. exists b. by apply D.
Qed.
(** ~Task gives up a coroutine. *)
Lemma Inv_drop s a v k c f : Inv s -> pcs s a = Dropping v k -> vars s v = Some (Some c) -> frames s c = Some f ->
  match f_state f with
  | TStart => Inv (set_pc a (after v k) (set_var v None (set_frame c (with_state f TAbandoned) s)))
  | TDone => Inv (set_pc a (Destroying c v k) (set_var v None (set_frame c (with_state f TAbandoned) s)))
  | _ => False
  end.
Proof.
  intros I Ea Ev Ef. pose proof (coro_range _ _ _ I Ef) as Lc. pose proof (in_range _ _ _ I Ea ltac:(done)) as La.
  pose proof (i_fr _ I c f Ef) as Fc. destruct (i_ref _ I v c Ev) as (g & Eg & Al & Sa). rewrite Ef in Eg. injection Eg as <-.
  assert (forall b w, b <> a -> mentions w (pcs s b) = true -> w <> v) as Nm.
  { intros b w N M ->. apply N. apply (i_one _ I b a v); [done|]. rewrite Ea. cbn. by rewrite ment. }
  assert (forall b, ~ waiting s b c) as Nw.
  { intros b (w & E1 & E2). assert (w = v) as -> by (by apply (i_inj _ I w v c)). dec b a; [congruence|]. apply (Nm b v n); [rewrite E1; apply ment|done]. }
  assert (forall b, ~ destroying s b c) as Nd.
  { intros b (w & k' & E). pose proof (i_pc _ I b) as P. unfold pc_ok in P. rewrite E in P. destruct P as (_ & g & E1 & _ & E3 & _). rewrite Ef in E1. injection E1 as <-. done. }
  assert (forall q, (exists k', q = Destroying c v k' /\ k' = k /\ pcs s c = Ended) \/ q = after v k /\ unfinished s c -> Inv (set_pc a q (set_var v None (set_frame c (with_state f TAbandoned) s)))) as Main.
  { intros q Hq. set (s' := set_pc a q (set_var v None (set_frame c (with_state f TAbandoned) s))).
    assert (forall w, mentions w q = true -> mentions w (pcs s a) = true) as Mq.
    { intros w. rewrite Ea. destruct Hq as [(k' & -> & -> & _)|[-> _]]; cbn; [done|]. destruct k as [u|]; cbn; [|done].
      intros [M|M]%orb_true_iff; apply bool_decide_eq_true_1 in M; subst; apply orb_true_iff; (by left; apply bool_decide_eq_true_2) || (by right; apply bool_decide_eq_true_2). }
    assert (forall b d, d <> c -> waiting s b d -> waiting s' b d) as W.
    { intros b d N (w & E1 & E2). exists w. cbn. dec b a; [congruence|]. uu. split; [done|]. dec w v; [congruence|]. by uu. }
    assert (forall b d, d <> c -> destroying s b d <-> destroying s' b d) as D.
    { intros b d N. split; intros (w & k' & E); exists w, k'; cbn in *; (dec b a; uu; [|done]); [congruence|].
      exfalso. destruct Hq as [(k1 & -> & _)|[-> _]]; [congruence|]. by destruct k. }
    assert (forall d, d <> c -> owned s d <-> owned s' d) as O.
    { intros d N. split; intros [w E]; exists w; cbn in *; (dec w v; uu; [congruence|done]). }
    assert (forall x, is_Some (frames s x) -> is_Some (upd (frames s) c (Some (with_state f TAbandoned)) x)) as K by (intros x Hx; dec x c; uu; done || by eexists).
    constructor.
    - intros b. cbn. dec b a; uu; [|apply (i_new _ I)]. split; [lia|]. destruct Hq as [(k1 & -> & _)|[-> _]]; [done|]. by destruct k.
    - intros b L. cbn in L |- *. dec b c; uu; [lia|]. by apply I.
    - intros w L. cbn in L |- *. dec w v; uu; [|by apply I]. exfalso. apply (i_var _ I) in L. congruence.
    - intros w w' d. cbn. dec w v; dec w' v; uu; try done. apply (i_inj _ I).
    - intros w d E. cbn in E |- *. dec w v; uu; [done|]. destruct (i_ref _ I w d E) as (h & Eh & Ah & Sh). dec d c; uu; [|by exists h].
      exfalso. apply n. by apply (i_inj _ I w v c).
    - intros b b' w. cbn. dec b a; dec b' a; uu; try done.
      + intros M1 M2. apply (i_one _ I a b' w); [by apply Mq|done].
      + intros M1 M2. apply (i_one _ I b a w); [done|by apply Mq].
      + apply (i_one _ I).
    - intros b w M. cbn in M |- *. dec w v; uu; [by eexists|]. dec b a; uu; [apply (i_dom _ I a); by apply Mq|by apply (i_dom _ I b)].
    - intros b b' d H1 H2. destruct (decide (d = c)) as [->|N].
      + assert (forall x, destroying s' x c -> x = a) as Q.
        { intros x (w & k1 & E). cbn in E. dec x a; uu; [done|]. exfalso. apply (Nd x). by exists w, k1. }
        by rewrite (Q b H1), (Q b' H2).
      + apply D in H1, H2; [|done..]. by eapply (i_des _ I).
    - intros b. cbn. pose proof (i_pc _ I b) as P. unfold pc_ok in P |- *. cbn. dec b a; uu.
      + destruct Hq as [(k1 & -> & -> & Ec)|[-> _]].
        * split; [by uu|]. uu. eexists. split_and!; try done. dec c a; uu; [congruence|done].
        * destruct k as [u|]; cbn; [by uu|done].
      + pose proof (Nm b) as Sm. destruct (pcs s b) eqn:Eb; try done; try (by apply K).
        * split; [apply K, P|]. assert (v0 <> v) by (apply Sm; [done|apply ment]). uu. apply P.
        * split; [apply K, P|]. assert (v0 <> v) by (apply Sm; [done|apply ment]). uu. destruct P as [P (d & h & E1 & E2 & P3)].
          exists d. assert (d <> c) as Ndc by (intros ->; apply (Nw b); by exists v0). uu. exists h. split_and!; try done.
          unfold unfinished in *. cbn. dec d a; uu; [|done]. left. rewrite Ea in P3. destruct P3 as [P3|P3]; [|done]. split; [apply P3|].
          destruct Hq as [(k1 & -> & _)|[-> _]]; [done|]. by destruct k.
        * assert (v0 <> v) by (apply Sm; [done|apply ment]). by uu.
        * assert (v0 <> v) by (apply Sm; [done|cbn; by rewrite ment]). uu. destruct P as (P & h & E1 & E2 & E3 & E4). split; [done|].
          assert (c0 <> c) by (intros ->; apply (Nd b); by eexists _, _). uu. exists h. split_and!; try done. dec c0 a; uu; [congruence|done].
        * assert (v0 <> v) by (apply Sm; [done|cbn; by rewrite ment]). by uu.
    - intros d h. cbn. dec d c; uu.
      + intros [= <-]. unfold frame_ok. cbn. dec c a; uu.
        * destruct Hq as [(k1 & -> & _ & E)|[-> _]]; [congruence|]. destruct k; cbn; done.
        * destruct Hq as [(k1 & -> & -> & E)|[-> U]].
          -- rewrite E. right; left. split_and!; try done. exists a, v, k. cbn. by uu.
          -- unfold frame_ok in Fc. unfold unfinished in U. destruct (pcs s c); try done.
      + intros Eh. pose proof (i_fr _ I d h Eh) as F. destruct (decide (d = a)) as [->|N].
        * unfold frame_ok in F |- *. rewrite Ea in F. destruct F as [F1 F2]. cbn. uu.
          destruct Hq as [(k1 & -> & _)|[-> _]]; [|destruct k; cbn]; (split; [done|]); (destruct (f_state h); try done; [by apply O|by apply W]).
        * eapply frame_ok_mono; [done|cbn; by uu|by apply O|by intros; apply W|]. intros [b Hb]. exists b. by apply D. }
  unfold frame_ok in Fc. destruct (f_state f) eqn:St; [| | |].
  - apply Main. right. split; [done|]. unfold unfinished. destruct (pcs s c); try done; try (by destruct Fc as (_ & ? & _)).
    destruct Fc as [(_ & ? & _)|[(_ & ? & _)|?]]; try done. congruence.
  - apply Main. left. exists k. split_and!; try done. destruct (pcs s c); try done; try (by destruct Fc as (_ & [])).
    + exfalso. apply Fc. by exists v.
    + exfalso. eapply Nw, Fc.
  - done.
  - destruct (pcs s c); try done; try (by eapply Nw, Fc); try (by destruct Fc as (_ & ? & _)).
    destruct Fc as [(_ & ? & _)|[(_ & ? & _)|?]]; try done. congruence.
Qed.
Lemma waiting_owned s b c : waiting s b c -> owned s c.
Proof. intros (v & _ & E). by exists v. Qed.
(** A frame is destroyed. *)
Lemma Inv_destroy s a c q f : Inv s -> frames s c = Some f -> ~ owned s c ->
  (exists v k, pcs s a = Destroying c v k /\ q = after v k /\ pcs s c = Ended) \/ (a = c /\ pcs s a = Self_Destroy /\ q = Ended) ->
  Inv (set_pc a q (set_frame c (mk_frame (f_state f) (f_flag f) (f_value f) false) s)).
Proof.
  intros I Ef No Hq. pose proof (coro_range _ _ _ I Ef) as Lc.
  set (f' := mk_frame (f_state f) (f_flag f) (f_value f) false). set (s' := set_pc a q (set_frame c f' s)).
  assert (a < agents s) as La by (destruct Hq as [(v & k & E & _)|(-> & E & _)]; by eapply in_range).
  assert (q <> Absent) as Nq by (destruct Hq as [(v & k & E & -> & _)|(-> & E & ->)]; [by destruct k|done]).
  assert (forall w, mentions w q = true -> mentions w (pcs s a) = true) as Mq.
  { intros w. destruct Hq as [(v & k & E & -> & _)|(-> & E & ->)]; rewrite E; [|done]. destruct k as [u|]; cbn; [|done].
    intros [M|M]%orb_true_iff; apply bool_decide_eq_true_1 in M; subst; apply orb_true_iff; (by left; apply bool_decide_eq_true_2) || (by right; apply bool_decide_eq_true_2). }
  assert (forall b d, d <> c -> waiting s b d -> waiting s' b d) as W.
  { intros b d N (w & E1 & E2). exists w. cbn. split; [|done]. dec b a; uu; [|done]. exfalso. destruct Hq as [(v & k & E & _)|(-> & E & ->)]; congruence. }
  assert (forall b d, destroying s' b d -> b <> a /\ destroying s b d) as D.
  { intros b d (w & k' & E). cbn in E. dec b a; uu; [|split; [done|by exists w, k']]. exfalso. destruct Hq as [(v & k & _ & -> & _)|(_ & _ & ->)]; [by destruct k|done]. }
  assert (forall b d, d <> c -> destroying s b d -> destroying s' b d) as D2.
  { intros b d N (w & k' & E). exists w, k'. cbn. dec b a; uu; [|done]. exfalso. destruct Hq as [(v & k & E' & _)|(-> & E' & ->)]; congruence. }
  assert (forall x, is_Some (frames s x) -> is_Some (upd (frames s) c (Some f') x)) as K by (intros x Hx; dec x c; uu; done || by eexists).
  constructor.
  - intros b. cbn. dec b a; uu; [|apply (i_new _ I)]. split; [lia|done].
  - intros b L. cbn in L |- *. dec b c; uu; [lia|]. by apply I.
  - apply I.
  - apply I.
  - intros w d E. cbn in E |- *. destruct (i_ref _ I w d E) as (g & Eg & Ag & Sg). dec d c; uu; [|by exists g]. exfalso. apply No. by exists w.
  - intros b b' w. cbn. dec b a; dec b' a; uu; try done.
    + intros M1 M2. apply (i_one _ I a b' w); [by apply Mq|done].
    + intros M1 M2. apply (i_one _ I b a w); [done|by apply Mq].
    + apply (i_one _ I).
  - intros b w M. cbn in M |- *. dec b a; uu; [apply (i_dom _ I a); by apply Mq|by apply (i_dom _ I b)].
  - intros b b' d H1 H2. apply D in H1 as [_ H1], H2 as [_ H2]. by eapply (i_des _ I).
  - intros b. pose proof (i_pc _ I b) as P. unfold pc_ok in P |- *. cbn. dec b a; uu.
    + destruct Hq as [(v & k & E & -> & _)|(-> & E & ->)]; rewrite E in P; [|uu; by eexists]. destruct k; cbn; [apply P|done].
    + destruct (pcs s b) eqn:Eb; try done; try (by apply K); try (split; [apply K, P|apply P]).
      * split; [apply K, P|]. destruct P as [P (d & g & E1 & E2 & P3)]. exists d. assert (d <> c) by (intros ->; apply No; by exists v). uu.
        exists g. split_and!; try done. unfold unfinished in *. cbn. dec d a; uu; [|done].
        destruct Hq as [(w & k & E & -> & _)|(-> & _)]; [|done]. rewrite E in P3. left. destruct P3 as [P3|P3]; [|done]. split; [apply P3|by destruct k].
      * destruct P as (P & g & E1 & E2 & E3 & E4). split; [done|].
        assert (c0 <> c).
        { intros ->. destruct Hq as [(w & k1 & E & _ & _)|(-> & E & _)]; [|congruence]. apply n. apply (i_des _ I b a c); by eexists _, _. }
        uu. exists g. split_and!; try done. dec c0 a; uu; [|done]. destruct Hq as [(w & k1 & E & -> & _)|(-> & E & ->)]; congruence.
  - intros d g. cbn. dec d c; uu.
    + intros [= <-]. unfold frame_ok. cbn. dec c a; uu.
      * destruct Hq as [(w & k1 & E & -> & E')|(_ & E & ->)]; [congruence|]. by right; right.
      * destruct Hq as [(w & k1 & E & -> & ->)|(-> & _)]; [|done]. by right; right.
    + intros Eg. pose proof (i_fr _ I d g Eg) as F. destruct (decide (d = a)) as [->|N].
      * destruct Hq as [(w & k & E & -> & _)|(-> & _)]; [|done]. unfold frame_ok in F |- *. cbn. uu. rewrite E in F. destruct F as [F1 F2].
        destruct k; cbn; (split; [done|]); (destruct (f_state g); try done; by apply W).
      * eapply frame_ok_mono; [done|cbn; by uu|done|by intros; apply W|]. intros [b Hb]. exists b. by apply D2.
Qed.
(** The coroutine reaches its final suspend point. *)
Lemma Inv_final s a f : Inv s -> pcs s a = Final -> frames s a = Some f ->
  match f_state f with
  | TAbandoned => Inv (set_pc a Self_Destroy (set_frame a (with_state f TDone) s))
  | TStart => Inv (set_pc a Ended (set_frame a (with_state f TDone) s))
  | TCont b => Inv (set_pc a (Resume b) (set_frame a (with_state f TDone) s))
  | TDone => False
  end.
Proof.
  intros I Ea Ef. pose proof (in_range _ _ _ I Ea ltac:(done)) as La. pose proof (i_fr _ I a f Ef) as Fa. unfold frame_ok in Fa. rewrite Ea in Fa. destruct Fa as [Al Fa].
  assert (forall q, (q = Self_Destroy /\ f_state f = TAbandoned) \/ (q = Ended /\ f_state f = TStart) \/ (exists b, q = Resume b /\ f_state f = TCont b) ->
    Inv (set_pc a q (set_frame a (with_state f TDone) s))) as Main.
  { intros q Hq. set (s' := set_pc a q (set_frame a (with_state f TDone) s)).
    assert (q <> Absent /\ (forall w, mentions w q = false) /\ forall c v k, q <> Destroying c v k) as (Nq & Mq & Dq).
    { destruct Hq as [[-> _]|[[-> _]|(b & -> & _)]]; done. }
    assert (forall b d, waiting s b d -> waiting s' b d) as W.
    { intros b d (w & E1 & E2). exists w. cbn. split; [|done]. dec b a; uu; [congruence|done]. }
    assert (forall b d, destroying s b d <-> destroying s' b d) as D.
    { intros b d. split; intros (w & k' & E); exists w, k'; cbn in *; (dec b a; uu; [|done]); [congruence|by apply Dq in E]. }
    assert (forall x, is_Some (frames s x) -> is_Some (upd (frames s) a (Some (with_state f TDone)) x)) as K by (intros x Hx; dec x a; uu; done || by eexists).
    constructor.
    - intros b. cbn. dec b a; uu; [|apply (i_new _ I)]. split; [lia|done].
    - intros b L. cbn in L |- *. dec b a; uu; [lia|]. by apply I.
    - apply I.
    - apply I.
    - intros w d E. cbn in E |- *. destruct (i_ref _ I w d E) as (g & Eg & Ag & Sg). dec d a; uu; [|by exists g]. eexists. split_and!; done.
    - intros b b' w. cbn. dec b a; dec b' a; uu; try done; rewrite ?Mq; try done. apply (i_one _ I).
    - intros b w M. cbn in M |- *. dec b a; uu; [by rewrite Mq in M|by apply (i_dom _ I b)].
    - intros b b' d H1 H2. apply D in H1, H2. by eapply (i_des _ I).
    - intros b. pose proof (i_pc _ I b) as P. unfold pc_ok in P |- *. cbn. dec b a; uu.
      + destruct Hq as [[-> _]|[[-> _]|(b & -> & _)]]; by eexists.
      + destruct (pcs s b) eqn:Eb; try done; try (by apply K); try (split; [apply K, P|apply P]).
        * split; [apply P|]. destruct P as [P (d & g & E1 & E2 & P3)]. exists d. dec d a; uu.
          -- eexists. split_and!; try done. right. rewrite Ea in P3. destruct P3 as [[P3 _]|P3]; [|done]. rewrite Ef in E2. injection E2 as <-.
             destruct Hq as [[-> ?]|[[-> ?]|(b' & -> & ?)]]; congruence.
          -- exists g. split_and!; try done. unfold unfinished in *. cbn. uu. done.
        * destruct P as (P & g & E1 & E2 & E3 & E4). split; [done|]. assert (c <> a) by congruence. uu. exists g. split_and!; done.
    - intros d g. cbn. dec d a; uu.
      + intros [= <-]. unfold frame_ok. cbn. uu. destruct Hq as [[-> S]|[[-> S]|(b & -> & S)]]; rewrite S in Fa.
        * split_and!; try done. intros (w & E). cbn in E. destruct (i_ref _ I w a E) as (g & Eg & _ & Sg). congruence.
        * left. done.
        * split_and!; try done. by apply W.
      + intros Eg. pose proof (i_fr _ I d g Eg) as F. eapply frame_ok_mono; [done|cbn; by uu|done|by intros; apply W|]. intros [b Hb]. exists b. by apply D. }
  destruct (f_state f) eqn:S; [| done| |]; apply Main; [by right; left|by left|]. right; right. by eexists.
Qed.
(** It resumes its awaiter. *)
Lemma Inv_resume s a b v : Inv s -> pcs s a = Resume b -> pcs s b = Waiting v ->
  Inv (set_pc a Ended (set_pc b (Taking v) s)).
Proof.
  intros I Ea Eb. pose proof (in_range _ _ _ I Ea ltac:(done)) as La. pose proof (in_range _ _ _ I Eb ltac:(done)) as Lb.
  assert (a <> b) as Nab by congruence. pose proof (i_pc _ I a) as Pa. unfold pc_ok in Pa. rewrite Ea in Pa. destruct Pa as [f Ef].
  pose proof (i_fr _ I a f Ef) as Fa. unfold frame_ok in Fa. rewrite Ea in Fa. destruct Fa as (Al & St & w & Eb' & Ev). rewrite Eb in Eb'. injection Eb' as <-.
  set (s' := set_pc a Ended (set_pc b (Taking v) s)).
  assert (b <> a) as Nba by congruence. assert (pcs s' a = Ended) as Ea' by (cbn; by uu). assert (pcs s' b = Taking v) as Eb' by (cbn; by uu).
  assert (forall x, x <> a -> x <> b -> pcs s' x = pcs s x) as Ne by (intros; cbn; by uu).
  assert (forall x d, d <> a -> waiting s x d -> waiting s' x d) as W.
  { intros x d N (u & E1 & E2). exists u. split; [|done]. dec x a; [congruence|]. dec x b; [congruence|]. by rewrite Ne. }
  assert (forall x d, destroying s x d <-> destroying s' x d) as D.
  { intros x d. split; intros (u & k & E); exists u, k; (dec x a; [congruence|]); (dec x b; [congruence|]); [by rewrite Ne|by rewrite Ne in E]. }
  assert (forall x u, mentions u (pcs s' x) = mentions u (pcs s x)) as M.
  { intros x u. dec x a; [by rewrite Ea, Ea'|]. dec x b; [by rewrite Eb, Eb'|]. by rewrite Ne. }
  constructor; try apply I.
  - intros x. change (agents s') with (agents s). dec x a; [rewrite Ea'; split; [lia|done]|]. dec x b; [rewrite Eb'; split; [lia|done]|]. rewrite Ne by done. apply (i_new _ I).
  - intros x y u. rewrite !M. apply (i_one _ I).
  - intros x u. rewrite M. apply (i_dom _ I).
  - intros x y d H1 H2. apply D in H1, H2. by eapply (i_des _ I).
  - intros x. pose proof (i_pc _ I x) as P. unfold pc_ok in P |- *. dec x a; [rewrite Ea'; by exists f|]. dec x b; [rewrite Eb'; by exists a|].
    rewrite Ne by done. destruct (pcs s x) eqn:Ex; try done.
    + destruct P as [P (d & g & E1 & E2 & P3)]. split; [done|]. exists d, g. split_and!; try done. dec d a.
      * exfalso. assert (v0 = v) as -> by (by apply (i_inj _ I v0 v a)). apply n0. apply (i_one _ I x b v); [rewrite Ex|rewrite Eb]; apply ment.
      * unfold unfinished in *. dec d b; [|by rewrite Ne]. rewrite Eb'. rewrite Eb in P3. left. by destruct P3 as [P3|P3].
    + destruct P as (P & g & E1 & E2 & E3 & E4). split; [done|]. exists g. split_and!; try done. dec c a; [done|]. dec c b; [congruence|]. by rewrite Ne.
  - intros d g Eg. change (frames s' d) with (frames s d) in Eg. pose proof (i_fr _ I d g Eg) as F. dec d a.
    + unfold frame_ok. rewrite Ea'. rewrite Ef in Eg. injection Eg as <-. left. split_and!; try done. by exists v.
    + dec d b.
      * unfold frame_ok in F |- *. rewrite Eb'. rewrite Eb in F. destruct F as [F1 F2]. split; [done|]. destruct (f_state g); try done. by apply W.
      * eapply frame_ok_mono; [done|by apply Ne|done|by intros; apply W|]. intros [x Hx]. exists x. by apply D.
Qed.
Lemma running_ok s a : Inv s -> running s a = Ok tt.
Proof.
  intros I. unfold running. destruct (frames s a) as [f|] eqn:E; [|done]. pose proof (i_fr _ I a f E) as F. unfold frame_ok in F.
  destruct (pcs s a); try done; destruct F as [-> _]; done.
Qed.
Lemma get_own s a : Inv s -> is_Some (frames s a) -> pcs s a <> Ended -> exists f, frames s a = Some f /\ get s a = Ok f.
Proof.
  intros I [f E] N. exists f. split; [done|]. unfold get. rewrite E. pose proof (i_fr _ I a f E) as F. unfold frame_ok in F.
  destruct (pcs s a); try done; destruct F as [-> _]; done.
Qed.
Lemma handle_cases s a v : Inv s -> mentions v (pcs s a) = true -> (exists c, vars s v = Some (Some c) /\ handle s v = Ok c) \/ (vars s v = Some None /\ handle s v = Die).
Proof. intros I M. destruct (i_dom _ I a v M) as [[c|] E]; unfold handle; rewrite E; [left|right]; [by exists c|done]. Qed.
Lemma Inv_idle s a : Inv s -> plain (pcs s a) -> Inv (set_pc a Idle s).
Proof. intros I P. apply Inv_pc; try done. unfold pc_ok. cbn. by uu. Qed.
Lemma mention_after v k u : mentions u (after v k) = true -> mentions u (Dropping v k) = true.
Proof.
  destruct k as [w|]; cbn; [|done]. intros [M|M]%orb_true_iff; apply bool_decide_eq_true_1 in M; subst; apply orb_true_iff;
    (by left; apply bool_decide_eq_true_2) || (by right; apply bool_decide_eq_true_2).
Qed.
Lemma set_frame_pc s c f a q : set_pc a q (set_frame c f s) = set_frame c f (set_pc a q s).
Proof. done. Qed.
Lemma micro_ok s a : Inv s ->
  match micro s a with
  | Ok s' => Inv s'
  | Die => exists v, (pcs s a = Ready v \/ pcs s a = Blocking v \/ pcs s a = Asking v) /\ vars s v = Some None
  | _ => False
  end.
Proof.
  intros I. pose proof (i_pc _ I a) as P. unfold pc_ok in P. unfold micro. destruct (pcs s a) as [| | |v|v|v|v|v|v|v k|c v k|v w|x| | | | |b|] eqn:Ea; try done.
  - destruct (handle_cases s a v I) as [(c & Ev & ->)|[Ev ->]]; [rewrite Ea; apply ment| |by cbn [mbind res_bind]; exists v; auto]. cbn [mbind res_bind].
    destruct (handle_get _ _ _ I Ev) as (f & Ef & -> & _). cbn [mbind res_bind]. case_decide; (apply Inv_pc; [done|by rewrite Ea|done|rewrite Ea; by left|]); unfold pc_ok; cbn; uu; [by eexists|]. split; [done|by eexists].
  - destruct P as [P [c Ev]]. unfold handle. rewrite Ev. cbn [mbind res_bind]. destruct (handle_get _ _ _ I Ev) as (f & Ef & -> & _). cbn [mbind res_bind]. case_decide as St.
    + apply Inv_say. by apply Inv_register.
    + apply Inv_pc; [done|by rewrite Ea|done|rewrite Ea; by left|]. unfold pc_ok; cbn; uu. by eexists.
  - destruct P as [c Ev]. unfold handle. rewrite Ev. cbn [mbind res_bind]. destruct (handle_get _ _ _ I Ev) as (f & Ef & -> & _). cbn [mbind res_bind].
    apply Inv_say. rewrite set_frame_pc. apply (Inv_frame _ _ f); try done. apply Inv_idle; [done|by rewrite Ea].
  - destruct (handle_cases s a v I) as [(c & Ev & ->)|[Ev ->]]; [rewrite Ea; apply ment| |by cbn [mbind res_bind]; exists v; auto]. cbn [mbind res_bind].
    destruct (handle_get _ _ _ I Ev) as (f & Ef & -> & _). cbn [mbind res_bind]. destruct (f_flag f); [|done].
    apply Inv_pc; [done|by rewrite Ea|done|rewrite Ea; by left|]. unfold pc_ok; cbn; uu. by eexists.
  - destruct (handle_cases s a v I) as [(c & Ev & ->)|[Ev ->]]; [rewrite Ea; apply ment| |by cbn [mbind res_bind]; exists v; auto]. cbn [mbind res_bind].
    destruct (handle_get _ _ _ I Ev) as (f & Ef & -> & _). cbn [mbind res_bind]. apply Inv_say, Inv_idle; [done|by rewrite Ea].
  - destruct (i_dom _ I a v) as [[c|] Ev]; [rewrite Ea; cbn; by rewrite ment| |]; rewrite Ev.
    + destruct (handle_get _ _ _ I Ev) as (f & Ef & -> & _). cbn [mbind res_bind]. pose proof (Inv_drop s a v k c f I Ea Ev Ef) as D.
      destruct (f_state f); done.
    + apply Inv_pc; [done|by rewrite Ea|by destruct k|rewrite Ea; intros u M; left; by apply mention_after|]. unfold pc_ok; cbn; uu. destruct k; cbn; [done|done].
  - destruct P as (Ev & f & Ef & Al & St & Ec). unfold destroy, get. rewrite Ef, Al, Ec. cbn [mbind res_bind].
    apply (Inv_say (set_pc a (after v k) (set_frame c (mk_frame (f_state f) (f_flag f) (f_value f) false) s))). apply Inv_destroy; [done|done| |].
    + intros [u Eu]. destruct (i_ref _ I u c Eu) as (g & Eg & _ & Sg). congruence.
    + left. by exists v, k.
  - destruct (i_dom _ I a w) as [h Ew]; [rewrite Ea; cbn; by rewrite ment, orb_true_r|]. rewrite Ew.
    assert (forall b u, b <> a -> mentions u (pcs s b) = true -> u <> v /\ u <> w) as Nm.
    { intros b u N M. split; intros ->; apply N; (eapply (i_one _ I b a); [done|]); rewrite Ea; cbn; by rewrite ment, ?orb_true_r. }
    assert (forall u c, upd (upd (vars s) v (Some h)) w (Some None) u = Some (Some c) <-> (v <> w /\ u = v /\ h = Some c) \/ (u <> v /\ u <> w /\ vars s u = Some (Some c))) as X.
    { intros u c. dec u w; uu.
      - split; [done|]. intros [(N & -> & _)|(_ & N & _)]; done.
      - dec u v; uu; [|by naive_solver]. split; [intros [= ->]; by left|]. intros [(_ & _ & ->)|(N & _)]; done. }
    apply (Inv_move s _ a); try done; cbn [set_pc set_var pcs vars nvars frames agents]; uu; try done.
    + by rewrite Ea.
    + intros b N. by uu.
    + intros c. unfold owned. cbn [vars set_pc set_var]. split.
      * intros [u Eu]. destruct (decide (u = w)) as [->|N].
        -- rewrite Ew in Eu. injection Eu as ->. exists v. apply X. left. split; [|done]. intros ->. congruence.
        -- exists u. apply X. right. split; [|done]. intros ->. congruence.
      * intros [u Eu]. apply X in Eu as [(N & -> & ->)|(_ & _ & Eu)]; [by exists w|by exists u].
    + intros u u' c H1 H2. apply X in H1, H2. destruct H1 as [(N1 & -> & ->)|(A1 & B1 & C1)], H2 as [(N2 & -> & E2)|(A2 & B2 & C2)]; try done.
      * exfalso. apply B2. by apply (i_inj _ I u' w c).
      * exfalso. apply B1. rewrite E2 in Ew. by apply (i_inj _ I u w c).
      * by apply (i_inj _ I u u' c).
    + intros u L. pose proof (i_var _ I u L) as N. dec u w; uu; [congruence|]. dec u v; uu; [congruence|done].
    + intros u Hu. dec u w; uu; [by eexists|]. dec u v; uu; [by eexists|done].
    + intros b u N M. destruct (Nm b u N M). by uu.
    + unfold pc_ok. cbn. by uu.
  - destruct (get_own s a I P) as (f & Ef & ->); [by rewrite Ea|]. cbn [mbind res_bind]. apply Inv_say. rewrite set_frame_pc. apply (Inv_frame _ _ f); try done.
    apply Inv_pc; [done|by rewrite Ea|done|done|]. unfold pc_ok. cbn. by uu.
  - destruct (get_own s a I P) as (f & Ef & ->); [by rewrite Ea|]. cbn [mbind res_bind]. rewrite set_frame_pc. apply (Inv_frame _ _ f); try done.
    apply Inv_pc; [done|by rewrite Ea|done|done|]. unfold pc_ok. cbn. by uu.
  - destruct (get_own s a I P) as (f & Ef & ->); [by rewrite Ea|]. cbn [mbind res_bind].
    apply Inv_pc; [done|by rewrite Ea|done|done|]. unfold pc_ok. cbn. by uu.
  - destruct (get_own s a I P) as (f & Ef & ->); [by rewrite Ea|]. cbn [mbind res_bind]. pose proof (Inv_final s a f I Ea Ef) as F. destruct (f_state f); done.
  - destruct (get_own s a I P) as (f & Ef & G); [by rewrite Ea|]. unfold destroy. rewrite G, Ea. cbn [mbind res_bind].
    apply (Inv_say (set_pc a Ended (set_frame a (mk_frame (f_state f) (f_flag f) (f_value f) false) s))). apply Inv_destroy; [done|done| |by right].
    pose proof (i_fr _ I a f Ef) as F. unfold frame_ok in F. rewrite Ea in F. apply F.
  - destruct P as [f Ef]. pose proof (i_fr _ I a f Ef) as F. unfold frame_ok in F. rewrite Ea in F. destruct F as (_ & _ & v & Eb & Ev).
    pose proof (i_pc _ I b) as Pb. unfold pc_ok in Pb. rewrite Eb in Pb. destruct (get_own s b I) as (g & Eg & ->); [apply Pb|by rewrite Eb|]. cbn [mbind res_bind].
    rewrite Eb. apply Inv_say. by apply Inv_resume.
Qed.
Lemma begin_ok s a c : Inv s -> pcs s a = Idle -> Inv (begin s a c).
Proof.
  intros I Ea. pose proof (in_range _ _ _ I Ea ltac:(done)) as La.
  assert (forall v, free s v = true -> Inv s -> forall q, plain q -> (forall u, mentions u q = true -> free s u = true) ->
    (match q with Stealing _ _ | Register _ | Taking _ | Destroying _ _ _ | Waiting _ => False | Blocking _ | Asking _ | Dropping _ _ => True | _ => is_Some (frames s a) end) ->
    Inv (set_pc a q s)) as Pc.
  { intros v F _ q Pq M Hk. apply Inv_pc; [done|by rewrite Ea|done|by right; apply M|]. unfold pc_ok. cbn. uu. by destruct q. }
  assert (forall v u q, mentions u q = true -> (forall w, mentions w q = true -> w = v) -> free s v = true -> free s u = true) as Fu.
  { intros v u q M H F. by rewrite (H u M). }
  assert (forall f, agents s <> a /\ (f = Some (mk_frame TStart false None true) -> True)) as _ by (intros; split; [lia|done]).
  destruct c as [| | |v|v w|v|v|v|v| |x]; cbn [begin].
  - (* Thread *)
    set (s' := new_agent None s). assert (forall b, b <> agents s -> pcs s' b = pcs s b) as Ne by (intros; cbn; by uu).
    assert (pcs s' (agents s) = Idle) as Eq by (cbn; by uu). assert (pcs s (agents s) = Absent) as Ab by (by apply (i_new _ I)).
    assert (forall b, frames s' b = frames s b) as Fr. { intros b. cbn. dec b (agents s); uu; [|done]. symmetry. by apply (i_nof _ I). }
    assert (forall b d, waiting s b d -> waiting s' b d) as W by (intros b d (u & E1 & E2); exists u; (dec b (agents s); [congruence|by rewrite Ne])).
    assert (forall b d, destroying s b d <-> destroying s' b d) as D.
    { intros b d. split; intros (u & k & E); exists u, k; (dec b (agents s); [congruence|]); [by rewrite Ne|by rewrite Ne in E]. }
    constructor; try apply I.
    + intros b. change (agents s') with (S (agents s)). dec b (agents s); [rewrite Eq; split; [lia|done]|]. rewrite Ne by done. rewrite <- (i_new _ I). lia.
    + intros b L. change (agents s') with (S (agents s)) in L. rewrite Fr. apply (i_nof _ I). lia.
    + intros v d E. setoid_rewrite Fr. by apply (i_ref _ I v).
    + intros b b' u. dec b (agents s); [by rewrite Eq|]. dec b' (agents s); [by rewrite Eq|]. rewrite !Ne by done. apply (i_one _ I).
    + intros b u. dec b (agents s); [by rewrite Eq|]. rewrite Ne by done. apply (i_dom _ I).
    + intros b b' d H1 H2. apply D in H1, H2. by eapply (i_des _ I).
    + intros b. pose proof (i_pc _ I b) as P. unfold pc_ok in P |- *. dec b (agents s); [by rewrite Eq|]. rewrite Ne, Fr by done. destruct (pcs s b); try done.
      * destruct P as [P (d & g & E1 & E2 & P3)]. split; [done|]. exists d, g. rewrite Fr. split_and!; try done. unfold unfinished in *. dec d (agents s); [|by rewrite Ne].
        exfalso. rewrite (i_nof _ I) in E2; [done|lia].
      * destruct P as (P & g & E1 & E2 & E3 & E4). split; [done|]. exists g. rewrite Fr. split_and!; try done. dec c (agents s); [congruence|by rewrite Ne].
    + intros d g. rewrite Fr. intros Eg. pose proof (coro_range _ _ _ I Eg). pose proof (i_fr _ I d g Eg) as F.
      eapply frame_ok_mono; [done|apply Ne; lia|done|by intros; apply W|]. intros [b Hb]. exists b. by apply D.
  - (* Call *)
    set (n := agents s). set (f0 := mk_frame TStart false None true). set (s' := new_var (Some n) (new_agent (Some f0) s)).
    assert (forall b, b <> n -> pcs s' b = pcs s b) as Ne by (intros; unfold s', n in *; cbn; by uu).
    assert (pcs s' n = Idle) as Eq by (unfold s', n in *; cbn; by uu). assert (pcs s n = Absent) as Ab by (by apply (i_new _ I)).
    assert (forall b, b <> n -> frames s' b = frames s b) as Fr by (intros b N; unfold s', n in *; cbn; by uu).
    assert (frames s' n = Some f0) as Fn by (unfold s', n in *; cbn; by uu).
    assert (forall u, u <> nvars s -> vars s' u = vars s u) as Vr by (intros; unfold s', n in *; cbn; by uu).
    assert (vars s' (nvars s) = Some (Some n)) as Vn by (unfold s', n in *; cbn; by uu).
    assert (vars s (nvars s) = None) as Vo by (by apply (i_var _ I)).
    assert (forall u d, vars s u = Some (Some d) -> d <> n) as Nn.
    { intros u d E ->. destruct (i_ref _ I u n E) as (g & Eg & _). rewrite (i_nof _ I) in Eg; [done|]. unfold n. lia. }
    assert (forall b d, waiting s b d -> waiting s' b d) as W.
    { intros b d (u & E1 & E2); exists u. dec b n; [congruence|]. rewrite Ne by done. split; [done|]. dec u (nvars s); [congruence|by rewrite Vr]. }
    assert (forall b d, destroying s b d <-> destroying s' b d) as D.
    { intros b d. split; intros (u & k & E); exists u, k; (dec b n; [congruence|]); [by rewrite Ne|by rewrite Ne in E]. }
    constructor.
    + intros b. change (agents s') with (S n). dec b n; [rewrite Eq; split; [lia|done]|]. rewrite Ne by done. rewrite <- (i_new _ I). fold n. lia.
    + intros b L. change (agents s') with (S n) in L. rewrite Fr by lia. apply (i_nof _ I). fold n. lia.
    + intros u L. change (nvars s') with (S (nvars s)) in L. rewrite Vr by lia. apply (i_var _ I). lia.
    + intros u u' d. dec u (nvars s); dec u' (nvars s); rewrite ?Vn; rewrite ?Vr by done; try done.
      * intros [= <-] E. by apply Nn in E.
      * intros E [= <-]. by apply Nn in E.
      * apply (i_inj _ I).
    + intros u d. dec u (nvars s); [rewrite Vn; intros [= <-]; rewrite Fn; by eexists|]. rewrite Vr by done. intros E. rewrite (Fr d) by (by eapply Nn). by apply (i_ref _ I u).
    + intros b b' u. dec b n; [by rewrite Eq|]. dec b' n; [by rewrite Eq|]. rewrite !Ne by done. apply (i_one _ I).
    + intros b u. dec b n; [by rewrite Eq|]. rewrite Ne by done. intros M. pose proof (i_dom _ I b u M) as H. dec u (nvars s); [rewrite Vn; by eexists|by rewrite Vr].
    + intros b b' d H1 H2. apply D in H1, H2. by eapply (i_des _ I).
    + intros b. pose proof (i_pc _ I b) as P. unfold pc_ok in P |- *. dec b n; [by rewrite Eq|].
      assert (forall u, mentions u (pcs s b) = true -> vars s' u = vars s u) as Sm.
      { intros u M. apply Vr. intros ->. destruct (i_dom _ I b _ M). congruence. }
      rewrite Ne, Fr by done. destruct (pcs s b) eqn:Eb; cbn [mentions] in Sm; try done.
      * by rewrite Sm by apply ment.
      * destruct P as [P (d & g & E1 & E2 & P3)]. rewrite Sm by apply ment. split; [done|]. exists d, g. assert (d <> n) by (by eapply Nn). rewrite Fr by done. split_and!; try done. unfold unfinished in *. by rewrite Ne.
      * by rewrite Sm by apply ment.
      * destruct P as (P & g & E1 & E2 & E3 & E4). rewrite Sm by (by rewrite ment). split; [done|]. exists g.
        assert (c <> n) by (intros ->; congruence). rewrite Fr, Ne by done. done.
      * by rewrite Sm by (by rewrite ment).
    + intros d g. dec d n.
      * rewrite Fn. intros [= <-]. unfold frame_ok. rewrite Eq. split; [done|]. cbn. by exists (nvars s).
      * rewrite Fr by done. intros Eg. pose proof (i_fr _ I d g Eg) as F.
        eapply frame_ok_mono; [done|by apply Ne| |by intros; apply W|].
        -- split; intros [u E]; exists u; (dec u (nvars s); [congruence|]); [by rewrite Vr|by rewrite Vr in E].
        -- intros [b Hb]. exists b. by apply D.
  - (* Null *)
    assert (vars s (nvars s) = None) as Vo by (by apply (i_var _ I)).
    apply (Inv_move s _ a); try done; cbn [new_var pcs vars nvars agents]; try (by rewrite Ea).
    + intros d. unfold owned. cbn [new_var vars]. split; intros [u E]; exists u; (dec u (nvars s); uu; [congruence|done]).
    + intros u u' d. dec u (nvars s); dec u' (nvars s); uu; try done. apply (i_inj _ I).
    + intros u L. assert (u <> nvars s) by lia. uu. apply (i_var _ I). lia.
    + intros u H. dec u (nvars s); uu; [by eexists|done].
    + intros b u N M. pose proof (i_dom _ I b u M) as [h H]. dec u (nvars s); uu; [congruence|done].
    + unfold pc_ok. cbn. by rewrite Ea.
  - (* Move *)
    destruct (free s v) eqn:F; [|done]. destruct (free_spec _ _ I F) as [[h Ev] Nm]. rewrite Ev.
    assert (vars s (nvars s) = None) as Vo by (by apply (i_var _ I)). assert (v <> nvars s) as Nv by congruence. assert (nvars s <> v) as Nv' by congruence.
    assert (forall u d, upd (upd (vars s) (nvars s) (Some h)) v (Some None) u = Some (Some d) <-> (u = nvars s /\ h = Some d) \/ (u <> v /\ vars s u = Some (Some d))) as X.
    { intros u d. dec u v; uu; [split; [done|]; intros [(? & _)|(? & _)]; done|]. dec u (nvars s); uu; [|by naive_solver].
      split; [intros [= ->]; by left|]. intros [(_ & ->)|(_ & ?)]; [done|congruence]. }
    apply (Inv_move s _ a); try done; cbn [new_var set_var pcs vars nvars agents]; try (by rewrite Ea).
    + intros d. unfold owned. cbn [new_var set_var vars]. split; intros [u E].
      * destruct (decide (u = v)) as [->|N]; [exists (nvars s)|exists u]; apply X; [left|right]; (split; [done|]); congruence.
      * apply X in E as [(-> & ->)|(_ & E)]; [by exists v|by exists u].
    + intros u u' d H1 H2. apply X in H1, H2. destruct H1 as [(-> & ->)|(A1 & B1)], H2 as [(-> & E2)|(A2 & B2)]; try done.
      * exfalso. apply A2. by apply (i_inj _ I u' v d).
      * exfalso. apply A1. rewrite E2 in Ev. by apply (i_inj _ I u v d).
      * by apply (i_inj _ I u u' d).
    + intros u L. assert (u <> nvars s) by lia. assert (vars s u = None) by (apply (i_var _ I); lia). assert (u <> v) by congruence. by uu.
    + intros u H. dec u v; uu; [by eexists|]. dec u (nvars s); uu; [by eexists|done].
    + intros b u N M. assert (u <> v) by (intros ->; by rewrite Nm in M). uu. pose proof (i_dom _ I b u M) as [h' H']. dec u (nvars s); uu; [congruence|done].
    + unfold pc_ok. cbn. by rewrite Ea.
  - destruct (free s v) eqn:F, (free s w) eqn:F'; try done. apply (Pc v); try done. intros u. cbn.
    intros [M|M]%orb_true_iff; apply bool_decide_eq_true_1 in M; [by subst|]. by injection M as ->.
  - destruct (free s v) eqn:F; try done. apply (Pc v); try done. intros u. cbn.
    intros [M|M]%orb_true_iff; apply bool_decide_eq_true_1 in M; [by subst|done].
  - unfold is_coro. destruct (free s v) eqn:F; try done. case_bool_decide; [|done]. apply (Pc v); try done. intros u. cbn. intros M%bool_decide_eq_true_1. by subst.
  - destruct (free s v) eqn:F; try done. apply (Pc v); try done. intros u. cbn. intros M%bool_decide_eq_true_1. by subst.
  - destruct (free s v) eqn:F; try done. apply (Pc v); try done. intros u. cbn. intros M%bool_decide_eq_true_1. by subst.
  - unfold is_coro. case_bool_decide; [|done]. apply Inv_pc; [done|by rewrite Ea|done|done|]. unfold pc_ok. cbn. by uu.
  - unfold is_coro. case_bool_decide; [|done]. apply Inv_pc; [done|by rewrite Ea|done|done|]. unfold pc_ok. cbn. by uu.
Qed.
Lemma step_ok s e : Inv s ->
  match step s e with
  | Ok s' => Inv s'
  | Die => exists a v, e = Step a /\ (pcs s a = Ready v \/ pcs s a = Blocking v \/ pcs s a = Asking v) /\ vars s v = Some None
  | _ => False
  end.
Proof.
  intros I. destruct e as [a c|a|c]; cbn [step].
  - destruct (pcs s a) eqn:Ea; try done. rewrite running_ok by done. cbn [mbind res_bind]. by apply begin_ok.
  - rewrite running_ok by done. cbn [mbind res_bind]. pose proof (micro_ok s a I) as M. destruct (micro s a); try done. destruct M as (v & M). by exists a, v.
  - destruct (pcs s c) eqn:Ec; try done. rewrite running_ok by done. cbn [mbind res_bind]. apply Inv_idle; [done|by rewrite Ec].
Qed.
Lemma run_ok es : forall s, Inv s -> match run s es with Ok s' => Inv s' | Die => True | _ => False end.
Proof.
  induction es as [|e es IH]; intros s I; cbn [run]; [done|]. pose proof (step_ok s e I) as S. destruct (step s e); cbn [mbind res_bind]; try done. by apply IH.
Qed.
