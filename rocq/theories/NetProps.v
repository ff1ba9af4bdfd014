(** C81, C82, C83: sockets, datagrams and addresses. *)
From stdpp Require Import gmap.
From Verif Require Import Base Word NetModel NetSpec.
Open Scope Z_scope.

Record inv (s : net) (live : gmap nat bool) : Prop := {
  i_live : forall o, live !! o = (fun fd => bool_decide (fd <> -1)) <$> objs s !! o;
  i_open : forall o fd, objs s !! o = Some fd -> fd <> -1 -> 0 <= fd /\ is_Some (socks s !! fd);
  i_held : forall fd, is_Some (socks s !! fd) -> fd <> -1 /\ exists o, objs s !! o = Some fd;
  i_one : forall o1 o2 fd, objs s !! o1 = Some fd -> objs s !! o2 = Some fd -> fd <> -1 -> o1 = o2 }.
Lemma inv_init : inv init ∅.
Proof.
  split; unfold init; cbn; intros.
  - rewrite !lookup_empty. done.
  - rewrite lookup_empty in H. done.
  - rewrite lookup_empty in H. destruct H; done.
  - rewrite lookup_empty in H. done.
Qed.
Lemma inv_socks s live f : inv s live -> (forall fd, is_Some (f (socks s) !! fd) <-> is_Some (socks s !! fd)) -> inv (with_socks f s) live.
Proof. intros [I1 I2 I3 I4] H. split; cbn; [done| |intros fd F; apply I3, H, F|done]. intros o fd E N. destruct (I2 o fd E N). split; [done|apply H; done]. Qed.
Lemma live_none s live o : inv s live -> live !! o = None -> objs s !! o = None.
Proof. intros I H. rewrite (i_live _ _ I) in H. destruct (objs s !! o); done. Qed.
Lemma live_some s live o h : inv s live -> live !! o = Some h -> exists fd, objs s !! o = Some fd /\ h = bool_decide (fd <> -1).
Proof. intros I H. rewrite (i_live _ _ I) in H. destruct (objs s !! o) as [fd|]; [|done]. cbn in H. injection H as <-. eauto. Qed.
Lemma inv_move s live o src fd : inv s live -> objs s !! src = Some fd -> (objs s !! o = None \/ objs s !! o = Some (-1)) ->
  inv (with_objs (fun m => <[src := -1]> (<[o := fd]> m)) s) (<[src := false]> (<[o := bool_decide (fd <> -1)]> live)).
Proof.
  intros [I1 I2 I3 I4] Es Eo. split; cbn.
  - intros p. destruct (decide (p = src)) as [->|N1]; [rewrite !lookup_insert; done|]. rewrite !(lookup_insert_ne _ src) by done.
    destruct (decide (p = o)) as [->|N2]; [rewrite !lookup_insert; done|]. rewrite !lookup_insert_ne by done. apply I1.
  - intros p f. destruct (decide (p = src)) as [->|N1]; [rewrite lookup_insert; congruence|]. rewrite (lookup_insert_ne _ src) by done.
    destruct (decide (p = o)) as [->|N2]; [rewrite lookup_insert; intros [= <-]; apply (I2 src); done|]. rewrite lookup_insert_ne by done. apply I2.
  - intros f F. destruct (I3 f F) as [Nf [p Ep]]. split; [done|]. destruct (decide (p = src)) as [->|N1].
    + assert (f = fd) by congruence. subst f. exists o. destruct (decide (o = src)) as [->|N]; [destruct Eo; congruence|].
      rewrite lookup_insert_ne by done. apply lookup_insert.
    + exists p. rewrite lookup_insert_ne by done. rewrite lookup_insert_ne; [done|]. intros <-. destruct Eo; congruence.
  - intros p1 p2 f. destruct (decide (p1 = src)) as [->|N1]; [rewrite lookup_insert; congruence|]. rewrite (lookup_insert_ne _ src p1) by done.
    destruct (decide (p2 = src)) as [->|N2]; [rewrite lookup_insert; congruence|]. rewrite (lookup_insert_ne _ src p2) by done.
    destruct (decide (p1 = o)) as [->|M1], (decide (p2 = o)) as [->|M2]; rewrite ?lookup_insert, ?lookup_insert_ne by done; intros; [done|..].
    + injection H as <-. exfalso. apply N2. symmetry. apply (I4 src p2 fd); done.
    + injection H0 as <-. exfalso. apply N1. symmetry. apply (I4 src p1 fd); done.
    + apply (I4 p1 p2 f); done.
Qed.
Definition next_live (live : gmap nat bool) (o : op) : gmap nat bool :=
  match o with
  | New o _ => <[o := true]> live | Destroy o => delete o live
  | MoveNew o src | MoveAssign o src => <[src := false]> (<[o := default false (live !! src)]> live)
  | _ => live
  end.
Lemma proper_next live o ops : proper live (o :: ops) -> proper (next_live live o) ops.
Proof. destruct o; cbn; try tauto; intros [_ (h & -> & H)]; done. Qed.
Lemma step_inv s live o ops : inv s live -> proper live (o :: ops) ->
  match step s o with Ok (s', e) => inv s' (next_live live o) | Die => True | _ => False end.
Proof.
  intros I P. destruct o; cbn [step next_live] in *.
  - destruct P as [Hn _]. rewrite (live_none _ _ _ I Hn). unfold sys_socket. destruct got as [fd|]; [|done]. destruct (decide _) as [[F1 F2]|]; [|done].
    destruct (decide (fd < 0)) as [|_]; [lia|]. destruct I as [I1 I2 I3 I4].
    assert (Fr : forall p, objs s !! p = Some fd -> False). { intros p Ep. destruct (I2 p fd Ep ltac:(lia)) as [_ [? ?]]. congruence. }
    split; cbn.
    + intros p. destruct (decide (p = o)) as [->|]; [rewrite !lookup_insert; cbn; rewrite bool_decide_true by lia; done|]. rewrite !lookup_insert_ne by done. apply I1.
    + intros p f. destruct (decide (p = o)) as [->|]; [rewrite lookup_insert; intros [= <-] _; split; [done|]; rewrite lookup_insert; done|].
      rewrite lookup_insert_ne by done. intros E N. destruct (I2 p f E N). split; [done|]. destruct (decide (f = fd)) as [->|]; [rewrite lookup_insert; done|]. rewrite lookup_insert_ne by done. done.
    + intros f F. destruct (decide (f = fd)) as [->|Nf]; [split; [lia|exists o; apply lookup_insert]|]. rewrite lookup_insert_ne in F by done.
      destruct (I3 f F) as [? [p Ep]]. split; [done|]. exists p. rewrite lookup_insert_ne; [done|]. intros <-. rewrite (live_none s live o) in Ep by done. done.
    + intros p1 p2 f. destruct (decide (p1 = o)) as [->|], (decide (p2 = o)) as [->|]; rewrite ?lookup_insert, ?lookup_insert_ne by done; intros E1 E2 N; [done|..].
      * injection E1 as <-. destruct (Fr _ E2).
      * injection E2 as <-. destruct (Fr _ E1).
      * apply (I4 p1 p2 f); done.
  - destruct P as [[h Hh] _]. destruct (live_some _ _ _ _ I Hh) as (fd & Eo & ->). unfold obj. rewrite Eo. cbn [mbind res_bind].
    destruct I as [I1 I2 I3 I4]. destruct (decide (fd = -1)) as [->|Nf].
    + split; cbn.
      * intros p. destruct (decide (p = o)) as [->|]; [rewrite !lookup_delete; done|]. rewrite !lookup_delete_ne by done. apply I1.
      * intros p f E. apply lookup_delete_Some in E as [_ E]. apply (I2 p); done.
      * intros f F. destruct (I3 f F) as [? [p Ep]]. split; [done|]. exists p. rewrite lookup_delete_ne; [done|]. intros <-. congruence.
      * intros p1 p2 f E1 E2. apply lookup_delete_Some in E1 as [_ E1], E2 as [_ E2]. apply (I4 _ _ f); done.
    + destruct (I2 o fd Eo Nf) as [_ [q Eq]]. unfold sys_close. cbn [socks with_objs]. rewrite Eq. cbn [mbind res_bind]. split; cbn.
      * intros p. destruct (decide (p = o)) as [->|]; [rewrite !lookup_delete; done|]. rewrite !lookup_delete_ne by done. apply I1.
      * intros p f E N. apply lookup_delete_Some in E as [Np E]. destruct (I2 p f E N). split; [done|]. rewrite lookup_delete_ne; [done|]. intros <-. apply Np. apply (I4 o p fd); done.
      * intros f [q' F]. apply lookup_delete_Some in F as [Nf' F]. destruct (I3 f ltac:(eauto)) as [? [p Ep]]. split; [done|]. exists p. rewrite lookup_delete_ne; [done|]. intros <-. congruence.
      * intros p1 p2 f E1 E2. apply lookup_delete_Some in E1 as [_ E1], E2 as [_ E2]. apply (I4 _ _ f); done.
  - destruct P as [Hn (h & Hs & _)]. rewrite (live_none _ _ _ I Hn). destruct (live_some _ _ _ _ I Hs) as (fd & Es & ->). unfold obj. rewrite Es, Hs. cbn [mbind res_bind default].
    apply inv_move; [done|done|left; apply (live_none _ _ _ I Hn)].
  - destruct P as [Hn (h & Hs & _)]. destruct (live_some _ _ _ _ I Hn) as (fo & Eo & B). destruct (live_some _ _ _ _ I Hs) as (fd & Es & ->). unfold obj. rewrite Eo, Es, Hs. cbn [mbind res_bind default].
    apply inv_move; [done|done|right]. symmetry in B. apply bool_decide_eq_false in B. rewrite Eo. f_equal. lia.
  - destruct P as [Hh _]. destruct (live_some _ _ _ _ I Hh) as (fd & Eo & B). unfold obj. rewrite Eo. cbn [mbind res_bind]. destruct (socks s !! fd), granted; done.
  - destruct P as (Hh & Pk & Hn & _). destruct (live_some _ _ _ _ I Hh) as (fd & Eo & B). unfold obj. rewrite Eo. cbn [mbind res_bind]. unfold is_packet in Pk.
    destruct (decide _) as [_|Nn]; [|lia]. destruct (socks s !! fd), granted; done.
  - destruct P as (Hh & Pk & _). destruct (live_some _ _ _ _ I Hh) as (fd & Eo & B). unfold obj. rewrite Eo. cbn [mbind res_bind]. unfold sys_recv.
    destruct (socks s !! fd) as [q|] eqn:Eq; [|exact I]. destruct q as [|d q], e as [[]|]; try exact I.
    apply inv_socks; [done|]. intros f. destruct (decide (f = fd)) as [->|]; [rewrite lookup_insert, Eq; done|rewrite lookup_insert_ne by done; done].
  - destruct (socks s !! fd) as [q|] eqn:Eq; [|done]. apply inv_socks; [done|]. intros f. destruct (decide (f = fd)) as [->|]; [rewrite lookup_insert, Eq; done|rewrite lookup_insert_ne by done; done].
Qed.
Lemma run_inv ops : forall s live, inv s live -> proper live ops -> match run s ops with Ok (s', es) => exists live', inv s' live' | Die => True | _ => False end.
Proof.
  induction ops as [|o ops IH]; intros s live I P; cbn [run]; [eauto|].
  pose proof (step_inv s live o ops I P) as S. destruct (step s o) as [[s1 e]| | |]; [|done..]. cbn [mbind res_bind].
  specialize (IH s1 _ S (proper_next _ _ _ P)). destruct (run s1 ops) as [[s2 es]| | |]; done.
Qed.

(** In every history of a program that moves only into objects without a socket, nothing undefined
    happens (in particular no descriptor is closed twice), the open sockets are those held by the
    objects, each by one, and when all objects are gone all sockets are closed. *)
Theorem udp_sockets_partial (ops : list op) : proper ∅ ops ->
  match run init ops with
  | Ok (s, _) => (forall fd, is_Some (socks s !! fd) <-> exists o, objs s !! o = Some fd /\ fd <> -1) /\
      (forall o1 o2 fd, objs s !! o1 = Some fd -> objs s !! o2 = Some fd -> fd <> -1 -> o1 = o2) /\
      (objs s = ∅ -> socks s = ∅)
  | Die => True
  | _ => False
  end.
Proof.
  intros P. pose proof (run_inv ops init ∅ inv_init P) as R. destruct (run init ops) as [[s es]| | |]; [|done..]. destruct R as [live [I1 I2 I3 I4]].
  assert (H : forall fd, is_Some (socks s !! fd) <-> exists o, objs s !! o = Some fd /\ fd <> -1).
  { intros fd. split; [intros F; destruct (I3 fd F) as [? [o ?]]; eauto|intros (o & E & N); apply (I2 o fd E N)]. }
  split_and!; [done|done|]. intros E. apply map_eq. intros fd. rewrite lookup_empty. destruct (socks s !! fd) eqn:F; [|done]. destruct (proj1 (H fd) ltac:(eauto)) as (o & Eo & _).
  rewrite E, lookup_empty in Eo. done.
Qed.
(** Move assignment does not close the socket of the object assigned to: it stays open when every
    object is gone.  Assigning an object to itself loses its socket. *)
Theorem udp_assign_refuted :
  (exists s es, run init [New 0 (Some 3); New 1 (Some 4); MoveAssign 0 1; Destroy 1; Destroy 0] = Ok (s, es) /\ objs s = ∅ /\ is_Some (socks s !! 3)) /\
  (exists s es, run init [New 0 (Some 3); MoveAssign 0 0; Destroy 0] = Ok (s, es) /\ objs s = ∅ /\ is_Some (socks s !! 3)).
Proof. split; do 2 eexists; (split; [vm_compute; reflexivity|split; [apply (bool_decide_unpack _); vm_compute; exact Logic.I|vm_compute; eauto]]). Qed.

(** ** Datagrams *)
Lemma arrivals_snoc fd es e : arrivals fd (es ++ [e]) = match e with
    | Opened fd' => if decide (fd' = fd) then [] else arrivals fd es
    | Arrived fd' d => if decide (fd' = fd) then arrivals fd es ++ [d] else arrivals fd es
    | _ => arrivals fd es end.
Proof. unfold arrivals. rewrite foldl_snoc. done. Qed.
Lemma results_snoc fd es e : results fd (es ++ [e]) = match e with
    | Opened fd' => if decide (fd' = fd) then [] else results fd es
    | Got fd' n who p => if decide (fd' = fd) then results fd es ++ [(n, who, p)] else results fd es
    | _ => results fd es end.
Proof. unfold results. rewrite foldl_snoc. done. Qed.
(** Each result gives its datagram if that is short. *)
Definition gives_if (r : Z * option sockaddr * list Z) (d : dgram) : Prop := short d -> gives r d.
Definition stream (s : net) (past : list event) : Prop :=
  forall fd q, socks s !! fd = Some q -> exists taken, arrivals fd past = taken ++ q /\ Forall2 gives_if (results fd past) taken.
Lemma unit_size_u64 : Z.of_nat unit_size < 2 ^ 64. Proof. done. Qed.
Lemma got_gives d p : is_packet p -> gives_if (wrap 64 (Z.of_nat (length (payload d))), Some (from d), overwrite (take unit_size (payload d)) p) d.
Proof.
  intros Hp Hs. unfold short, gives, is_packet, overwrite in *. pose proof unit_size_u64.
  rewrite (take_ge (payload d)) by lia. rewrite wrap_small by (unfold is_u; lia). rewrite Nat2Z.id, take_app.
  split_and!; [done|done|done|]. rewrite app_length, drop_length. lia.
Qed.
Lemma step_stream s live o ops past s' e : inv s live -> proper live (o :: ops) -> no_error o -> stream s past -> step s o = Ok (s', e) -> stream s' (past ++ [e]).
Proof.
  intros I P Ne St E.
  assert (Keep : forall e, (forall fd, arrivals fd (past ++ [e]) = arrivals fd past) -> (forall fd, results fd (past ++ [e]) = results fd past) -> forall t, socks t = socks s -> stream t (past ++ [e])).
  { intros e' Ha Hr t Et fd q Eq. rewrite Ha, Hr. apply St. rewrite <-Et. done. }
  assert (Qk : forall t, socks t = socks s -> stream t (past ++ [Quiet])) by (apply Keep; intros; [rewrite arrivals_snoc|rewrite results_snoc]; done).
  destruct o; cbn [step] in E.
  - destruct (objs s !! o); [done|]. unfold sys_socket in E. destruct got as [fd|]; [|done]. destruct (decide _) as [[F1 F2]|]; [|done].
    destruct (decide (fd < 0)); [done|]. injection E as <- <-. intros f q. cbn. destruct (decide (f = fd)) as [->|N].
    + rewrite lookup_insert. intros [= <-]. exists []. rewrite arrivals_snoc, results_snoc, !decide_True by done. split; [done|constructor].
    + rewrite lookup_insert_ne by done. rewrite arrivals_snoc, results_snoc. rewrite !decide_False by done. apply St.
  - unfold obj in E. destruct (objs s !! o) as [fd|]; [|done]. cbn [mbind res_bind] in E. destruct (decide (fd = -1)); [injection E as <- <-; apply Qk; done|].
    unfold sys_close in E. cbn [socks with_objs] in E. destruct (socks s !! fd); [|done]. cbn [mbind res_bind] in E. injection E as <- <-.
    intros f q F. cbn in F. apply lookup_delete_Some in F as [_ F]. rewrite arrivals_snoc, results_snoc. apply St. done.
  - destruct (objs s !! o); [done|]. unfold obj in E. destruct (objs s !! src) as [fd|]; [|done]. cbn [mbind res_bind] in E. injection E as <- <-. apply Qk. done.
  - unfold obj in E. destruct (objs s !! o); [|done]. destruct (objs s !! src) as [fd|]; [|done]. cbn [mbind res_bind] in E. injection E as <- <-. apply Qk. done.
  - unfold obj in E. destruct (objs s !! o) as [fd|]; [|done]. cbn [mbind res_bind] in E. destruct (socks s !! fd), granted; try done. injection E as <- <-. apply Qk. done.
  - unfold obj in E. destruct (objs s !! o) as [fd|]; [|done]. cbn [mbind res_bind] in E. destruct (decide _); [|done]. destruct (socks s !! fd), granted; try done. injection E as <- <-.
    apply Keep; [intros; apply arrivals_snoc|intros; apply results_snoc|done].
  - destruct P as (Hh & Pk & _). destruct (live_some _ _ _ _ I Hh) as (fd & Eo & B). unfold obj in E. rewrite Eo in E. cbn [mbind res_bind] in E.
    symmetry in B. apply bool_decide_eq_true in B. destruct (i_open _ _ I o fd Eo B) as [_ [q Eq]]. unfold sys_recv in E. rewrite Eq in E.
    assert (Nt : s' = s /\ e = Nothing fd pkt -> stream s' (past ++ [e])). { intros [-> ->]. apply Keep; [intros; apply arrivals_snoc|intros; apply results_snoc|done]. }
    destruct q as [|d q], e0 as [[]|]; cbn in Ne; try done; try (injection E as <- <-; apply Nt; done).
    injection E as <- <-. intros f r. cbn. rewrite arrivals_snoc, results_snoc. destruct (decide (f = fd)) as [->|N].
    + rewrite lookup_insert, decide_True by done. intros [= <-]. destruct (St fd _ Eq) as (taken & A & F). exists (taken ++ [d]). split; [rewrite A, <-app_assoc; done|].
      apply Forall2_app; [done|]. constructor; [|constructor]. apply got_gives. done.
    + rewrite lookup_insert_ne, decide_False by done. apply St.
  - destruct (socks s !! fd) as [q|] eqn:Eq; [|injection E as <- <-; apply Qk; done]. injection E as <- <-. intros f r. cbn. rewrite arrivals_snoc, results_snoc. destruct (decide (f = fd)) as [->|N].
    + rewrite lookup_insert, decide_True by done. intros [= <-]. destruct (St fd _ Eq) as (taken & A & F). exists taken. rewrite A, app_assoc. done.
    + rewrite lookup_insert_ne, decide_False by done. apply St.
Qed.
Lemma run_stream ops : forall s live past s' es, inv s live -> proper live ops -> Forall no_error ops -> stream s past -> run s ops = Ok (s', es) -> stream s' (past ++ es).
Proof.
  induction ops as [|o ops IH]; intros s live past s' es I P Ne St E; cbn [run] in E.
  - injection E as <- <-. rewrite app_nil_r. done.
  - inversion Ne as [|? ? No Nops]; subst. pose proof (step_inv s live o ops I P) as Si. destruct (step s o) as [[s1 e]| | |] eqn:Es; [|done..]. cbn [mbind res_bind] in E.
    destruct (run s1 ops) as [[s2 es']| | |] eqn:Er; [|done..]. cbn in E. injection E as <- <-. replace (past ++ e :: es') with ((past ++ [e]) ++ es') by (rewrite <-app_assoc; done).
    apply (IH s1 (next_live live o)); [done|apply proper_next; done|done| |done]. apply (step_stream s live o ops past s1 e); done.
Qed.
(** What is received from a socket is what arrived there, in order, each datagram once, with its
    sender; what is left waits in the system.  For datagrams that fit a packet, when the system
    reports no error. *)
Theorem udp_stream_partial (ops : list op) (s : net) (es : list event) (fd : Z) (q : list dgram) :
  proper ∅ ops -> Forall no_error ops -> run init ops = Ok (s, es) -> socks s !! fd = Some q -> Forall short (arrivals fd es) ->
  exists taken, arrivals fd es = taken ++ q /\ Forall2 gives (results fd es) taken.
Proof.
  intros P Ne E F Sh. assert (S0 : stream init []) by (intros f r H; cbn in H; rewrite lookup_empty in H; done).
  destruct (run_stream ops init ∅ [] s es inv_init P Ne S0 E fd q F) as (taken & A & G). exists taken. split; [done|].
  cbn [app] in A. rewrite A in Sh. apply Forall_app in Sh as [Sh _]. clear A. cbn [app] in G. induction G as [|r d rs ds Hr _ IH]; [constructor|].
  inversion Sh; subst. constructor; [apply Hr; done|apply IH; done].
Qed.
(** Receiving when nothing waits returns nothing and leaves the packet alone. *)
Theorem udp_recv_empty (s : net) (o : nat) (fd : Z) (pkt : list Z) : objs s !! o = Some fd -> socks s !! fd = Some [] ->
  step s (Recv o pkt None) = Ok (s, Nothing fd pkt).
Proof. intros Eo Eq. cbn [step]. unfold obj, sys_recv. rewrite Eo. cbn [mbind res_bind]. rewrite Eq. done. Qed.
(** A datagram longer than a packet: the length returned is longer than the packet. *)
Theorem udp_recv_long_refuted (s : net) (o : nat) (fd : Z) (d : dgram) (q : list dgram) (pkt : list Z) :
  objs s !! o = Some fd -> socks s !! fd = Some (d :: q) -> is_packet pkt -> Z.of_nat unit_size < Z.of_nat (length (payload d)) < 2 ^ 64 ->
  exists s' n p, step s (Recv o pkt None) = Ok (s', Got fd n (Some (from d)) p) /\ is_packet p /\ Z.of_nat (length p) < n.
Proof.
  intros Eo Eq Hp L. cbn [step]. unfold obj, sys_recv. rewrite Eo. cbn [mbind res_bind]. rewrite Eq. do 3 eexists. split; [reflexivity|].
  unfold is_packet, overwrite in *. assert (Lp : length (take unit_size (payload d) ++ drop (length (take unit_size (payload d))) pkt) = unit_size).
  { rewrite app_length, drop_length, take_length. lia. }
  split; [done|]. rewrite Lp, wrap_small by (unfold is_u; lia). lia.
Qed.
(** Any other error looks like a datagram of length 2^64 - 1 from an unset address; so does receiving
    from an object that was moved from. *)
Theorem udp_recv_error_refuted (s : net) (o : nat) (fd : Z) (q : list dgram) (pkt : list Z) : objs s !! o = Some fd ->
  (socks s !! fd = Some q -> step s (Recv o pkt (Some OTHER)) = Ok (s, Got fd (2 ^ 64 - 1) None pkt)) /\
  (socks s !! fd = None -> forall e, step s (Recv o pkt e) = Ok (s, Got fd (2 ^ 64 - 1) None pkt)).
Proof.
  intros Eo. cbn [step]. unfold obj, sys_recv. rewrite Eo. cbn [mbind res_bind]. split.
  - intros ->. destruct q; done.
  - intros -> e. done.
Qed.
(** [send] hands over exactly the first n bytes of the packet and returns n if the system takes them, and stops the program if not. *)
Theorem udp_send (s : net) (o : nat) (fd : Z) (to : sockaddr) (pkt : list Z) (n : Z) (granted : bool) :
  objs s !! o = Some fd -> is_packet pkt -> 0 <= n <= Z.of_nat unit_size ->
  (is_Some (socks s !! fd) /\ granted = true ->
    exists bytes, step s (Send o to pkt n granted) = Ok (s, Sent fd to bytes n) /\ Z.of_nat (length bytes) = n /\ exists rest, pkt = bytes ++ rest) /\
  (socks s !! fd = None \/ granted = false -> step s (Send o to pkt n granted) = Die).
Proof.
  intros Eo Hp Hn. cbn [step]. unfold obj. rewrite Eo. cbn [mbind res_bind]. unfold is_packet in Hp. rewrite decide_True by lia.
  split.
  - intros [[q ->] ->]. eexists. split; [reflexivity|]. split; [rewrite take_length; lia|]. exists (drop (Z.to_nat n) pkt). symmetry. apply take_drop.
  - intros [-> | ->]; [done|by destruct (socks s !! fd)].
Qed.
(** A length above the size of a packet reads outside it. *)
Theorem udp_send_long_refuted (s : net) (o : nat) (fd : Z) (to : sockaddr) (pkt : list Z) (n : Z) (granted : bool) :
  objs s !! o = Some fd -> is_packet pkt -> Z.of_nat unit_size < n -> step s (Send o to pkt n granted) = UB.
Proof. intros Eo Hp Hn. cbn [step]. unfold obj. rewrite Eo. cbn [mbind res_bind]. unfold is_packet in Hp. rewrite decide_False by lia. done. Qed.
(** Windows: short datagrams arrive the same; a longer one is dropped without notice. *)
Theorem udp_recv_w32 (s : net) (fd : Z) (d : dgram) (q : list dgram) (pkt : list Z) : socks s !! fd = Some (d :: q) -> is_packet pkt ->
  let '(r, p, s') := recv_w32 None fd pkt s in
  socks s' !! fd = Some q /\ is_packet p /\
  (short d -> r = Some (Z.of_nat (length (payload d)), from d) /\ take (length (payload d)) p = payload d) /\ (~ short d -> r = None).
Proof.
  intros Eq Hp. unfold recv_w32. rewrite Eq. unfold is_packet, short, overwrite in *. destruct (decide _) as [L|L]; cbn [socks with_socks].
  - split_and!; [apply lookup_insert|rewrite app_length, drop_length; lia|intros _; split; [done|apply take_app]|done].
  - split_and!; [apply lookup_insert|rewrite app_length, drop_length, take_length; lia|done|done].
Qed.

(** ** Addresses *)
Lemma quad_digits ds : Forall (fun d => 0 <= d <= 9) ds -> forall done cur s, quad done cur (List.map (fun d => 48 + d) ds ++ s) = quad done (cur ++ ds) s.
Proof.
  induction 1 as [|d ds Hd _ IH]; intros done cur s; [rewrite app_nil_r; reflexivity|].
  cbn [List.map app quad]. unfold digit. rewrite decide_True by lia. replace (48 + d - 48) with d by lia. rewrite IH. rewrite <-app_assoc. reflexivity.
Qed.
Definition digits (n : Z) : list Z := (if decide (100 <= n) then [n / 100] else []) ++ (if decide (10 <= n) then [n / 10 mod 10] else []) ++ [n mod 10].
Lemma decimal_digits n : decimal n = List.map (fun d => 48 + d) (digits n).
Proof. unfold decimal, digits. rewrite !List.map_app. destruct (decide (100 <= n)), (decide (10 <= n)); done. Qed.
Lemma digits_ok n : byte n -> Forall (fun d => 0 <= d <= 9) (digits n) /\ number (digits n) = Some n.
Proof.
  intros [L H]. assert (n / 10 mod 10 = n / 10 - 10 * (n / 100)) as E2 by (rewrite Z.mod_eq by lia; rewrite Z.div_div by lia; done).
  assert (E1 : n mod 10 = n - 10 * (n / 10)) by (apply Z.mod_eq; lia).
  assert (Q1 : 0 <= n - 10 * (n / 10) <= 9) by (rewrite <-E1; pose proof (Z.mod_pos_bound n 10); lia).
  assert (Q2 : 0 <= n / 10 - 10 * (n / 100) <= 9) by (rewrite <-E2; pose proof (Z.mod_pos_bound (n / 10) 10); lia).
  assert (Q3 : 100 * (n / 100) <= n < 100 * (n / 100) + 100) by (pose proof (Z.mod_pos_bound n 100); pose proof (Z.div_mod n 100); lia).
  unfold digits. rewrite E1, E2. set (t := n / 10) in *. set (u := n / 100) in *. clearbody t u. clear E1 E2. destruct (decide (100 <= n)), (decide (10 <= n)); try lia; unfold number; cbn.
  - split; [repeat constructor; lia|]. rewrite !decide_True by lia. f_equal. lia.
  - split; [repeat constructor; lia|]. rewrite !decide_True by lia. f_equal. lia.
  - split; [repeat constructor; lia|]. rewrite !decide_True by lia. f_equal. lia.
Qed.
Lemma inet_pton_dotted a b c d : byte a -> byte b -> byte c -> byte d -> inet_pton (dotted a b c d) = Some [a; b; c; d].
Proof.
  intros Ha Hb Hc Hd. destruct (digits_ok a Ha) as [A1 A2], (digits_ok b Hb) as [B1 B2], (digits_ok c Hc) as [C1 C2], (digits_ok d Hd) as [D1 D2].
  unfold inet_pton, dotted. rewrite !decimal_digits.
  rewrite quad_digits by done. cbn [app quad]. change (digit 46) with (@None Z). cbn match. rewrite decide_True by done. rewrite A2. cbn [mbind option_bind app].
  rewrite quad_digits by done. cbn [app quad]. change (digit 46) with (@None Z). cbn match. rewrite decide_True by done. rewrite B2. cbn [mbind option_bind app].
  rewrite quad_digits by done. cbn [app quad]. change (digit 46) with (@None Z). cbn match. rewrite decide_True by done. rewrite C2. cbn [mbind option_bind app].
  rewrite <-(app_nil_r (List.map _ (digits d))), quad_digits by done. cbn [app quad]. rewrite D2. cbn. done.
Qed.
Lemma c_str_app t r : Forall (fun x => x <> 0) t -> c_str (t ++ 0 :: r) = Ok t.
Proof. induction 1 as [|x t Hx _ IH]; cbn; [done|]. rewrite decide_False by done. rewrite IH. done. Qed.
Lemma decimal_nonzero n : byte n -> Forall (fun x => x <> 0) (decimal n).
Proof. intros H. rewrite decimal_digits. destruct (digits_ok n H) as [F _]. induction F; cbn; constructor; [lia|done]. Qed.
Lemma dotted_nonzero a b c d : byte a -> byte b -> byte c -> byte d -> Forall (fun x => x <> 0) (dotted a b c d).
Proof. intros. unfold dotted. rewrite !Forall_app. split_and!; auto using decimal_nonzero; apply Forall_singleton; lia. Qed.
(** The dotted form of an address and a port give that address and port in network order, if a zero
    byte follows the text. *)
Theorem address_partial (v : view) (a b c d port : Z) (rest : list Z) : byte a -> byte b -> byte c -> byte d -> 0 <= port < 2 ^ 16 ->
  text v = dotted a b c d -> drop (off v + len v) (buf v) = 0 :: rest ->
  exists s, address v port = Ok s /\ sin_addr s = [a; b; c; d] /\ exists hi lo, sin_port s = [hi; lo] /\ byte hi /\ byte lo /\ port = 256 * hi + lo.
Proof.
  intros Ha Hb Hc Hd Hp T Z0. unfold address. replace (drop (off v) (buf v)) with (dotted a b c d ++ 0 :: rest).
  2:{ rewrite <-T, <-Z0. unfold text. rewrite <-drop_drop. apply take_drop. }
  rewrite c_str_app by (apply dotted_nonzero; done). cbn [mbind res_bind]. rewrite inet_pton_dotted by done. eexists. split; [reflexivity|]. split; [done|].
  exists (port / 256), (port mod 256). split; [done|]. unfold byte. pose proof (Z.mod_pos_bound port 256). pose proof (Z.div_mod port 256). split_and!; try lia.
Qed.
(** A view is not followed by a zero byte in general: the part "10.0.0.1" of "10.0.0.12" is read as
    10.0.0.12, and at the end of a buffer the bytes behind it are read. *)
Theorem address_refuted : let b := dotted 10 0 0 12 ++ [0] in
  text (View b 0 8) = dotted 10 0 0 1 /\ address (View b 0 8) 80 = Ok (Sockaddr [0; 80] [10; 0; 0; 12]) /\
  address (View (dotted 10 0 0 1) 0 8) 80 = UB.
Proof. vm_compute. done. Qed.
(** A text that is accepted consists of four bytes in digits with dots between; any other stops the program. *)
Lemma number_writes w ds n : Forall2 (fun c d => digit c = Some d) w ds -> number ds = Some n -> writes w n.
Proof.
  intros F N. unfold number in N. destruct (decide (1 <= length ds <= 3)%nat) as [L|]; [|done].
  destruct (decide (foldl (fun a d => a * 10 + d) 0 ds <= 255)) as [V|]; [|done]. injection N as <-.
  assert (forall w ds a, Forall2 (fun c d => digit c = Some d) w ds -> 0 <= a ->
    Forall (fun c => 48 <= c <= 57) w /\ 0 <= foldl (fun a d => a * 10 + d) a ds /\
    foldl (fun a d => a * 10 + d) a ds = foldl (fun a c => 10 * a + (c - 48)) a w) as Q.
  { clear. intros w ds a F. revert a. induction F as [|c d w ds Hc F IH]; intros a Ha; [done|]. cbn [foldl].
    unfold digit in Hc. destruct (decide (48 <= c <= 57)); [|done]. injection Hc as <-.
    destruct (IH (a * 10 + (c - 48))) as (A & B & C); [lia|]. split; [by constructor|]. split; [done|]. rewrite C. f_equal. lia. }
  destruct (Q w ds 0 F) as (A & B & C); [lia|]. unfold writes, byte. rewrite (Forall2_length _ _ _ F). split; [lia|]. split; [done|]. split; [lia|done].
Qed.
Lemma quad_inv s : forall dn w0 cur r, Forall2 (fun c d => digit c = Some d) w0 cur -> quad dn cur s = Some r ->
  exists w v ws vs, s = w ++ concat ((fun w => 46 :: w) <$> ws) /\ writes (w0 ++ w) v /\ Forall2 writes ws vs /\ r = dn ++ v :: vs /\ length r = 4%nat.
Proof.
  induction s as [|c s IH]; intros dn w0 cur r F Q; cbn [quad] in Q.
  - destruct (number cur) as [v|] eqn:N; [|done]. cbn in Q. destruct (decide (length dn = 3%nat)) as [L|]; [|done]. injection Q as <-.
    exists [], v, [], []. rewrite (app_nil_r w0). split; [done|]. split; [exact (number_writes _ _ _ F N)|]. split; [constructor|]. split; [done|]. rewrite app_length, L. done.
  - destruct (digit c) as [d|] eqn:D.
    + destruct (IH dn (w0 ++ [c]) (cur ++ [d]) r) as (w & v & ws & vs & -> & W & R); [apply Forall2_app; [done|by repeat constructor]|done|].
      exists (c :: w), v, ws, vs. rewrite <-app_assoc in W. done.
    + destruct (decide (c = 46)) as [->|]; [|done]. destruct (number cur) as [v|] eqn:N; [|done]. cbn in Q.
      destruct (IH (dn ++ [v]) [] [] r) as (w & v' & ws & vs & -> & W & Ws & -> & L); [constructor|done|].
      exists [], v, (w :: ws), (v' :: vs). rewrite (app_nil_r w0). split_and!; [done|exact (number_writes _ _ _ F N)|by constructor|by rewrite <-app_assoc|done].
Qed.
Theorem address_accepts (v : view) (port : Z) (rest : list Z) : Forall (fun x => x <> 0) (text v) -> drop (off v + len v) (buf v) = 0 :: rest ->
  address v port = Die \/
  exists s wa wb wc wd a b c d, address v port = Ok s /\ sin_addr s = [a; b; c; d] /\
    writes wa a /\ writes wb b /\ writes wc c /\ writes wd d /\ text v = wa ++ [46] ++ wb ++ [46] ++ wc ++ [46] ++ wd.
Proof.
  intros NZ Z0. unfold address. replace (drop (off v) (buf v)) with (text v ++ 0 :: rest).
  2:{ rewrite <-Z0. unfold text. rewrite <-drop_drop. apply take_drop. }
  rewrite c_str_app by done. cbn [mbind res_bind]. destruct (inet_pton (text v)) as [r|] eqn:I; [right|by left].
  unfold inet_pton in I. apply (quad_inv _ _ []) in I; [|constructor]. destruct I as (wa & a & ws & vs & T & Wa & Ws & -> & L).
  cbn in L. destruct vs as [|b [|c [|d [|]]]]; try done.
  inversion Ws as [|wb ? ws1 ? Wb Ws1]; subst. inversion Ws1 as [|wc ? ws2 ? Wc Ws2]; subst. inversion Ws2 as [|wd ? ws3 ? Wd Ws3]; subst. inversion Ws3; subst.
  eexists _, wa, wb, wc, wd, a, b, c, d. split; [reflexivity|]. split_and!; try done. rewrite T. cbn. by rewrite app_nil_r.
Qed.
Example address_accepts_ex : address (View [49; 50; 46; 48] 0 3) 80 = UB /\ address (View (dotted 1 2 3 4 ++ [0]) 0 7) 80 = Ok (Sockaddr [0; 80] [1; 2; 3; 4]) /\
  address (View [49; 46; 50; 0] 0 3) 80 = Die.
Proof. by vm_compute. Qed.
(** On Windows the text is copied and any view works; a text that is no address gives 0.0.0.0. *)
Theorem address_w32_dotted (v : view) (a b c d port : Z) : byte a -> byte b -> byte c -> byte d ->
  text v = dotted a b c d -> address_w32 v port = Ok (Sockaddr (htons port) [a; b; c; d]).
Proof. intros. unfold address_w32. rewrite H3, c_str_app by (apply dotted_nonzero; done). cbn [mbind res_bind]. rewrite inet_pton_dotted by done. done. Qed.
(** Address(port) is every address of the machine, 0.0.0.0, at that port. *)
Theorem address_any_zero (port : Z) : 0 <= port < 2 ^ 16 ->
  sin_addr (address_any port) = [0; 0; 0; 0] /\ exists hi lo, sin_port (address_any port) = [hi; lo] /\ byte hi /\ byte lo /\ port = 256 * hi + lo.
Proof.
  intros Hp. split; [done|]. exists (port / 256), (port mod 256). split; [done|]. unfold byte. pose proof (Z.mod_pos_bound port 256). pose proof (Z.div_mod port 256). split_and!; try lia.
Qed.
Theorem address_w32_refuted : exists v, text v = [120] /\ inet_pton (text v) = None /\ address_w32 v 80 = Ok (address_any 80).
Proof. exists (View [120] 0 1). vm_compute. done. Qed.

(** Two sockets, datagrams and moves: a history that meets the hypotheses above. *)
Definition case_ops : list op :=
  [New 0 (Some 3); New 1 (Some 4); Bind 0 true; Arrive 3 (Dgram [7; 8] (address_any 9)); Arrive 4 (Dgram [5] (address_any 9));
   Send 1 (address_any 80) (replicate unit_size 1) 2 true; Recv 0 (replicate unit_size 0) None; MoveNew 2 0; Recv 2 (replicate unit_size 0) None; Recv 1 (replicate unit_size 0) (Some EAGAIN); MoveAssign 0 1].
Example net_case : proper ∅ case_ops /\ Forall no_error case_ops /\
  exists s es, run init case_ops = Ok (s, es) /\ socks s !! 4 = Some [Dgram [5] (address_any 9)] /\ Forall short (arrivals 3 es) /\ Forall short (arrivals 4 es) /\
  length (results 3 es) = 1%nat.
Proof.
  split_and!.
  - cbn [proper case_ops]. unfold is_packet. rewrite !replicate_length. split_and!; try done.
    exists true. split; [done|]. split_and!; try done. exists true. done.
  - repeat constructor.
  - do 2 eexists. split; [vm_compute; reflexivity|]. vm_compute. repeat split; repeat constructor.
Qed.
Example address_case : byte 127 /\ text (View (dotted 127 0 0 1 ++ [0; 9]) 0 9) = dotted 127 0 0 1 /\ drop 9 (dotted 127 0 0 1 ++ [0; 9]) = [0; 9].
Proof. unfold byte. split_and!; try done; lia. Qed.

Print Assumptions udp_sockets_partial.
Print Assumptions udp_assign_refuted.
Print Assumptions udp_stream_partial.
Print Assumptions udp_recv_empty.
Print Assumptions udp_recv_long_refuted.
Print Assumptions udp_recv_error_refuted.
Print Assumptions udp_send.
Print Assumptions udp_send_long_refuted.
Print Assumptions udp_recv_w32.
Print Assumptions address_partial.
Print Assumptions address_refuted.
Print Assumptions address_accepts.
Print Assumptions address_w32_dotted.
Print Assumptions address_w32_refuted.
Print Assumptions address_any_zero.
