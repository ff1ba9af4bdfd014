(** C89-C91: Atomic, sleep, priorities and cores. *)
From Verif Require Import Base Word SysModel.
Local Open Scope Z_scope.

Lemma signed_id x : i64 x -> to_signed 64 x = x.
Proof.
  unfold i64. intros L. unfold to_signed. change (64 - 1) with 63. destruct (decide (0 <= x)).
  - rewrite wrap_small by (unfold is_u; change (2 ^ 64) with (2 * 2 ^ 63); lia). destruct (Z.ltb_spec x (2 ^ 63)); lia.
  - assert (wrap 64 x = x + 2 ^ 64) as ->. { unfold wrap. rewrite <- (Z.mod_add x 1 (2 ^ 64)) by lia. rewrite Z.mod_small; [lia|]. change (2 ^ 64) with (2 * 2 ^ 63). lia. }
    destruct (Z.ltb_spec (x + 2 ^ 64) (2 ^ 63)); [change (2 ^ 64) with (2 * 2 ^ 63) in *; lia|lia].
Qed.
(** ** A counter that loses nothing. *)
Definition delta (c : call) : Z := match c with Incr => 1 | Decr => -1 | _ => 0 end.
Definition counting (c : call) : Prop := match c with Incr | Decr | Load => True | _ => False end.
Definition net (l : list (nat * call)) : Z := foldr (fun x n => delta (snd x) + n) 0 l.
(** However the threads interleave, the counter ends at its start plus the increments minus the decrements,
    and every call returns the count right after it. *)
Theorem atomic_count l : forall v, Forall (fun x => counting (snd x)) l -> Z.abs v + Z.of_nat (length l) < 2 ^ 63 ->
  exists h, calls v l = Ok (v + net l, h) /\ map fst h = l /\ forall h1 t c r h2, h = h1 ++ (t, c, r) :: h2 -> r = v + net (map fst h1) + delta c.
Proof.
  induction l as [|[t c] l IH]; intros v F L; cbn [length] in L; [exists []; cbn; split; [by rewrite Z.add_0_r|]; split; [done|]; intros h1 t c r h2 E; by destruct h1|].
  apply Forall_cons in F as [Fc F]. cbn in Fc. destruct (IH (v + delta c) F) as (h & E & M & Hh); [destruct c; cbn; try done; lia|].
  exists ((t, c, v + delta c) :: h). split; [|split; [cbn; by rewrite M|]].
  - cbn [calls]. assert (do_call c v = Ok (v + delta c, v + delta c)) as ->.
    { destruct c; cbn in *; try done; [by rewrite Z.add_0_r|..].
      - destruct (Z.ltb_spec (v + 1) (2 ^ 63)); [|lia]. rewrite signed_id by (unfold i64; lia). done.
      - destruct (Z.leb_spec (- 2 ^ 63) (v - 1)); [|lia]. rewrite signed_id by (unfold i64; lia). do 2 f_equal. }
    cbn [mbind res_bind]. rewrite E. cbn [mbind res_bind net foldr snd]. do 2 f_equal. fold (net l). lia.
  - intros [|p h1] t' c' r h2 Eh; cbn in Eh.
    + injection Eh as <- <- <- _. cbn. lia.
    + injection Eh as <- Eh. rewrite (Hh _ _ _ _ _ Eh). cbn. fold (net (map fst h1)). lia.
Qed.
Example atomic_count_ex : calls 5 [(0%nat, Incr); (1%nat, Incr); (0%nat, Decr); (2%nat, Load); (1%nat, Incr)] =
  Ok (7, [(0%nat, Incr, 6); (1%nat, Incr, 7); (0%nat, Decr, 6); (2%nat, Load, 6); (1%nat, Incr, 7)]).
Proof. by vm_compute. Qed.
(** Increments hand out each number once. *)
Theorem atomic_tickets l v : Forall (fun x => snd x = Incr) l -> Z.abs v + Z.of_nat (length l) < 2 ^ 63 ->
  exists h, calls v l = Ok (v + Z.of_nat (length l), h) /\ map snd h = map (fun i => v + 1 + Z.of_nat i) (seq 0 (length l)).
Proof.
  revert v. induction l as [|[t c] l IH]; intros v F L; cbn [length] in L; [exists []; cbn; by rewrite Z.add_0_r|].
  apply Forall_cons in F as [Fc F]. cbn in Fc. subst c. destruct (IH (v + 1) F) as (h & E & M); [lia|]. exists ((t, Incr, v + 1) :: h). split.
  - cbn [calls do_call]. destruct (Z.ltb_spec (v + 1) (2 ^ 63)); [|lia]. rewrite signed_id by (unfold i64; lia). cbn [mbind res_bind]. rewrite E. cbn [mbind res_bind length]. do 2 f_equal. lia.
  - cbn [map snd length seq]. f_equal; [lia|]. rewrite M, <- seq_shift, map_map. apply map_ext. intros i. lia.
Qed.
(** If threads try to turn [e] into something else, exactly one succeeds, and its value stays. *)
Theorem atomic_cas_winner e t x l : x <> e -> Forall (fun y => exists z, snd y = Cas e z /\ z <> e) l ->
  exists h, calls e ((t, Cas e x) :: l) = Ok (x, (t, Cas e x, e) :: h) /\ map fst h = l /\ Forall (fun y => snd y = x) h.
Proof.
  intros N F. cbn [calls do_call]. rewrite Z.eqb_refl. cbn [mbind res_bind].
  assert (exists h, calls x l = Ok (x, h) /\ map fst h = l /\ Forall (fun y => snd y = x) h) as (h & E & M & G); [|exists h; rewrite E; done].
  clear t. induction l as [|[t c] l IH]; [by exists []|]. apply Forall_cons in F as [(z & Ec & Nz) F]. cbn in Ec. subst c. destruct (IH F) as (h & E & M & G).
  exists ((t, Cas e z, x) :: h). cbn [calls do_call]. assert (x =? e = false) as -> by (by apply Z.eqb_neq). cbn [mbind res_bind]. rewrite E. split; [done|]. split; [cbn; by rewrite M|]. by constructor.
Qed.
(** Exchanges lose and duplicate nothing: what went in is what came out and what is left. *)
Theorem atomic_exchange l : forall v, Forall (fun y => exists z, snd y = Exchange z) l ->
  exists v' h, calls v l = Ok (v', h) /\ map fst h = l /\ Permutation (v :: map (fun y => match snd y with Exchange z => z | _ => 0 end) l) (v' :: map snd h).
Proof.
  induction l as [|[t c] l IH]; intros v F; [exists v, []; done|]. apply Forall_cons in F as [[z Ec] F]. cbn in Ec. subst c. destruct (IH z F) as (v' & h & E & M & P).
  exists v', ((t, Exchange z, v) :: h). cbn [calls do_call mbind res_bind]. rewrite E. split; [done|]. split; [cbn; by rewrite M|]. cbn. etransitivity; [apply perm_skip, P|]. apply perm_swap.
Qed.
Example atomic_exchange_ex : calls 1 [(0%nat, Exchange 2); (1%nat, Exchange 3)] = Ok (3, [(0%nat, Exchange 2, 1); (1%nat, Exchange 3, 2)]).
Proof. by vm_compute. Qed.
(** A compare_and_swap that returns what it compared with has set the value; one that does not has changed nothing. *)
Theorem atomic_cas v cmp x v' r : do_call (Cas cmp x) v = Ok (v', r) -> r = v /\ (r = cmp -> v' = x) /\ (r <> cmp -> v' = v).
Proof. cbn. destruct (Z.eqb_spec v cmp); intros [= <- <-]; split_and!; congruence. Qed.
(** Windows and the others agree, except that overflow is defined on Windows. *)
Definition fits (c : call) : Prop := match c with Exchange x => i64 x | Cas x y => i64 x /\ i64 y | _ => True end.
Theorem atomic_same_everywhere l : forall v v' h, i64 v -> Forall (fun y => fits (snd y)) l -> calls v l = Ok (v', h) -> calls_w32 v l = (v', h).
Proof.
  induction l as [|[t c] l IH]; intros v v' h V F E; [by injection E as <- <-|]. apply Forall_cons in F as [Fc F]. cbn [snd] in Fc. cbn [calls calls_w32] in *.
  destruct (do_call c v) as [[v1 r]| | |] eqn:Ec; try done. cbn [mbind res_bind] in E. destruct (calls v1 l) as [[v2 h2]| | |] eqn:El; try done. cbn [mbind res_bind] in E. injection E as <- <-.
  assert (do_call_w32 c v = (v1, r) /\ i64 v1) as [-> V1].
  { destruct c; cbn in *; unfold i64 in *.
    - by injection Ec as <- <-.
    - destruct (Z.ltb_spec (v + 1) (2 ^ 63)); [|done]. injection Ec as <- <-. rewrite signed_id by (unfold i64; lia). split; [done|lia].
    - destruct (Z.leb_spec (- 2 ^ 63) (v - 1)); [|done]. injection Ec as <- <-. rewrite signed_id by (unfold i64; lia). split; [done|lia].
    - by injection Ec as <- <-.
    - destruct (Z.eqb_spec v compare_with) as [-> |Ne]; injection Ec as <- <-; (split; [done|lia]). }
  rewrite (IH v1 v2 h2 V1 F El). done.
Qed.
Theorem atomic_overflow_refuted t : calls (2 ^ 63 - 1) [(t, Incr)] = UB /\ calls (- 2 ^ 63) [(t, Decr)] = UB /\ calls_w32 (2 ^ 63 - 1) [(t, Incr)] = (- 2 ^ 63, [(t, Incr, - 2 ^ 63)]).
Proof. by vm_compute. Qed.

(** ** sleep(ms) lasts at least ms milliseconds, and ends. *)
Definition long_enough (ms : Z) (us : option Z) : Prop := exists x, us = Some x /\ ms * 1000 <= x.
Theorem sleep_partial ms : 0 <= ms -> (ms * 1000 < 2 ^ 32 -> sleep_pos ms None = Some (ms * 1000) /\ long_enough ms (sleep_pos ms None)) /\ (ms < 2 ^ 32 - 1 -> long_enough ms (sleep_w32 ms)).
Proof.
  intros P. split.
  - intros L. unfold sleep_pos. rewrite (wrap_small 64), (wrap_small 32) by (unfold is_u; change (2 ^ 64) with (2 ^ 32 * 2 ^ 32); lia). split; [done|]. eexists. split; [done|]. lia.
  - intros L. unfold sleep_w32. rewrite (wrap_small 32) by (unfold is_u; lia). destruct (Z.eqb_spec ms (2 ^ 32 - 1)); [lia|]. eexists. split; [done|]. lia.
Qed.
Example sleep_ex : sleep_pos 1500 None = Some 1500000 /\ sleep_w32 1500 = Some 1500000.
Proof. by vm_compute. Qed.
(** An hour and a quarter (4294968 ms) is 704 microseconds; any signal cuts it short. *)
Theorem sleep_pos_refuted : sleep_pos 4294968 None = Some 704 /\ ~ long_enough 4294968 (sleep_pos 4294968 None) /\ ~ long_enough 1000 (sleep_pos 1000 (Some 3)).
Proof. split; [by vm_compute|]. split; intros (x & E & L); vm_compute in E; injection E as <-; lia. Qed.
Theorem sleep_w32_refuted : sleep_w32 (2 ^ 32) = Some 0 /\ sleep_w32 (2 ^ 32 - 1) = None.
Proof. by vm_compute. Qed.

(** ** Priorities are ordered. *)
Definition rank (p : priority) : Z := match p with Low => 0 | Normal => 1 | High => 2 | Critical => 3 end.
Theorem priority_partial lo hi p q : lo <= hi -> rank p <= rank q ->
  priority_linux lo hi p <= priority_linux lo hi q /\ lo <= priority_linux lo hi p <= hi /\ (8 <= hi - lo -> rank p < rank q -> priority_linux lo hi p < priority_linux lo hi q) /\
  priority_w32 p <= priority_w32 q /\ (rank p < rank q -> priority_w32 p < priority_w32 q) /\
  (forall now, rank p < rank q -> priority_macos now 15 47 p < priority_macos now 15 47 q).
Proof.
  intros L R. assert (0 <= hi - lo) as D by lia. unfold priority_linux. rewrite !Z.quot_div_nonneg by lia.
  pose proof (Z.div_mod (hi - lo) 2 ltac:(lia)). pose proof (Z.div_mod (hi - lo) 4 ltac:(lia)). pose proof (Z.mod_pos_bound (hi - lo) 2 ltac:(lia)). pose proof (Z.mod_pos_bound (hi - lo) 4 ltac:(lia)).
  set (a := (hi - lo) / 2) in *. set (b := (hi - lo) / 4) in *. set (c := (hi - lo) mod 2) in *. set (d := (hi - lo) mod 4) in *. clearbody a b c d.
  split_and!; destruct p, q; cbn in *; try lia; intros; cbn; lia.
Qed.
Example priority_ex : map (priority_linux 1 99) [Low; Normal; High; Critical] = [1; 50; 74; 99].
Proof. by vm_compute. Qed.
(** The policy used on Linux has one priority, so set_priority does nothing there; and on a Mac with other
    limits a thread cannot return from critical to normal. *)
Theorem priority_linux_refuted p : priority_linux 0 0 p = 0.
Proof. by destruct p. Qed.
Theorem priority_macos_refuted now : priority_macos (priority_macos now 0 47 Critical) 0 47 Normal = 47.
Proof. by vm_compute. Qed.

(** ** set_affinity leaves the one core asked for. *)
Theorem affinity_partial n core now : 0 <= core < n -> (core < 1024 -> affinity_linux n core = Ok [core]) /\ (core < 64 -> affinity_w32 n core now = Ok [core]).
Proof.
  intros L. unfold affinity_linux, affinity_w32. assert (core <? n = true) as -> by (apply Z.ltb_lt; lia). cbn [assert_]. split; intros L2.
  - assert (core <? 1024 = true) as -> by (by apply Z.ltb_lt). done.
  - assert (core >=? 64 = false) as -> by (rewrite Z.geb_leb; apply Z.leb_gt; lia). rewrite <- (Z2Nat.id core) by lia. assert (Z.to_nat core < 64)%nat as Lc by lia. generalize dependent (Z.to_nat core). intros k Lk. clear L L2.
    do 64 (destruct k as [|k]; [by vm_compute|]). lia.
Qed.
Theorem affinity_refuted : affinity_linux 2048 1024 = Die /\ affinity_w32 128 64 [3] = Ok [3].
Proof. by vm_compute. Qed.
Theorem affinity_dies n core now : n <= core -> affinity_linux n core = Die /\ affinity_w32 n core now = Die.
Proof. intros L. unfold affinity_linux, affinity_w32. assert (core <? n = false) as -> by (by apply Z.ltb_ge). done. Qed.
Print Assumptions atomic_count.
Print Assumptions atomic_tickets.
Print Assumptions atomic_cas_winner.
Print Assumptions atomic_exchange.
Print Assumptions atomic_cas.
Print Assumptions atomic_same_everywhere.
Print Assumptions atomic_overflow_refuted.
Print Assumptions sleep_partial.
Print Assumptions sleep_pos_refuted.
Print Assumptions sleep_w32_refuted.
Print Assumptions priority_partial.
Print Assumptions priority_linux_refuted.
Print Assumptions priority_macos_refuted.
Print Assumptions affinity_partial.
Print Assumptions affinity_refuted.
Print Assumptions affinity_dies.
