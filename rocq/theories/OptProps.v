(** C42: Opt and Storage. *)
From Verif Require Import OptModel OptSpec OptProofs.

(** Opt behaves as an optional value: whatever the history and the kind of T,
    the answers and contents are those of the specification, and reading an
    empty Opt stops the program.  Nothing undefined happens when the
    specification says nothing undefined is asked for. *)
Theorem opt_refines k os : kind_ok k ->
  match spec_run k [] os with
  | Ok (cs, xs) => exists s, run k st0 os = Ok (s, xs) /\ map contents (opts s) = cs
  | Die => run k st0 os = Die
  | UB => True
  | Diverge => False
  end.
Proof.
  intros K. pose proof (run_agrees k st0 os K (Inv_init k)) as R. cbn in R.
  destruct (spec_run k [] os) as [[cs xs]| | |]; try done. destruct R as (s & E & C & _). eauto.
Qed.

Lemma reach k os s xs cs ys : kind_ok k -> spec_run k [] os = Ok (cs, ys) -> run k st0 os = Ok (s, xs) -> Inv k s.
Proof.
  intros K S R. pose proof (run_agrees k st0 os K (Inv_init k)) as A. cbn in A. rewrite S in A.
  destruct A as (s' & E & _ & I). rewrite R in E. by injection E as <- <-.
Qed.
(** Every object that needs destroying was destroyed exactly once or is held by
    exactly one Opt. *)
Theorem opt_exact k os s xs cs ys : kind_ok k -> k_md k = true -> spec_run k [] os = Ok (cs, ys) -> run k st0 os = Ok (s, xs) ->
  dead (lf s) ++ concat (map held (opts s)) ≡ₚ made (lf s) /\ NoDup (made (lf s)).
Proof. intros K M S R. pose proof (reach _ _ _ _ _ _ K S R) as I. split; [by apply I|apply I]. Qed.
Corollary opt_once k os s xs cs ys : kind_ok k -> k_md k = true -> spec_run k [] os = Ok (cs, ys) -> run k st0 os = Ok (s, xs) ->
  NoDup (dead (lf s)) /\
  (forall n, n ∈ made (lf s) -> n ∈ dead (lf s) \/ exists i p, opts s !! i = Some p /\ held p = [n]) /\
  (forall i j p q n, opts s !! i = Some p -> opts s !! j = Some q -> n ∈ held p -> n ∉ dead (lf s) /\ (n ∈ held q -> i = j)).
Proof.
  intros K M S R. destruct (opt_exact _ _ _ _ _ _ K M S R) as [P N]. rewrite <- P in N.
  apply NoDup_app in N as (N1 & D & N2). split_and!; [done| |].
  - intros n. rewrite <- P, elem_of_app. intros [?|E]; [by left|]. right.
    apply elem_of_list_In, in_concat in E as (h & (p & <- & Ip)%in_map_iff & In_). apply elem_of_list_In, elem_of_list_lookup in Ip as [i Ei].
    exists i, p. split; [done|]. unfold held in In_ |- *. destruct (ok_ p); [|done]. destruct (value_ p); [|done]. by destruct In_ as [->|[]].
  - intros i j p q n Ei Ej Hp. split.
    + intros Dn. eapply D; [exact Dn|]. apply elem_of_list_In, in_concat. exists (held p).
      split; [|by apply elem_of_list_In]. apply in_map_iff. exists p. split; [done|]. apply elem_of_list_In. by eapply elem_of_list_lookup_2.
    + intros Hq. clear -N2 Ei Ej Hp Hq. revert i j Ei Ej. induction (opts s) as [|a os IH]; intros i j Ei Ej; [done|].
      cbn in N2. apply NoDup_app in N2 as (_ & D & N2).
      assert (forall i p, os !! i = Some p -> n ∈ held p -> n ∈ concat (map held os)) as X.
      { intros x y E E'. apply elem_of_list_In, in_concat. exists (held y). split; [|by apply elem_of_list_In].
        apply in_map. apply elem_of_list_In. by eapply elem_of_list_lookup_2. }
      destruct i as [|i], j as [|j]; [done| | |f_equal; by eapply IH].
      * injection Ei as ->. exfalso. eapply D; [exact Hp|]. by eapply (X j).
      * injection Ej as ->. exfalso. eapply D; [exact Hq|]. by eapply (X i).
Qed.
(** When every variable has gone out of scope, every object has been destroyed, once. *)
Corollary opt_no_leak k os s xs cs ys : kind_ok k -> k_md k = true -> spec_run k [] os = Ok (cs, ys) -> run k st0 os = Ok (s, xs) ->
  opts s = [] -> dead (lf s) ≡ₚ made (lf s).
Proof. intros K M S R E. destruct (opt_exact _ _ _ _ _ _ K M S R) as [P _]. rewrite E, app_nil_r in P. done. Qed.

(** Clearing, emplacing, assigning and leaving scope each run the destructor of
    the object held before, once, before anything else; the only other
    destructor they run is that of the temporary assigned from. *)
Definition target (s : st) (o : op) : option nat :=
  match o with
  | Clear i | Emplace i _ | SetTo i _ | MoveTo i _ => Some i
  | End => Some (length (opts s) - 1)
  | _ => None
  end.
Theorem opt_destroys k os s xs cs ys o s' x i p : kind_ok k -> k_md k = true -> spec_run k [] os = Ok (cs, ys) ->
  run k st0 os = Ok (s, xs) -> step k s o = Ok (s', x) -> target s o = Some i -> opts s !! i = Some p ->
  dead (lf s') = dead (lf s) ++ held p ++ (match o with SetTo _ _ => [next (lf s)] | _ => [] end).
Proof.
  intros K M Sp R St T Ei. pose proof (v_good _ _ (reach _ _ _ _ _ _ K Sp R)) as G.
  assert (good k p) as Gp by (by eapply Forall_lookup_1 in G). clear G Sp R.
  assert (forall l, exists q, clear k p l = Ok (Opt false None, Life (next l) (made l) (dead l ++ held p) q)) as CL.
  { intros l. unfold clear, held, s_destruct, kill. rewrite M. destruct (good_ok k p Gp) as [[_ [ob ->]]|[_ [sv ->]]]; cbn; [by eexists|].
    exists (emptied l). rewrite app_nil_r. cbn in Gp. rewrite Gp by done. by destruct l. }
  assert (k_tm k = false) as TM. { destruct K as [K _]. destruct (k_tm k); [|done]. by rewrite K in M. }
  destruct o; cbn [target] in T; try discriminate T; cbn [step] in St; unfold var in St;
    try (injection T as ->; rewrite Ei in St); cbn [mbind res_bind] in St.
  - destruct (CL (lf s)) as [q E]. rewrite E in St. cbn [mbind res_bind] in St. unfold upd in St. cbn [opts lf] in St.
    destruct (_ !! j) as [[ok v]|]; [|done]. cbn [mbind res_bind ok_ value_] in St. destruct ok.
    + unfold construct_from in St. destruct v as [ob|]; [|done]. unfold steal, make in St. rewrite TM in St. cbn in St. injection St as <- <-. cbn. by rewrite app_nil_r.
    + injection St as <- <-. cbn. by rewrite app_nil_r.
  - unfold make in St. rewrite M in St. cbn [mbind res_bind] in St.
    destruct (CL (Life (S (next (lf s))) (made (lf s) ++ [next (lf s)]) (dead (lf s)) (emptied (lf s)))) as [q E].
    rewrite E in St. cbn [mbind res_bind] in St. unfold construct_from, steal, make, s_destruct, kill in St. rewrite TM, M in St. cbn in St.
    injection St as <- <-. cbn. by rewrite app_assoc.
  - destruct (CL (lf s)) as [q E]. rewrite E in St. cbn in St. injection St as <- <-. cbn. by rewrite app_nil_r.
  - destruct (CL (lf s)) as [q E]. rewrite E in St. cbn in St. injection St as <- <-. cbn. by rewrite app_nil_r.
  - injection T as <-. rewrite last_lookup in St. replace (Nat.pred (length (opts s))) with (length (opts s) - 1) in St by lia.
    rewrite Ei in St. destruct (CL (lf s)) as [q E]. rewrite E in St. cbn in St. injection St as <- <-. cbn. by rewrite app_nil_r.
Qed.

(** The moved-from Opt still reports that it holds a value; moving an Opt to
    itself empties it. *)
Theorem opt_move_source k os s xs cs ys i j p : kind_ok k -> spec_run k [] os = Ok (cs, ys) -> run k st0 os = Ok (s, xs) ->
  opts s !! j = Some p -> i < length (opts s) ->
  exists s' q, step k s (MoveTo i j) = Ok (s', Nothing) /\ opts s' !! j = Some q /\
    ok_ q = (if decide (i = j) then false else ok_ p).
Proof.
  intros K Sp R Ej Li. pose proof (reach _ _ _ _ _ _ K Sp R) as I. pose proof (step_agrees k s (MoveTo i j) K I) as A.
  unfold agrees in A. cbn [spec] in A. rewrite !look, Ej in A. destruct (opts s !! i) as [pi|] eqn:Ei; [|by apply lookup_ge_None in Ei; lia].
  cbn [option_map] in A. pose proof (lookup_lt_Some _ _ _ Ej) as Lj.
  assert (good k p) as Gp by (eapply Forall_lookup_1; [apply I|done]).
  assert (forall s' c, map contents (opts s') !! j = Some c -> Inv k s' -> exists q, opts s' !! j = Some q /\ ok_ q = match c with Some _ => true | None => false end) as X.
  { intros s' c E I'. rewrite look in E. destruct (opts s' !! j) as [q|] eqn:Eq; [|done]. cbn in E. injection E as <-. exists q. split; [done|].
    assert (good k q) as Gq by (eapply Forall_lookup_1; [apply I'|done]). destruct (good_ok k q Gq) as [[_ [o ->]]|[_ [v ->]]]; done. }
  destruct (decide (i = j)) as [->|NE]; destruct A as (s' & E & C & I').
  - destruct (X s' None) as (q & Eq & O); [by rewrite C, list_lookup_insert by (by rewrite map_length)|done|]. eauto.
  - destruct (X s' (left_behind k (contents p))) as (q & Eq & O); [rewrite C, list_lookup_insert_ne, list_lookup_insert; [done|by rewrite map_length|done]|done|].
    exists s', q. split_and!; try done. rewrite O. destruct (good_ok k p Gp) as [[_ [o ->]]|[_ [v ->]]]; cbn; [|done]. by destruct (k_tm k).
Qed.

Definition owning : kind := Kind true false false.
Definition plain : kind := Kind false true true.
Example kinds_ok : kind_ok owning /\ kind_ok plain.
Proof. split; split; done. Qed.
(** Six statements with owned values: 7 objects, two destroyed by assignment,
    one by clear, one left moved-from in x1. *)
Example opt_example :
  run owning st0 [New 5; Wrap 6; MoveTo 0 1; Get 0; Get 1; Emplace 0 8; CloneNew 0; IsOk 1; Clear 1; IsOk 1; ValueOr 1 9; SetTo 2 3; MoveNew 2] =
    Ok (St [Opt true (Some (Obj 4 (Some 8%Z))); Opt false None; Opt true (Some (Obj 7 None)); Opt true (Some (Obj 8 (Some 3%Z)))]
           (Life 9 (seq 0 9) [1; 0; 3; 2; 5; 6] [1; 2; 6; 7]),
        [Nothing; Nothing; Nothing; Val (Some 6%Z); Val None; Nothing; Nothing; Bool true; Nothing; Bool false; Val (Some 9%Z); Nothing; Nothing]) /\
  spec_run owning [] [New 5; Wrap 6; MoveTo 0 1; Get 0; Get 1; Emplace 0 8; CloneNew 0; IsOk 1; Clear 1; IsOk 1; ValueOr 1 9; SetTo 2 3; MoveNew 2] =
    Ok ([Some (Some 8%Z); None; Some None; Some (Some 3%Z)],
        [Nothing; Nothing; Nothing; Val (Some 6%Z); Val None; Nothing; Nothing; Bool true; Nothing; Bool false; Val (Some 9%Z); Nothing; Nothing]) /\
  run owning st0 [New 5; Clear 0; Get 0] = Die.
Proof. split_and!; vm_compute; reflexivity. Qed.
Example opt_plain_example :
  run plain st0 [New 5; Var; CopyTo 1 0; MoveNew 0; Get 0; Get 1; End; End; End] =
    Ok (St [] (Life 3 [] [] []), [Nothing; Nothing; Nothing; Nothing; Val (Some 5%Z); Val (Some 5%Z); Nothing; Nothing; Nothing]).
Proof. vm_compute. reflexivity. Qed.

(** [x = move( *x )] destroys the value and then reads it. *)
Theorem opt_set_own_refuted : run owning st0 [New 5; SetOwn 0] = UB.
Proof. vm_compute. reflexivity. Qed.

Print Assumptions opt_refines.
Print Assumptions opt_exact.
Print Assumptions opt_once.
Print Assumptions opt_no_leak.
Print Assumptions opt_destroys.
Print Assumptions opt_move_source.
Print Assumptions opt_set_own_refuted.
