(** C44: Function. *)
From Verif Require Import LifeProofs FunctionModel FunctionSpec FunctionProofs.

Section props.
  Context (kd : nat -> kind) (code : nat -> Z -> Z -> Z * Z) (KD : forall f, kind_ok (kd f)).

  (** In every history a call runs the callable most recently stored, on its own
      state; calling an empty Function stops the program; nothing undefined
      happens. *)
  Theorem function_refines os :
    match spec_run code [] os with
    | Ok (cs, xs) => exists s, run kd code st0 os = Ok (s, xs) /\ map contents (vars s) = cs
    | Die => run kd code st0 os = Die
    | UB => True
    | Diverge => False
    end.
  Proof.
    pose proof (run_agrees kd code KD st0 os (Inv_init kd)) as R. cbn in R.
    destruct (spec_run code [] os) as [[cs xs]| | |]; try done. destruct R as (s & E & C & _). eauto.
  Qed.
  Lemma reach os s xs cs ys : spec_run code [] os = Ok (cs, ys) -> run kd code st0 os = Ok (s, xs) -> Inv kd s.
  Proof.
    intros S R. pose proof (run_agrees kd code KD st0 os (Inv_init kd)) as A. cbn in A. rewrite S in A.
    destruct A as (s' & E & _ & I). rewrite R in E. by injection E as <- <-.
  Qed.
  (** No callable is destroyed twice, none that a Function holds has been
      destroyed, and those neither destroyed nor held were moved from.  Missing
      from the full property: the moved-from ones are destroyed too. *)
  Theorem function_exact_partial os s xs cs ys : spec_run code [] os = Ok (cs, ys) -> run kd code st0 os = Ok (s, xs) ->
    exists lost, dead (lf s) ++ concat (map (held kd) (vars s)) ++ lost ≡ₚ made (lf s) /\ NoDup (made (lf s)) /\
      forall n, n ∈ lost -> n ∈ emptied (lf s).
  Proof. intros S R. destruct (reach _ _ _ _ _ S R) as [_ (lost & (_ & N & P) & E)]. eauto. Qed.
  Corollary function_no_leak_partial os s xs cs ys n : spec_run code [] os = Ok (cs, ys) -> run kd code st0 os = Ok (s, xs) ->
    vars s = [] -> NoDup (dead (lf s)) /\ (n ∈ made (lf s) -> n ∉ emptied (lf s) -> n ∈ dead (lf s)).
  Proof.
    intros S R E. destruct (function_exact_partial _ _ _ _ _ S R) as (lost & P & N & L). rewrite E in P. cbn in P. split.
    - rewrite <- P in N. by apply NoDup_app in N as [? _].
    - rewrite <- P, elem_of_app. intros [?|?] NE; [done|]. exfalso. by apply NE, L.
  Qed.
  (** Assignment and leaving scope destroy the callable held before, once, and
      assignment destroys nothing else. *)
  Theorem function_destroys os s xs cs ys o s' y i x : spec_run code [] os = Ok (cs, ys) -> run kd code st0 os = Ok (s, xs) ->
    step kd code s o = Ok (s', y) -> vars s !! i = Some x ->
    match o with
    | MoveTo i' _ => i' = i -> dead (lf s') = dead (lf s) ++ held kd x
    | End => i = length (vars s) - 1 -> dead (lf s') = dead (lf s) ++ held kd x
    | SetTo i' f _ => i' = i -> dead (lf s') = dead (lf s) ++ (if k_md (kd f) then [next (lf s)] else []) ++ held kd x
    | MoveNew _ | Call _ _ => dead (lf s') = dead (lf s)
    | New f _ => dead (lf s') = dead (lf s) ++ (if k_md (kd f) then [next (lf s)] else [])
    end.
  Proof.
    intros Sp R St Ex. destruct (reach _ _ _ _ _ Sp R) as [G A].
    assert (good kd x) as Gx by (by eapply Forall_lookup_1 in G).
    destruct (held_upd kd (vars s) i empty x Ex) as (r & P & _).
    assert (forall x src l x' src' l', move_into kd x src l = Ok (x', src', l') -> dead l' = dead l /\ vtable src' = None) as MV.
    { clear. intros x src l x' src' l' M. unfold move_into, f_move, as_, steal, make in M. destruct src as [st_ [f|]]; cbn [vtable storage] in M.
      - destruct st_ as [[f' o]|]; [|done]. destruct (f =? f'); [|done]. cbn [mbind res_bind] in M.
        destruct (k_tm (kd f)); (destruct (put _ _ _ _) as [d'| | |]; try done); cbn [mbind res_bind] in M; by injection M as <- <- <-.
      - injection M as <- <- <-. done. }
    assert (forall f v l y l', of_callable kd f v l = Ok (y, l') -> dead l' = dead l ++ (if k_md (kd f) then [next l] else [])) as OC.
    { clear. intros f v l y l' E. unfold of_callable, steal, make, put in E. cbn [storage empty] in E.
      destruct (k_tm (kd f)); cbn [mbind res_bind] in E; injection E as <- <-; cbn; destruct (k_md (kd f)); by rewrite ?app_nil_r. }
    destruct o as [f v|i'|i' j|i' f v|i' a|]; cbn [step] in St; unfold var in St.
    - destruct (of_callable kd f v (lf s)) as [[z l]| | |] eqn:E; try done. cbn [mbind res_bind] in St. injection St as <- <-. by eapply OC.
    - destruct (vars s !! i') as [z|]; [|done]. cbn [mbind res_bind] in St. destruct (move_into _ _ _ _) as [[[a b] l]| | |] eqn:M; try done.
      cbn [mbind res_bind] in St. injection St as <- <-. apply MV in M as [M _]. done.
    - intros ->. rewrite Ex in St. cbn [mbind res_bind] in St.
      destruct (destruct_ok kd x (lf s) r Gx) as (d & l & E & F & A1 & D); [by eapply FAcc_perm|]. rewrite E in St. cbn [mbind res_bind] in St.
      unfold upd in St. cbn [vars lf] in St. destruct (_ !! j) as [src|] eqn:Ej; [|done]. cbn [mbind res_bind] in St.
      destruct (move_into kd _ src l) as [[[x' src'] l']| | |] eqn:M; try done. cbn [mbind res_bind] in St. injection St as <- <-. cbn [lf].
      apply MV in M as [M _]. by rewrite M.
    - intros ->. rewrite Ex in St. cbn [mbind res_bind] in St.
      destruct (of_callable_ok kd f v (lf s) _ A) as (n & l & E & A'). rewrite E in St. cbn [mbind res_bind] in St. apply OC in E as E'.
      destruct (destruct_ok kd x l (own (kd f) (Obj n (Some v)) ++ r) Gx) as (d & l1 & E1 & F & A1 & D).
      { eapply FAcc_perm; [|exact A']. rewrite P. solve_Permutation. }
      rewrite E1 in St. cbn [mbind res_bind] in St.
      destruct (move_into kd _ _ l1) as [[[x' src'] l']| | |] eqn:M; try done. cbn [mbind res_bind] in St. apply MV in M as [M V].
      unfold destruct_ in St. rewrite V in St. cbn [mbind res_bind] in St. injection St as <- <-. cbn [lf upd]. by rewrite M, D, E', app_assoc.
    - destruct (vars s !! i') as [z|]; [|done]. cbn [mbind res_bind] in St. destruct (vtable z); [|done].
      destruct (f_invoke _ _ _ _) as [[b r']| | |]; try done. cbn [mbind res_bind] in St. by injection St as <- <-.
    - intros ->. rewrite last_lookup in St. replace (Nat.pred (length (vars s))) with (length (vars s) - 1) in St by lia. rewrite Ex in St.
      destruct (destruct_ok kd x (lf s) r Gx) as (d & l & E & F & A1 & D); [by eapply FAcc_perm|]. rewrite E in St. cbn [mbind res_bind] in St.
      by injection St as <- <-.
  Qed.
End props.

(** Callables: even types are plain, odd ones own something.  Type n returns
    n * 100 + state + argument and then counts up its state. *)
Definition kd (f : nat) : kind := if Nat.odd f then Kind true false false else Kind false true true.
Definition code (f : nat) (v a : Z) : Z * Z := ((Z.of_nat f * 100 + v + a)%Z, (v + 1)%Z).
Example kd_ok f : kind_ok (kd f).
Proof. unfold kd. by destruct (Nat.odd f); split. Qed.
Definition prog : list op := [New 1 5; Call 0 1; Call 0 1; New 2 7; MoveTo 1 0; Call 1 1; SetTo 0 3 8; Call 0 0; SetTo 1 1 9; Call 1 0].
Example function_example :
  run kd code st0 prog = Ok (St [Fn (Some (3, Obj 7 (Some 9%Z))) (Some 3); Fn (Some (1, Obj 10 (Some 10%Z))) (Some 1)]
      (Life 11 [0; 1; 4; 5; 6; 7; 8; 9; 10] [0; 5; 8; 4] [0; 1; 5; 6; 8; 9]),
    [Nothing; Result 106; Result 107; Nothing; Nothing; Result 108; Nothing; Result 308; Nothing; Result 109]) /\
  (exists cs, spec_run code [] prog = Ok (cs, [Nothing; Result 106; Result 107; Nothing; Nothing; Result 108; Nothing; Result 308; Nothing; Result 109])) /\
  spec_run code [] [New 1 5; New 1 6; MoveTo 1 0; Call 0 1] = Die.
Proof. split_and!; [vm_compute; reflexivity|eexists; vm_compute; reflexivity|vm_compute; reflexivity]. Qed.

(** A callable moved out of a Function is never destroyed: the temporary of
    [x = F{...}] leaves one behind every time. *)
Theorem function_moved_from_not_destroyed_refuted : exists s xs, run kd code st0 [New 1 5; SetTo 0 1 6; End] = Ok (s, xs) /\
  vars s = [] /\ made (lf s) = [0; 1; 2; 3; 4] /\ dead (lf s) = [0; 2; 1; 4].
Proof. do 2 eexists. split; [vm_compute; reflexivity|]. done. Qed.

Print Assumptions function_refines.
Print Assumptions function_exact_partial.
Print Assumptions function_no_leak_partial.
Print Assumptions function_destroys.
Print Assumptions function_moved_from_not_destroyed_refuted.
