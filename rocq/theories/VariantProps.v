(** C43: Variant. *)
From Verif Require Import TypesModel TypesProps LifeProofs VariantModel VariantSpec VariantProofs.

(** For every number of alternatives, up to 8 and above, the handler that runs
    for index i is the one for the i-th alternative. *)
Theorem variant_dispatch Ts i t : alternatives Ts -> Ts !! i = Some t -> apply Ts i = Ok t.
Proof. intros W. by apply apply_ok. Qed.

Section props.
  Context (Ts : list ty) (kd : ty -> kind).
  (** Variant behaves as a tagged value: in every history, match runs the handler
      for the alternative most recently stored, with its value. *)
  Theorem variant_refines os cs xs : alternatives Ts -> (forall t, t ∈ Ts -> kind_ok (kd t)) -> spec_run Ts kd [] os = Ok (cs, xs) ->
    exists s, run Ts kd st0 os = Ok (s, xs) /\ map contents (vars s) = map Some cs.
  Proof.
    intros WF KD S. pose proof (run_agrees Ts kd WF KD st0 [] os (Inv_init Ts kd) eq_refl) as R. rewrite S in R.
    destruct R as (s & E & C & _). eauto.
  Qed.
  Lemma reach os cs ys s xs : alternatives Ts -> (forall t, t ∈ Ts -> kind_ok (kd t)) -> spec_run Ts kd [] os = Ok (cs, ys) ->
    run Ts kd st0 os = Ok (s, xs) -> Inv Ts kd s /\ shows s cs.
  Proof.
    intros WF KD S R. pose proof (run_agrees Ts kd WF KD st0 [] os (Inv_init Ts kd) eq_refl) as A. rewrite S in A.
    destruct A as (s' & E & C & I). rewrite R in E. by injection E as <- <-.
  Qed.
  (** Every object that needs destroying was destroyed exactly once or is held by
      exactly one Variant. *)
  Theorem variant_exact os cs ys s xs : alternatives Ts -> (forall t, t ∈ Ts -> kind_ok (kd t)) -> spec_run Ts kd [] os = Ok (cs, ys) ->
    run Ts kd st0 os = Ok (s, xs) -> dead (lf s) ++ concat (map (held kd) (vars s)) ≡ₚ made (lf s) /\ NoDup (made (lf s)).
  Proof. intros WF KD S R. destruct (reach _ _ _ _ _ WF KD S R) as [[_ (_ & N & P)] _]. done. Qed.
  Corollary variant_no_leak os cs ys s xs : alternatives Ts -> (forall t, t ∈ Ts -> kind_ok (kd t)) -> spec_run Ts kd [] os = Ok (cs, ys) ->
    run Ts kd st0 os = Ok (s, xs) -> vars s = [] -> dead (lf s) ≡ₚ made (lf s) /\ NoDup (dead (lf s)).
  Proof.
    intros WF KD S R E. destruct (variant_exact _ _ _ _ _ WF KD S R) as [P N]. rewrite E, app_nil_r in P. split; [done|]. by rewrite P.
  Qed.
  (** Move assignment and leaving scope destroy the alternative held before, once,
      and nothing else; assigning a value also destroys its two temporaries. *)
  Theorem variant_destroys os cs ys s xs o s' y i x : alternatives Ts -> (forall t, t ∈ Ts -> kind_ok (kd t)) ->
    spec_run Ts kd [] os = Ok (cs, ys) -> run Ts kd st0 os = Ok (s, xs) -> spec Ts kd cs o <> UB ->
    step Ts kd s o = Ok (s', y) -> vars s !! i = Some x ->
    match o with
    | MoveTo i' _ => i' = i -> dead (lf s') = dead (lf s) ++ held kd x
    | End => i = length (vars s) - 1 -> dead (lf s') = dead (lf s) ++ held kd x
    | SetTo i' t _ => i' = i -> dead (lf s') =
        let tmp n := if k_md (kd t) then [n] else [] in
        dead (lf s) ++ tmp (next (lf s)) ++ held kd x ++ tmp (S (next (lf s)))
    | _ => True
    end.
  Proof.
    intros WF KD Sp R NU St Ex. destruct (reach _ _ _ _ _ WF KD Sp R) as [[G A] Sh].
    assert (good Ts x) as Gx by (by eapply Forall_lookup_1 in G).
    destruct (held_upd kd (vars s) i empty x Ex) as (r & P & _).
    destruct o as [t v|i'|i'|i' j|i' t v|i'|i' v|i'|i'|]; try exact I; cbn [step] in St; unfold var in St.
    - intros ->. rewrite Ex in St. cbn [mbind res_bind] in St.
      destruct (destruct_ok Ts kd WF KD x (lf s) r Gx) as (d & l & E & F & A1 & D & _); [by eapply Acc_perm|]. rewrite E in St. cbn [mbind res_bind] in St.
      unfold upd in St. cbn [vars lf] in St. cbn [spec] in NU.
      destruct (cs !! i); [|done]. destruct (cs !! j); [|done]. destruct (decide (i = j)) as [|NE]; [done|].
      rewrite list_lookup_insert_ne in St by done. destruct (vars s !! j) as [src|] eqn:Ej; [|done]. cbn [mbind res_bind] in St.
      destruct (move_into Ts kd _ src l) as [[[x' src'] l']| | |] eqn:M; try done. cbn [mbind res_bind] in St. injection St as <- <-. cbn [lf].
      rewrite <- D. clear -M. unfold move_into in M. destruct (all_tm Ts kd).
      + unfold memcpy in M. destruct (data src) as [[t o]|].
        * destruct (k_tm (kd t)); [|done]. unfold make in M. cbn [mbind res_bind] in M. injection M as <- <- <-. done.
        * by injection M as <- <- <-.
      + destruct (match_ Ts src) as [[t o]| | |]; try done. cbn [mbind res_bind] in M. unfold construct, steal, make in M.
        destruct (k_tm (kd t)); (destruct (put _ _ _ _) as [d'| | |]; try done); cbn [mbind res_bind] in M; (destruct (index_of t Ts); [|done]);
          cbn [mbind res_bind] in M; by injection M as <- <- <-.
    - intros ->. rewrite Ex in St. cbn [mbind res_bind] in St. cbn [spec] in NU. destruct (cs !! i); [|done].
      destruct (decide (t ∈ Ts)) as [Ti|]; [|done].
      destruct (of_value_ok Ts kd WF t (Some v) (lf s) _ Ti A) as (n & l & k & E & Ix & V & A'). rewrite E in St. cbn [mbind res_bind] in St.
      destruct (destruct_ok Ts kd WF KD x l (own (kd t) n ++ r) Gx) as (d & l1 & E1 & F & A1 & D & Nx).
      { eapply Acc_perm; [|exact A']. rewrite P. solve_Permutation. }
      rewrite E1 in St. cbn [mbind res_bind] in St.
      assert (next l = S (S (next (lf s))) /\ dead l = dead (lf s) ++ (if k_md (kd t) then [next (lf s)] else []) /\ n = Obj (S (next (lf s))) (Some v)) as (Ln & Ld & ->).
      { clear -E. unfold of_value, construct, steal, make, put in E. cbn [data empty] in E.
        destruct (k_tm (kd t)); cbn [mbind res_bind] in E; (destruct (index_of t Ts); [|done]); cbn [mbind res_bind] in E; injection E as <- _ <-; cbn; by destruct (k_md (kd t)); rewrite ?app_nil_r. }
      destruct (move_into Ts kd _ _ l1) as [[[x' src'] l']| | |] eqn:M; try done. cbn [mbind res_bind] in St.
      destruct (destruct_ Ts kd src' l') as [[z l2]| | |] eqn:D2; try done. cbn [mbind res_bind] in St. injection St as <- <-. cbn [lf upd].
      destruct (move_into_ok Ts kd WF KD (Variant d INVALID) (Variant (Some (t, Obj (S (next (lf s))) (Some v))) k) l1 r) as (x2 & src2 & l3 & c & E2 & Gx2 & Gs & C1 & C2 & C3 & A2); [by do 3 eexists|done|done|].
      rewrite E2 in M. injection M as -> -> ->.
      destruct (destruct_ok Ts kd WF KD src' l' (held kd x' ++ r) Gs) as (d' & l4 & E3 & _ & A3 & D3 & _).
      { eapply Acc_perm; [|exact A2]. solve_Permutation. }
      rewrite E3 in D2. injection D2 as <- <-. rewrite D3.
      assert (dead l' = dead l1 /\ held kd src' = if k_md (kd t) then [S (next (lf s))] else []) as [-> ->].
      { clear -E2 Ix WF. unfold move_into in E2. destruct (all_tm Ts kd).
        - unfold memcpy, make in E2. cbn [data] in E2. destruct (k_tm (kd t)); [|done]. cbn [mbind res_bind] in E2. by injection E2 as <- <- <-.
        - rewrite (match_ok Ts WF _ _ _ Ix) in E2. cbn [mbind res_bind] in E2. unfold construct, steal, make in E2.
          destruct (k_tm (kd t)); (destruct (put _ _ _ _) as [d'| | |]; try done); cbn [mbind res_bind] in E2; rewrite Ix in E2;
            cbn [mbind res_bind] in E2; by injection E2 as <- <- <-. }
      rewrite D, Ld. cbn zeta. by rewrite <- !app_assoc.
    - intros ->. rewrite last_lookup in St. replace (Nat.pred (length (vars s))) with (length (vars s) - 1) in St by lia. rewrite Ex in St.
      destruct (destruct_ok Ts kd WF KD x (lf s) r Gx) as (d & l & E & F & A1 & D & _); [by eapply Acc_perm|]. rewrite E in St. cbn [mbind res_bind] in St.
      by injection St as <- <-.
  Qed.
End props.

Definition names (n : nat) : list ty := map Name (seq 0 n).
(** Odd alternatives own something. *)
Definition mixed (t : ty) : kind := match t with Name n => if Nat.odd n then Kind true false false else Kind false true true | _ => Kind false true true end.
Definition plain (t : ty) : kind := Kind false true true.
Example mixed_ok t : kind_ok (mixed t) /\ kind_ok (plain t).
Proof. split; [|by split]. destruct t as [n| | |]; cbn; try (by split). by destruct (Nat.odd n); split. Qed.
Example alternatives_3_200 : alternatives (names 3) /\ alternatives (names 200).
Proof. split; (split; [cbn; lia|by vm_compute]). Qed.
Definition prog : list op :=
  [New (Name 1) 5; New (Name 2) 6; Match 0; Match 1; MoveTo 1 0; Match 1; Match 0; SetTo 1 (Name 0) 9; Match 1; Index 0; CloneNew 1; Put 2 4; Match 2; TakeOut 1].
Example variant_example :
  run (names 3) mixed st0 prog = Ok (St [Variant (Some (Name 1, Obj 1 None)) 1; Variant (Some (Name 0, Obj 7 (Some 9%Z))) 0; Variant (Some (Name 0, Obj 9 (Some 4%Z))) 0]
    (Life 11 [0; 1; 4] [0; 4] [0; 1]),
    [Nothing; Nothing; Saw (Name 1) (Some 5%Z); Saw (Name 2) (Some 6%Z); Nothing; Saw (Name 1) (Some 5%Z); Saw (Name 1) None; Nothing;
     Saw (Name 0) (Some 9%Z); Number 1; Nothing; Nothing; Saw (Name 0) (Some 4%Z); Saw (Name 0) (Some 9%Z)]) /\
  (exists cs xs, spec_run (names 3) mixed [] prog = Ok (cs, xs)) /\
  (exists cs xs, spec_run (names 200) mixed [] (New (Name 177) 5 :: SetTo 0 (Name 199) 2 :: Match 0 :: prog) = Ok (cs, xs)).
Proof.
  split_and!; [vm_compute; reflexivity|do 2 eexists; vm_compute; reflexivity|do 2 eexists; vm_compute; reflexivity].
Qed.

(** Assigning a Variant to itself: it loses its value and then reads it, or,
    when every alternative is trivially movable, is left with no alternative,
    so that index() stops the program and match runs the wrong handler. *)
Theorem variant_self_move_refuted :
  run (names 3) mixed st0 [New (Name 1) 5; MoveTo 0 0] = UB /\
  run (names 9) mixed st0 [New (Name 1) 5; MoveTo 0 0] = UB /\
  run (names 3) plain st0 [New (Name 1) 5; MoveTo 0 0; Index 0] = Die /\
  run (names 3) plain st0 [New (Name 1) 5; MoveTo 0 0; Match 0] = UB.
Proof. split_and!; vm_compute; reflexivity. Qed.

Print Assumptions variant_dispatch.
Print Assumptions variant_refines.
Print Assumptions variant_exact.
Print Assumptions variant_no_leak.
Print Assumptions variant_destroys.
Print Assumptions variant_self_move_refuted.
