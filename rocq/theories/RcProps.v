(** C39 and C41: Rc and Box. *)
From stdpp Require Import gmap.
From Verif Require Import Word RcModel RcSpec RcProofs RcSteps RcLive RcEffect.

(** ** Rc.  Histories of fewer than 2^64 statements, so that no counter wraps. *)

(** An object is alive exactly while some handle refers to it; every object that
    is no longer alive had its destructor run, exactly once. *)
Theorem rc_exact os st xs : (Z.of_nat (length os) < 2 ^ 64)%Z -> run true hs_init os = Ok (st, xs) ->
  (forall p, alive st p <-> 0 < handles_to st p) /\
  (forall p, p ∈ gone st <-> p < next_id st /\ ~ alive st p) /\ NoDup (gone st).
Proof. intros L R. eapply Inv_exact. by eapply run_init. Qed.

(** Statements that make sense never touch a destroyed object and always finish;
    they stop the program exactly when they dereference a null handle. *)
Theorem rc_safe os st xs o : (Z.of_nat (length os) + 1 < 2 ^ 64)%Z -> run true hs_init os = Ok (st, xs) -> legal st o ->
  step true st o <> UB /\ step true st o <> Diverge /\ (step true st o = Die <-> Exists (null st) (derefs o)).
Proof.
  intros L R Lg. assert (Inv (Z.of_nat (length os)) st []) as I by (eapply run_init; [lia|done]). split_and!.
  - eapply step_live; [|exact L|exact I|done]. lia.
  - pose proof (step_sound (Z.of_nat (length os)) st o ltac:(lia) L I) as S. by destruct (step true st o).
  - eapply step_die; [|exact L|exact I|done]. lia.
Qed.

(** Each statement sets the handles it names and no other, and changes no value
    other than the one assigned. *)
Theorem rc_effect os st xs o st' x : (Z.of_nat (length os) < 2 ^ 64)%Z -> run true hs_init os = Ok (st, xs) ->
  step true st o = Ok (st', x) -> effective st o st'.
Proof. intros L R. eapply step_effect. by eapply run_init. Qed.

(** The queries answer correctly; references() is the number of handles. *)
Theorem rc_answer os st xs o st' x : (Z.of_nat (length os) < 2 ^ 64)%Z -> run true hs_init os = Ok (st, xs) ->
  step true st o = Ok (st', x) -> answer st o x.
Proof. intros L R. eapply step_answer. by eapply run_init. Qed.

(** What a program can reach is alive.  Without cycles, nothing else is. *)
Theorem rc_reachable os st xs p : (Z.of_nat (length os) < 2 ^ 64)%Z -> run true hs_init os = Ok (st, xs) ->
  (reachable (roots st) (heap st) p -> alive st p) /\ (acyclic (heap st) -> alive st p -> reachable (roots st) (heap st) p).
Proof.
  intros L R. pose proof (run_init _ _ _ L R) as I. split; [by eapply reach_alive|]. intros A. by eapply alive_reach.
Qed.
Theorem rc_no_leak os st xs : (Z.of_nat (length os) < 2 ^ 64)%Z -> run true hs_init os = Ok (st, xs) ->
  acyclic (heap st) -> (forall i h, roots st !! i = Some h -> h = None) -> (forall p, ~ alive st p) /\ length (gone st) = next_id st.
Proof.
  intros L R A N. pose proof (run_init _ _ _ L R) as I.
  assert (forall p, ~ alive st p) as D.
  { intros p Hp. apply (alive_reach _ _ I A) in Hp. clear -Hp N. induction Hp as [i p E|q o k p _ IH _ _]; [by apply N in E|done]. }
  split; [done|]. assert (gone st ≡ₚ seq 0 (next_id st)) as P.
  { apply NoDup_Permutation; [apply I|apply NoDup_seq|]. intros p. rewrite (v_gone _ _ _ I), elem_of_seq, eq_None_not_Some.
    split; [intros [? _]; lia|]. intros ?. split; [lia|apply D]. }
  rewrite P. apply seq_length.
Qed.

(** The state of a finished run, as plain data. *)
Definition view (r : res (hs * list out)) : option (list (option nat) * list (nat * Z * Z * list (option nat)) * list nat * list out) :=
  match r with
  | Ok (st, xs) => Some (roots st, map (fun x => (x.1, o_refs x.2, o_val x.2, o_fields x.2)) (map_to_list (heap st)), gone st, xs)
  | _ => None
  end.
(** x and y share an object that owns another one; dropping x keeps both, dropping y destroys both. *)
Example rc_example :
  let os := [Var; Var; New (Root 0) 5 1; New (Field (Root 0) 0) 7 0; Dup (Root 1) (Root 0); References (Root 1); Clear (Root 0);
             Get (Field (Root 1) 0); References (Root 1)] in
  view (run true hs_init os) =
    Some ([None; Some 0], [(0, 1%Z, 5%Z, [Some 1]); (1, 1%Z, 7%Z, [])], [],
          [Nothing; Nothing; Nothing; Nothing; Nothing; Number 2; Nothing; Number 7; Number 1]) /\
  view (run true hs_init (os ++ [End; End])) =
    Some ([], [], [1; 0], [Nothing; Nothing; Nothing; Nothing; Nothing; Number 2; Nothing; Number 7; Number 1; Nothing; Nothing]).
Proof. split; vm_compute; reflexivity. Qed.
Lemma view_ok r v : view r = Some v -> exists st xs, r = Ok (st, xs) /\
  v = (roots st, map (fun x => (x.1, o_refs x.2, o_val x.2, o_fields x.2)) (map_to_list (heap st)), gone st, xs).
Proof. unfold view. destruct r as [[st xs]| | |]; try discriminate. intros [= <-]. eauto. Qed.
(** The hypotheses of [rc_safe], [rc_effect] and [rc_answer] in that state: x is
    assigned from the field of the object that y keeps alive. *)
Example rc_legal_example : exists os st xs, (Z.of_nat (length os) + 1 < 2 ^ 64)%Z /\ run true hs_init os = Ok (st, xs) /\
  legal st (Move (Root 0) (Field (Root 1) 0)) /\ exists st' x, step true st (Move (Root 0) (Field (Root 1) 0)) = Ok (st', x).
Proof.
  set (os := [Var; Var; New (Root 0) 5 1; New (Field (Root 0) 0) 7 0; Dup (Root 1) (Root 0)]).
  destruct (view_ok (run true hs_init os) ([Some 0; Some 0], [(0, 2%Z, 5%Z, [Some 1]); (1, 1%Z, 7%Z, [])], [], [Nothing; Nothing; Nothing; Nothing; Nothing]))
    as (st & xs & R & V); [vm_compute; reflexivity|].
  exists os, st, xs. split; [unfold os; cbn [length]; lia|]. split; [done|].
  injection V as V1 V2 V3 V4. assert (exists o, heap st !! 0 = Some o /\ o_fields o = [Some 1]) as (o & Ho & Fo).
  { assert ((0, 2%Z, 5%Z, [Some 1]) ∈ map (fun x => (x.1, o_refs x.2, o_val x.2, o_fields x.2)) (map_to_list (heap st))) as Hin by (rewrite <- V2; set_solver).
    apply elem_of_list_fmap in Hin as ([p o] & E & Hin). cbn in E. injection E as E1 E2 E3 E4. exists o. split; [|done].
    apply elem_of_map_to_list in Hin. by rewrite E1. }
  assert (read st (ARoot 0) = Ok (Some 0)) as R0 by (cbn [read]; by rewrite <- V1).
  assert (read st (ARoot 1) = Ok (Some 0)) as R1 by (cbn [read]; by rewrite <- V1).
  assert (locate st (Field (Root 1) 0) = Ok (AField 0 0)) as Ls by (cbn [locate mbind res_bind]; by rewrite R1).
  assert (legal st (Move (Root 0) (Field (Root 1) 0))) as Lg.
  { split_and!.
    - cbn [places]. repeat constructor; cbn [named]; try (rewrite <- V1; cbn; lia).
      intros p o'. unfold deref. cbn [locate mbind res_bind]. rewrite R1. cbn [mbind res_bind]. intros [= <-] Ho'. rewrite Ho in Ho'. injection Ho' as <-.
      rewrite Fo. cbn. lia.
    - done.
    - intros dst src [= <- <-] a st0 q k [= <-] W L. rewrite Ls in L. injection L as <- <-.
      apply (reachable_root _ _ 1). unfold write in W. rewrite R0 in W. cbn [mbind res_bind] in W. injection W as <-. cbn [roots]. by rewrite <- V1. }
  split; [done|]. assert (Z.of_nat (length os) + 1 < 2 ^ 64)%Z as L by (unfold os; cbn [length]; lia).
  destruct (rc_safe os st xs _ L R Lg) as (S1 & S2 & S3).
  destruct (step true st (Move (Root 0) (Field (Root 1) 0))) as [[st' x]| | |] eqn:E; try done; [eauto|].
  exfalso. destruct S3 as [S3 _]. specialize (S3 eq_refl). cbn in S3. apply Exists_cons in S3 as [(a & [= <-] & Ra)|S3]; [congruence|by apply Exists_nil in S3].
Qed.

(** A cycle keeps itself alive after the last variable is gone, as with any counter. *)
Example rc_cycle :
  view (run true hs_init [Var; New (Root 0) 5 1; Dup (Field (Root 0) 0) (Root 0); End]) =
    Some ([], [(0, 1%Z, 5%Z, [Some 0])], [], [Nothing; Nothing; Nothing; Nothing]).
Proof. vm_compute. reflexivity. Qed.

(** [legal] excludes one statement a user might expect to work: [x = move(x->next)]
    reads the moved handle after destroying the object it is in. *)
Theorem rc_move_child_refuted : exists os st xs, run true hs_init os = Ok (st, xs) /\
  Forall (named st) [Root 0; Field (Root 0) 0] /\ step true st (Move (Root 0) (Field (Root 0) 0)) = UB.
Proof.
  set (os := [Var; New (Root 0) 5 1; New (Field (Root 0) 0) 7 1]).
  destruct (view_ok (run true hs_init os) ([Some 0], [(0, 1%Z, 5%Z, [Some 1]); (1, 1%Z, 7%Z, [None])], [], [Nothing; Nothing; Nothing]))
    as (st & xs & R & V); [vm_compute; reflexivity|].
  exists os, st, xs. split; [done|]. injection V as V1 V2 V3 V4.
  assert (exists o, heap st !! 0 = Some o /\ o_fields o = [Some 1]) as (o & Ho & Fo).
  { assert ((0, 1%Z, 5%Z, [Some 1]) ∈ map (fun x => (x.1, o_refs x.2, o_val x.2, o_fields x.2)) (map_to_list (heap st))) as Hin by (rewrite <- V2; set_solver).
    apply elem_of_list_fmap in Hin as ([p o] & E & Hin). cbn in E. injection E as E1 E2 E3 E4. exists o. split; [|done].
    apply elem_of_map_to_list in Hin. by rewrite E1. }
  assert (read st (ARoot 0) = Ok (Some 0)) as R0 by (cbn [read]; by rewrite <- V1). split.
  - repeat constructor; cbn [named]; try (rewrite <- V1; cbn; lia).
    intros p o'. unfold deref. cbn [locate mbind res_bind]. rewrite R0. cbn [mbind res_bind]. intros [= <-] Ho'. rewrite Ho in Ho'. injection Ho' as <-.
    rewrite Fo. cbn. lia.
  - assert (match run true hs_init os with Ok (st, _) => match step true st (Move (Root 0) (Field (Root 0) 0)) with UB => true | _ => false end | _ => false end = true) as C by (vm_compute; reflexivity).
    rewrite R in C. destruct (step true st (Move (Root 0) (Field (Root 0) 0))); congruence.
Qed.

(** Assigning a handle to itself empties it. *)
Theorem rc_self_move os st xs pl a st' x : (Z.of_nat (length os) < 2 ^ 64)%Z -> run true hs_init os = Ok (st, xs) ->
  locate st pl = Ok a -> step true st (Move pl pl) = Ok (st', x) -> forall h, read st' a = Ok h -> h = None.
Proof.
  intros L R E S h Rh. destruct (rc_effect _ _ _ _ _ _ L R S) as (_ & (w & (a1 & s & h0 & E1 & E2 & _ & ->) & H) & _).
  rewrite E in E1, E2. injection E1 as <-. injection E2 as <-. rewrite (H a h Rh). unfold handle_after. cbn. by rewrite decide_True.
Qed.
Example rc_self_move_example : view (run true hs_init [Var; New (Root 0) 5 1; Move (Root 0) (Root 0)]) = Some ([None], [], [0], [Nothing; Nothing; Nothing]).
Proof. vm_compute. reflexivity. Qed.

(** ** Box *)

(** Each boxed object that is alive is owned by exactly one Box, and every other
    one was destroyed exactly once. *)
Theorem box_exact os st xs : Forall box_op os -> run false hs_init os = Ok (st, xs) ->
  (forall p, alive st p <-> handles_to st p = 1) /\ (forall p, handles_to st p <= 1) /\
  (forall p, p ∈ gone st <-> p < next_id st /\ ~ alive st p) /\ NoDup (gone st).
Proof.
  intros Hb R. destruct (box_init _ _ _ Hb R) as [O I]. destruct (Inv_exact _ _ I) as (A & G & N).
  assert (forall p, handles_to st p <= 1) as Le.
  { intros p. pose proof (v_refs _ _ _ I p) as F. unfold refs_of in F. rewrite cnt_nil in F. unfold handles_to. fold (hc p (heap st)).
    destruct (heap st !! p) as [o|] eqn:Ho; [rewrite (O p o Ho) in F|]; lia. }
  split_and!; try done. intros p. rewrite A. specialize (Le p). lia.
Qed.
Theorem box_safe os st xs o : Forall box_op os -> run false hs_init os = Ok (st, xs) -> box_op o -> legal st o ->
  step false st o <> UB /\ step false st o <> Diverge /\ (step false st o = Die <-> Exists (null st) (derefs o)).
Proof.
  intros Hb R Ho Lg. destruct (box_init _ _ _ Hb R) as [O I]. destruct (step_box st o Ho O) as [-> _]. split_and!.
  - eapply step_live; [| |exact I|done]; lia.
  - pose proof (step_sound 1 st o ltac:(lia) ltac:(lia) I) as S. by destruct (step true st o).
  - eapply step_die; [| |exact I|done]; lia.
Qed.
Theorem box_effect os st xs o st' x : Forall box_op os -> run false hs_init os = Ok (st, xs) -> box_op o ->
  step false st o = Ok (st', x) -> effective st o st' /\ answer st o x.
Proof.
  intros Hb R Ho S. destruct (box_init _ _ _ Hb R) as [O I]. destruct (step_box st o Ho O) as [E _]. rewrite E in S.
  split; [by eapply step_effect|by eapply step_answer].
Qed.
Theorem box_no_leak os st xs : Forall box_op os -> run false hs_init os = Ok (st, xs) ->
  acyclic (heap st) -> (forall i h, roots st !! i = Some h -> h = None) -> (forall p, ~ alive st p) /\ length (gone st) = next_id st.
Proof.
  intros Hb R A N. destruct (box_init _ _ _ Hb R) as [O I].
  assert (forall p, ~ alive st p) as D.
  { intros p Hp. apply (alive_reach _ _ I A) in Hp. clear -Hp N. induction Hp as [i p E|q o k p _ IH _ _]; [by apply N in E|done]. }
  split; [done|]. assert (gone st ≡ₚ seq 0 (next_id st)) as P.
  { apply NoDup_Permutation; [apply I|apply NoDup_seq|]. intros p. rewrite (v_gone _ _ _ I), elem_of_seq, eq_None_not_Some.
    split; [intros [? _]; lia|]. intros ?. split; [lia|apply D]. }
  rewrite P. apply seq_length.
Qed.
Example box_example :
  let os := [Var; New (Root 0) 5 1; New (Field (Root 0) 0) 7 0; Take (Field (Root 0) 0); Clone (Field (Root 0) 0) (Root 1); Set_ (Root 1) 9;
             Get (Field (Root 0) 0); Emplace (Root 0) 3 0] in
  Forall box_op os /\
  view (run false hs_init os) =
    Some ([Some 3; Some 1], [(1, 1%Z, 9%Z, []); (3, 1%Z, 3%Z, [])], [2; 0],
          [Nothing; Nothing; Nothing; Nothing; Nothing; Nothing; Number 7; Nothing]).
Proof. split; [repeat constructor|vm_compute; reflexivity]. Qed.

Theorem box_move_child_refuted : exists os st xs, Forall box_op os /\ run false hs_init os = Ok (st, xs) /\
  Forall (named st) [Root 0; Field (Root 0) 0] /\ step false st (Move (Root 0) (Field (Root 0) 0)) = UB.
Proof.
  set (os := [Var; New (Root 0) 5 1; New (Field (Root 0) 0) 7 1]).
  destruct (view_ok (run false hs_init os) ([Some 0], [(0, 1%Z, 5%Z, [Some 1]); (1, 1%Z, 7%Z, [None])], [], [Nothing; Nothing; Nothing]))
    as (st & xs & R & V); [vm_compute; reflexivity|].
  exists os, st, xs. split; [repeat constructor|]. split; [done|]. injection V as V1 V2 V3 V4.
  assert (exists o, heap st !! 0 = Some o /\ o_fields o = [Some 1]) as (o & Ho & Fo).
  { assert ((0, 1%Z, 5%Z, [Some 1]) ∈ map (fun x => (x.1, o_refs x.2, o_val x.2, o_fields x.2)) (map_to_list (heap st))) as Hin by (rewrite <- V2; set_solver).
    apply elem_of_list_fmap in Hin as ([p o] & E & Hin). cbn in E. injection E as E1 E2 E3 E4. exists o. split; [|done].
    apply elem_of_map_to_list in Hin. by rewrite E1. }
  assert (read st (ARoot 0) = Ok (Some 0)) as R0 by (cbn [read]; by rewrite <- V1). split.
  - repeat constructor; cbn [named]; try (rewrite <- V1; cbn; lia).
    intros p o'. unfold deref. cbn [locate mbind res_bind]. rewrite R0. cbn [mbind res_bind]. intros [= <-] Ho'. rewrite Ho in Ho'. injection Ho' as <-.
    rewrite Fo. cbn. lia.
  - assert (match run false hs_init os with Ok (st, _) => match step false st (Move (Root 0) (Field (Root 0) 0)) with UB => true | _ => false end | _ => false end = true) as C by (vm_compute; reflexivity).
    rewrite R in C. destruct (step false st (Move (Root 0) (Field (Root 0) 0))); congruence.
Qed.

Print Assumptions rc_exact.
Print Assumptions rc_safe.
Print Assumptions rc_effect.
Print Assumptions rc_answer.
Print Assumptions rc_reachable.
Print Assumptions rc_no_leak.
Print Assumptions rc_move_child_refuted.
Print Assumptions rc_self_move.
Print Assumptions box_exact.
Print Assumptions box_safe.
Print Assumptions box_effect.
Print Assumptions box_no_leak.
Print Assumptions box_move_child_refuted.
