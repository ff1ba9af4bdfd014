From Verif Require Import LifeProofs FunctionModel FunctionSpec.

Section proofs.
  Context (kd : nat -> kind) (code : nat -> Z -> Z -> Z * Z) (KD : forall f, kind_ok (kd f)).

  (** Bytes that can be constructed in. *)
  Definition free (s : option (nat * obj)) : Prop :=
    match s with Some (f, o) => k_md (kd f) = true -> o_val o = None | None => True end.
  Definition good (x : fn) : Prop :=
    match vtable x with
    | Some f => exists n v, storage x = Some (f, Obj n (Some v))
    | None => free (storage x)
    end.
  (** [hs]: the objects that Functions will destroy.  The others not destroyed were moved from. *)
  Definition FAcc (l : life) (hs : list nat) : Prop := exists lost, Acc l (hs ++ lost) /\ forall n, n ∈ lost -> n ∈ emptied l.

  Lemma FAcc_perm l h h' : h ≡ₚ h' -> FAcc l h -> FAcc l h'.
  Proof using Type. intros P (lost & A & E). exists lost. split; [|done]. eapply Acc_perm; [|exact A]. by rewrite P. Qed.
  Lemma FAcc_make k v l hs o l' : make k v l = (o, l') -> FAcc l hs -> FAcc l' (own k o ++ hs).
  Proof using Type.
    intros M (lost & A & E). exists lost. split; [rewrite <- app_assoc; by eapply Acc_make|]. intros n N. apply E in N.
    unfold make in M. by injection M as <- <-.
  Qed.
  Lemma FAcc_kill k o l hs : FAcc l (own k o ++ hs) -> FAcc (kill k o l) hs.
  Proof using Type. intros (lost & A & E). exists lost. split; [|done]. apply Acc_kill. by rewrite app_assoc. Qed.
  Lemma FAcc_steal k o l hs : FAcc l hs -> exists n o' l', steal k o l = (n, o', l') /\ o_val n = o_val o /\ o_id o' = o_id o /\
    o_val o' = (if k_tm k then o_val o else None) /\ (k_tm k = false -> o_id o ∈ emptied l') /\ FAcc l' (own k n ++ hs).
  Proof using Type.
    intros A. unfold steal. destruct (make k (o_val o) l) as [n l'] eqn:M. apply (FAcc_make _ _ _ _ _ _ M) in A. apply make_val in M.
    destruct (k_tm k); do 3 eexists; (split; [done|]); split_and!; try done.
    - intros _. cbn. apply elem_of_app. right. by apply elem_of_list_singleton.
    - destruct A as (lost & A & E). exists lost. split; [done|]. intros m N. cbn. apply elem_of_app. left. by apply E.
  Qed.
  (** An object that was moved from need not be destroyed. *)
  Lemma FAcc_lose k o l hs : (k_md k = true -> o_id o ∈ emptied l) -> FAcc l (own k o ++ hs) -> FAcc l hs.
  Proof using Type.
    intros M (lost & A & E). exists (own k o ++ lost). split; [eapply Acc_perm; [|exact A]; solve_Permutation|].
    intros n. rewrite elem_of_app. intros [N|N]; [|by apply E]. unfold own in N. destruct (k_md k); [|by apply elem_of_nil in N].
    apply elem_of_list_singleton in N as ->. by apply M.
  Qed.
  Lemma FAcc_life0 : FAcc life0 [].
  Proof using Type. exists []. split; [apply Acc_life0|]. by intros n ?%elem_of_nil. Qed.

  Lemma put_ok s f o : free s -> put kd s f o = Ok (Some (f, o)).
  Proof using Type. unfold put, free. destruct s as [[f' o']|]; [|done]. destruct (k_md (kd f')); [|done]. intros H. by rewrite H. Qed.
  Lemma held_some f n v : held kd (Fn (Some (f, Obj n (Some v))) (Some f)) = own (kd f) (Obj n (Some v)).
  Proof using Type. done. Qed.
  Lemma destruct_ok x l hs : good x -> FAcc l (held kd x ++ hs) ->
    exists s l', destruct_ kd x l = Ok (Fn s None, l') /\ free s /\ FAcc l' hs /\ dead l' = dead l ++ held kd x.
  Proof using Type.
    unfold good, destruct_, f_destruct, as_. destruct x as [s [f|]]; cbn [vtable storage].
    - intros (n & v & ->) A. rewrite Nat.eqb_refl. cbn [mbind res_bind]. rewrite held_some in A.
      unfold held. cbn [vtable storage o_id]. destruct (k_md (kd f)) eqn:M; cbn [mbind res_bind]; do 2 eexists; (split; [done|]); split_and!.
      + done.
      + by apply FAcc_kill.
      + unfold kill. cbn. by rewrite M.
      + cbn. by rewrite M.
      + unfold own in A. by rewrite M in A.
      + by rewrite app_nil_r.
    - intros F A. cbn [mbind res_bind]. do 2 eexists. split; [done|]. split_and!; try done. unfold held. cbn. by rewrite app_nil_r.
  Qed.
  Lemma of_callable_ok f v l hs : FAcc l hs -> exists n l', of_callable kd f v l = Ok (Fn (Some (f, Obj n (Some v))) (Some f), l') /\
    FAcc l' (own (kd f) (Obj n (Some v)) ++ hs).
  Proof using Type.
    intros A. unfold of_callable. destruct (make (kd f) (Some v) l) as [tmp l1] eqn:M. apply (FAcc_make _ _ _ _ _ _ M) in A. apply make_val in M.
    destruct (FAcc_steal (kd f) tmp l1 _ A) as ([n w] & o' & l' & E & V & I & W & Em & A'). rewrite E. cbn [storage empty put mbind res_bind].
    cbn in V. rewrite M in V. subst w. do 2 eexists. split; [done|]. apply FAcc_kill. rewrite (own_id _ _ _ I). eapply FAcc_perm; [|exact A']. solve_Permutation.
  Qed.
  Lemma move_into_ok x src l hs : good src -> free (storage x) -> FAcc l (held kd src ++ hs) ->
    exists x' src' l', move_into kd x src l = Ok (x', src', l') /\ good x' /\ good src' /\ contents x' = contents src /\
      contents src' = None /\ held kd src' = [] /\ FAcc l' (held kd x' ++ hs).
  Proof using KD.
    unfold good at 1, move_into, f_move, as_. destruct src as [s [f|]]; cbn [vtable storage].
    - intros (n & v & ->) F A. rewrite Nat.eqb_refl. cbn [mbind res_bind]. rewrite held_some in A.
      destruct (FAcc_steal (kd f) (Obj n (Some v)) l _ A) as ([m w] & o' & l' & E & V & I & W & Em & A'). rewrite E.
      rewrite (put_ok _ _ _ F). cbn [mbind res_bind]. cbn in V. subst w. do 3 eexists. split; [done|]. split_and!.
      + cbn. eauto.
      + cbn. intros M. rewrite W. destruct (k_tm (kd f)) eqn:T; [|done]. destruct (KD f) as [K _]. by rewrite (K T) in M.
      + done.
      + done.
      + done.
      + rewrite held_some. eapply (FAcc_lose (kd f) (Obj n (Some v))); [|eapply FAcc_perm; [|exact A']; solve_Permutation].
        intros M. apply Em. destruct (k_tm (kd f)) eqn:T; [|done]. destruct (KD f) as [K _]. by rewrite (K T) in M.
    - intros F F' A. do 3 eexists. split; [done|]. split_and!; try done.
  Qed.

  Record Inv (s : st) : Prop := {
    v_good : Forall good (vars s);
    v_acc : FAcc (lf s) (concat (map (held kd) (vars s)));
  }.
  Lemma held_upd os i p : forall q, os !! i = Some q ->
    exists rest, concat (map (held kd) os) ≡ₚ held kd q ++ rest /\ concat (map (held kd) (<[i := p]> os)) ≡ₚ held kd p ++ rest.
  Proof using Type.
    induction os as [|a os IH] in i |- *; intros q E; [done|]. destruct i as [|i]; cbn [insert list_insert map concat].
    - injection E as ->. eauto.
    - destruct (IH i q E) as (r & P & Q). exists (held kd a ++ r). cbn. rewrite P, Q. split; solve_Permutation.
  Qed.
  Lemma held_app os p : concat (map (held kd) (os ++ [p])) ≡ₚ held kd p ++ concat (map (held kd) os).
  Proof using Type. rewrite map_app, concat_app. cbn. rewrite app_nil_r. apply Permutation_app_comm. Qed.
  Lemma map_ins {X Y} (f : X -> Y) i p l : map f (<[i := p]> l) = <[i := f p]> (map f l).
  Proof using Type. apply list_fmap_insert. Qed.
  Lemma look s i : map contents (vars s) !! i = option_map contents (vars s !! i).
  Proof using Type. apply list_lookup_fmap. Qed.
  Lemma good_contents x : good x -> (exists f n v, x = Fn (Some (f, Obj n (Some v))) (Some f) /\ contents x = Some (f, v)) \/ (vtable x = None /\ contents x = None).
  Proof using Type.
    destruct x as [s [f|]]; unfold good; cbn [vtable storage]; [|by right]. intros (n & v & ->). left. by do 3 eexists.
  Qed.

  Definition agrees (s : st) (o : op) : Prop :=
    match spec code (map contents (vars s)) o with
    | Ok (cs', x) => exists s', step kd code s o = Ok (s', x) /\ map contents (vars s') = cs' /\ Inv s'
    | Die => step kd code s o = Die
    | UB => True
    | Diverge => False
    end.
  Lemma step_agrees s o : Inv s -> agrees s o.
  Proof using KD.
    intros [G A]. unfold agrees.
    assert (forall i x, vars s !! i = Some x -> good x) as GL by (intros ? ? ?; by eapply Forall_lookup_1 in G).
    assert (forall p l (x : out), good p -> FAcc l (held kd p ++ concat (map (held kd) (vars s))) ->
       exists s', Ok (push s p l, x) = Ok (s', x) /\ map contents (vars s') = map contents (vars s) ++ [contents p] /\ Inv s') as PUSH.
    { intros p l x Gp Ap. eexists. split; [done|]. split; [by unfold push; cbn; rewrite !map_app|].
      constructor; cbn; [by apply Forall_app; split; [|constructor]|]. eapply FAcc_perm; [|exact Ap]. by rewrite held_app. }
    assert (forall i p q l (x : out), vars s !! i = Some q -> good p ->
       (forall r, concat (map (held kd) (vars s)) ≡ₚ held kd q ++ r -> FAcc l (held kd p ++ r)) ->
       exists s', Ok (upd s i p l, x) = Ok (s', x) /\ map contents (vars s') = <[i := contents p]> (map contents (vars s)) /\ Inv s') as UPD.
    { intros i p q l x Ei Gp Ap. eexists. split; [done|]. split; [apply map_ins|].
      constructor; cbn; [by apply Forall_insert|]. destruct (held_upd (vars s) i p q Ei) as (r & P & Q).
      eapply FAcc_perm; [symmetry; exact Q|]. by apply Ap. }
    destruct o as [f v|i|i j|i f v|i a|]; cbn [spec step]; unfold var.
    - destruct (of_callable_ok f v (lf s) _ A) as (n & l & E & A'). rewrite E. cbn [mbind res_bind].
      change (Some (f, v)) with (contents (Fn (Some (f, Obj n (Some v))) (Some f))). apply PUSH; [cbn; eauto|done].
    - rewrite look. destruct (vars s !! i) as [x|] eqn:Ex; cbn [option_map mbind res_bind]; [|done].
      destruct (held_upd _ i x _ Ex) as (r & P & _).
      destruct (move_into_ok empty x (lf s) r (GL _ _ Ex) I) as (x' & src' & l' & E & Gx & Gs & C1 & C2 & H & A'); [by eapply FAcc_perm|].
      rewrite E. cbn [mbind res_bind]. eexists. split; [done|]. unfold push, upd. cbn [vars lf]. split.
      + rewrite map_app, map_ins, C2. cbn. by rewrite C1.
      + constructor; cbn [vars lf]; [apply Forall_app; split; [by apply Forall_insert|by constructor]|].
        eapply FAcc_perm; [|exact A']. rewrite held_app. apply Permutation_app_head.
        destruct (held_upd _ i src' _ Ex) as (r' & P' & ->). rewrite H. rewrite P in P'. by apply Permutation_app_inv_l in P'.
    - rewrite !look. destruct (vars s !! i) as [x|] eqn:Ex; cbn [option_map mbind res_bind]; [|done].
      destruct (vars s !! j) as [src|] eqn:Es; cbn [option_map mbind res_bind]; [|done].
      destruct (held_upd (vars s) i empty x Ex) as (r & P & Q).
      destruct (destruct_ok x (lf s) r (GL _ _ Ex)) as (d & l1 & E1 & F & A1 & _); [by eapply FAcc_perm|]. rewrite E1. cbn [mbind res_bind].
      unfold upd. cbn [vars lf]. destruct (decide (i = j)) as [<-|NE].
      + rewrite list_lookup_insert by (by eapply lookup_lt_Some). cbn [mbind res_bind].
        unfold move_into. cbn [vtable storage mbind res_bind]. rewrite !list_insert_insert.
        destruct (UPD i (Fn d None) x l1 Nothing Ex F) as (s' & E2 & C & I').
        { intros r' P'. cbn [held vtable app]. eapply FAcc_perm; [|exact A1]. rewrite P in P'. by apply Permutation_app_inv_l in P'. }
        injection E2 as <-. eexists. split; [done|]. done.
      + rewrite list_lookup_insert_ne by done. rewrite Es. cbn [mbind res_bind].
        assert (<[i:=empty]> (vars s) !! j = Some src) as Es' by (by rewrite list_lookup_insert_ne).
        destruct (held_upd _ j empty src Es') as (r2 & P2 & Q2). rewrite Q in P2. cbn [held vtable empty app] in P2, Q2.
        destruct (move_into_ok (Fn d None) src l1 r2 (GL _ _ Es) F) as (x' & src' & l' & E & Gx & Gs & C1 & C2 & H & A').
        { eapply FAcc_perm; [exact P2|done]. }
        rewrite E. cbn [mbind res_bind]. eexists. split; [done|]. cbn [vars lf].
        rewrite (list_insert_commute _ i j), list_insert_insert, (list_insert_commute _ j i) by done. split.
        * by rewrite !map_ins, C1, C2.
        * constructor; cbn [vars lf]; [by repeat apply Forall_insert|]. eapply FAcc_perm; [|exact A'].
          assert (<[j:=src']> (vars s) !! i = Some x) as Ex2 by (by rewrite list_lookup_insert_ne).
          destruct (held_upd _ i x' _ Ex2) as (r3 & P3 & ->). apply Permutation_app_head.
          destruct (held_upd _ j src' _ Es) as (r4 & P4 & Q4). rewrite Q4, H in P3. cbn [app] in P3.
          rewrite P2 in P. rewrite P, P3 in P4. apply (Permutation_app_inv_l (held kd x)). apply (Permutation_app_inv_l (held kd src)).
          rewrite <- P4. solve_Permutation.
    - rewrite look. destruct (vars s !! i) as [x|] eqn:Ex; cbn [option_map mbind res_bind]; [|done].
      destruct (of_callable_ok f v (lf s) _ A) as (n & l & E & A'). rewrite E. cbn [mbind res_bind].
      destruct (held_upd _ i x _ Ex) as (r & P & _).
      destruct (destruct_ok x l (own (kd f) (Obj n (Some v)) ++ r) (GL _ _ Ex)) as (d & l1 & E1 & F & A1 & _).
      { eapply FAcc_perm; [|exact A']. rewrite P. solve_Permutation. }
      rewrite E1. cbn [mbind res_bind].
      destruct (move_into_ok (Fn d None) (Fn (Some (f, Obj n (Some v))) (Some f)) l1 r) as (x' & src' & l' & E2 & Gx & Gs & C1 & C2 & H & A2); [cbn; eauto|done|done|].
      rewrite E2. cbn [mbind res_bind]. destruct (destruct_ok src' l' (held kd x' ++ r) Gs) as (d' & l2 & E3 & _ & A3 & _).
      { by rewrite H. }
      rewrite E3. cbn [mbind res_bind]. change (Some (f, v)) with (contents (Fn (Some (f, Obj n (Some v))) (Some f))). rewrite <- C1.
      eapply UPD; [done|done|]. intros r' P'. rewrite P in P'. apply Permutation_app_inv_l in P'. eapply FAcc_perm; [|exact A3]. by rewrite P'.
    - rewrite look. destruct (vars s !! i) as [x|] eqn:Ex; cbn [option_map mbind res_bind]; [|done].
      destruct (good_contents x (GL _ _ Ex)) as [(f & n & v & -> & C)|[V C]]; rewrite C; [|by rewrite V].
      cbn [vtable storage f_invoke as_ mbind res_bind]. rewrite Nat.eqb_refl. cbn [mbind res_bind o_val o_id]. destruct (code f v a) as [q v'] eqn:K. cbn [mbind res_bind fst snd].
      change (Some (f, v')) with (contents (Fn (Some (f, Obj n (Some v'))) (Some f))). eapply UPD; [done|cbn; eauto|].
      intros r P. eapply FAcc_perm; [exact P|done].
    - destruct (last (vars s)) as [x|] eqn:La.
      + apply last_Some in La as [os La]. rewrite La in *. destruct (map contents (os ++ [x])) eqn:Ec; [by destruct os|]. rewrite <- Ec. clear Ec.
        apply Forall_app in G as [G [Gx _]%Forall_cons].
        destruct (destruct_ok x (lf s) (concat (map (held kd) os)) Gx) as (d & l' & E & _ & A' & _); [eapply FAcc_perm; [apply held_app|done]|].
        rewrite E. cbn [mbind res_bind]. eexists. split; [done|]. cbn [vars lf]. rewrite map_length, app_length. cbn [length].
        replace (length os + 1 - 1) with (length os) by lia. rewrite take_app. split; [|by constructor].
        by rewrite map_app, <- (map_length contents os), take_app.
      + apply last_None in La. by rewrite La.
  Qed.

  Lemma Inv_init : Inv st0.
  Proof using Type. constructor; cbn; [constructor|apply FAcc_life0]. Qed.
  Lemma run_agrees s os : Inv s ->
    match spec_run code (map contents (vars s)) os with
    | Ok (cs', xs) => exists s', run kd code s os = Ok (s', xs) /\ map contents (vars s') = cs' /\ Inv s'
    | Die => run kd code s os = Die
    | UB => True
    | Diverge => False
    end.
  Proof using KD.
    induction os as [|o os IH] in s |- *; intros I; [by exists s|]. cbn [spec_run run].
    pose proof (step_agrees s o I) as A. unfold agrees in A. destruct (spec code _ o) as [[cs1 x]| | |]; cbn [mbind res_bind]; try done.
    - destruct A as (s' & E & C & I'). rewrite E. cbn [mbind res_bind]. specialize (IH s' I'). rewrite C in IH.
      destruct (spec_run code cs1 os) as [[cs' xs]| | |]; cbn [mbind res_bind]; try done.
      + destruct IH as (s2 & E2 & C2 & I2). rewrite E2. cbn. eauto.
      + by rewrite IH.
    - by rewrite A.
  Qed.
End proofs.
