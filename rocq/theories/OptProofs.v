From Verif Require Import OptModel OptSpec.

(** Storage agrees with [ok_]: an object when set, and none otherwise if
    objects need destroying. *)
Definition good (k : kind) (p : opt) : Prop :=
  if ok_ p then is_Some (value_ p) else k_md k = true -> value_ p = None.
Record Inv (k : kind) (s : st) : Prop := {
  v_good : Forall (good k) (opts s);
  v_made : Forall (fun p => p < next (lf s)) (made (lf s));
  v_nodup : NoDup (made (lf s));
  v_perm : k_md k = true -> dead (lf s) ++ concat (map held (opts s)) ≡ₚ made (lf s);
}.
(** The part about the record of constructions and destructor calls, with the
    objects that exist. *)
Definition Acc (k : kind) (l : life) (hs : list nat) : Prop :=
  Forall (fun p => p < next l) (made l) /\ NoDup (made l) /\ (k_md k = true -> dead l ++ hs ≡ₚ made l).

Lemma Inv_alt k s : Inv k s <-> Forall (good k) (opts s) /\ Acc k (lf s) (concat (map held (opts s))).
Proof. split; [intros []; by repeat split|]. intros (?&?&?&?). by constructor. Qed.

Lemma Acc_perm k l h h' : h ≡ₚ h' -> Acc k l h -> Acc k l h'.
Proof. intros P (?&?&H). split_and!; try done. intros M. by rewrite <- P, H. Qed.
Lemma Acc_make k v l hs o l' : make k v l = (o, l') -> Acc k l hs -> Acc k l' (o_id o :: hs).
Proof.
  unfold make. intros [= <- <-] (A & N & P). destruct (k_md k) eqn:M; split_and!; cbn [made next dead o_id].
  - apply Forall_app. split; [|by constructor; [lia|]]. eapply Forall_impl; [exact A|]. cbn. lia.
  - apply NoDup_app. split_and!; [done| |apply NoDup_singleton]. intros x E ->%elem_of_list_singleton.
    eapply Forall_forall in A; [|done]. cbn in A. lia.
  - intros _. rewrite <- (P eq_refl). solve_Permutation.
  - eapply Forall_impl; [exact A|]. cbn. lia.
  - done.
  - rewrite M. intros [=].
Qed.
Lemma Acc_kill k o l hs : Acc k l (o_id o :: hs) -> Acc k (kill k o l) hs.
Proof.
  intros (A & N & P). unfold kill, Acc. cbn [made next dead]. split_and!; try done. intros M. rewrite M, <- (P M). solve_Permutation.
Qed.
Lemma Acc_weak k l hs hs' : k_md k = false -> Acc k l hs -> Acc k l hs'.
Proof. intros M (?&?&?). split_and!; try done. rewrite M. done. Qed.

Lemma held_upd os i p : forall q, os !! i = Some q ->
  exists rest, concat (map held os) ≡ₚ held q ++ rest /\ concat (map held (<[i := p]> os)) ≡ₚ held p ++ rest.
Proof.
  induction os as [|a os IH] in i |- *; intros q E; [done|]. destruct i as [|i]; cbn [insert list_insert map concat].
  - injection E as ->. eauto.
  - destruct (IH i q E) as (r & P & Q). exists (held a ++ r). cbn. rewrite P, Q. split; solve_Permutation.
Qed.
Lemma held_app os p : concat (map held (os ++ [p])) ≡ₚ held p ++ concat (map held os).
Proof. rewrite map_app, concat_app. cbn. rewrite app_nil_r. apply Permutation_app_comm. Qed.

Lemma s_destruct_ok k o l hs : Acc k l (o_id o :: hs) ->
  exists s l', s_destruct k (Some o) l = Ok (s, l') /\ Acc k l' hs /\ (k_md k = true -> s = None).
Proof.
  intros A. unfold s_destruct. destruct (k_md k) eqn:M; do 2 eexists; (split; [done|]); split; try done.
  - by apply Acc_kill.
  - by eapply Acc_weak.
Qed.
Lemma clear_ok k p l hs : good k p -> Acc k l (held p ++ hs) ->
  exists s l', clear k p l = Ok (Opt false s, l') /\ Acc k l' hs /\ good k (Opt false s).
Proof.
  unfold good, clear, held. intros G A. destruct (k_md k) eqn:M.
  - destruct (ok_ p).
    + destruct G as [o E]. rewrite E in A |- *. destruct (s_destruct_ok k o l hs A) as (s & l' & D & A' & N). rewrite D. cbn. do 2 eexists. split_and!; [done|done|auto].
    + cbn in A |- *. do 2 eexists. split_and!; [done|done|auto].
  - cbn. do 2 eexists. split; [done|]. split; [by eapply Acc_weak|]. done.
Qed.
Lemma put_ok k p o : good k p -> ok_ p = false -> s_put k (value_ p) o = Ok (Some o).
Proof.
  unfold good, s_put. intros G E. rewrite E in G. destruct (value_ p) eqn:V; [|done]. destruct (k_md k); [|done]. by specialize (G eq_refl).
Qed.
Lemma construct_ok k p v l hs : good k p -> ok_ p = false -> Acc k l hs ->
  exists o l', construct k p v l = Ok (Opt true (Some o), l') /\ o_val o = v /\ Acc k l' (o_id o :: hs).
Proof.
  intros G E A. unfold construct. destruct (make k v l) as [o l'] eqn:M. rewrite (put_ok _ _ o G E). cbn.
  do 2 eexists. split; [done|]. split; [|by eapply Acc_make]. unfold make in M. by injection M as <- <-.
Qed.
Lemma Acc_emptied k l hs e : Acc k l hs -> Acc k (Life (next l) (made l) (dead l) e) hs.
Proof. done. Qed.
Lemma construct_from_ok k p o l hs : good k p -> ok_ p = false -> Acc k l hs ->
  exists n o' l', construct_from k p (Some o) l = Ok (Opt true (Some n), Some o', l') /\ o_val n = o_val o /\ o_id o' = o_id o /\
    o_val o' = (if k_tm k then o_val o else None) /\ Acc k l' (o_id n :: hs).
Proof.
  intros G E A. unfold construct_from, steal, s_get. cbn [mbind res_bind]. destruct (make k (o_val o) l) as [n l'] eqn:M.
  apply Acc_make with (hs := hs) in M as A'; [|done]. assert (o_val n = o_val o) as V by (unfold make in M; by injection M as <- <-).
  destruct (k_tm k); cbn [mbind res_bind]; rewrite (put_ok _ _ n G E); cbn [mbind res_bind]; do 3 eexists; (split; [done|]); auto.
Qed.

Definition agrees (k : kind) (s : st) (o : op) : Prop :=
  match spec k (map contents (opts s)) o with
  | Ok (cs, x) => exists s', step k s o = Ok (s', x) /\ map contents (opts s') = cs /\ Inv k s'
  | Die => step k s o = Die
  | UB => True
  | Diverge => False
  end.
Lemma look s i : map contents (opts s) !! i = option_map contents (opts s !! i).
Proof. apply list_lookup_fmap. Qed.
Lemma map_ins i p (os : list opt) : map contents (<[i := p]> os) = <[i := contents p]> (map contents os).
Proof. apply list_fmap_insert. Qed.
Lemma contents_true o : contents (Opt true (Some o)) = Some (o_val o).
Proof. done. Qed.
Lemma contents_false s : contents (Opt false s) = None.
Proof. done. Qed.
Lemma good_true k o : good k (Opt true (Some o)).
Proof. cbn. eauto. Qed.
Lemma good_ok k p : good k p -> (ok_ p = true /\ exists o, p = Opt true (Some o)) \/ (ok_ p = false /\ exists s, p = Opt false s).
Proof. unfold good. destruct p as [[] v]; cbn; intros G; [left|right]; split; eauto. destruct G as [o ->]. eauto. Qed.

Ltac idx i := rewrite look; let p := fresh "p" in destruct (opts _ !! i) as [p|] eqn:?; cbn [option_map]; [|done].

Lemma step_agrees k s o : kind_ok k -> Inv k s -> agrees k s o.
Proof.
  intros [KM KC] (G & A)%Inv_alt. unfold agrees.
  assert (forall i p, opts s !! i = Some p -> good k p) as GL by (intros ? ? ?; by eapply Forall_lookup_1 in G).
  assert (good k empty) as GE by done.
  assert (forall p l (x : out), good k p -> Acc k l (held p ++ concat (map held (opts s))) ->
     exists s', Ok (push s p l, x) = Ok (s', x) /\ map contents (opts s') = map contents (opts s) ++ [contents p] /\ Inv k s') as PUSH.
  { intros p l x Gp Ap. eexists. split; [done|]. split; [by unfold push; cbn; rewrite map_app|]. apply Inv_alt.
    split; [by apply Forall_app; split; [|constructor]|]. cbn. eapply Acc_perm; [|exact Ap]. by rewrite held_app. }
  assert (forall i p q l (x : out), opts s !! i = Some q -> good k p -> (forall r, concat (map held (opts s)) ≡ₚ held q ++ r -> Acc k l (held p ++ r)) ->
     exists s', Ok (upd s i p l, x) = Ok (s', x) /\ map contents (opts s') = <[i := contents p]> (map contents (opts s)) /\ Inv k s') as UPD.
  { intros i p q l x Ei Gp Ap. eexists. split; [done|]. split; [apply map_ins|]. apply Inv_alt.
    split; [by apply Forall_insert|]. cbn. destruct (held_upd (opts s) i p q Ei) as (r & P & Q). eapply Acc_perm; [symmetry; exact Q|]. by apply Ap. }
  assert (forall i q, opts s !! i = Some q -> forall r, concat (map held (opts s)) ≡ₚ held q ++ r -> Acc k (lf s) (held q ++ r)) as SPL.
  { intros i q _ r P. by eapply Acc_perm. }
  destruct o as [|v|v|i|i|i|i j|i j|i v|i v|i|i|i|i|i v|i v|]; cbn [spec step].
  - apply PUSH; done.
  - destruct (construct_ok k empty (Some v) (lf s) _ GE eq_refl A) as (o & l & E & V & A'). rewrite E. cbn [mbind res_bind].
    rewrite <- V, <- contents_true. apply PUSH; [apply good_true|done].
  - destruct (make k (Some v) (lf s)) as [t l] eqn:M. apply (Acc_make _ _ _ _ _ _ M) in A as A1.
    destruct (construct_from_ok k empty t l _ GE eq_refl A1) as (n & t' & l2 & E & V & I & _ & A2). rewrite E. cbn [mbind res_bind].
    destruct (s_destruct_ok k t' l2 (o_id n :: concat (map held (opts s)))) as (s' & l3 & E3 & A3 & _).
    { eapply Acc_perm; [|exact A2]. rewrite I. apply perm_swap. }
    rewrite E3. cbn [mbind res_bind]. assert (v = v) as _ by done. replace (Some v) with (o_val n).
    2: { rewrite V. unfold make in M. by injection M as <- <-. }
    rewrite <- contents_true. apply PUSH; [apply good_true|done].
  - idx i. unfold var. rewrite Heqo. cbn [mbind res_bind]. destruct (good_ok k p (GL _ _ Heqo)) as [[E [o ->]]|[E [s' ->]]]; cbn [ok_ value_].
    + destruct (construct_from_ok k empty o (lf s) _ GE eq_refl A) as (n & o' & l & E1 & V & I & W & A2). rewrite E1. cbn [mbind res_bind].
      eexists. split; [done|]. unfold push, upd. cbn [opts lf]. split.
      * rewrite map_app, map_ins. cbn. rewrite V, W. by destruct (k_tm k).
      * apply Inv_alt. split; cbn [opts lf].
        { apply Forall_app. split; [apply Forall_insert; [done|]|constructor; [|done]]; apply good_true. }
        eapply Acc_perm; [|exact A2]. rewrite held_app. cbn [held ok_ value_ app]. constructor.
        destruct (held_upd (opts s) i (Opt true (Some o')) _ Heqo) as (r & P & Q). rewrite P, Q. cbn. by rewrite I.
    + cbn [contents ok_ left_behind]. replace (<[i:=None]> (map contents (opts s))) with (map contents (opts s)).
      2: { symmetry. apply list_insert_id. rewrite look, Heqo. done. }
      by apply PUSH.
  - destruct (k_tc k) eqn:TC; [|done]. idx i. unfold var. rewrite Heqo. cbn [mbind res_bind]. assert (k_md k = false) as MD by auto.
    destruct (value_ p) as [o|] eqn:V.
    + destruct (make k (o_val o) (lf s)) as [n l] eqn:M. replace (contents p) with (contents (Opt (ok_ p) (Some n))).
      2: { unfold contents. cbn [ok_ value_]. rewrite V. unfold make in M. by injection M as <- <-. }
      apply PUSH; [destruct (ok_ p); [cbn; eauto|]; cbn; congruence|].
      eapply Acc_weak; [done|]. by eapply Acc_make.
    + replace (contents p) with (contents (Opt (ok_ p) None)) by (unfold contents; cbn; by rewrite V).
      apply PUSH; [|by eapply Acc_weak]. specialize (GL _ _ Heqo). unfold good in GL |- *. rewrite V in GL. done.
  - idx i. unfold var. rewrite Heqo. cbn [mbind res_bind]. destruct (good_ok k p (GL _ _ Heqo)) as [[E [o ->]]|[E [s' ->]]]; cbn [ok_ value_].
    + cbn [s_get mbind res_bind]. destruct (construct_ok k empty (o_val o) (lf s) _ GE eq_refl A) as (n & l & E1 & V & A'). rewrite E1. cbn [mbind res_bind].
      rewrite contents_true, <- V, <- contents_true. apply PUSH; [apply good_true|done].
    + rewrite contents_false, <- (contents_false None). by apply PUSH.
  - idx i. unfold var. rewrite Heqo. cbn [mbind res_bind]. rewrite look. destruct (opts s !! j) as [q|] eqn:Ej; cbn [option_map]; [|done].
    destruct (held_upd (opts s) i empty p Heqo) as (r & P & _).
    destruct (clear_ok k p (lf s) r (GL _ _ Heqo)) as (s1 & l & E1 & A1 & G1); [by eapply Acc_perm|]. rewrite E1. cbn [mbind res_bind].
    unfold upd. cbn [opts lf]. destruct (decide (i = j)) as [<-|NE].
    + rewrite list_lookup_insert by (by eapply lookup_lt_Some). cbn [mbind res_bind ok_].
      destruct (UPD i (Opt false s1) p l Nothing Heqo G1) as (s' & E2 & C & I').
      { intros r' P'. cbn [held ok_ app]. eapply Acc_perm; [|exact A1]. rewrite P in P'. by apply Permutation_app_inv_l in P'. }
      injection E2 as <-. eexists. split; [done|]. done.
    + rewrite list_lookup_insert_ne by done. rewrite Ej. cbn [mbind res_bind].
      destruct (good_ok k q (GL _ _ Ej)) as [[E [o ->]]|[E [s' ->]]]; cbn [ok_ value_].
      * destruct (construct_from_ok k (Opt false s1) o l r G1 eq_refl A1) as (n & o' & l2 & E2 & V & I & W & A2). rewrite E2. cbn [mbind res_bind].
        eexists. split; [done|]. cbn [opts lf]. split.
        { rewrite !map_ins. rewrite !contents_true, contents_false, V, W. rewrite (list_insert_commute _ i j) by done.
          rewrite list_insert_insert, (list_insert_commute _ j i) by done. unfold left_behind. by destruct (k_tm k). }
        apply Inv_alt. cbn [opts lf]. split; [repeat apply Forall_insert; try apply good_true; done|].
        rewrite (list_insert_commute _ j i), list_insert_insert by done.
        assert (<[j:=Opt true (Some o')]> (opts s) !! i = Some p) as Ei' by (by rewrite list_lookup_insert_ne).
        destruct (held_upd _ i (Opt true (Some n)) _ Ei') as (r1 & P1 & Q1).
        destruct (held_upd _ j (Opt true (Some o')) _ Ej) as (r2 & P2 & Q2).
        eapply Acc_perm; [|exact A2]. rewrite Q1. cbn [held ok_ value_ app]. constructor.
        cbn [held ok_ value_ app] in P2, Q2. rewrite I, <- P2, P, P1 in Q2. by apply Permutation_app_inv_l in Q2.
      * destruct (UPD i (Opt false s1) p l Nothing Heqo G1) as (s2 & E2 & C & I').
        { intros r' P'. cbn [held ok_ app]. eapply Acc_perm; [|exact A1]. rewrite P in P'. by apply Permutation_app_inv_l in P'. }
        injection E2 as <-. eexists. split; [done|]. split; [|done]. etransitivity; [exact C|]. rewrite contents_false. cbn [left_behind].
        f_equal. symmetry. apply list_insert_id. by rewrite look, Ej.
  - destruct (k_tc k) eqn:TC; [|done]. idx i. rewrite look. destruct (opts s !! j) as [q|] eqn:Ej; cbn [option_map]; [|done].
    unfold var. rewrite Heqo, Ej. cbn [mbind res_bind]. assert (k_md k = false) as MD by auto.
    destruct (value_ q) as [o|] eqn:V.
    + destruct (make k (o_val o) (lf s)) as [n l] eqn:M. replace (contents q) with (contents (Opt (ok_ q) (Some n))).
      2: { unfold contents. cbn [ok_ value_]. rewrite V. unfold make in M. by injection M as <- <-. }
      eapply UPD; [done| |]; [destruct (ok_ q); [cbn; eauto|]; cbn; congruence|].
      intros r P. eapply Acc_weak; [done|]. by eapply Acc_make.
    + replace (contents q) with (contents (Opt (ok_ q) None)) by (unfold contents; cbn; by rewrite V).
      eapply UPD; [done| |intros r P; by eapply Acc_weak]. specialize (GL _ _ Ej). unfold good in GL |- *. rewrite V in GL. done.
  - idx i. unfold var. rewrite Heqo. cbn [mbind res_bind]. destruct (make k (Some v) (lf s)) as [t l] eqn:M.
    destruct (held_upd (opts s) i empty p Heqo) as (r & P & _). apply (Acc_make _ _ _ _ _ _ M) in A as A1.
    destruct (clear_ok k p l (o_id t :: r) (GL _ _ Heqo)) as (s1 & l1 & E1 & A2 & G1).
    { eapply Acc_perm; [|exact A1]. rewrite P. solve_Permutation. }
    rewrite E1. cbn [mbind res_bind]. destruct (construct_from_ok k (Opt false s1) t l1 _ G1 eq_refl A2) as (n & t' & l2 & E & V & I & _ & A3).
    rewrite E. cbn [mbind res_bind]. destruct (s_destruct_ok k t' l2 (o_id n :: r)) as (s' & l3 & E3 & A4 & _).
    { eapply Acc_perm; [|exact A3]. rewrite I. apply perm_swap. }
    rewrite E3. cbn [mbind res_bind]. replace (Some (Some v)) with (contents (Opt true (Some n))).
    2: { rewrite contents_true, V. unfold make in M. by injection M as <- <-. }
    eapply UPD; [done|apply good_true|]. intros r' P'. rewrite P in P'. apply Permutation_app_inv_l in P'. cbn.
    eapply Acc_perm; [|exact A4]. by rewrite P'.
  - idx i. unfold var. rewrite Heqo. cbn [mbind res_bind]. destruct (held_upd (opts s) i empty p Heqo) as (r & P & _).
    destruct (clear_ok k p (lf s) r (GL _ _ Heqo)) as (s1 & l1 & E1 & A2 & G1); [by eapply Acc_perm|]. rewrite E1. cbn [mbind res_bind].
    destruct (construct_ok k (Opt false s1) (Some v) l1 _ G1 eq_refl A2) as (n & l & E2 & V & A'). rewrite E2. cbn [mbind res_bind].
    rewrite <- V, <- contents_true. eapply UPD; [done|apply good_true|]. intros r' P'. rewrite P in P'. apply Permutation_app_inv_l in P'. cbn.
    eapply Acc_perm; [|exact A']. by rewrite P'.
  - done.
  - idx i. unfold var. rewrite Heqo. cbn [mbind res_bind]. destruct (held_upd (opts s) i empty p Heqo) as (r & P & _).
    destruct (clear_ok k p (lf s) r (GL _ _ Heqo)) as (s1 & l1 & E1 & A2 & G1); [by eapply Acc_perm|]. rewrite E1. cbn [mbind res_bind].
    rewrite <- (contents_false s1). eapply UPD; [done|done|]. intros r' P'. rewrite P in P'. apply Permutation_app_inv_l in P'. cbn.
    eapply Acc_perm; [|exact A2]. by rewrite P'.
  - idx i. unfold var. rewrite Heqo. cbn [mbind res_bind]. eexists. split; [|split; [done|]].
    + destruct (good_ok k p (GL _ _ Heqo)) as [[E [o ->]]|[E [s' ->]]]; done.
    + by apply Inv_alt.
  - idx i. unfold var. rewrite Heqo. cbn [mbind res_bind]. destruct (good_ok k p (GL _ _ Heqo)) as [[E [o ->]]|[E [s' ->]]]; [|done].
    cbn. eexists. split; [done|]. split; [done|]. by apply Inv_alt.
  - idx i. unfold var. rewrite Heqo. cbn [mbind res_bind]. destruct (good_ok k p (GL _ _ Heqo)) as [[E [o ->]]|[E [s' ->]]]; [|done].
    rewrite contents_true. cbn [ok_ assert_ mbind res_bind value_ s_get].
    eapply (UPD i (Opt true (Some (Obj (o_id o) (Some v))))); [done|apply good_true|]. intros r P. cbn in P |- *. by eapply Acc_perm.
  - idx i. unfold var. rewrite Heqo. cbn [mbind res_bind]. destruct (good_ok k p (GL _ _ Heqo)) as [[E [o ->]]|[E [s' ->]]].
    + cbn. eexists. split; [done|]. split; [done|]. by apply Inv_alt.
    + cbn. eexists. split; [done|]. split; [done|]. by apply Inv_alt.
  - destruct (last (opts s)) as [p|] eqn:L.
    + apply last_Some in L as [os L]. rewrite L in *. destruct (map contents (os ++ [p])) eqn:C; [by destruct os|]. rewrite <- C. clear C.
      apply Forall_app in G as [G [Gp _]%Forall_cons]. destruct (clear_ok k p (lf s) (concat (map held os)) Gp) as (s1 & l1 & E1 & A2 & G1).
      { eapply Acc_perm; [apply held_app|done]. }
      rewrite E1. cbn [mbind res_bind]. rewrite map_length, app_length. cbn [length].
      replace (length os + 1 - 1) with (length os) by lia. eexists. split; [done|]. cbn [opts lf]. rewrite take_app. split.
      * rewrite map_app, <- (map_length contents os), take_app. done.
      * by apply Inv_alt.
    + apply last_None in L. rewrite L. done.
Qed.

Lemma Inv_init k : Inv k st0.
Proof. by constructor; cbn; try constructor. Qed.
Lemma run_agrees k s os : kind_ok k -> Inv k s ->
  match spec_run k (map contents (opts s)) os with
  | Ok (cs, xs) => exists s', run k s os = Ok (s', xs) /\ map contents (opts s') = cs /\ Inv k s'
  | Die => run k s os = Die
  | UB => True
  | Diverge => False
  end.
Proof.
  intros K. induction os as [|o os IH] in s |- *; intros I; [by exists s|]. cbn [spec_run run].
  pose proof (step_agrees k s o K I) as A. unfold agrees in A. destruct (spec k _ o) as [[cs x]| | |]; cbn [mbind res_bind]; try done.
  - destruct A as (s' & E & C & I'). rewrite E. cbn [mbind res_bind]. specialize (IH s' I'). rewrite C in IH.
    destruct (spec_run k cs os) as [[cs' xs]| | |]; cbn [mbind res_bind]; try done.
    + destruct IH as (s2 & E2 & C2 & I2). rewrite E2. cbn. eauto.
    + by rewrite IH.
  - by rewrite A.
Qed.
