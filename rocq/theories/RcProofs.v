(** Counting handles. *)
From stdpp Require Import gmap.
From Verif Require Import Word RcModel RcSpec.

Definition hc (p : nat) (h : gmap nat obj) : nat := list_sum (map (fun x => cnt p (o_fields x.2)) (map_to_list h)).

Lemma cnt_app p l1 l2 : cnt p (l1 ++ l2) = cnt p l1 + cnt p l2.
Proof. unfold cnt. by rewrite filter_app, app_length. Qed.
Lemma cnt_cons p h l : cnt p (h :: l) = (if decide (h = Some p) then 1 else 0) + cnt p l.
Proof. unfold cnt. rewrite filter_cons. by case_decide. Qed.
Lemma cnt_nil p : cnt p [] = 0.
Proof. done. Qed.
Lemma cnt_none p l : cnt p (None :: l) = cnt p l.
Proof. by rewrite cnt_cons. Qed.
Lemma cnt_in p l i : l !! i = Some (Some p) -> 1 <= cnt p l.
Proof.
  intros E. rewrite <- (take_drop_middle _ _ _ E), cnt_app, cnt_cons, decide_True by done. lia.
Qed.
Lemma cnt_insert p l i h h' : l !! i = Some h -> cnt p (<[i := h']> l) + cnt p [h] = cnt p l + cnt p [h'].
Proof.
  intros E. rewrite <- (take_drop_middle _ _ _ E) at 2. rewrite insert_take_drop by (by eapply lookup_lt_Some).
  rewrite !cnt_app, !(cnt_cons _ _ (list.drop _ _)), !cnt_cons, cnt_nil. lia.
Qed.
Lemma cnt_nones p n : cnt p (replicate n None) = 0.
Proof. induction n as [|n IH]; [done|]. cbn [replicate]. by rewrite cnt_none. Qed.

Lemma sum_perm (l l' : list nat) : l ≡ₚ l' -> list_sum l = list_sum l'.
Proof. unfold list_sum. induction 1; cbn in *; lia. Qed.
Section sums.
  Context (f : obj -> nat).
  Definition hsum (h : gmap nat obj) : nat := list_sum (map (fun x => f x.2) (map_to_list h)).
  Lemma hsum_new h p o : h !! p = None -> hsum (<[p := o]> h) = f o + hsum h.
  Proof.
    intros E. unfold hsum. erewrite sum_perm; [|apply Permutation_map, map_to_list_insert; done]. done.
  Qed.
  Lemma hsum_delete h p o : h !! p = Some o -> hsum h = f o + hsum (delete p h).
  Proof. intros E. rewrite <- (insert_delete h p o E) at 1. apply hsum_new. apply lookup_delete. Qed.
  Lemma hsum_insert h p o o' : h !! p = Some o -> hsum (<[p := o']> h) + f o = hsum h + f o'.
  Proof.
    intros E. rewrite (hsum_delete h p o E), (hsum_delete (<[p := o']> h) p o') by apply lookup_insert.
    rewrite delete_insert_delete. lia.
  Qed.
  Lemma hsum_le h p o : h !! p = Some o -> f o <= hsum h.
  Proof. intros E. rewrite (hsum_delete h p o E). lia. Qed.
End sums.
Lemma hc_sum p : hc p = hsum (fun o => cnt p (o_fields o)).
Proof. done. Qed.
Lemma fc_sum : field_count = hsum (fun o => length (o_fields o)).
Proof. done. Qed.

Definition refs_of (h : gmap nat obj) (p : nat) : Z := match h !! p with Some o => o_refs o | None => 0%Z end.
(** [x]: the handles held by temporaries; no counter is above [B]. *)
Record Inv (B : Z) (st : hs) (x : list (option nat)) : Prop := mk_Inv {
  v_refs : forall p, refs_of (heap st) p = Z.of_nat (cnt p (roots st) + hc p (heap st) + cnt p x);
  v_pos : forall p o, heap st !! p = Some o -> (0 < o_refs o <= B)%Z;
  v_gone : forall p, p ∈ gone st <-> p < next_id st /\ heap st !! p = None;
  v_once : NoDup (gone st);
  v_ids : forall p o, heap st !! p = Some o -> p < next_id st
}.
Lemma Inv_perm B st x y : (forall p, cnt p x = cnt p y) -> Inv B st x -> Inv B st y.
Proof. intros E [? ? ? ? ?]. constructor; try done. intros p. by rewrite <- E. Qed.
Lemma Inv_init : Inv 0 hs_init [].
Proof.
  constructor; unfold hs_init; cbn [heap roots gone next_id]; try done.
  - intros p. rewrite lookup_empty. split; [intros []%elem_of_nil|lia].
  - apply NoDup_nil_2.
Qed.
Lemma reach_count rs h p : reachable rs h p -> 1 <= cnt p rs + hc p h.
Proof.
  intros R. destruct R as [i p E|q o k p _ Eq E].
  - pose proof (cnt_in _ _ _ E). lia.
  - pose proof (cnt_in _ _ _ E). rewrite hc_sum. pose proof (hsum_le (fun o => cnt p (o_fields o)) h q o Eq). lia.
Qed.
Lemma Inv_alive B st x p : Inv B st x -> 1 <= cnt p (roots st) + hc p (heap st) + cnt p x -> exists o, heap st !! p = Some o.
Proof.
  intros I H. pose proof (v_refs _ _ _ I p) as R. unfold refs_of in R. destruct (heap st !! p) as [o|]; [eauto|]. lia.
Qed.

(** ** Writing a slot *)
Lemma write_ok st a h0 h : read st a = Ok h0 -> exists st', write st a h = Ok st' /\
  (forall p, cnt p (roots st') + hc p (heap st') + cnt p [h0] = cnt p (roots st) + hc p (heap st) + cnt p [h]) /\
  (forall p, refs_of (heap st') p = refs_of (heap st) p) /\
  (forall p o', heap st' !! p = Some o' -> exists o, heap st !! p = Some o /\ o_refs o' = o_refs o) /\
  (forall p, heap st' !! p = None <-> heap st !! p = None) /\
  next_id st' = next_id st /\ gone st' = gone st.
Proof.
  intros E. unfold write. rewrite E. cbn [mbind res_bind]. destruct a as [i|q k]; cbn [read] in E.
  - destruct (roots st !! i) as [h1|] eqn:Er; [|done]. injection E as ->. eexists. split; [reflexivity|]. cbn [with_heap roots heap next_id gone].
    split_and!; try done; [|eauto]. intros p. pose proof (cnt_insert p _ _ _ h Er). lia.
  - destruct (heap st !! q) as [o|] eqn:Eq; [|done]. destruct (o_fields o !! k) as [h1|] eqn:Ek; [|done]. injection E as ->.
    eexists. split; [reflexivity|]. cbn [with_heap roots heap next_id gone].
    assert (alter (with_field k h) q (heap st) = <[q := with_field k h o]> (heap st)) as A.
    { apply map_eq. intros p. destruct (decide (p = q)) as [->|N]; [by rewrite lookup_alter, lookup_insert, Eq|].
      by rewrite lookup_alter_ne, lookup_insert_ne. }
    rewrite A. split_and!; try done.
    + intros p. pose proof (hsum_insert (fun o => cnt p (o_fields o)) (heap st) q o (with_field k h o) Eq) as S.
      rewrite <- hc_sum in S. cbn [with_field o_fields] in S. pose proof (cnt_insert p _ _ _ h Ek). lia.
    + intros p. unfold refs_of. destruct (decide (p = q)) as [->|N]; [by rewrite lookup_insert, Eq|by rewrite lookup_insert_ne].
    + intros p o' Hp. destruct (decide (p = q)) as [->|N].
      * rewrite lookup_insert in Hp. injection Hp as <-. eauto.
      * rewrite lookup_insert_ne in Hp by done. eauto.
    + intros p. destruct (decide (p = q)) as [->|N]; [rewrite lookup_insert, Eq; done|by rewrite lookup_insert_ne].
Qed.
Lemma Inv_write B st x y a h0 h st' : Inv B st x -> read st a = Ok h0 -> write st a h = Ok st' ->
  (forall p, cnt p [h0] + cnt p x = cnt p [h] + cnt p y) -> Inv B st' y.
Proof.
  intros I E W C. destruct (write_ok st a h0 h E) as (st2 & W2 & H1 & H2 & H3 & H4 & H5 & H6).
  rewrite W in W2. injection W2 as <-. constructor.
  - intros p. rewrite H2, (v_refs _ _ _ I). specialize (H1 p). specialize (C p). lia.
  - intros p o' (o & Ho & ->)%H3. by eapply v_pos.
  - intros p. rewrite H6, H5, H4. apply I.
  - rewrite H6. apply I.
  - intros p o' (o & Ho & _)%H3. rewrite H5. by eapply v_ids.
Qed.

(** ** The cascade *)
Definition shape (o o' : obj) : Prop := o_fields o' = o_fields o /\ o_val o' = o_val o.
Lemma reachable_mono rs h h' p : (forall q o, reachable rs h q -> h !! q = Some o -> exists o', h' !! q = Some o' /\ o_fields o' = o_fields o) ->
  reachable rs h p -> reachable rs h' p.
Proof.
  intros H R. induction R as [i p E|q o k p Rq IH Eq E]; [by eapply reachable_root|].
  destruct (H q o Rq Eq) as (o' & Eq' & F). eapply reachable_field; [exact IH|exact Eq'|]. by rewrite F.
Qed.
Lemma reachable_roots rs h p y : reachable rs h p -> reachable (rs ++ y) h p.
Proof.
  intros R. induction R as [i p E|q o k p Rq IH Eq E]; [|by eapply reachable_field].
  apply (reachable_root _ _ i). rewrite lookup_app_l by (by eapply lookup_lt_Some). done.
Qed.
Lemma cascade_inv B : (B < 2 ^ 64)%Z -> forall fuel st w x, Inv B st (w ++ x) -> length w + field_count (heap st) <= fuel ->
  exists st', cascade true fuel st w = Ok st' /\ Inv B st' x /\ roots st' = roots st /\ next_id st' = next_id st /\
    (forall p o, reachable (roots st ++ x) (heap st) p -> heap st !! p = Some o ->
       exists o', heap st' !! p = Some o' /\ shape o o') /\
    (forall p o', heap st' !! p = Some o' -> exists o, heap st !! p = Some o /\ shape o o').
Proof.
  intros HB. induction fuel as [|fuel IH]; intros st w x I F.
  - destruct w; [|cbn in F; lia]. exists st. split_and!; try done; intros p o; [intros _|]; intros Hp; by exists o.
  - destruct w as [|[p|] w]; cbn [cascade].
    + exists st. split_and!; try done; intros p o; [intros _|]; intros Hp; by exists o.
    + cbn [length app] in *. destruct (Inv_alive B st _ p I) as [o Ho]; [rewrite cnt_cons, decide_True by done; lia|]. rewrite Ho.
      pose proof (v_refs _ _ _ I p) as R. unfold refs_of in R. rewrite Ho in R. rewrite cnt_cons, decide_True in R by done.
      pose proof (v_pos _ _ _ I p o Ho) as P. cbn [with_refs o_refs o_fields].
      rewrite wrap_small by (unfold is_u; lia). destruct (Z.eqb_spec (o_refs o - 1) 0) as [Z|Z].
      * (* last handle *)
        set (st1 := mk_hs (roots st) (delete p (heap st)) (next_id st) (p :: gone st)).
        assert (cnt p (roots st) + hc p (heap st) + cnt p (w ++ x) = 0) as C0 by lia.
        assert (~ reachable (roots st ++ x) (heap st) p) as NR.
        { intros H%reach_count. rewrite !cnt_app in *. lia. }
        destruct (IH st1 (o_fields o ++ w) x) as (st' & E & I' & Rt & Nx & K & S).
        -- constructor; unfold st1; cbn [heap roots gone next_id].
           ++ intros q. pose proof (v_refs _ _ _ I q) as Rq. unfold refs_of in *.
              pose proof (hsum_delete (fun o => cnt q (o_fields o)) (heap st) p o Ho) as D. rewrite <- !hc_sum in D.
              rewrite cnt_cons in Rq. rewrite !cnt_app in *. destruct (decide (q = p)) as [->|N].
              ** rewrite lookup_delete. rewrite decide_True in Rq by done. lia.
              ** rewrite lookup_delete_ne by done. rewrite decide_False in Rq by congruence. lia.
           ++ intros q o' Hq. apply lookup_delete_Some in Hq as [N Hq]. by eapply v_pos.
           ++ intros q. rewrite elem_of_cons, (v_gone _ _ _ I), lookup_delete_None. pose proof (v_ids _ _ _ I p o Ho).
              destruct (decide (p = q)) as [->|N]; naive_solver.
           ++ apply NoDup_cons. split; [|apply I]. rewrite (v_gone _ _ _ I), Ho. naive_solver.
           ++ intros q o' Hq. apply lookup_delete_Some in Hq as [N Hq]. by eapply v_ids.
        -- unfold st1. cbn [heap]. rewrite fc_sum in *. rewrite (hsum_delete _ (heap st) p o Ho) in F. rewrite app_length. lia.
        -- exists st'. split; [exact E|]. split; [done|]. split; [done|]. split; [done|]. split.
           ++ intros q oq Rq Hq. assert (q <> p) as N by (intros ->; done). apply K.
              ** unfold st1. cbn [roots heap]. eapply reachable_mono; [|exact Rq]. intros r or Rr Hr. exists or.
                 split; [|done]. rewrite lookup_delete_ne; [done|]. intros <-. done.
              ** unfold st1. cbn [heap]. by rewrite lookup_delete_ne.
           ++ intros q oq Hq. apply S in Hq as (o1 & Hq & Sh). unfold st1 in Hq. cbn [heap] in Hq.
              apply lookup_delete_Some in Hq as [_ Hq]. eauto.
      * set (o1 := mk_obj (o_refs o - 1) (o_val o) (o_fields o)). unfold with_refs. rewrite wrap_small by (unfold is_u; lia). fold o1.
        set (st1 := with_heap (insert p o1) st).
        destruct (IH st1 w x) as (st' & E & I' & Rt & Nx & K & S).
        -- constructor; unfold st1, with_heap; cbn [heap roots gone next_id].
           ++ intros q. pose proof (v_refs _ _ _ I q) as Rq. unfold refs_of in *.
              pose proof (hsum_insert (fun o => cnt q (o_fields o)) (heap st) p o o1 Ho) as D. rewrite <- !hc_sum in D. cbn [o1 o_fields] in D.
              rewrite cnt_cons in Rq. destruct (decide (q = p)) as [->|N].
              ** rewrite lookup_insert. cbn [o1 o_refs]. rewrite decide_True in Rq by done. lia.
              ** rewrite lookup_insert_ne by done. rewrite decide_False in Rq by congruence. lia.
           ++ intros q o' Hq. destruct (decide (q = p)) as [->|N].
              ** rewrite lookup_insert in Hq. injection Hq as <-. cbn. lia.
              ** rewrite lookup_insert_ne in Hq by done. by eapply v_pos.
           ++ intros q. rewrite (v_gone _ _ _ I). destruct (decide (q = p)) as [->|N]; [rewrite lookup_insert, Ho; split; intros [_ ?]; done|by rewrite lookup_insert_ne].
           ++ apply I.
           ++ intros q o' Hq. destruct (decide (q = p)) as [->|N]; [by eapply v_ids|]. rewrite lookup_insert_ne in Hq by done. by eapply v_ids.
        -- unfold st1, with_heap. cbn [heap]. rewrite fc_sum in *.
           pose proof (hsum_insert (fun o => length (o_fields o)) (heap st) p o o1 Ho). cbn [o1 o_fields] in *. lia.
        -- exists st'. split; [exact E|]. split; [done|]. split; [done|]. split; [done|]. split.
           ++ intros q oq Rq Hq.
              assert (reachable (roots st1 ++ x) (heap st1) q) as Rq1.
              { eapply reachable_mono; [|exact Rq]. intros r or _ Hr. unfold st1, with_heap. cbn [heap]. destruct (decide (r = p)) as [->|N].
                - rewrite lookup_insert. exists o1. split; [done|]. cbn. congruence.
                - rewrite lookup_insert_ne by done. eauto. }
              destruct (decide (q = p)) as [->|N].
              ** destruct (K p o1 Rq1) as (o' & Ho' & S1 & S2); [unfold st1, with_heap; cbn [heap]; by rewrite lookup_insert|].
                 exists o'. split; [done|]. cbn in S1, S2. split; congruence.
              ** apply (K q oq Rq1). unfold st1, with_heap. cbn [heap]. by rewrite lookup_insert_ne.
           ++ intros q oq Hq. apply S in Hq as (o2 & Hq & S1 & S2). unfold st1, with_heap in Hq. cbn [heap] in Hq.
              destruct (decide (q = p)) as [->|N].
              ** rewrite lookup_insert in Hq. injection Hq as <-. exists o. split; [done|]. by split.
              ** rewrite lookup_insert_ne in Hq by done. exists o2. by repeat split.
    + destruct (IH st w x) as (st' & E & R); [|cbn in F; lia|eauto]. eapply Inv_perm; [|exact I]. intros p. cbn [app]. apply cnt_none.
Qed.

(** The cascade does not look at the variables. *)
Definition set_roots (rs : list (option nat)) (st : hs) : hs := mk_hs rs (heap st) (next_id st) (gone st).
Lemma cascade_roots b rs fuel : forall st w st', cascade b fuel st w = Ok st' ->
  cascade b fuel (set_roots rs st) w = Ok (set_roots rs st').
Proof.
  induction fuel as [|fuel IH]; intros st [|[p|] w] st'; cbn [cascade]; try done; try (by intros [= <-]); [|apply IH].
  cbn [set_roots heap]. destruct (heap st !! p) as [o|]; [|done]. case_match.
  - intros E. apply (IH _ _ _ E).
  - intros E. apply (IH _ _ _ E).
Qed.
Lemma cascade_dom b fuel : forall st w st' p, cascade b fuel st w = Ok st' -> is_Some (heap st' !! p) -> is_Some (heap st !! p).
Proof.
  induction fuel as [|fuel IH]; intros st [|[q|] w] st' p; cbn [cascade]; try done; try (by intros [= <-]); [|apply IH].
  destruct (heap st !! q) as [o|] eqn:Eq; [|done]. case_match; intros E Hp.
  - apply (IH _ _ _ _ E) in Hp. cbn [heap] in Hp. destruct Hp as [o' Hp]. apply lookup_delete_Some in Hp as [_ Hp]. by eexists.
  - apply (IH _ _ _ _ E) in Hp. cbn [with_heap heap] in Hp. destruct (decide (q = p)) as [->|N]; [by eexists|].
    by rewrite lookup_insert_ne in Hp.
Qed.
(** It does not look at a field of an object that survives. *)
Lemma cascade_slot b q k h fuel : forall st w st', cascade b fuel st w = Ok st' -> is_Some (heap st' !! q) ->
  cascade b fuel (with_heap (alter (with_field k h) q) st) w = Ok (with_heap (alter (with_field k h) q) st').
Proof.
  induction fuel as [|fuel IH]; intros st [|[p|] w] st'; cbn [cascade]; try done; try (by intros [= <-]); [|apply IH].
  cbn [with_heap heap]. destruct (heap st !! p) as [o|] eqn:Ep; [|done]. intros E Hq.
  destruct (decide (p = q)) as [->|N].
  - rewrite lookup_alter, Ep. cbn [fmap option_fmap option_map].
    assert (forall f, with_refs f (with_field k h o) = with_field k h (with_refs f o)) as C by done.
    destruct b.
    + rewrite C. cbn [with_field with_refs o_refs] in *. destruct (Z.eqb_spec (wrap 64 (o_refs o - 1)) 0) as [Z|Z].
      * exfalso. apply (cascade_dom _ _ _ _ _ q) in E; [|done]. cbn [heap] in E. rewrite lookup_delete in E. by destruct E.
      * apply (IH _ _ _ E) in Hq. rewrite <- Hq. f_equal. unfold with_heap. cbn [roots heap next_id gone]. f_equal.
        apply map_eq. intros r. destruct (decide (r = q)) as [->|N].
        -- by rewrite lookup_insert, lookup_alter, lookup_insert.
        -- by rewrite lookup_insert_ne, !lookup_alter_ne, lookup_insert_ne.
    + exfalso. apply (cascade_dom _ _ _ _ _ q) in E; [|done]. cbn [heap] in E. rewrite lookup_delete in E. by destruct E.
  - rewrite lookup_alter_ne, Ep by done. destruct (if b then _ else _) eqn:T.
    + apply (IH _ _ _ E) in Hq. rewrite <- Hq. f_equal. unfold with_heap. cbn [roots heap next_id gone]. f_equal.
      apply map_eq. intros r. destruct (decide (r = p)) as [->|N1]; [rewrite lookup_delete, lookup_alter_ne, lookup_delete; done|].
      rewrite lookup_delete_ne by done. destruct (decide (r = q)) as [->|N2]; [rewrite !lookup_alter, lookup_delete_ne; done|].
      by rewrite !lookup_alter_ne, lookup_delete_ne.
    + apply (IH _ _ _ E) in Hq. rewrite <- Hq. f_equal. unfold with_heap. cbn [roots heap next_id gone]. f_equal.
      apply map_eq. intros r. destruct (decide (r = p)) as [->|N1]; [rewrite lookup_insert, lookup_alter_ne, lookup_insert; done|].
      rewrite lookup_insert_ne by done. destruct (decide (r = q)) as [->|N2]; [rewrite !lookup_alter, lookup_insert_ne; done|].
      by rewrite !lookup_alter_ne, lookup_insert_ne.
Qed.

(** ** Dropping a handle in place *)
Definition anchored (rs : list (option nat)) (h : gmap nat obj) (a : addr) : Prop :=
  match a with ARoot _ => True | AField q _ => reachable rs h q end.
Lemma read_write st a h st' : write st a h = Ok st' -> read st' a = Ok h.
Proof.
  unfold write. destruct (read st a) as [h0| | |] eqn:E; try done. cbn [mbind res_bind]. destruct a as [i|q k]; cbn [read] in E; intros [= <-]; cbn.
  - destruct (roots st !! i) as [|] eqn:Er; [|done]. by rewrite list_lookup_insert by (by eapply lookup_lt_Some).
  - rewrite lookup_alter. destruct (heap st !! q) as [o|]; [|done]. cbn. destruct (o_fields o !! k) eqn:Ek; [|done].
    by rewrite list_lookup_insert by (by eapply lookup_lt_Some).
Qed.
Lemma drop_ok B st x a h st0 : (B < 2 ^ 64)%Z -> Inv B st x -> read st a = Ok h -> write st a None = Ok st0 ->
  anchored (roots st0 ++ x) (heap st0) a ->
  exists st', drop true st a = Ok st' /\ Inv B st' x /\ roots st' = roots st0 /\ next_id st' = next_id st /\ read st' a = Ok None /\
    (forall p o, reachable (roots st0 ++ x) (heap st0) p -> heap st0 !! p = Some o ->
       exists o', heap st' !! p = Some o' /\ shape o o') /\
    (forall p o', heap st' !! p = Some o' -> exists o, heap st0 !! p = Some o /\ shape o o').
Proof.
  intros HB I E W An.
  assert (Inv B st0 ([h] ++ x)) as I0.
  { eapply Inv_write; [exact I|exact E|exact W|]. intros p. cbn [app]. rewrite cnt_none, cnt_cons, (cnt_cons p h x), !cnt_nil. lia. }
  destruct (write_ok st a h None E) as (st0' & W' & _ & _ & _ & _ & Nx0 & Gn0). rewrite W in W'. injection W' as <-.
  assert (field_count (heap st0) = field_count (heap st)) as Fc.
  { clear -W E. unfold write in W. rewrite E in W. cbn [mbind res_bind] in W. destruct a as [i|q k]; injection W as <-; [done|].
    cbn [read] in E. destruct (heap st !! q) as [o|] eqn:Eq; [|done]. cbn [with_heap heap].
    replace (alter (with_field k None) q (heap st)) with (<[q := with_field k None o]> (heap st)).
    - rewrite fc_sum. pose proof (hsum_insert (fun o => length (o_fields o)) (heap st) q o (with_field k None o) Eq) as S.
      cbn [with_field o_fields] in S. rewrite insert_length in S. lia.
    - apply map_eq. intros p. destruct (decide (p = q)) as [->|N]; [by rewrite lookup_alter, lookup_insert, Eq|].
      by rewrite lookup_alter_ne, lookup_insert_ne. }
  destruct (cascade_inv B HB (S (field_count (heap st))) st0 [h] x I0) as (st' & C & I' & Rt & Nx & K & Sh); [cbn; lia|].
  exists st'. assert (read st' a = Ok None) as Rd.
  { pose proof (read_write _ _ _ _ W) as R0. destruct a as [i|q k]; cbn [read] in *; [by rewrite Rt|].
    destruct (heap st0 !! q) as [o0|] eqn:Eq; [|done]. destruct (K q o0 An Eq) as (o' & -> & [-> _]). done. }
  split_and!; try done; [|by rewrite Nx].
  unfold drop. rewrite E. cbn [mbind res_bind].
  assert (exists st1, cascade true (S (field_count (heap st))) st [h] = Ok st1 /\ write st1 a None = Ok st') as (st1 & -> & W1); [|by cbn [mbind res_bind]].
  pose proof W as W0. unfold write in W0. rewrite E in W0. cbn [mbind res_bind] in W0.
  destruct a as [i|q k]; injection W0 as <-.
  - exists (set_roots (roots st) st'). split.
    + apply (cascade_roots true (roots st)) in C. destruct st. exact C.
    + cbn [read] in E. destruct (roots st !! i) as [h'|] eqn:Ei; [|done]. unfold write, set_roots. cbn [read roots]. rewrite Ei.
      cbn [mbind res_bind heap next_id gone]. cbn [roots] in Rt. f_equal. rewrite <- Rt. by destruct st'.
  - cbn [read] in E, Rd, An. cbn [with_heap heap roots] in *. destruct (heap st !! q) as [o|] eqn:Eq; [|done].
    destruct (o_fields o !! k) as [h'|] eqn:Ek; [|done]. injection E as ->.
    destruct (heap st' !! q) as [o'|] eqn:Eq'; [|done]. destruct (o_fields o' !! k) as [h'|] eqn:Ek'; [|done]. injection Rd as ->.
    exists (with_heap (alter (with_field k h) q) st'). split.
    + apply (cascade_slot true q k h) in C; [|by eexists]. rewrite <- C. f_equal. destruct st as [rs hp nx gn]. unfold with_heap. cbn in *. f_equal.
      apply map_eq. intros p. destruct (decide (p = q)) as [->|N]; [|by rewrite !lookup_alter_ne].
      rewrite !lookup_alter, Eq. cbn. f_equal. destruct o as [r v fs]. unfold with_field. cbn in *. by rewrite list_insert_insert, list_insert_id.
    + unfold write. cbn [read with_heap heap]. rewrite lookup_alter, Eq'. cbn [fmap option_fmap option_map with_field o_fields].
      rewrite list_lookup_insert by (by eapply lookup_lt_Some). cbn [mbind res_bind]. f_equal. destruct st' as [rs hp nx gn]. unfold with_heap. cbn in *. f_equal.
      apply map_eq. intros p. destruct (decide (p = q)) as [->|N]; [|by rewrite !lookup_alter_ne].
      rewrite !lookup_alter, Eq'. cbn. f_equal. destruct o' as [r v fs]. unfold with_field. cbn in *. by rewrite list_insert_insert, list_insert_id.
Qed.
