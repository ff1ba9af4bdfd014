(** Properties of the range allocator (C34, C35, C36, C37). *)
From stdpp Require Import gmap.
From Verif Require Import Word MathModel MathProofs RangeModel RangeSpec RangeProofs RangeInv RangeReach RangeSpace.
Open Scope Z_scope.

(** An executable script, for the examples: [Ask] calls allocate, [Give i]
    frees the [i]-th live range, most recent first. *)
Inductive ra_op := Ask (size alignment : Z) | Give (i : nat).
Definition ra_step (Buckets : nat) (Bias : Z) (x : ra * list range) (o : ra_op) : res (ra * list range) :=
  let '(st, live) := x in
  match o with
  | Ask size al =>
      '(st, a) ← allocate Buckets Bias st size al;
      match a with
      | None => Ok (st, live)
      | Some p => b ← load st p; Ok (st, mk_range p (b_offset b) (b_length b) (b_padding b) size al :: live)
      end
  | Give i =>
      match live !! i with
      | None => Die
      | Some r => st ← free Buckets Bias st (r_id r); Ok (st, take i live ++ drop (S i) live)
      end
  end.
Fixpoint ra_run (Buckets : nat) (Bias : Z) (x : ra * list range) (os : list ra_op) : res (ra * list range) :=
  match os with
  | [] => Ok x
  | o :: os => x ← ra_step Buckets Bias x o; ra_run Buckets Bias x os
  end.
Definition ra_script (Buckets : nat) (Bias cap : Z) (os : list ra_op) : res (ra * list range) :=
  st ← ra_new Buckets Bias cap; ra_run Buckets Bias (st, []) os.
Definition permitted (o : ra_op) : Prop := match o with Ask size al => request size al | Give _ => True end.
Lemma run_reach Buckets Bias cap os : forall st live t st' live', Forall permitted os ->
  reach Buckets Bias cap st live t -> ra_run Buckets Bias (st, live) os = Ok (st', live') ->
  exists t', reach Buckets Bias cap st' live' t'.
Proof.
  induction os as [|o os IH]; intros st live t st' live' P R E.
  - injection E as <- <-. eauto.
  - apply Forall_cons in P as [Po P]. cbn [ra_run] in E.
    destruct (ra_step Buckets Bias (st, live) o) as [[st1 live1]| | |] eqn:S; try done. cbn [mbind res_bind] in E.
    assert (exists t1, reach Buckets Bias cap st1 live1 t1) as [t1 R1]; [|by eapply IH].
    destruct o as [size al|i]; cbn [ra_step] in S.
    + destruct (allocate Buckets Bias st size al) as [[st2 [p|]]| | |] eqn:Al; try done; cbn [mbind res_bind] in S.
      * unfold load in S. destruct (blocks st2 !! p) as [b|] eqn:Eb; [|done]. cbn [mbind res_bind] in S. injection S as <- <-.
        eexists. by eapply reach_alloc.
      * injection S as <- <-. exists t. by eapply reach_refused.
    + destruct (live !! i) as [r|] eqn:El; [|done].
      destruct (free Buckets Bias st (r_id r)) as [st2| | |] eqn:Fr; try done. cbn [mbind res_bind] in S. injection S as <- <-.
      rewrite <- (take_drop_middle _ _ _ El) in R. eexists. by eapply reach_free.
Qed.
Lemma script_reach Buckets Bias cap os st live : Forall permitted os ->
  ra_script Buckets Bias cap os = Ok (st, live) -> exists t, reach Buckets Bias cap st live t.
Proof.
  intros P. unfold ra_script. destruct (ra_new Buckets Bias cap) as [st0| | |] eqn:E; try done. cbn [mbind res_bind].
  intros R. eapply run_reach; [done|by apply reach_new|done].
Qed.

Section props.
  Context (Buckets : nat) (Bias cap : Z).
  Context (HB : (1 <= Buckets <= 255)%nat) (HBias : 0 <= Bias) (Hcap : 0 < cap < 2 ^ 64).
  Notation reach := (reach Buckets Bias cap).

  (** Every permitted call in a legal history runs to completion: no assert
      fires, no stale header is touched, no loop hangs. *)
  Theorem range_allocate_runs st live t size alignment : reach st live t -> request size alignment ->
    exists st' answer, allocate Buckets Bias st size alignment = Ok (st', answer) /\
      match answer with None => st' = st | Some p => is_Some (blocks st' !! p) end.
  Proof.
    intros R Q. destruct (reach_inv Buckets Bias HB HBias cap st live t Hcap R) as (lay & fr & I).
    destruct (alloc_cases Buckets Bias HB HBias _ _ _ _ _ _ _ _ I Q) as [[E _]|(l1 & e & l2 & st' & b & _ & _ & _ & E & Eb & _)].
    - by exists st, None.
    - exists st', (Some (e_id e)). split; [done|]. by eexists.
  Qed.
  Theorem range_free_runs st live t r : reach st live t -> r ∈ live -> exists st', free Buckets Bias st (r_id r) = Ok st'.
  Proof.
    intros R (l1 & l2 & ->)%elem_of_list_split. destruct (reach_inv Buckets Bias HB HBias cap st _ t Hcap R) as (lay & fr & I).
    destruct (free_inv Buckets Bias HB HBias _ _ _ _ _ _ _ _ I) as (? & ? & ? & st' & ? & ? & _ & _ & _ & E & _). eauto.
  Qed.

  (** C34: a live range is inside the heap, has the length asked for, is
      aligned as asked for, and its handle still reports what it reported when
      it was handed out. *)
  Theorem range_inside st live t r : reach st live t -> r ∈ live ->
    r_length r = r_size r /\ (r_align r | r_offset r) /\ 0 <= r_padding r < r_align r /\
    0 <= r_offset r - r_padding r /\ r_offset r + r_length r <= cap /\
    exists b, blocks st !! r_id r = Some b /\ b_offset b = r_offset r /\ b_length b = r_length r /\ b_padding b = r_padding r.
  Proof.
    intros R Hr. destruct (reach_inv Buckets Bias HB HBias cap st live t Hcap R) as (lay & fr & I).
    destruct (live_used Buckets Bias _ _ _ _ _ _ I r Hr) as (e & Ie & Fe & Ek).
    pose proof (i_req _ _ _ _ _ _ _ _ I) as Q. rewrite Forall_forall in Q. destruct (Q r Hr) as ((Q1 & Q2 & Q3) & Q4 & Q5 & Q6).
    pose proof (i_off _ _ _ _ _ _ _ _ I e Ie Fe) as Of.
    pose proof (consec_bounds _ _ _ (i_consec _ _ _ _ _ _ _ _ I) Ie) as B. rewrite (i_bytes _ _ _ _ _ _ _ _ I) in B.
    destruct (core_here _ _ _ _ _ _ _ (i_core _ _ _ _ _ _ _ _ I) Ie) as (b & Eb & Db). injection Db as D1 D2 D3 D4.
    unfold rkey, ekey in Ek. injection Ek as K1 K2 K3 K4.
    assert (b_padding b = r_padding r) as Pb. { unfold b_padding. rewrite D1, D3, wrap_small by (unfold is_u; lia). lia. }
    split_and!; try done; try lia. exists b. rewrite K1, Eb. split_and!; [done|lia| |done].
    unfold b_length. rewrite Pb, D2, wrap_small by (unfold is_u; lia). lia.
  Qed.
  (** Two live ranges have different handles and share no byte, not even with
      their paddings. *)
  Theorem range_disjoint st live t i j r1 r2 : reach st live t -> live !! i = Some r1 -> live !! j = Some r2 -> i <> j ->
    r_id r1 <> r_id r2 /\ apart r1 r2.
  Proof.
    intros R E1 E2 N. destruct (reach_inv Buckets Bias HB HBias cap st live t Hcap R) as (lay & fr & I).
    pose proof (i_core _ _ _ _ _ _ _ _ I) as C. pose proof (i_live _ _ _ _ _ _ _ _ I) as Lv.
    assert (NoDup (map r_id live)) as Nd.
    { assert (map r_id live ≡ₚ map e_id (used lay)) as H.
      { apply (Permutation_map (fun k => k.1.1.1)) in Lv. rewrite !map_map in Lv. exact Lv. }
      rewrite H. apply (NoDup_fmap_2_strong e_id).
      - intros a b [_ Ia]%elem_of_list_filter [_ Ib]%elem_of_list_filter. by apply (ids_inj lay); [apply C|..].
      - apply NoDup_filter. eapply NoDup_fmap_1. exact (c_nodup _ _ _ _ _ _ C). }
    assert (r_id r1 <> r_id r2) as Ni.
    { intros Eq. apply N. eapply NoDup_lookup; [exact Nd|..]; change (map r_id live) with (r_id <$> live); rewrite list_lookup_fmap.
      - by rewrite E1.
      - rewrite E2. cbn. by rewrite Eq. }
    split; [done|].
    destruct (live_used Buckets Bias _ _ _ _ _ _ I r1) as (a & Ia & Fa & Ka); [by eapply elem_of_list_lookup_2|].
    destruct (live_used Buckets Bias _ _ _ _ _ _ I r2) as (b & Ib & Fb & Kb); [by eapply elem_of_list_lookup_2|].
    apply rkey_fields in Ka as (A1 & A2 & A3 & _). apply rkey_fields in Kb as (B1 & B2 & B3 & _).
    unfold apart. rewrite A2, A3, B2, B3.
    pose proof (i_consec _ _ _ _ _ _ _ _ I) as Cs.
    pose proof (consec_bounds _ _ _ Cs Ia). pose proof (consec_bounds _ _ _ Cs Ib).
    destruct (decide (e_start a + e_size a <= e_start b)); [by left|]. destruct (decide (e_start b + e_size b <= e_start a)); [by right|].
    destruct Ni. rewrite A1, B1. f_equal.
    apply (consec_disjoint 0 lay a b (Z.max (e_start a) (e_start b)) Cs); unfold within; [done|done|lia|lia].
  Qed.

  (** C36: a request is granted exactly when some aligned run of free bytes is
      long enough.  A refusal changes nothing. *)
  Theorem range_allocate_exact st live t size alignment : reach st live t -> request size alignment ->
    exists st' answer, allocate Buckets Bias st size alignment = Ok (st', answer) /\
      (is_Some answer <-> has_room cap live size alignment) /\ (answer = None -> st' = st).
  Proof.
    intros R Q. destruct (reach_inv Buckets Bias HB HBias cap st live t Hcap R) as (lay & fr & I). pose proof Q as (Q1 & Q2 & Q3).
    pose proof (room_ent Buckets Bias HB _ _ _ _ _ _ I size alignment Q1 Q2) as Rm.
    destruct (alloc_cases Buckets Bias HB HBias _ _ _ _ _ _ _ _ I Q) as [[E H]|(l1 & e & l2 & st' & b & El & Fe & Fit & E & _)].
    - exists st, None. split_and!; [done| |done]. rewrite Rm. split; [by intros [? ?]|].
      intros (e & Ie & Fe & Fit). specialize (H e Ie Fe). lia.
    - exists st', (Some (e_id e)). split_and!; [done| |done]. rewrite Rm. split; [|by eexists]. intros _.
      exists e. split_and!; [|done|done]. rewrite El. apply elem_of_app. right. apply elem_of_list_here.
  Qed.
  (** The granted range starts at the first aligned byte of a maximal free run. *)
  Theorem range_allocate_first_fit st live t size alignment st' p : reach st live t -> request size alignment ->
    allocate Buckets Bias st size alignment = Ok (st', Some p) ->
    exists b s n, blocks st' !! p = Some b /\ gap cap live s n /\
      s <= b_offset b /\ (alignment | b_offset b) /\ (forall o, s <= o -> (alignment | o) -> b_offset b <= o) /\
      b_length b = size /\ b_padding b = b_offset b - s /\ b_offset b + size <= s + n.
  Proof.
    intros R Q A. destruct (reach_inv Buckets Bias HB HBias cap st live t Hcap R) as (lay & fr & I). pose proof Q as (Q1 & Q2 & Q3).
    destruct (alloc_cases Buckets Bias HB HBias _ _ _ _ _ _ _ _ I Q) as [[E H]|(l1 & e & l2 & s' & b & El & Fe & Fit & E & Eb & B1 & B2 & B3)].
    - congruence.
    - rewrite A in E. injection E as -> ->. exists b, (e_start e), (e_size e). pose proof (pad_range (e_start e) alignment Q2).
      rewrite B1. split_and!; try done; try lia.
      + apply (ent_gap Buckets Bias HB _ _ _ _ _ _ I); [|done]. rewrite El. apply elem_of_app. right. apply elem_of_list_here.
      + by apply pad_aligned.
      + intros o Ho Do. by apply pad_least.
  Qed.
  (** A heap with nothing live grants any request up to its capacity, at
      offset 0. *)
  Theorem range_full_request st t size alignment : reach st [] t -> request size alignment -> size <= cap ->
    exists st' p b, allocate Buckets Bias st size alignment = Ok (st', Some p) /\ blocks st' !! p = Some b /\
      b_offset b = 0 /\ b_length b = size /\ b_padding b = 0.
  Proof.
    intros R Q Hs. destruct (range_allocate_exact st [] t size alignment R Q) as (st' & [p|] & E & H & _).
    - destruct (range_allocate_first_fit st [] t size alignment st' p R Q E) as (b & s & n & Eb & G & F1 & F2 & F3 & F4 & F5 & F6).
      assert (s = 0) as ->. { destruct G as (_ & _ & _ & _ & [->|(r & Hr & _)] & _); [done|by apply elem_of_nil in Hr]. }
      assert (b_offset b = 0) as E0. { pose proof (F3 0 ltac:(lia) ltac:(apply Z.divide_0_r)). lia. }
      exists st', p, b. split_and!; try done. rewrite F5. lia.
    - exfalso. assert (is_Some (None : option nat)) as [? ?]; [|done]. apply H. exists 0. destruct Q as (Q1 & _).
      split_and!; [done|apply Z.divide_0_r|lia|]. intros x _ (r & Hr & _). by apply elem_of_nil in Hr.
  Qed.

  (** C35, C37: the free blocks are exactly the maximal free runs, so no two of
      them are adjacent; the statistics are exact. *)
  Definition class (n : Z) : Z := Z.min (Z.max 0 (Z.log2 n - Bias)) (Z.of_nat Buckets - 1).
  Theorem range_statistics st live t : reach st live t ->
    exists gaps : list (Z * Z), NoDup gaps /\ (forall s n, (s, n) ∈ gaps <-> gap cap live s n) /\
      let s := st_stats st in
      free_blocks s = Z.of_nat (length gaps) /\ allocated_blocks s = Z.of_nat (length live) /\
      free_size s = sumZ (map snd gaps) /\ allocated_size s = in_use live /\
      free_size s + allocated_size s = cap /\ total_capacity s = cap /\ high_water s = peak t /\
      total_allocs s = wrap 64 (n_allocs t) /\ total_frees s = wrap 64 (n_frees t) /\
      total_alloc_size s = wrap 64 (bytes_alloc t) /\ total_free_size s = wrap 64 (bytes_free t) /\
      length (bucket_sizes s) = Buckets /\
      forall k c, bucket_sizes s !! k = Some c -> c = Z.of_nat (length (filter (fun g => class g.2 = Z.of_nat k) gaps)).
  Proof.
    intros R. destruct (reach_inv Buckets Bias HB HBias cap st live t Hcap R) as (lay & fr & I).
    pose proof (i_consec _ _ _ _ _ _ _ _ I) as Cs. pose proof (i_bytes _ _ _ _ _ _ _ _ I) as Hb.
    set (f := fun e => (e_start e, e_size e)).
    exists (map f (frees lay)). split_and!.
    - pose proof (consec_starts _ _ Cs) as Nd. fold f in Nd. clear -Nd. induction lay as [|e l IH]; [apply NoDup_nil_2|].
      cbn [map] in Nd. apply NoDup_cons in Nd as [Ne Nd]. rewrite frees_cons. destruct (e_free e); [|by apply IH]. cbn [map].
      apply NoDup_cons. split; [|by apply IH]. intros (a & Ea & [_ Ia]%elem_of_list_filter)%elem_of_list_fmap.
      apply Ne. apply elem_of_list_fmap. eauto.
    - intros s n. change (map f (frees lay)) with (f <$> frees lay). rewrite elem_of_list_fmap. split.
      + intros (e & [= -> ->] & [Fe Ie]%elem_of_list_filter). by apply (ent_gap Buckets Bias HB _ _ _ _ _ _ I).
      + intros G. destruct (gap_ent Buckets Bias HB _ _ _ _ _ _ I s n G) as (e & Ie & Fe & <- & <-).
        exists e. split; [done|]. by apply elem_of_list_filter.
    - intros s. pose proof (i_stats _ _ _ _ _ _ _ _ I) as St. unfold s. rewrite St.
      cbn [stats_of free_size allocated_size free_blocks allocated_blocks bucket_sizes high_water total_frees total_allocs total_free_size total_alloc_size total_capacity].
      pose proof (i_live _ _ _ _ _ _ _ _ I) as Lv. pose proof (Permutation_length Lv) as Ll. rewrite !map_length in Ll.
      split_and!; try done.
      + by rewrite map_length.
      + by rewrite Ll.
      + unfold bytes. by rewrite map_map.
      + symmetry. by apply (in_use_bytes Buckets HB).
      + rewrite (frees_used_bytes Buckets HB). done.
      + unfold lengths. rewrite map_length. apply I.
      + intros k c Hk. unfold lengths in Hk. change (map ?g ?l) with (g <$> l) in Hk. rewrite list_lookup_fmap in Hk.
        destruct (fr !! k) as [l|] eqn:El; [|done]. injection Hk as <-. f_equal.
        rewrite (bucket_count Buckets Bias _ _ _ _ _ _ I k l El).
        assert (forall es, (forall e, e ∈ es -> e ∈ lay) ->
          length (filter (fun e => bidx Buckets Bias (e_size e) = k) es) = length (filter (fun g => class g.2 = Z.of_nat k) (map f es))) as Fl.
        { intros es He. induction es as [|e es IH]; [done|]. cbn [map].
          pose proof (consec_bounds _ _ _ Cs (He e ltac:(apply elem_of_list_here))) as Be. rewrite Hb in Be.
          assert (bidx Buckets Bias (e_size e) = k <-> class (f e).2 = Z.of_nat k) as Eq.
          { unfold bidx, class, f. cbn [snd]. rewrite (idx_eq Buckets Bias HB HBias) by lia. lia. }
          rewrite !filter_cons. specialize (IH (fun a Ha => He a (elem_of_list_further _ _ _ Ha))).
          repeat case_decide; cbn [length]; try lia; tauto. }
        apply Fl. intros e [_ Ie]%elem_of_list_filter. done.
  Qed.

  (** C35: once everything is freed, whatever the order, the allocator is the
      new one again, apart from the address of its only header, the offset left
      in that header (written again before it is next read), and the totals. *)
  Theorem range_all_freed st t : reach st [] t ->
    exists p o st0, ra_new Buckets Bias cap = Ok st0 /\
      blocks st0 = {[ 0%nat := mk_block 0 cap 0 None None None None true ]} /\
      blocks st = {[ p := mk_block o cap 0 None None None None true ]} /\
      buckets st0 = <[ Z.to_nat (class cap) := Some 0%nat ]> (replicate Buckets None) /\
      buckets st = <[ Z.to_nat (class cap) := Some p ]> (replicate Buckets None) /\
      st_stats st = mk_stats cap 0 1 0 (bucket_sizes (st_stats st0)) (peak t) (wrap 64 (n_frees t)) (wrap 64 (n_allocs t))
                      (wrap 64 (bytes_free t)) (wrap 64 (bytes_alloc t)) cap /\
      st_stats st0 = mk_stats cap 0 1 0 (bucket_sizes (st_stats st0)) 0 0 0 0 0 cap /\
      n_allocs t = n_frees t /\ bytes_alloc t = bytes_free t.
  Proof.
    assert (forall st t, reach st [] t -> exists p o, blocks st = {[ p := mk_block o cap 0 None None None None true ]} /\
      (forall lay fr, RangeReach.inv Buckets Bias cap st [] t lay fr -> exists e, lay = [e] /\ e_id e = p /\ e_off e = o) /\
      buckets st = <[ Z.to_nat (class cap) := Some p ]> (replicate Buckets None) /\
      bucket_sizes (st_stats st) = <[ Z.to_nat (class cap) := 1 ]> (replicate Buckets 0)) as H.
    { clear st t. intros st t R. destruct (reach_inv Buckets Bias HB HBias cap st [] t Hcap R) as (lay & fr & I).
      destruct (empty_layout Buckets Bias HB _ _ _ _ _ _ I eq_refl) as (e & -> & Fe & Es & Ez).
      pose proof (i_core _ _ _ _ _ _ _ _ I) as C.
      assert (forall k, (k < Buckets)%nat -> fr !! k = Some (if decide (k = Z.to_nat (class cap)) then [e_id e] else [])) as Fr.
      { intros k Hk. destruct (lookup_lt_is_Some_2 fr k) as [l El]; [by rewrite (i_len _ _ _ _ _ _ _ _ I)|]. rewrite El. f_equal.
        pose proof (c_fr _ _ _ _ _ _ C k l) as In. pose proof (c_frnd _ _ _ _ _ _ C k l El) as Nd.
        assert (bidx Buckets Bias (e_size e) = Z.to_nat (class cap)) as Be.
        { unfold bidx, class. by rewrite (idx_eq Buckets Bias HB HBias), Ez by lia. }
        case_decide as D.
        - apply Permutation_singleton_r. apply NoDup_Permutation; [done|apply NoDup_singleton|]. intros p. rewrite (In p El), elem_of_list_singleton.
          split; [by intros (a & ->%elem_of_list_singleton & <- & _)|]. intros ->. exists e. split_and!; [by apply elem_of_list_singleton|done|done|congruence].
        - destruct l as [|p l]; [done|]. assert (p ∈ p :: l) as Hp by apply elem_of_list_here. apply (In p El) in Hp as (a & ->%elem_of_list_singleton & _ & _ & Hb). congruence. }
      assert (class cap < Z.of_nat Buckets) by (unfold class; lia). assert (0 <= class cap) by (unfold class; lia).
      assert (length (buckets st) = Buckets) as Lb by (rewrite (c_len _ _ _ _ _ _ C); apply I).
      destruct (core_here _ _ _ _ _ _ _ C (elem_of_list_here e [])) as (b & Eb & Db). injection Db as D1 D2 D3 D4.
      pose proof (c_phys _ _ _ _ _ _ C) as [P _]. unfold PL in P. rewrite Eb in P. cbn in P. injection P as P1 P2.
      assert (FL (blocks st) (e_id e) = Some (None, None)) as Fl.
      { specialize (Fr (Z.to_nat (class cap)) ltac:(lia)). rewrite decide_True in Fr by done.
        destruct (c_bk _ _ _ _ _ _ C _ _ Fr) as [_ [F _]]. exact F. }
      unfold FL in Fl. rewrite Eb in Fl. cbn in Fl. injection Fl as F1 F2.
      exists (e_id e), (e_off e). split_and!.
      - apply map_eq. intros q. destruct (decide (q = e_id e)) as [->|N].
        + rewrite lookup_singleton, Eb. f_equal. destruct b; cbn in *. congruence.
        + rewrite lookup_singleton_ne by done. destruct (blocks st !! q) as [x|] eqn:Eq; [|done]. exfalso.
          assert (q ∈ ids [e]) as Hq by (apply (c_dom _ _ _ _ _ _ C); by eexists). by apply elem_of_list_singleton in Hq.
      - intros lay2 fr2 I2. destruct (empty_layout Buckets Bias HB _ _ _ _ _ _ I2 eq_refl) as (a & -> & Fa & As & Az).
        pose proof (i_core _ _ _ _ _ _ _ _ I2) as C2. exists a.
        destruct (core_here _ _ _ _ _ _ _ C2 (elem_of_list_here a [])) as (b2 & Eb2 & Db2).
        assert (e_id a ∈ ids [e]) as Hq by (apply (c_dom _ _ _ _ _ _ C); by eexists). apply elem_of_list_singleton in Hq. change (e_id a = e_id e) in Hq.
        rewrite Hq, Eb in Eb2. injection Eb2 as <-. split_and!; [done|done|]. injection Db2 as X1 X2 X3 X4. congruence.
      - apply list_eq. intros k. destruct (decide (k < Buckets)%nat) as [Hk|Hk].
        + destruct (c_bk _ _ _ _ _ _ C _ _ (Fr k Hk)) as [-> _]. case_decide as D.
          * rewrite D, list_lookup_insert by (rewrite replicate_length; lia). done.
          * rewrite list_lookup_insert_ne by congruence. by rewrite lookup_replicate_2.
        + rewrite !lookup_ge_None_2; [done| |]; rewrite ?insert_length, ?replicate_length; lia.
      - rewrite (i_stats _ _ _ _ _ _ _ _ I). cbn [stats_of bucket_sizes]. unfold lengths. change (map ?g ?l) with (g <$> l).
        apply list_eq. intros k. rewrite list_lookup_fmap. destruct (decide (k < Buckets)%nat) as [Hk|Hk].
        + rewrite (Fr k Hk). case_decide as D.
          * rewrite D, list_lookup_insert by (rewrite replicate_length; lia). done.
          * rewrite list_lookup_insert_ne by congruence. by rewrite lookup_replicate_2.
        + rewrite (lookup_ge_None_2 fr) by (rewrite (i_len _ _ _ _ _ _ _ _ I); lia).
          rewrite lookup_ge_None_2; [done|]. rewrite insert_length, replicate_length. lia. }
    intros R. destruct (inv_new Buckets Bias HB HBias cap Hcap) as (st0 & E0 & I0).
    pose proof (reach_new Buckets Bias cap st0 E0) as R0.
    destruct (H st t R) as (p & o & B1 & _ & B2 & B3). destruct (H st0 _ R0) as (q & o0 & A1 & A4 & A2 & A3).
    destruct (A4 _ _ I0) as (e & [= <-] & <- & <-). cbn [e_id e_off] in *.
    destruct (reach_inv Buckets Bias HB HBias cap st [] t Hcap R) as (lay & fr & I).
    destruct (empty_layout Buckets Bias HB _ _ _ _ _ _ I eq_refl) as (e & -> & Fe & Es & Ez).
    assert (bytes (frees [e]) = cap) as Bf by (rewrite frees_cons, Fe; unfold bytes; cbn; lia).
    exists p, o, st0. split_and!; try done.
    - rewrite A3, <- B3. rewrite (i_stats _ _ _ _ _ _ _ _ I). unfold stats_of. cbn [bucket_sizes]. rewrite Bf, !used_cons, !frees_cons, Fe. done.
    - rewrite (i_stats _ _ _ _ _ _ _ _ I0). unfold stats_of. cbn [bucket_sizes]. rewrite used_cons, !frees_cons. cbn [e_free].
      rewrite bytes_cons. cbn [e_size]. f_equal; try done. change (bytes (frees [])) with 0. lia.
    - clear -R. enough (forall st live t, reach st live t -> n_allocs t - n_frees t = Z.of_nat (length live)) as K by (apply K in R; cbn in R; lia).
      clear. intros st live t R. induction R; cbn [n_allocs n_frees length] in *; rewrite ?app_length in *; cbn [length] in *; lia.
    - clear -R. enough (forall st live t, reach st live t -> bytes_alloc t - bytes_free t = in_use live) as K by (apply K in R; cbn in R; lia).
      clear. intros st live t R. induction R; cbn [bytes_alloc bytes_free] in *; unfold in_use, sumZ in *; rewrite ?map_app, ?foldr_app in *; cbn [map foldr] in *; try lia.
      assert (forall l z, foldr Z.add z l = foldr Z.add 0 l + z) as F. { intros l z. induction l as [|x l IH]; cbn; lia. }
      rewrite F in IHR. rewrite (F _ (foldr Z.add 0 (map occupied live2))). lia.
  Qed.
  (** [assert_clear] passes. *)
  Theorem range_assert_clear st t : reach st [] t -> assert_clear (st_stats st) = Ok ().
  Proof.
    intros R. destruct (range_statistics st [] t R) as (gaps & _ & _ & S). cbn zeta in S.
    destruct (range_all_freed st t R) as (p & o & st0 & _ & _ & _ & _ & _ & E & _ & T1 & T2).
    destruct (reach_inv Buckets Bias HB HBias cap st [] t Hcap R) as (lay & fr & I).
    pose proof (i_stats _ _ _ _ _ _ _ _ I) as St.
    assert (sumZ (bucket_sizes (st_stats st)) = 1) as Sm.
    { rewrite St. cbn [stats_of bucket_sizes]. rewrite sum_lengths.
      rewrite (Permutation_length (concat_perm Buckets Bias HB HBias _ _ _ _ _ _ I)).
      destruct (empty_layout Buckets Bias HB _ _ _ _ _ _ I eq_refl) as (e & -> & Fe & _). rewrite frees_cons, Fe. done. }
    rewrite E in Sm |- *. cbn [bucket_sizes] in Sm. unfold assert_clear.
    cbn [free_size allocated_size free_blocks allocated_blocks bucket_sizes high_water total_frees total_allocs total_free_size total_alloc_size total_capacity].
    pose proof (foldl_wrap (bucket_sizes (st_stats st0)) 0) as Fw. change (wrap 64 0) with 0 in Fw. rewrite Sm in Fw.
    rewrite Fw, T1, T2, !Z.eqb_refl. done.
  Qed.

  (** The destructor: the headers of free blocks are given back, those of live
      ranges are not. *)
  Theorem range_destructor st live t : reach st live t ->
    exists st', reset Buckets st = Ok st' /\ forall p, is_Some (blocks st' !! p) <-> exists r, r ∈ live /\ r_id r = p.
  Proof.
    intros R. destruct (reach_inv Buckets Bias HB HBias cap st live t Hcap R) as (lay & fr & I).
    by eapply (reset_ok Buckets Bias).
  Qed.
  Theorem range_destructor_clean st t : reach st [] t -> exists st', reset Buckets st = Ok st' /\ blocks st' = ∅.
  Proof.
    intros R. destruct (range_destructor st [] t R) as (st' & E & H). exists st'. split; [done|].
    apply map_empty. intros p. destruct (blocks st' !! p) as [b|] eqn:Eb; [|done].
    destruct (H p) as [H1 _]. destruct H1 as (r & Hr & _); [by eexists|]. by apply elem_of_nil in Hr.
  Qed.
End props.

(** ** Concrete cases (24 buckets, bias 8) *)
Definition view (r : range) : Z * Z * Z := (r_offset r, r_length r, r_padding r).
Definition demo : list ra_op := [Ask 100 16; Ask 200 64; Ask 300 1; Give 1; Ask 50 32; Give 2].
Definition seen {A} (f : ra -> list range -> A) (x : res (ra * list range)) : option A :=
  match x with Ok (st, live) => Some (f st live) | _ => None end.
Lemma seen_some {A} (f : ra -> list range -> A) x a : seen f x = Some a -> exists st live, x = Ok (st, live) /\ f st live = a.
Proof. destruct x as [[st live]| | |]; try done. intros [= <-]. eauto. Qed.
Example demo_run : exists st live, ra_script 24 8 4096 demo = Ok (st, live) /\
  (map view live, free_blocks (st_stats st), free_size (st_stats st)) = ([(128, 50, 28); (328, 300, 0)], 3, 4096 - 378).
Proof. apply (seen_some (fun st live => (map view live, free_blocks (st_stats st), free_size (st_stats st)))). vm_compute. reflexivity. Qed.
Ltac permit := repeat (apply Forall_cons; split; [first [exact Logic.I|unfold permitted, request; lia]|]); apply Forall_nil_2.
Example demo_reach : exists st live t, reach 24 8 4096 st live t /\ map view live = [(128, 50, 28); (328, 300, 0)].
Proof.
  destruct demo_run as (st & live & E & V). injection V as V _ _. exists st, live.
  destruct (script_reach 24 8 4096 demo st live) as [t R]; [permit|done|eauto].
Qed.
Example demo_cleared : exists st t, reach 24 8 4096 st [] t /\ made st = 5%nat.
Proof.
  destruct (seen_some (fun st live => (live, made st)) (ra_script 24 8 4096 (demo ++ [Give 1; Give 0])) ([], 5%nat)) as (st & live & E & V).
  { vm_compute. reflexivity. }
  injection V as -> M. destruct (script_reach 24 8 4096 (demo ++ [Give 1; Give 0]) st []) as [t R]; [permit|done|eauto].
Qed.
(** A request refused although more bytes than it needs are free: no single run
    holds it. *)
Example demo_fragmented : exists st live, ra_script 24 8 300 [Ask 100 1; Ask 100 1; Ask 100 1; Give 2; Give 0] = Ok (st, live) /\
  (free_size (st_stats st), match allocate 24 8 st 150 1 with Ok (_, None) => true | _ => false end) = (200, true).
Proof. apply (seen_some (fun st live => (free_size (st_stats st), match allocate 24 8 st 150 1 with Ok (_, None) => true | _ => false end))). vm_compute. reflexivity. Qed.

(** ** What is false *)
(** [request] cannot be dropped: [size + padding] wraps, and a request for
    2^64-1 bytes is granted in a heap of 2^40. *)
Theorem range_overflow_refuted : exists st live st' p b, ra_script 24 8 (2 ^ 40) [Ask 1 1] = Ok (st, live) /\
  allocate 24 8 st (2 ^ 64 - 1) 2 = Ok (st', Some p) /\ blocks st' !! p = Some b /\ b_length b > 2 ^ 40.
Proof.
  destruct (seen_some (fun st live => match allocate 24 8 st (2 ^ 64 - 1) 2 with
      | Ok (st', Some p) => match blocks st' !! p with Some b => b_length b | None => 0 end | _ => 0 end)
      (ra_script 24 8 (2 ^ 40) [Ask 1 1]) (2 ^ 64 - 1)) as (st & live & E & V); [vm_compute; reflexivity|].
  destruct (allocate 24 8 st (2 ^ 64 - 1) 2) as [[st' [p|]]| | |] eqn:A; try (exfalso; clear -V; discriminate V).
  destruct (blocks st' !! p) as [b|] eqn:B; [|exfalso; clear -V; discriminate V]. exists st, live, st', p, b.
  split; [exact E|]. split; [exact A|]. split; [exact B|]. rewrite V. lia.
Qed.
(** The destructor leaks the headers of ranges that are still live. *)
Theorem range_destructor_leak_refuted : exists st live st', ra_script 24 8 4096 [Ask 100 16; Ask 10 1] = Ok (st, live) /\
  reset 24 st = Ok st' /\ size (blocks st') = 2%nat.
Proof.
  destruct (seen_some (fun st live => match reset 24 st with Ok st' => size (blocks st') | _ => 0%nat end)
      (ra_script 24 8 4096 [Ask 100 16; Ask 10 1]) 2%nat) as (st & live & E & V); [vm_compute; reflexivity|].
  destruct (reset 24 st) as [st'| | |] eqn:R; try (exfalso; clear -V; discriminate V).
  exists st, live, st'. split; [exact E|]. split; [exact R|exact V].
Qed.

Close Scope Z_scope.
Print Assumptions range_allocate_runs.
Print Assumptions range_free_runs.
Print Assumptions range_inside.
Print Assumptions range_disjoint.
Print Assumptions range_allocate_exact.
Print Assumptions range_allocate_first_fit.
Print Assumptions range_full_request.
Print Assumptions range_statistics.
Print Assumptions range_all_freed.
Print Assumptions range_assert_clear.
Print Assumptions range_destructor.
Print Assumptions range_destructor_clean.
Print Assumptions range_overflow_refuted.
Print Assumptions range_destructor_leak_refuted.
